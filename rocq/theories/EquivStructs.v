(** Equality of structs, field by field. *)
From Coq Require Import Permutation.
From Verif Require Import Base BaseFacts CoreModel CalendarFacts SymbolsModel SymbolsProofs ManagedModel MultimapModel MultimapProofs SimpleionModel SimpleionSpec SimpleionProofs EquivModel EquivSpec EquivProofs EquivMeaning.
Local Open Scope Z_scope.

Lemma symbols_true a b : real_arg a -> real_arg b -> (symbols_eq a b = Ok true <-> same_symbol a b).
Proof.
  intros RA RB. unfold symbols_eq, same_symbol. change (match a with ATok t => tk_text t | AText x => Some x end) with (text_of a). change (match b with ATok t => tk_text t | AText x => Some x end) with (text_of b).
  destruct (opt_eqb zlist_eqb (text_of a) (text_of b)) eqn:E.
  2: { split; [discriminate|]. intros [H _]. apply (opt_eqb_spec _ zlist_eqb_eq) in H. congruence. }
  apply (opt_eqb_spec _ zlist_eqb_eq) in E. destruct a as [[[xa|] sa la]|xa], b as [[[xb|] sb lb]|xb]; cbn [text_of tk_text tk_sid tk_loc] in *; try discriminate E;
    try (split; [intros _; split; [exact E|try exact Logic.I; discriminate]|reflexivity]).
  unfold real_arg, real_token in RA, RB. cbn [tk_text tk_sid] in *. destruct sa as [sa|]; [|destruct RA; congruence]. destruct sb as [sb|]; [|destruct RB; congruence].
  assert (Z : forall u v, Bool.eqb (u =? 0) (v =? 0) = true <-> (Some u = Some 0 <-> Some v = Some 0)).
  { intros u v. destruct (Z.eqb_spec u 0), (Z.eqb_spec v 0); cbn; split; try discriminate; intros; try reflexivity; try (split; congruence); exfalso;
      match goal with H : _ <-> _ |- _ => destruct H as [H1 H2]; ((specialize (H1 ltac:(congruence)); congruence) || (specialize (H2 ltac:(congruence)); congruence)) end. }
  destruct la as [[na pa]|], lb as [[nb pb]|]; cbn [loc_name loc_pos].
  - destruct (zlist_eqb na nb) eqn:N, (pa =? pb) eqn:P; cbn [negb orb].
    + apply zlist_eqb_eq in N. apply Z.eqb_eq in P. subst. split.
      * intros [= H]. split; [reflexivity|]. intros _. split; [reflexivity|]. apply Z. exact H.
      * intros [_ H]. f_equal. apply Z. exact (proj2 (H eq_refl)).
    + split; [discriminate|]. intros [_ H]. destruct (H eq_refl) as [[= _ Q] _]. apply Z.eqb_neq in P. contradiction.
    + split; [discriminate|]. intros [_ H]. destruct (H eq_refl) as [[= Q _] _]. apply zlist_eqb_eq in Q. congruence.
    + split; [discriminate|]. intros [_ H]. destruct (H eq_refl) as [[= Q _] _]. apply zlist_eqb_eq in Q. congruence.
  - split; [discriminate|]. intros [_ H]. destruct (H eq_refl). discriminate.
  - split; [discriminate|]. intros [_ H]. destruct (H eq_refl). discriminate.
  - split.
    + intros [= H]. split; [reflexivity|]. intros _. split; [reflexivity|]. apply Z. exact H.
    + intros [_ H]. f_equal. apply Z. exact (proj2 (H eq_refl)).
Qed.

(** * A multimap and its items *)
Notation mmap := (multimap (option text) pyval).
Lemma items_in (m : mmap) k x : NoDup (mm_keys m) -> (In (k, x) (mm_items m) <-> exists vs, dict_get name_eqb m k = Some vs /\ In x vs).
Proof.
  intros N. unfold mm_items. rewrite in_flat_map. split.
  - intros ([k' vs] & I & J). cbn [fst snd] in J. apply in_map_iff in J. destruct J as (y & [= -> ->] & J). exists vs. split; [|exact J].
    clear x J. induction m as [|[k2 v2] m IH]; [destruct I|]. cbn [dict_get mm_keys map fst] in *. inversion N as [|? ? NI N']; subst. destruct (name_eqb k k2) eqn:E.
    + apply name_eqb_ok in E. subst k2. destruct I as [[= ->]|I]; [reflexivity|]. exfalso. apply NI. apply in_map_iff. exists (k, vs). split; [reflexivity|exact I].
    + destruct I as [[= -> ->]|I]; [rewrite (proj2 (name_eqb_ok k k) eq_refl) in E; discriminate|]. apply IH; assumption.
  - intros (vs & G & I). apply (dict_get_in name_eqb name_eqb_ok) in G. exists (k, vs). split; [exact G|]. cbn [fst snd]. apply in_map. exact I.
Qed.
Lemma times_app k a b : times k (a ++ b) = (times k a + times k b)%nat.
Proof. unfold times. rewrite map_app. apply count_occ_app. Qed.
Lemma times_pairs k k' vs : times k (map (pair k') vs) = if name_dec k' k then length vs else O.
Proof.
  unfold times. rewrite map_map. cbn [fst]. induction vs as [|v vs IH]; cbn [map count_occ length]; [destruct (name_dec k' k); reflexivity|].
  destruct (name_dec k' k); cbn [length]; rewrite IH; reflexivity.
Qed.
Lemma times_absent k (m : mmap) : ~ In k (mm_keys m) -> times k (mm_items m) = O.
Proof.
  unfold mm_items. induction m as [|[k' vs] m IH]; intros N; [reflexivity|]. cbn [flat_map fst snd mm_keys map In] in *. rewrite times_app, times_pairs, IH by tauto.
  destruct (name_dec k' k); [tauto|reflexivity].
Qed.
Lemma times_items k (m : mmap) : NoDup (mm_keys m) -> times k (mm_items m) = match dict_get name_eqb m k with Some vs => length vs | None => O end.
Proof.
  induction m as [|[k' vs] m IH]; intros N; [reflexivity|]. cbn [mm_keys map fst] in N. inversion N as [|? ? NI N']; subst. unfold mm_items in *. cbn [flat_map fst snd dict_get].
  rewrite times_app, times_pairs. destruct (name_eqb k k') eqn:E.
  - apply name_eqb_ok in E. subst k'. destruct (name_dec k k); [|congruence]. fold (mm_items m). rewrite (times_absent k m NI). lia.
  - destruct (name_dec k' k); [subst; rewrite (proj2 (name_eqb_ok k k) eq_refl) in E; discriminate|]. apply IH. exact N'.
Qed.
Lemma len_items (m : mmap) : mm_len m = zlen (mm_items m).
Proof.
  unfold mm_len, mm_items. induction m as [|[k vs] m IH]; [reflexivity|]. cbn [fold_right flat_map fst snd]. rewrite zlen_app, zlen_map. unfold mm_len in IH. rewrite IH. reflexivity.
Qed.
Lemma same_times_len (a b : list (option text * pyval)) : (forall k, times k a = times k b) -> zlen a = zlen b.
Proof.
  intros H. assert (P : Permutation (map fst a) (map fst b)) by (apply (Permutation_count_occ name_dec); exact H).
  unfold zlen. rewrite <- (map_length fst a), <- (map_length fst b), (Permutation_length P). reflexivity.
Qed.
Lemma fields_items v mu m : struct_view v = Some (mu, m) -> fields_of v = Some (mm_items m).
Proof.
  destruct v; try discriminate; cbn [struct_view fields_of]; intros [= <- <-]; [|reflexivity]. f_equal. unfold mm_items. induction l as [|[k x] l IH]; [reflexivity|]. cbn [map flat_map fst snd app]. rewrite <- IH. reflexivity.
Qed.
Definition singles (m : mmap) : Prop := Forall (fun p => exists x, snd p = [x]) m.
Lemma singles_len m : singles m -> mm_len m = zlen (mm_keys m).
Proof. unfold mm_len, mm_keys. induction 1 as [|p m (x & E) F IH]; [reflexivity|]. cbn [fold_right map]. rewrite E, IH, !zlen_cons. reflexivity. Qed.
Lemma full_len m : full_map m -> zlen (mm_keys m) <= mm_len m.
Proof. unfold mm_len, mm_keys. induction 1 as [|p m N F IH]; [cbn; lia|]. cbn [fold_right map]. rewrite zlen_cons. destruct (snd p); [congruence|]. rewrite zlen_cons. pose proof (zlen_nonneg l). lia. Qed.
Lemma len_singles m : full_map m -> mm_len m = zlen (mm_keys m) -> singles m.
Proof.
  unfold mm_len, mm_keys. induction 1 as [|p m N F IH]; [constructor|]. cbn [fold_right map]. rewrite zlen_cons. intros E. pose proof (full_len m F) as L. unfold mm_len, mm_keys in L.
  destruct (snd p) as [|x [|y r]] eqn:P; [congruence| |rewrite !zlen_cons in E; pose proof (zlen_nonneg r); lia]. rewrite zlen_cons in E. change (zlen (@nil pyval)) with 0 in E. constructor; [exists x; exact P|]. apply IH. lia.
Qed.
Lemma singles_get m k vs : singles m -> dict_get name_eqb m k = Some vs -> exists x, vs = [x].
Proof. intros S G. apply (dict_get_in name_eqb name_eqb_ok) in G. unfold singles in S. rewrite Forall_forall in S. exact (S _ G). Qed.
Lemma get_key (m : mmap) k vs : dict_get name_eqb m k = Some vs -> In k (mm_keys m).
Proof. intros G. apply (dict_get_in name_eqb name_eqb_ok) in G. apply in_map_iff. exists (k, vs). split; [reflexivity|exact G]. Qed.

(** * The fields, whichever the kinds of struct *)
Section FIELDS.
Variable f : pyval -> pyval -> res bool.
Definition covered (a b : list (option text * pyval)) : Prop := forall k x, In (k, x) a -> exists y, In (k, y) b /\ f x y = Ok true.
Variable A B : mmap.
Hypothesis fa : full_map A.
Hypothesis fb : full_map B.
Hypothesis na : NoDup (mm_keys A).
Hypothesis nb : NoDup (mm_keys B).
Hypothesis ans : forall x y, In x (flat_map snd A) -> In y (flat_map snd B) -> answers (f x y).
Lemma multi_covers : Forall (agree_at f true A B) (mm_keys A) <->
  (forall k, In k (mm_keys A) -> times k (mm_items A) = times k (mm_items B)) /\ covered (mm_items A) (mm_items B).
Proof.
  rewrite Forall_forall. split.
  - intros H. split.
    + intros k I. destruct (H k I) as (va & vb & GA & GB & Z & _). rewrite !times_items, GA, GB by assumption. unfold zlen in Z. lia.
    + intros k x I. apply (items_in A) in I; [|exact na]. destruct I as (va & GA & I). destruct (H k (get_key _ _ _ GA)) as (va' & vb & GA' & GB & _ & AL). rewrite GA in GA'. injection GA' as <-.
      rewrite all_some_true in AL by (intros u v U V; apply ans; [exact (get_children _ _ _ _ GA U)|exact (get_children _ _ _ _ GB V)]). destruct (AL x I) as (y & J & E).
      exists y. split; [|exact E]. apply items_in; [exact nb|]. exists vb. auto.
  - intros [T C] k I. destruct (key_get A k I) as [va GA]. pose proof (T k I) as L. rewrite !times_items, GA in L by assumption. destruct (dict_get name_eqb B k) as [vb|] eqn:GB.
    2: { pose proof (get_full _ _ _ fa GA). destruct va; [congruence|discriminate]. }
    exists va, vb. split; [exact GA|]. split; [exact GB|]. split; [unfold zlen; lia|].
    apply all_some_true; [intros u v U V; apply ans; [exact (get_children _ _ _ _ GA U)|exact (get_children _ _ _ _ GB V)]|].
    intros x X. destruct (C k x) as (y & J & E); [apply items_in; [exact na|]; exists va; auto|]. apply items_in in J; [|exact nb]. destruct J as (vb' & GB' & J). rewrite GB in GB'. injection GB' as <-. exists y. auto.
Qed.
Lemma single_covers : singles A -> singles B -> (Forall (agree_at f false A B) (mm_keys A) <->
  (forall k, In k (mm_keys A) -> times k (mm_items A) = times k (mm_items B)) /\ covered (mm_items A) (mm_items B)).
Proof.
  intros SA SB. rewrite Forall_forall. split.
  - intros H. split.
    + intros k I. destruct (H k I) as (va & vb & GA & GB & _). rewrite !times_items, GA, GB by assumption. destruct (singles_get _ _ _ SA GA) as [x ->], (singles_get _ _ _ SB GB) as [y ->]. reflexivity.
    + intros k x I. apply (items_in A) in I; [|exact na]. destruct I as (va & GA & I). destruct (H k (get_key _ _ _ GA)) as (va' & vb & GA' & GB & u & v & U & V & E). rewrite GA in GA'. injection GA' as <-.
      destruct (singles_get _ _ _ SA GA) as [x' ->], (singles_get _ _ _ SB GB) as [y ->]. rewrite newest_of_one in U, V. injection U as <-. injection V as <-. destruct I as [<-|[]].
      exists y. split; [|exact E]. apply items_in; [exact nb|]. exists [y]. split; [exact GB|left; reflexivity].
  - intros [T C] k I. destruct (key_get A k I) as [va GA]. destruct (singles_get _ _ _ SA GA) as [x ->].
    destruct (C k x) as (y & J & E); [apply items_in; [exact na|]; exists [x]; split; [exact GA|left; reflexivity]|]. apply items_in in J; [|exact nb]. destruct J as (vb & GB & J).
    destruct (singles_get _ _ _ SB GB) as [y' ->]. destruct J as [<-|[]]. exists [x], [y']. split; [exact GA|]. split; [exact GB|]. exists x, y'. split; [apply newest_of_one|]. split; [apply newest_of_one|exact E].
Qed.
End FIELDS.

Lemma same_singles A B : full_map B -> NoDup (mm_keys A) -> NoDup (mm_keys B) -> singles A -> (forall k, times k (mm_items A) = times k (mm_items B)) -> singles B.
Proof.
  intros FB NA NB SA T. unfold singles. apply Forall_forall. intros [k vs] I. cbn [snd].
  assert (G : dict_get name_eqb B k = Some vs).
  { unfold full_map in FB. rewrite Forall_forall in FB. specialize (FB _ I). cbn [snd] in FB. destruct vs as [|v vs]; [congruence|]. assert (J : In (k, v) (mm_items B)) by (apply in_flat_map; exists (k, v :: vs); split; [exact I|left; reflexivity]).
    clear T SA FB NA J. induction B as [|[k2 v2] B' IH]; [destruct I|]. cbn [dict_get mm_keys map fst] in *. inversion NB as [|? ? NI N']; subst. destruct (name_eqb k k2) eqn:E.
    - apply name_eqb_ok in E. subst k2. destruct I as [[= ->]|I]; [reflexivity|]. exfalso. apply NI. apply in_map_iff. exists (k, v :: vs). split; [reflexivity|exact I].
    - destruct I as [[= -> ->]|I]; [rewrite (proj2 (name_eqb_ok k k) eq_refl) in E; discriminate|]. apply IH; assumption. }
  specialize (T k). rewrite !times_items, G in T by assumption. pose proof (get_full _ _ _ FB G). destruct (dict_get name_eqb A k) as [va|] eqn:GA.
  - destruct (singles_get _ _ _ SA GA) as [x ->]. destruct vs as [|y [|z r]]; try discriminate. exists y. reflexivity.
  - destruct vs; [congruence|discriminate].
Qed.

Lemma covers_times f A B : full_map A -> full_map B -> NoDup (mm_keys A) -> NoDup (mm_keys B) -> covered f (mm_items A) (mm_items B) -> covered f (mm_items B) (mm_items A) -> forall k, In k (mm_keys A) <-> In k (mm_keys B).
Proof.
  assert (H : forall A B, full_map A -> NoDup (mm_keys A) -> NoDup (mm_keys B) -> covered f (mm_items A) (mm_items B) -> forall k, In k (mm_keys A) -> In k (mm_keys B)).
  { intros A' B' F N N' C k I. destruct (key_get A' k I) as [va G]. destruct (newest va (get_full _ _ _ F G)) as (x & _ & X). destruct (C k x) as (y & J & _); [apply items_in; [exact N|]; exists va; auto|].
    apply items_in in J; [|exact N']. destruct J as (vb & GB & _). exact (get_key _ _ _ GB). }
  intros FA FB NA NB C D k. split; [exact (H A B FA NA NB C k)|exact (H B A FB NB NA D k)].
Qed.
Definition same_fields (f : pyval -> pyval -> res bool) (a b : list (option text * pyval)) : Prop := (forall k, times k a = times k b) /\ covered f a b /\ covered f b a.
Lemma halves (f : pyval -> pyval -> res bool) A B : full_map A -> full_map B -> NoDup (mm_keys A) -> NoDup (mm_keys B) ->
  (((forall k, In k (mm_keys A) -> times k (mm_items A) = times k (mm_items B)) /\ covered f (mm_items A) (mm_items B)) /\
   ((forall k, In k (mm_keys B) -> times k (mm_items B) = times k (mm_items A)) /\ covered f (mm_items B) (mm_items A))) <-> same_fields f (mm_items A) (mm_items B).
Proof.
  intros FA FB NA NB. unfold same_fields. split.
  - intros [[T C] [U D]]. split; [|auto]. intros k. destruct (in_dec name_dec k (mm_keys A)) as [I|I]; [exact (T k I)|]. pose proof (covers_times f A B FA FB NA NB C D k) as Q.
    rewrite !times_absent; [reflexivity| |exact I]. intros J. apply I. apply Q. exact J.
  - intros (T & C & D). repeat split; auto.
Qed.
Theorem structs_fields f a b : full_map (snd a) -> full_map (snd b) -> NoDup (mm_keys (snd a)) -> NoDup (mm_keys (snd b)) ->
  (fst a = false -> singles (snd a)) -> (fst b = false -> singles (snd b)) ->
  (forall x y, In x (flat_map snd (snd a)) -> In y (flat_map snd (snd b)) -> answers (f x y)) ->
  (forall x y, In x (flat_map snd (snd b)) -> In y (flat_map snd (snd a)) -> answers (f x y)) ->
  (structs_eq f a b = Ok true <-> same_fields f (mm_items (snd a)) (mm_items (snd b))).
Proof.
  destruct a as [ma A], b as [mb B]. cbn [fst snd]. intros FA FB NA NB SA SB AB BA. rewrite structs_true. cbn [fst snd]. rewrite <- (halves f A B FA FB NA NB). destruct (ma && mb) eqn:M.
  - rewrite (multi_covers f A B FA NA NB AB), (multi_covers f B A FB NB NA BA). split; [tauto|]. intros H. split; [|tauto]. rewrite !len_items. apply same_times_len.
    exact (proj1 (proj1 (halves f A B FA FB NA NB) H)).
  - split.
    + intros (L & H1 & H2). assert (K : zlen (mm_keys A) = zlen (mm_keys B)).
      { assert (P : Permutation (mm_keys A) (mm_keys B)); [|unfold zlen; rewrite (Permutation_length P); reflexivity]. apply NoDup_Permutation; [exact NA|exact NB|]. rewrite Forall_forall in H1, H2.
        intros k. split; intros I; [destruct (H1 k I) as (? & vb & _ & G & _)|destruct (H2 k I) as (? & vb & _ & G & _)]; exact (get_key _ _ _ G). }
      assert (S2 : singles A /\ singles B).
      { apply andb_false_iff in M. destruct M as [->| ->].
        - specialize (SA eq_refl). split; [exact SA|]. apply len_singles; [exact FB|]. rewrite <- L, <- K. apply singles_len. exact SA.
        - specialize (SB eq_refl). split; [|exact SB]. apply len_singles; [exact FA|]. rewrite L, K. apply singles_len. exact SB. }
      destruct S2 as [S1 S2]. split; [apply (single_covers f A B NA NB S1 S2); exact H1|apply (single_covers f B A NB NA S2 S1); exact H2].
    + intros H. pose proof (proj1 (proj1 (halves f A B FA FB NA NB) H)) as T. assert (S2 : singles A /\ singles B).
      { apply andb_false_iff in M. destruct M as [->| ->].
        - specialize (SA eq_refl). split; [exact SA|]. exact (same_singles A B FB NA NB SA T).
        - specialize (SB eq_refl). split; [|exact SB]. refine (same_singles B A FA NB NA SB _). intros k. symmetry. apply T. }
      destruct S2 as [S1 S2]. split; [rewrite !len_items; apply same_times_len; exact T|]. split; [apply (single_covers f A B NA NB S1 S2); tauto|apply (single_covers f B A NB NA S2 S1); tauto].
Qed.
