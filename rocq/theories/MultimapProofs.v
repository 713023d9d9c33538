(** [Multimap]: what a history of operations leaves, said on the history alone. *)
From Verif Require Import Base BaseFacts SymbolsModel SymbolsProofs MultimapModel.
Local Open Scope Z_scope.

Section MULTIMAP.
Context {K V : Type}.
Variable eqb : K -> K -> bool.
Hypothesis eqb_ok : forall a b, eqb a b = true <-> a = b.
Let eqb_refl k : eqb k k = true. Proof. apply eqb_ok. reflexivity. Qed.
Let eqb_neq a b : a <> b -> eqb a b = false.
Proof. intros N. destruct (eqb a b) eqn:E; [apply eqb_ok in E; contradiction|reflexivity]. Qed.

(** * Specification *)

(** The values of a key after a history. *)
Fixpoint values_from (k : K) (vs : list V) (h : list (mm_op K V)) : list V :=
  match h with
  | [] => vs
  | MSet k' v :: r => values_from k (if eqb k k' then [v] else vs) r
  | MAdd k' v :: r => values_from k (if eqb k k' then vs ++ [v] else vs) r
  | MDel k' :: r => values_from k (if eqb k k' then [] else vs) r
  end.
Definition values_of (k : K) (h : list (mm_op K V)) : list V := values_from k [] h.
(** When the key entered: the number of the operation that last brought it in. *)
Fixpoint birth_from (k : K) (i : nat) (since : option nat) (h : list (mm_op K V)) : option nat :=
  match h with
  | [] => since
  | MSet k' _ :: r | MAdd k' _ :: r => birth_from k (S i) (if eqb k k' then match since with None => Some i | s => s end else since) r
  | MDel k' :: r => birth_from k (S i) (if eqb k k' then None else since) r
  end.
Definition birth (k : K) (h : list (mm_op K V)) : option nat := birth_from k 0 None h.

(** * Proofs *)
Lemma append_is_app {A} (l : list A) x : mv_append l x = l ++ [x].
Proof.
  unfold mv_append, mv_insert, mv_setitem, py_insert. pose proof (zlen_nonneg l). replace (zlen l <? 0) with false by lia. rewrite Z.min_id.
  unfold zlen. rewrite Nat2Z.id, firstn_all, skipn_all. reflexivity.
Qed.
Lemma index_last {A} (l : list A) x : py_index (l ++ [x]) (zlen (l ++ [x]) - 1) = Ok x.
Proof.
  unfold py_index. rewrite zlen_app. change (zlen [x]) with 1. pose proof (zlen_nonneg l). replace (zlen l + 1 - 1 <? 0) with false by lia.
  replace ((zlen l + 1 - 1 <? 0) || (zlen l + 1 <=? zlen l + 1 - 1)) with false by lia. replace (zlen l + 1 - 1) with (zlen l) by lia. unfold zlen. rewrite Nat2Z.id.
  rewrite nth_error_app2, Nat.sub_diag by lia. reflexivity.
Qed.

Definition ordered (h : list (mm_op K V)) (m : multimap K V) : Prop :=
  forall i j k1 k2 b1 b2, (i < j)%nat -> nth_error (map fst m) i = Some k1 -> nth_error (map fst m) j = Some k2 ->
    birth k1 h = Some b1 -> birth k2 h = Some b2 -> (b1 < b2)%nat.
Record mm_ok (h : list (mm_op K V)) (m : multimap K V) : Prop := mkok {
  ok_nodup : NoDup (map fst m);
  ok_values : forall k, dict_get eqb m k = match values_of k h with [] => None | vs => Some vs end;
  ok_birth : forall k, (values_of k h = [] <-> birth k h = None) /\ forall b, birth k h = Some b -> (b < length h)%nat;
  ok_order : ordered h m
}.

Lemma values_app k h : forall vs o, values_from k vs (h ++ [o]) =
  match o with
  | MSet k' v => if eqb k k' then [v] else values_from k vs h
  | MAdd k' v => if eqb k k' then values_from k vs h ++ [v] else values_from k vs h
  | MDel k' => if eqb k k' then [] else values_from k vs h
  end.
Proof.
  induction h as [|x h IH]; intros vs o; cbn [app values_from]; [destruct o; reflexivity|]. destruct x; apply IH.
Qed.
Lemma birth_app k h : forall i s o, birth_from k i s (h ++ [o]) =
  match o with
  | MSet k' _ | MAdd k' _ => if eqb k k' then match birth_from k i s h with None => Some (i + length h)%nat | b => b end else birth_from k i s h
  | MDel k' => if eqb k k' then None else birth_from k i s h
  end.
Proof.
  induction h as [|x h IH]; intros i s o; cbn [app birth_from length].
  - rewrite Nat.add_0_r. destruct o; cbn [birth_from]; destruct s; reflexivity.
  - replace (i + S (length h))%nat with (S i + length h)%nat by lia. destruct x; apply IH.
Qed.

Lemma keys_set (d : multimap K V) k v : map fst (dict_set eqb d k v) = if existsb (eqb k) (map fst d) then map fst d else map fst d ++ [k].
Proof.
  induction d as [|[k' v'] d IH]; [reflexivity|]. cbn [dict_set map fst existsb]. destruct (eqb k k') eqn:E; [reflexivity|].
  cbn [map fst orb]. rewrite IH. destruct (existsb (eqb k) (map fst d)); reflexivity.
Qed.
Lemma keys_present (d : multimap K V) k : existsb (eqb k) (map fst d) = match dict_get eqb d k with Some _ => true | None => false end.
Proof. induction d as [|[k' v'] d IH]; [reflexivity|]. cbn [map fst existsb dict_get]. destruct (eqb k k'); [reflexivity|exact IH]. Qed.
Lemma get_del (d : multimap K V) k k2 : NoDup (map fst d) -> dict_get eqb (dict_del eqb d k) k2 = if eqb k2 k then None else dict_get eqb d k2.
Proof.
  induction d as [|[k' v'] d IH]; intros N; cbn [dict_del dict_get map fst] in *; [destruct (eqb k2 k); reflexivity|].
  inversion N as [|? ? NI N']; subst. destruct (eqb k k') eqn:E.
  - apply eqb_ok in E. subst k'. destruct (eqb k2 k) eqn:E2; [|reflexivity]. apply eqb_ok in E2. subst k2.
    destruct (dict_get eqb d k) eqn:G; [|reflexivity]. exfalso. apply NI. apply (dict_get_in eqb eqb_ok) in G. change k with (fst (k, l)). apply in_map. exact G.
  - cbn [dict_get]. destruct (eqb k2 k') eqn:E2; [|apply IH; exact N']. apply eqb_ok in E2. subst k'.
    destruct (eqb k2 k) eqn:E3; [|reflexivity]. apply eqb_ok in E3. subst k2. rewrite eqb_refl in E. discriminate.
Qed.
Lemma keys_del (d : multimap K V) k : exists l1 l2, map fst (dict_del eqb d k) = l1 ++ l2 /\ (map fst d = l1 ++ l2 \/ map fst d = l1 ++ k :: l2).
Proof.
  induction d as [|[k' v'] d (l1 & l2 & E1 & E2)]; cbn [dict_del map fst]; [exists [], []; auto|].
  destruct (eqb k k') eqn:E.
  - apply eqb_ok in E. subst k'. exists [], (map fst d). auto.
  - cbn [map fst]. rewrite E1. exists (k' :: l1), l2. split; [reflexivity|]. destruct E2 as [-> | ->]; auto.
Qed.
Lemma key_at (m : multimap K V) h : mm_ok h m -> forall i k, nth_error (map fst m) i = Some k -> exists b, birth k h = Some b /\ (b < length h)%nat.
Proof.
  intros O i k N. destruct (ok_birth _ _ O k) as [B1 B2]. destruct (birth k h) as [b|] eqn:E; [eauto|].
  exfalso. destruct B1 as [_ B1]. specialize (B1 eq_refl). pose proof (ok_values _ _ O k) as G. rewrite B1 in G.
  apply nth_error_In in N. exact (dict_get_cons_none eqb eqb_ok _ _ G N).
Qed.
Lemma set_ok h m k v vs : mm_ok h m -> vs <> [] ->
  (forall k', values_of k' (h ++ [v]) = if eqb k' k then vs else values_of k' h) ->
  (forall k', birth k' (h ++ [v]) = if eqb k' k then match birth k' h with None => Some (length h) | b => b end else birth k' h) ->
  mm_ok (h ++ [v]) (dict_set eqb m k vs).
Proof.
  intros O NE HV HB. constructor.
  - rewrite keys_set, keys_present. destruct (dict_get eqb m k) eqn:G; [apply O|].
    pose proof (dict_get_cons_none eqb eqb_ok _ _ G) as NI. pose proof (ok_nodup _ _ O) as N. revert N NI. clear.
    generalize (map fst m) as l. induction l as [|x l IH]; intros N NI; cbn [app]; [constructor; [intros []|constructor]|]. inversion N; subst. constructor.
    + intros I. apply in_app_or in I as [I|[->|[]]]; [contradiction|]. apply NI. left; reflexivity.
    + apply IH; [assumption|]. intros I. apply NI. right; exact I.
  - intros k'. rewrite HV. destruct (eqb k' k) eqn:E.
    + apply eqb_ok in E. subst k'. rewrite (dict_get_set_same eqb eqb_ok). destruct vs; [contradiction|reflexivity].
    + rewrite (dict_get_set_other eqb eqb_ok) by (intros ->; rewrite eqb_refl in E; discriminate). apply O.
  - intros k'. rewrite HV, HB, app_length. cbn [length]. destruct (ok_birth _ _ O k') as [B1 B2]. destruct (eqb k' k) eqn:E.
    + split; [split; [intros ->; contradiction|destruct (birth k' h); discriminate]|]. intros b. destruct (birth k' h) as [b'|] eqn:Q; intros [= <-]; [specialize (B2 b' eq_refl)|]; lia.
    + split; [exact B1|]. intros b Q. specialize (B2 b Q). lia.
  - intros i j k1 k2 b1 b2 L N1 N2. rewrite keys_set, keys_present in N1, N2. rewrite !HB.
    destruct (dict_get eqb m k) as [old|] eqn:G.
    + destruct (key_at m h O _ _ N1) as (c1 & C1 & _). destruct (key_at m h O _ _ N2) as (c2 & C2 & _). rewrite C1, C2.
      pose proof (ok_order _ _ O i j k1 k2 c1 c2 L N1 N2 C1 C2). destruct (eqb k1 k), (eqb k2 k); intros [= <-] [= <-]; assumption.
    + assert (BN : birth k h = None).
      { destruct (ok_birth _ _ O k) as [B1 _]. apply B1. pose proof (ok_values _ _ O k) as Q. rewrite G in Q. destruct (values_of k h); [reflexivity|discriminate]. }
      assert (LJ : (j < length (map fst m ++ [k]))%nat) by (apply nth_error_Some; congruence). rewrite app_length in LJ. cbn in LJ.
      assert (N1' : nth_error (map fst m) i = Some k1) by (rewrite nth_error_app1 in N1 by lia; exact N1).
      destruct (key_at m h O _ _ N1') as (c1 & C1 & LC1).
      assert (E1 : eqb k1 k = false) by (destruct (eqb k1 k) eqn:E; [apply eqb_ok in E; subst; congruence|reflexivity]). rewrite E1, C1.
      destruct (Nat.lt_ge_cases j (length (map fst m))) as [LT|GE].
      * rewrite nth_error_app1 in N2 by exact LT. destruct (key_at m h O _ _ N2) as (c2 & C2 & _).
        assert (E2 : eqb k2 k = false) by (destruct (eqb k2 k) eqn:E; [apply eqb_ok in E; subst; congruence|reflexivity]). rewrite E2, C2. intros [= <-] [= <-].
        apply (ok_order _ _ O i j k1 k2); assumption.
      * rewrite nth_error_app2 in N2 by exact GE. destruct (j - length (map fst m))%nat as [|q] eqn:Q; cbn in N2; [injection N2 as <-|destruct q; discriminate].
        rewrite eqb_refl, BN. intros [= <-] [= <-]. exact LC1.
Qed.

Lemma nth_skip {A} (l1 : list A) x l2 i : nth_error (l1 ++ l2) i = nth_error (l1 ++ x :: l2) (if (i <? length l1)%nat then i else S i).
Proof.
  destruct (i <? length l1)%nat eqn:E.
  - apply Nat.ltb_lt in E. rewrite !nth_error_app1 by exact E. reflexivity.
  - apply Nat.ltb_ge in E. rewrite !nth_error_app2 by lia. replace (S i - length l1)%nat with (S (i - length l1)) by lia. reflexivity.
Qed.

Theorem run_ok h : mm_ok h (mm_run eqb h).
Proof.
  unfold mm_run. induction h as [|o h IH] using rev_ind.
  - constructor.
    + constructor.
    + reflexivity.
    + intros k. split; [split; reflexivity|discriminate].
    + intros i j k1 k2 b1 b2 _ N. destruct i; discriminate.
  - rewrite fold_left_app. cbn [fold_left]. set (m := fold_left (mm_apply eqb) h mm_new) in *. destruct o as [k v|k v|k]; cbn [mm_apply].
    + apply set_ok; [exact IH|discriminate| |]; intros k'; unfold values_of, birth; rewrite ?values_app, ?birth_app; reflexivity.
    + unfold mm_add_item, mm_setitem. pose proof (ok_values _ _ IH k) as G. destruct (dict_get eqb m k) as [vs|].
      * rewrite append_is_app. assert (EV : vs = values_of k h) by (destruct (values_of k h); [discriminate|congruence]).
        apply set_ok; [exact IH|destruct vs; discriminate| |]; intros k'; unfold values_of, birth; rewrite ?values_app, ?birth_app; [|reflexivity].
        destruct (eqb k' k) eqn:E; [apply eqb_ok in E; subst; reflexivity|reflexivity].
      * assert (EV : values_of k h = []) by (destruct (values_of k h); [reflexivity|discriminate]).
        apply set_ok; [exact IH|discriminate| |]; intros k'; unfold values_of, birth; rewrite ?values_app, ?birth_app; [|reflexivity].
        destruct (eqb k' k) eqn:E; [apply eqb_ok in E; subst; unfold values_of in EV; rewrite EV; reflexivity|reflexivity].
    + assert (HV : forall k', values_of k' (h ++ [MDel k]) = if eqb k' k then [] else values_of k' h) by (intros k'; unfold values_of; rewrite values_app; reflexivity).
      assert (HB : forall k', birth k' (h ++ [MDel k]) = if eqb k' k then None else birth k' h) by (intros k'; unfold birth; rewrite birth_app; reflexivity).
      assert (BO : forall k', (values_of k' (h ++ [MDel k]) = [] <-> birth k' (h ++ [MDel k]) = None) /\ forall b, birth k' (h ++ [MDel k]) = Some b -> (b < length (h ++ [MDel k]))%nat).
      { intros k'. rewrite HV, HB, app_length. cbn [length]. destruct (eqb k' k); [split; [tauto|discriminate]|]. destruct (ok_birth _ _ IH k') as [B1 B2]. split; [exact B1|]. intros b Q. specialize (B2 b Q). lia. }
      unfold mm_delitem. destruct (dict_get eqb m k) as [vs|] eqn:G.
      * constructor; [| |exact BO|].
        -- destruct (keys_del m k) as (l1 & l2 & -> & [E|E]); pose proof (ok_nodup _ _ IH) as N; rewrite E in N; [exact N|]. eapply NoDup_remove_1; exact N.
        -- intros k'. rewrite get_del by apply IH. rewrite HV. destruct (eqb k' k); [reflexivity|apply IH].
        -- intros i j k1 k2 b1 b2 L N1 N2. rewrite !HB. destruct (eqb k1 k); [discriminate|]. destruct (eqb k2 k); [discriminate|]. intros B1 B2.
           destruct (keys_del m k) as (l1 & l2 & EK & [E|E]); rewrite EK in N1, N2.
           ++ apply (ok_order _ _ IH i j k1 k2); try assumption; rewrite E; assumption.
           ++ rewrite (nth_skip l1 k l2) in N1, N2. rewrite <- E in N1, N2. apply (ok_order _ _ IH _ _ k1 k2 b1 b2) with (2 := N1) (3 := N2); try assumption.
              destruct (i <? length l1)%nat eqn:E1; destruct (j <? length l1)%nat eqn:E2; apply Nat.ltb_lt in E1 || apply Nat.ltb_ge in E1; apply Nat.ltb_lt in E2 || apply Nat.ltb_ge in E2; lia.
      * constructor; [apply IH| |exact BO|].
        -- intros k'. rewrite HV. destruct (eqb k' k) eqn:E; [apply eqb_ok in E; subst; exact G|apply IH].
        -- intros i j k1 k2 b1 b2 L N1 N2. rewrite !HB. destruct (eqb k1 k); [discriminate|]. destruct (eqb k2 k); [discriminate|]. apply (ok_order _ _ IH i j); assumption.
Qed.
End MULTIMAP.
