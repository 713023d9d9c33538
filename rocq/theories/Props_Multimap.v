(** Property theorem C34: [Multimap].  Keys are text or None (symbol zero); [V] is any type. *)
From Coq Require Import String.
From Verif Require Import Base BaseFacts CoreModel SymbolsModel SymbolsProofs MultimapModel MultimapProofs.
Local Open Scope Z_scope.

Definition key_eqb : option text -> option text -> bool := opt_eqb zlist_eqb.
Lemma key_eqb_ok a b : key_eqb a b = true <-> a = b.
Proof.
  destruct a as [x|], b as [y|]; cbn; try (split; congruence). rewrite zlist_eqb_eq. split; congruence.
Qed.

(** C34.  [h]: any history of assignments, [add_item]s and deletions.  [values_of k h] and
    [birth k h] (MultimapProofs) are functions of the history alone: the values assigned or added to
    [k] since it was last deleted or assigned, and the number of the operation that brought [k] in. *)
Theorem C34_multimap : forall (V : Type) (h : list (mm_op (option text) V)),
  let m := mm_run key_eqb h in
  let values k := values_of key_eqb k h in
  (forall k, mm_get_all key_eqb m k = match values k with [] => Err KeyError | vs => Ok vs end) /\
  (forall k, mm_getitem key_eqb m k = match rev (values k) with [] => Err KeyError | newest :: _ => Ok newest end) /\
  (forall k, mm_delitem key_eqb m k = match values k with [] => Err KeyError | _ => Ok (mm_run key_eqb (h ++ [MDel k])) end) /\
  NoDup (mm_keys m) /\
  (forall k, In k (mm_keys m) <-> values k <> []) /\
  (forall i j k1 k2, (i < j)%nat -> nth_error (mm_keys m) i = Some k1 -> nth_error (mm_keys m) j = Some k2 ->
     exists b1 b2, birth key_eqb k1 h = Some b1 /\ birth key_eqb k2 h = Some b2 /\ (b1 < b2)%nat) /\
  mm_items m = flat_map (fun k => map (pair k) (values k)) (mm_keys m) /\
  mm_len m = zlen (mm_items m).
Proof.
  intros V h m values. pose proof (run_ok (V := V) key_eqb key_eqb_ok h) as O. fold m in O.
  assert (G : forall k, dict_get key_eqb m k = match values k with [] => None | vs => Some vs end) by (intros k; apply O).
  split; [|split; [|split; [|split; [|split; [|split; [|split]]]]]].
  - intros k. unfold mm_get_all. rewrite G. destruct (values k); reflexivity.
  - intros k. unfold mm_getitem. rewrite G. destruct (values k) as [|v vs] eqn:E using rev_ind; [reflexivity|]. clear IHvs || idtac.
    rewrite rev_app_distr. cbn [rev app]. destruct (vs ++ [v]) as [|x l] eqn:Q; [destruct vs; discriminate|]. rewrite <- Q. apply index_last.
  - intros k. unfold mm_delitem. rewrite G. unfold mm_run. rewrite fold_left_app. cbn [fold_left mm_apply]. change (fold_left (mm_apply key_eqb) h mm_new) with m.
    unfold mm_delitem. rewrite G. destruct (values k); reflexivity.
  - apply O.
  - intros k. specialize (G k). unfold mm_keys. split.
    + intros I E. rewrite E in G. exact (dict_get_cons_none key_eqb key_eqb_ok _ _ G I).
    + intros N. destruct (values k) as [|v vs]; [contradiction|]. apply (dict_get_in key_eqb key_eqb_ok) in G. change k with (fst (k, v :: vs)). apply in_map. exact G.
  - intros i j k1 k2 L N1 N2. destruct (key_at key_eqb key_eqb_ok m h O _ _ N1) as (b1 & B1 & _). destruct (key_at key_eqb key_eqb_ok m h O _ _ N2) as (b2 & B2 & _).
    exists b1, b2. split; [exact B1|]. split; [exact B2|]. exact (ok_order _ _ _ O i j k1 k2 b1 b2 L N1 N2 B1 B2).
  - unfold mm_items, mm_keys. pose proof (ok_nodup _ _ _ O) as N.
    assert (GE : forall k vs, In (k, vs) m -> values k = vs).
    { intros k vs I. specialize (G k).
      assert (dict_get key_eqb m k = Some vs).
      { clear - N I. induction m as [|[k' v'] r IH]; [contradiction|]. cbn [map fst dict_get] in *. inversion N as [|? ? NI N']; subst. destruct I as [[= -> ->]|I].
        - replace (key_eqb k k) with true by (symmetry; apply key_eqb_ok; reflexivity). reflexivity.
        - destruct (key_eqb k k') eqn:E; [|auto]. apply key_eqb_ok in E. subst k'. exfalso. apply NI. change k with (fst (k, vs)). apply in_map. exact I. }
      rewrite G in H. destruct (values k); congruence. }
    clear - GE. induction m as [|[k vs] r IH]; [reflexivity|]. cbn [flat_map map fst snd]. rewrite (GE k vs) by (left; reflexivity). f_equal. apply IH.
    intros k' vs' I. apply GE. right; exact I.
  - unfold mm_len, mm_items. clear. induction m as [|[k vs] r IH]; [reflexivity|]. cbn [fold_right flat_map fst snd]. rewrite zlen_app, IH. unfold zlen. rewrite map_length. lia.
Qed.
Print Assumptions C34_multimap.

(** Two surprises beyond that: copying a multimap by its constructor keeps only the newest value of
    each key; and assigning an element of a [MultimapValue] inserts. *)
Example C34_copy_refuted : let m := mm_run key_eqb [MAdd (Some (txt "a")) 1; MAdd (Some (txt "a")) 2] in
  mm_len m = 2 /\ mm_len (mm_of_items key_eqb (mm_items m)) = 1.
Proof. vm_compute. split; reflexivity. Qed.
Example C34_value_assignment_refuted : mv_setitem [1; 2] 0 9 = [9; 1; 2].
Proof. reflexivity. Qed.

Example C34_sample : let m := mm_run key_eqb [MAdd (Some (txt "a")) 1; MSet None 5; MAdd (Some (txt "b")) 2; MAdd (Some (txt "a")) 3; MDel (Some (txt "b")); MSet (Some (txt "a")) 4;
    MAdd (Some (txt "a")) 6; MAdd (Some (txt "b")) 7; MDel (Some (txt "c"))] in
  mm_items m = [(Some (txt "a"), 4); (Some (txt "a"), 6); (None, 5); (Some (txt "b"), 7)] /\ mm_len m = 4 /\ mm_getitem key_eqb m (Some (txt "a")) = Ok 6.
Proof. vm_compute. repeat split. Qed.
