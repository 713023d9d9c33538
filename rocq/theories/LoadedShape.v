(** What [load] builds: every object it returns is made of events, whatever the reader. *)
From Verif Require Import Base BaseFacts CoreModel BinWriterModel SymbolsModel ManagedModel MultimapModel MultimapProofs SimpleionModel.
Local Open Scope Z_scope.
Local Open Scope list_scope.

Section MADE.
(** What is known of the tokens, the scalars and the keys. *)
Variable names : token -> Prop.
Variable scalars : iontype -> scalar -> Prop.
Variable keys : option text -> Prop.
Inductive made : pyval -> Prop :=
| made_null t an : Forall names an -> made (PNull t (map ATok an))
| made_ion t an s : Forall names an -> scalars t s -> made (PIon t (map ATok an) s)
| made_seq sexp an l : Forall names an -> Forall made l -> made (PSeq sexp (map ATok an) l)
| made_struct an m : Forall names an -> NoDup (map fst m) -> Forall (fun p => keys (fst p) /\ snd p <> [] /\ Forall made (snd p)) m -> made (PStruct (map ATok an) m).

Definition brings (u : mevent) : Prop :=
  (forall an, me_annotations u = Ok an -> Forall names an) /\
  (forall f, me_field u = Ok (Some f) -> keys (tk_text f)) /\
  (forall t s s', ev_ion_type (me_ev u) = Some t -> me_value u = Ok (Some s) -> py_scalar t s = Ok s' -> t <> TNull -> is_container t = false -> scalars t s').
Notation group := (fun p : option text * list pyval => keys (fst p) /\ snd p <> [] /\ Forall made (snd p)).
Definition filled (o : target) : Prop :=
  match o with OnList l => Forall made l | OnMap m => NoDup (map fst m) /\ Forall group m end.

Lemma name_eq a b : name_eqb a b = true <-> a = b.
Proof.
  unfold name_eqb. destruct a as [a|], b as [b|]; cbn [opt_eqb]; try (split; congruence). rewrite zlist_eqb_eq. split; congruence.
Qed.
Lemma set_keys {V} (d : dict (option text) V) k v x : In x (map fst (dict_set name_eqb d k v)) -> x = k \/ In x (map fst d).
Proof.
  induction d as [|[k' v'] d IH]; cbn [dict_set map fst In]; [intuition|]. destruct (name_eqb k k'); cbn [map fst In]; [tauto|]. intros [H|H]; [tauto|]. destruct (IH H); tauto.
Qed.
Lemma set_nodup {V} (d : dict (option text) V) k v : NoDup (map fst d) -> NoDup (map fst (dict_set name_eqb d k v)).
Proof.
  induction d as [|[k' v'] d IH]; cbn [dict_set map fst]; intros N; [constructor; [intros []|constructor]|]. inversion N as [|? ? NI ND]; subst. destruct (name_eqb k k') eqn:E; cbn [map fst]; [exact N|]. constructor; [|exact (IH ND)]. intros I. apply set_keys in I. destruct I as [->|I]; [|contradiction]. rewrite (proj2 (name_eq k k) eq_refl) in E. discriminate.
Qed.
Lemma set_forall {V} (R : option text * V -> Prop) (d : dict (option text) V) k v : Forall R d -> R (k, v) -> Forall R (dict_set name_eqb d k v).
Proof.
  intros F RK. induction d as [|[k' v'] d IH]; cbn [dict_set]; [auto|]. destruct (name_eqb k k') eqn:E.
  - apply name_eq in E. subst k'. constructor; [exact RK|exact (Forall_inv_tail F)].
  - constructor; [exact (Forall_inv F)|exact (IH (Forall_inv_tail F))].
Qed.
Lemma get_forall {V} (R : option text * V -> Prop) (d : dict (option text) V) k v : Forall R d -> dict_get name_eqb d k = Some v -> R (k, v).
Proof.
  intros F. induction d as [|[k' v'] d IH]; cbn [dict_get]; [discriminate|]. destruct (name_eqb k k') eqn:E.
  - apply name_eq in E. subst k'. intros H. injection H as <-. exact (Forall_inv F).
  - exact (IH (Forall_inv_tail F)).
Qed.
Lemma add_filled o u v o' : brings u -> filled o -> made v -> target_add o u v = Ok o' -> filled o'.
Proof.
  intros (_ & BF & _) F M. destruct o as [l|m]; cbn [target_add filled] in *.
  - intros H. injection H as <-. cbn [filled]. apply Forall_app. auto.
  - destruct (me_field u) as [[f|]|] eqn:MF; cbn [bind]; try discriminate. intros H. injection H as <-. specialize (BF f eq_refl). destruct F as (ND & F). cbn [filled]. unfold mm_add_item. destruct (dict_get name_eqb m (tk_text f)) as [vs|] eqn:G.
    + split; [apply set_nodup; exact ND|]. destruct (get_forall _ _ _ _ F G) as (_ & _ & FM). cbn [fst snd] in FM. apply set_forall; [exact F|]. cbn [fst snd]. rewrite append_is_app. split; [exact BF|]. split; [destruct vs; discriminate|]. apply Forall_app. auto.
    + unfold mm_setitem, mv_new. split; [apply set_nodup; exact ND|]. apply set_forall; [exact F|]. cbn [fst snd]. split; [exact BF|]. split; [discriminate|auto].
Qed.
Lemma scalar_made u v : brings u -> load_scalar u = Ok v -> made v.
Proof.
  intros (BA & _ & BV). unfold load_scalar. destruct (me_value u) as [[s|]|] eqn:MV; cbn [bind]; try discriminate; (destruct (ev_ion_type (me_ev u)) as [t|] eqn:T; cbn [bind]; [|discriminate]).
  - destruct (iontype_eqb t TNull || is_container t) eqn:C.
    + destruct (me_annotations u) as [an|]; [|discriminate]. intros H. injection H as <-. constructor. auto.
    + apply Bool.orb_false_elim in C. destruct C as (C1 & C2). destruct (py_scalar t s) as [s'|] eqn:PS; [|discriminate]. cbn [bind]. destruct (me_annotations u) as [an|]; [|discriminate]. intros H. injection H as <-. constructor; [auto|]. apply (BV t s s'); auto. intros ->. discriminate.
  - destruct (me_annotations u) as [an|]; [|discriminate]. intros H. injection H as <-. constructor. auto.
Qed.
Definition valued_event (u : mevent) : Prop := ev_type (me_ev u) = EScalar \/ ev_type (me_ev u) = EContainerStart.
Lemma load_made {F} (next : F -> res (mevent * F)) (I : F -> Prop) :
  (forall s u s', I s -> next s = Ok (u, s') -> I s' /\ (valued_event u -> brings u)) ->
  forall fuel s until out o s', I s -> filled out -> load_into fuel next s until out = Ok (o, s') -> I s' /\ filled o.
Proof.
  intros N fuel. induction fuel as [|f IH]; intros s until out o s' IS FO; cbn [load_into]; [discriminate|]. destruct (next s) as [[u s1]|] eqn:NX; [|discriminate]. cbn [bind]. destruct (N _ _ _ IS NX) as (I1 & B). unfold valued_event in B. destruct (is_until _ _); [intros H; injection H as <- <-; auto|].
  destruct (ev_type (me_ev u)); try (apply IH; assumption).
  - specialize (B (or_introl eq_refl)). destruct (load_scalar u) as [v|] eqn:L; [|discriminate]. cbn [bind]. destruct (target_add out u v) as [o1|] eqn:A; [|discriminate]. cbn [bind]. apply IH; [exact I1|]. exact (add_filled _ _ _ _ B FO (scalar_made _ _ B L) A).
  - specialize (B (or_intror eq_refl)). destruct (ev_ion_type (me_ev u)) as [t|]; [|discriminate]. cbn [bind]. destruct (me_annotations u) as [an|] eqn:MA; [|discriminate]. cbn [bind]. destruct (load_into f next s1 EContainerEnd (target_new t)) as [[inner s2]|] eqn:LI; [|discriminate]. cbn [bind].
    assert (FN : filled (target_new t)) by (destruct t; cbn [target_new filled]; try constructor; constructor).
    destruct (IH _ _ _ _ _ I1 FN LI) as (I2 & FI). destruct (target_add out u _) as [o1|] eqn:A; [|discriminate]. cbn [bind]. apply IH; [exact I2|]. refine (add_filled _ _ _ _ B FO _ A). destruct B as (BA & _). destruct inner as [l|m]; cbn [target_value]; [constructor; auto|]. destruct FI as (ND & FM). constructor; auto.
Qed.
End MADE.

(** * What stands at the top level *)
Section TOPS.
Context {F : Type}.
Variable next : F -> res (mevent * F).
(** The state of the reader, and how many containers are open. *)
Variable At : Z -> F -> Prop.
Definition opens_by (u : mevent) : Z := match ev_type (me_ev u) with EContainerStart => 1 | EContainerEnd => -1 | _ => 0 end.
Hypothesis counts : forall n s u s', At n s -> next s = Ok (u, s') -> At (n + opens_by u) s'.
Hypothesis never_less : forall n s, At n s -> 0 <= n.
Lemma load_levels fuel : forall n s until out o s', At n s -> load_into fuel next s until out = Ok (o, s') ->
  match until with EContainerEnd => At (n - 1) s' | EStreamEnd => exists k, At k s' | _ => True end /\ (match out with OnMap _ => exists m, o = OnMap m | OnList _ => exists l, o = OnList l end).
Proof.
  induction fuel as [|f IH]; intros n s until out o s' A; cbn [load_into]; [discriminate|]. destruct (next s) as [[u s1]|] eqn:NX; [|discriminate]. cbn [bind]. pose proof (counts _ _ _ _ A NX) as A1. unfold opens_by in A1. destruct (is_until (ev_type (me_ev u)) until) eqn:U.
  - intros H. injection H as <- <-. split; [|destruct out; eauto]. destruct (ev_type (me_ev u)); try discriminate U; destruct until; try discriminate U; eauto.
  - assert (G : forall m s2 o1, At (n + m) s2 -> m = 0 \/ n + m = n - 1 /\ until <> EContainerEnd -> load_into f next s2 until o1 = Ok (o, s') -> 
      match until with EContainerEnd => At (n - 1) s' | EStreamEnd => exists k, At k s' | _ => True end /\ match o1 with OnMap _ => exists m, o = OnMap m | OnList _ => exists l, o = OnList l end).
    { intros m s2 o1 A2 M L. destruct (IH _ _ _ _ _ _ A2 L) as (X & Y). split; [|exact Y]. destruct until; auto. destruct M as [->|(_ & M)]; [|congruence]. rewrite Z.add_0_r in X. exact X. }
    destruct (ev_type (me_ev u)).
    1,2,3: apply (G 0); auto.
    + destruct (load_scalar u) as [v|]; [|discriminate]. cbn [bind]. destruct (target_add out u v) as [o1|] eqn:T; [|discriminate]. cbn [bind]. intros L. destruct (G 0 s1 o1 A1 (or_introl eq_refl) L) as (X & Y). split; [exact X|]. destruct out as [l|m]; cbn [target_add] in T; [injection T as <-; exact Y|]. destruct (me_field u) as [[k|]|]; try discriminate. injection T as <-. exact Y.
    + destruct (ev_ion_type (me_ev u)) as [t|]; [|discriminate]. cbn [bind]. destruct (me_annotations u) as [an|]; [|discriminate]. cbn [bind]. destruct (load_into f next s1 EContainerEnd (target_new t)) as [[inner s2]|] eqn:LI; [|discriminate]. cbn [bind].
      destruct (target_add out u _) as [o1|] eqn:T; [|discriminate]. cbn [bind]. intros L. destruct (IH _ _ _ _ _ _ A1 LI) as (A2 & _). destruct (G 0 s2 o1) as (X & Y); [replace (n + 0) with (n + 1 - 1) by lia; exact A2|auto|exact L|]. split; [exact X|]. destruct out as [l|m]; cbn [target_add] in T; [injection T as <-; exact Y|]. destruct (me_field u) as [[k|]|]; try discriminate. injection T as <-. exact Y.
    + apply (G (-1)); [exact A1|]. right. split; [lia|]. intros ->. discriminate U.
Qed.
(** [R]: what is known of a value by its first event, when no container is open. *)
Variable R : pyval -> Prop.
Hypothesis top_scalar : forall s u s' v, At 0 s -> next s = Ok (u, s') -> ev_type (me_ev u) = EScalar -> load_scalar u = Ok v -> R v.
Hypothesis top_list : forall sexp an l, R (PSeq sexp an l).
Hypothesis top_struct : forall s u s' an m, At 0 s -> next s = Ok (u, s') -> ev_type (me_ev u) = EContainerStart -> ev_ion_type (me_ev u) = Some TStruct -> me_annotations u = Ok an -> R (PStruct (map ATok an) m).
Lemma load_tops fuel : forall s l o s', At 0 s -> Forall R l -> load_into fuel next s EStreamEnd (OnList l) = Ok (o, s') -> exists l', o = OnList l' /\ Forall R l'.
Proof.
  induction fuel as [|f IH]; intros s l o s' A FR; cbn [load_into]; [discriminate|]. destruct (next s) as [[u s1]|] eqn:NX; [|discriminate]. cbn [bind]. pose proof (counts _ _ _ _ A NX) as A1. unfold opens_by in A1. destruct (is_until _ _); [intros H; injection H as <- <-; eauto|].
  destruct (ev_type (me_ev u)) eqn:T; try (intros L; exact (IH _ _ _ _ A1 FR L)).
  - destruct (load_scalar u) as [v|] eqn:LS; [|discriminate]. cbn [bind target_add]. apply IH; [exact A1|]. apply Forall_app. split; [exact FR|]. constructor; [|constructor]. exact (top_scalar _ _ _ _ A NX T LS).
  - destruct (ev_ion_type (me_ev u)) as [t|] eqn:IT; [|discriminate]. cbn [bind]. destruct (me_annotations u) as [an|] eqn:MA; [|discriminate]. cbn [bind]. destruct (load_into f next s1 EContainerEnd (target_new t)) as [[inner s2]|] eqn:LI; [|discriminate]. cbn [bind target_add]. destruct (load_levels _ _ _ _ _ _ _ A1 LI) as (A2 & K). cbn in A2.
    apply IH; [exact A2|]. apply Forall_app. split; [exact FR|]. constructor; [|constructor]. destruct inner as [i|m]; cbn [target_value]; [apply top_list|]. destruct t; cbn [target_new] in K; try (destruct K; discriminate). exact (top_struct _ _ _ _ _ A NX T IT MA).
  - specialize (never_less _ _ A1). lia.
Qed.
End TOPS.
