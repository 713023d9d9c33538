(** C82: deriving events. *)
From Coq Require Import Lia.
From Verif Require Import Base DeriveModel.

(** * Specification: an event is what its attributes are, once and for all *)
Section MEANING.
Context {A : Type}.
(** The attributes of an event; reading one may raise. *)
Definition meaning : Type := attribute -> res A.
(** The same event but for one attribute. *)
Definition but (m : meaning) (changed : attribute) (r : res A) : meaning :=
  fun at_ => match at_, changed with
             | EventType, EventType | IonType, IonType | Value, Value | FieldName, FieldName
             | Annotations, Annotations | Depth, Depth => r
             | _, _ => m at_
             end.
Definition attributes (ty it : A) (v f a : res A) (d : A) : meaning :=
  fun at_ => match at_ with EventType => Ok ty | IonType => Ok it | Value => v | FieldName => f | Annotations => a | Depth => Ok d end.
(** What a program sees. *)
Definition mstep (ms : list meaning) (o : op A) : seen A * list meaning :=
  let on i k := match nth_error ms i with Some m => k m | None => (NoEvent, ms) end in
  match o with
  | NewPlain ty it v f a d => (Made, ms ++ [attributes ty it (Ok v) (Ok f) (Ok a) d])
  | NewThunk ty it v f a d => (Made, ms ++ [attributes ty it v (Ok f) (Ok a) d])
  | NewManaged ty it v f a d => (Made, ms ++ [attributes ty it v f a d])
  | DeriveFieldName i x => on i (fun m => (Made, ms ++ [but m FieldName (Ok x)]))
  | DeriveAnnotations i x => on i (fun m => (Made, ms ++ [but m Annotations (Ok x)]))
  | DeriveDepth i x => on i (fun m => (Made, ms ++ [but m Depth (Ok x)]))
  | DeriveValue i x =>
    on i (fun m => match m FieldName, m Annotations with
                   | Err e, _ => (Raised e, ms)
                   | Ok _, Err e => (Raised e, ms)
                   | Ok _, Ok _ => (Made, ms ++ [but m Value (Ok x)])
                   end)
  | Get i at_ => on i (fun m => (Got (m at_), ms))
  end.
Fixpoint mrun (ms : list meaning) (os : list (op A)) : list (seen A) :=
  match os with [] => [] | o :: os => let '(x, ms) := mstep ms o in x :: mrun ms os end.
End MEANING.
Arguments meaning : clear implicits.

(** * Proofs *)
Arguments memoizing : simpl never.
Section PROOFS.
Context {A : Type}.
(** [D]: the results of the thunks. *)
Definition thunk_ok (D : list (res A)) (a : nat) (t : thunk) (r : res A) : Prop :=
  match th_delegate t with Function r' => r' = r | Wrapped b => (b < a)%nat /\ nth_error D b = Some r end /\
  match th_value t with Some x => r = Ok x | None => True end.
Definition heap_ok (h : heap A) (D : list (res A)) : Prop :=
  length (hp_thunks h) = length D /\
  forall a t r, nth_error (hp_thunks h) a = Some t -> nth_error D a = Some r -> thunk_ok D a t r.

Lemma store_length (l : list (@thunk A)) a t : length (store l a t) = length l.
Proof. revert a; induction l as [|x l IH]; intros [|a]; simpl; auto. Qed.
Lemma store_nth (l : list (@thunk A)) a t b :
  nth_error (store l a t) b = if Nat.eqb a b then match nth_error l b with Some _ => Some t | None => None end else nth_error l b.
Proof.
  revert a b; induction l as [|x l IH]; intros [|a] [|b]; simpl; auto.
  destruct (Nat.eqb a b); reflexivity.
Qed.

Lemma call_ok fuel : forall h D a r, heap_ok h D -> nth_error D a = Some r -> (a < fuel)%nat ->
  exists h', call fuel h a = (r, h') /\ heap_ok h' D.
Proof.
  induction fuel as [|f IH]; intros h D a r H Ha Hlt; [lia|]; simpl.
  destruct H as [HL HT].
  destruct (nth_error (hp_thunks h) a) as [t|] eqn:E.
  2:{ apply nth_error_None in E. assert (a < length D)%nat by (apply nth_error_Some; congruence). lia. }
  destruct (HT a t r E Ha) as [H1 H2].
  destruct (th_value t) as [x|] eqn:Ev.
  - subst r. eexists; split; [reflexivity|split; assumption].
  - assert (HD : exists h1, match th_delegate t with
                 | Function r0 => (r0, mkheap (hp_thunks h) (S (hp_calls h)))
                 | Wrapped b => call f h b end = (r, h1) /\ heap_ok h1 D /\
                 (nth_error (hp_thunks h1) a <> None)).
    { destruct (th_delegate t) as [r0|b] eqn:Ed.
      - subst r0. eexists; split; [reflexivity|]. split; [split; simpl; assumption|]. simpl. congruence.
      - destruct H1 as [Hb Hr]. destruct (IH h D b r) as (h1 & E1 & K1); [split; assumption|assumption|lia|].
        exists h1; split; [assumption|]; split; [assumption|].
        apply nth_error_Some. destruct K1 as [K1 _]. rewrite K1. apply nth_error_Some; congruence. }
    destruct HD as (h1 & E1 & [K1 K2] & K3). rewrite E1.
    destruct r as [x|e].
    + eexists; split; [reflexivity|]. split; simpl; [rewrite store_length; assumption|].
      intros b tb rb Hb Hrb. rewrite store_nth in Hb. destruct (Nat.eqb_spec a b) as [<-|Hne].
      * destruct (nth_error (hp_thunks h1) a) eqn:E2; [|congruence]. injection Hb as <-.
        assert (rb = Ok x) by congruence. subst rb.
        split; simpl; [exact H1|reflexivity].
      * eapply K2; eassumption.
    + eexists; split; [reflexivity|]. split; assumption.
Qed.

(** A slot of an event stands for a result. *)
Definition slot_ok (D : list (res A)) (s : slot) (r : res A) : Prop :=
  match s with Object x => r = Ok x | Thunk a => nth_error D a = Some r | Callable _ => False end.
Lemma read_ok h D s r : heap_ok h D -> slot_ok D s r -> exists h', read_slot h s = (r, h') /\ heap_ok h' D.
Proof.
  intros H Hs. destruct s as [x|a|r0]; simpl in *.
  - subst r. eauto.
  - apply (call_ok (S a) h D a r H Hs). lia.
  - contradiction.
Qed.

Definition lazy_slots (e : pevent A) : Prop :=
  match pe_class e with
  | PlainEvent => (exists x, pe_value e = Object x) /\ (exists x, pe_field e = Object x) /\ exists x, pe_annot e = Object x
  | ThunkEvent => (exists a, pe_value e = Thunk a) /\ (exists x, pe_field e = Object x) /\ exists x, pe_annot e = Object x
  | ManagedEvent => (exists a, pe_value e = Thunk a) /\ (exists a, pe_field e = Thunk a) /\ exists a, pe_annot e = Thunk a
  end.
Definition event_ok (D : list (res A)) (e : pevent A) (m : meaning A) : Prop :=
  lazy_slots e /\ m EventType = Ok (pe_type e) /\ m IonType = Ok (pe_ion_type e) /\ m Depth = Ok (pe_depth e) /\
  slot_ok D (pe_value e) (m Value) /\ slot_ok D (pe_field e) (m FieldName) /\ slot_ok D (pe_annot e) (m Annotations).

Lemma nth_error_app_more {B} (l k : list B) i x : nth_error l i = Some x -> nth_error (l ++ k) i = Some x.
Proof. intros H. rewrite nth_error_app1; [assumption|]. apply nth_error_Some; congruence. Qed.
Lemma slot_ok_more D D' s r : slot_ok D s r -> slot_ok (D ++ D') s r.
Proof. destruct s; simpl; auto. apply nth_error_app_more. Qed.
Lemma event_ok_more D D' e m : event_ok D e m -> event_ok (D ++ D') e m.
Proof. intros (?&?&?&?&?&?&?). repeat split; auto; apply slot_ok_more; assumption. Qed.

(** What an argument of a constructor gives when it is called. *)
Definition callable_ok (D : list (res A)) (s : slot) (r : res A) : Prop :=
  match s with Object _ => False | Thunk a => nth_error D a = Some r | Callable r' => r' = r end.
Lemma memoizing_ok h D s r : heap_ok h D -> callable_ok D s r ->
  exists a h', memoizing h s = (Thunk a, h') /\ heap_ok h' (D ++ [r]) /\ nth_error (D ++ [r]) a = Some r /\ hp_calls h' = hp_calls h.
Proof.
  intros [HL HT] Hs. unfold memoizing. eexists _, _. split; [reflexivity|].
  assert (Hn : nth_error (D ++ [r]) (length (hp_thunks h)) = Some r)
    by (rewrite HL, nth_error_app2, Nat.sub_diag; [reflexivity|lia]).
  split; [|split; [exact Hn|reflexivity]].
  split; simpl; [rewrite !app_length, HL; reflexivity|].
  intros a t r' Ha Hr'.
  destruct (Nat.lt_ge_cases a (length (hp_thunks h))) as [Hlt|Hge].
  - rewrite nth_error_app1 in Ha by assumption. rewrite nth_error_app1 in Hr' by lia.
    destruct (HT a t r' Ha Hr') as [H1 H2]. split; [|assumption].
    destruct (th_delegate t); [assumption|]. destruct H1; split; [assumption|apply nth_error_app_more; assumption].
  - assert (a = length (hp_thunks h)).
    { assert (a < length (hp_thunks h ++ [mkthunk (match s with Object _ => Function (Err TypeError) | Thunk a => Wrapped a | Callable r => Function r end) None]))%nat
        by (apply nth_error_Some; congruence). rewrite app_length in H; simpl in H; lia. }
    subst a. rewrite nth_error_app2, Nat.sub_diag in Ha by lia. injection Ha as <-.
    assert (r' = r) by congruence. subst r'. split; simpl; [|exact I].
    destruct s as [x|b|r0]; simpl in Hs; [contradiction| |assumption].
    split; [|apply nth_error_app_more; assumption].
    rewrite HL. apply nth_error_Some; congruence.
Qed.

(** The arguments that a class takes. *)
Definition arg_ok (D : list (res A)) (lazy : bool) (s : slot) (r : res A) : Prop := if lazy then callable_ok D s r else exists x, s = Object x /\ r = Ok x.
Definition value_lazy (c : class) : bool := match c with PlainEvent => false | _ => true end.
Definition names_lazy (c : class) : bool := match c with ManagedEvent => true | _ => false end.
Lemma callable_ok_more D D' s r : callable_ok D s r -> callable_ok (D ++ D') s r.
Proof. destruct s; simpl; auto. apply nth_error_app_more. Qed.

Lemma construct_ok h D c ty it v f a d rv rf ra (m : meaning A) :
  heap_ok h D -> arg_ok D (value_lazy c) v rv -> arg_ok D (names_lazy c) f rf -> arg_ok D (names_lazy c) a ra ->
  m EventType = Ok ty -> m IonType = Ok it -> m Depth = Ok d -> m Value = rv -> m FieldName = rf -> m Annotations = ra ->
  exists e h' D', construct h c ty it v f a d = (e, h') /\ heap_ok h' (D ++ D') /\ event_ok (D ++ D') e m /\ hp_calls h' = hp_calls h.
Proof.
  intros H Hv Hf Ha M1 M2 M3 M4 M5 M6. destruct c; cbn [value_lazy names_lazy arg_ok] in Hv, Hf, Ha; cbn [construct].
  - destruct Hv as (xv & -> & ->), Hf as (xf & -> & ->), Ha as (xa & -> & ->).
    exists (mkpe PlainEvent ty it (Object xv) (Object xf) (Object xa) d), h, []. rewrite app_nil_r.
    split; [reflexivity|]. split; [assumption|]. split; [|reflexivity]. unfold event_ok, lazy_slots; cbn. rewrite M4, M5, M6. repeat split; eauto.
  - destruct Hf as (xf & -> & ->), Ha as (xa & -> & ->).
    destruct (memoizing_ok h D v rv H Hv) as (b & h' & E & K & Kn & Kc).
    rewrite E. eexists _, _, [rv]. split; [reflexivity|]. split; [assumption|]. split; [|assumption].
    unfold event_ok, lazy_slots; cbn. rewrite M4, M5, M6. repeat split; eauto.
  - destruct (memoizing_ok h D f rf H Hf) as (b1 & h1 & E1 & K1 & N1 & C1). rewrite E1.
    destruct (memoizing_ok h1 (D ++ [rf]) a ra K1) as (b2 & h2 & E2 & K2 & N2 & C2); [apply callable_ok_more; assumption|]. rewrite E2.
    destruct (memoizing_ok h2 ((D ++ [rf]) ++ [ra]) v rv K2) as (b3 & h3 & E3 & K3 & N3 & C3); [do 2 apply callable_ok_more; assumption|]. rewrite E3.
    apply (nth_error_app_more _ [rv]) in N2. apply (nth_error_app_more _ [ra]) in N1. apply (nth_error_app_more _ [rv]) in N1.
    rewrite <- !app_assoc in *. cbn [app] in *.
    eexists _, _, [rf; ra; rv]. split; [reflexivity|]. split; [assumption|]. split; [|congruence].
    unfold event_ok, lazy_slots; cbn -[nth_error]. rewrite M4, M5, M6. repeat split; eauto.
Qed.

Lemma event_args h D e m : heap_ok h D -> event_ok D e m ->
  arg_ok D (value_lazy (pe_class e)) (pe_value e) (m Value) /\
  arg_ok D (names_lazy (pe_class e)) (pe_field e) (m FieldName) /\
  arg_ok D (names_lazy (pe_class e)) (pe_annot e) (m Annotations).
Proof.
  intros H (L & _ & _ & _ & V & F & N). unfold lazy_slots in L.
  destruct (pe_class e); destruct L as ([x Lx] & [y Ly] & [z Lz]); rewrite Lx in V |- *; rewrite Ly in F |- *; rewrite Lz in N |- *;
    cbn in V, F, N; repeat split; cbn; eauto.
Qed.
Lemma argument_ok (D : list (res A)) c x : arg_ok D (names_lazy c) (argument c x) (Ok x).
Proof. destruct c; simpl; eauto. Qed.

(** A state of the program and the meanings of its events. *)
Definition state_ok (s : heap A * list (pevent A)) (ms : list (meaning A)) : Prop :=
  exists D, heap_ok (fst s) D /\ Forall2 (event_ok D) (snd s) ms.
Lemma events_nth D es ms i : Forall2 (event_ok D) es ms ->
  match nth_error es i, nth_error ms i with
  | Some e, Some m => event_ok D e m
  | None, None => True
  | _, _ => False
  end.
Proof. intros H; revert i; induction H as [|e m es ms H H' IH]; intros [|i]; simpl; auto. apply IH. Qed.
Lemma events_more D D' es ms : Forall2 (event_ok D) es ms -> Forall2 (event_ok (D ++ D')) es ms.
Proof. intros H; induction H; constructor; auto using event_ok_more. Qed.
Lemma state_add h' D D' e m es ms : heap_ok h' (D ++ D') -> event_ok (D ++ D') e m -> Forall2 (event_ok D) es ms ->
  state_ok (h', es ++ [e]) (ms ++ [m]).
Proof.
  intros H He Hs. exists (D ++ D'). split; [assumption|]. apply Forall2_app; [apply events_more; assumption|].
  constructor; [assumption|constructor].
Qed.

Lemma step_ok s ms o : state_ok s ms ->
  fst (step s o) = fst (mstep ms o) /\ state_ok (snd (step s o)) (snd (mstep ms o)) /\
  (match o with DeriveValue _ _ | Get _ _ => True | _ => hp_calls (fst (snd (step s o))) = hp_calls (fst s) end).
Proof.
  destruct s as [h es]. intros (D & H & Hs). simpl in H, Hs.
  assert (M : forall c ty it v f a d rv rf ra (m : meaning A),
    arg_ok D (value_lazy c) v rv -> arg_ok D (names_lazy c) f rf -> arg_ok D (names_lazy c) a ra ->
    m EventType = Ok ty -> m IonType = Ok it -> m Depth = Ok d -> m Value = rv -> m FieldName = rf -> m Annotations = ra ->
    let r := (let '(e, h) := construct h c ty it v f a d in (@Made A, (h, es ++ [e]))) in
    fst r = Made /\ state_ok (snd r) (ms ++ [m]) /\ hp_calls (fst (snd r)) = hp_calls h).
  { intros c ty it v f a d rv rf ra m Hv Hf Ha M1 M2 M3 M4 M5 M6.
    destruct (construct_ok h D c ty it v f a d rv rf ra m H Hv Hf Ha M1 M2 M3 M4 M5 M6) as (e & h' & D' & E & K1 & K2 & K3).
    rewrite E. simpl. split; [reflexivity|]. split; [|assumption]. eapply state_add; eassumption. }
  assert (K0 : state_ok (h, es) ms) by (exists D; split; assumption).
  destruct o as [ty it v f a d|ty it v f a d|ty it v f a d|i x|i x|i x|i x|i at_]; unfold step, mstep.
  - eapply M; simpl; eauto.
  - eapply M; simpl; eauto.
  - eapply M; simpl; eauto.
  - pose proof (events_nth D es ms i Hs) as N. destruct (nth_error es i) as [e|], (nth_error ms i) as [m|]; try contradiction; [|auto].
    destruct (event_args h D e m H N) as (Av & Af & Aa). destruct N as (_ & T1 & T2 & T3 & _).
    unfold derive_field_name. eapply (M _ _ _ _ _ _ _ _ _ _ (but m FieldName (Ok x))); simpl; eauto using argument_ok.
  - pose proof (events_nth D es ms i Hs) as N. destruct (nth_error es i) as [e|], (nth_error ms i) as [m|]; try contradiction; [|auto].
    destruct (event_args h D e m H N) as (Av & Af & Aa). destruct N as (_ & T1 & T2 & T3 & _).
    unfold derive_annotations. eapply (M _ _ _ _ _ _ _ _ _ _ (but m Annotations (Ok x))); simpl; eauto using argument_ok.
  - pose proof (events_nth D es ms i Hs) as N. destruct (nth_error es i) as [e|], (nth_error ms i) as [m|]; try contradiction; [|auto].
    destruct N as (_ & T1 & T2 & T3 & V & F & N).
    destruct (read_ok h D _ _ H F) as (h1 & E1 & H1). unfold derive_value. rewrite E1.
    destruct (m FieldName) as [f|y] eqn:Ef.
    + destruct (read_ok h1 D _ _ H1 N) as (h2 & E2 & H2). rewrite E2.
      destruct (m Annotations) as [a|y] eqn:Ea; simpl.
      * split; [reflexivity|]. split; [|exact I]. rewrite <- (app_nil_r D) in H2.
        eapply state_add; [exact H2| |exact Hs]. rewrite app_nil_r.
        unfold event_ok, lazy_slots; cbn; repeat split; eauto.
      * split; [reflexivity|]. split; [|exact I]. exists D. split; assumption.
    + simpl. split; [reflexivity|]. split; [|exact I]. exists D. split; assumption.
  - pose proof (events_nth D es ms i Hs) as N. destruct (nth_error es i) as [e|], (nth_error ms i) as [m|]; try contradiction; [|auto].
    destruct (event_args h D e m H N) as (Av & Af & Aa). destruct N as (_ & T1 & T2 & T3 & _).
    unfold derive_depth. eapply (M _ _ _ _ _ _ _ _ _ _ (but m Depth (Ok x))); simpl; eauto.
  - pose proof (events_nth D es ms i Hs) as N. destruct (nth_error es i) as [e|], (nth_error ms i) as [m|]; try contradiction; [|auto].
    destruct N as (_ & T1 & T2 & T3 & V & F & N).
    assert (G : exists h', get h e at_ = (m at_, h') /\ heap_ok h' D).
    { destruct at_; simpl; rewrite ?T1, ?T2, ?T3; eauto using read_ok. }
    destruct G as (h' & G & H'). rewrite G. simpl. split; [reflexivity|]. split; [|exact I]. exists D; split; assumption.
Qed.
Lemma run_ok os : forall s ms, state_ok s ms -> fst (run s os) = mrun ms os /\ exists ms', state_ok (snd (run s os)) ms'.
Proof.
  induction os as [|o os IH]; intros s ms H; simpl.
  - split; [reflexivity|]. exists ms; assumption.
  - destruct (step_ok s ms o H) as (E & K & _).
    destruct (step s o) as [x s1], (mstep ms o) as [y ms1]. simpl in E, K. subst y.
    destruct (IH s1 ms1 K) as [E2 K2]. destruct (run s1 os) as [xs s2]. simpl in *. split; [f_equal; assumption|assumption].
Qed.
Lemma start_ok : state_ok (heap_new, []) [].
Proof. exists []. split; [split; [reflexivity|]|constructor]. intros [|a] t r; discriminate. Qed.
(** What a thunk has computed it keeps. *)
Definition holds (h : heap A) (a : nat) (x : A) : Prop := exists t, nth_error (hp_thunks h) a = Some t /\ th_value t = Some x.
Lemma call_length fuel : forall (h : heap A) a, length (hp_thunks (snd (call fuel h a))) = length (hp_thunks h).
Proof.
  induction fuel as [|f IH]; intros h a; simpl; [reflexivity|].
  destruct (nth_error (hp_thunks h) a) as [t|]; [|reflexivity].
  destruct (th_value t); [reflexivity|].
  destruct (th_delegate t) as [r|b].
  - destruct r; simpl; rewrite ?store_length; reflexivity.
  - specialize (IH h b). destruct (call f h b) as [[y|e] h1]; simpl in *; rewrite ?store_length; assumption.
Qed.
Lemma store_holds (h : heap A) a t b x n : a <> b -> holds h b x -> holds (mkheap (store (hp_thunks h) a t) n) b x.
Proof.
  intros Hne (u & E & V). exists u. simpl. rewrite store_nth. destruct (Nat.eqb_spec a b); [contradiction|]. auto.
Qed.
Lemma call_keeps fuel : forall (h : heap A) a b x, holds h b x -> holds (snd (call fuel h a)) b x.
Proof.
  induction fuel as [|f IH]; intros h a b x Hb; simpl; [assumption|].
  destruct (nth_error (hp_thunks h) a) as [t|] eqn:E; [|assumption].
  destruct (th_value t) eqn:V; [assumption|].
  assert (a <> b) by (intros ->; destruct Hb as (u & E2 & V2); congruence).
  destruct (th_delegate t) as [r|c].
  - destruct r; simpl; [|exact Hb]. apply (store_holds (mkheap (hp_thunks h) 0)); assumption.
  - specialize (IH h c b x Hb). destruct (call f h c) as [[y|e] h1]; simpl in *; [|exact IH]. apply store_holds; assumption.
Qed.
Lemma call_holds fuel (h : heap A) a x : fst (call fuel h a) = Ok x -> holds (snd (call fuel h a)) a x.
Proof.
  destruct fuel as [|f]; simpl; [discriminate|].
  destruct (nth_error (hp_thunks h) a) as [t|] eqn:E; [|discriminate].
  destruct (th_value t) eqn:V; [simpl; intros H; injection H as <-; exists t; auto|].
  destruct (th_delegate t) as [r|c] eqn:Ed.
  - destruct r as [y|e]; simpl; [|discriminate]. intros H; injection H as <-. eexists. simpl. rewrite store_nth, Nat.eqb_refl, E. eauto.
  - pose proof (call_length f h c) as L. destruct (call f h c) as [[y|e] h1]; simpl in *; [|discriminate]. intros H; injection H as <-.
    eexists. simpl. rewrite store_nth, Nat.eqb_refl.
    destruct (nth_error (hp_thunks h1) a) eqn:E1; [eauto|].
    apply nth_error_None in E1. assert (a < length (hp_thunks h))%nat by (apply nth_error_Some; congruence). lia.
Qed.
Lemma holds_call fuel (h : heap A) a x : holds h a x -> call (S fuel) h a = (Ok x, h).
Proof. intros (t & E & V). simpl. rewrite E, V. reflexivity. Qed.
Lemma read_keeps (h : heap A) s b x : holds h b x -> holds (snd (read_slot h s)) b x.
Proof. intros H. destruct s; simpl; auto. apply (call_keeps (S a)). assumption. Qed.
Lemma memoizing_keeps (h : heap A) s b x : holds h b x -> holds (snd (memoizing h s)) b x.
Proof. intros (t & E & V). exists t. split; [|assumption]. apply nth_error_app_more. assumption. Qed.
Lemma construct_keeps (h : heap A) c ty it v f a d b x : holds h b x -> holds (snd (construct h c ty it v f a d)) b x.
Proof.
  intros H. destruct c; cbn [construct]; [exact H| |].
  - pose proof (memoizing_keeps h v b x H) as K. destruct (memoizing h v). exact K.
  - pose proof (memoizing_keeps h f b x H) as K1. destruct (memoizing h f) as [f' h1]. cbn in K1.
    pose proof (memoizing_keeps h1 a b x K1) as K2. destruct (memoizing h1 a) as [a' h2]. cbn in K2.
    pose proof (memoizing_keeps h2 v b x K2) as K3. destruct (memoizing h2 v) as [v' h3]. exact K3.
Qed.
(** Steps keep events and what has been computed. *)
Definition grows (s s' : heap A * list (pevent A)) : Prop :=
  (forall b x, holds (fst s) b x -> holds (fst s') b x) /\ (forall i e, nth_error (snd s) i = Some e -> nth_error (snd s') i = Some e).
Lemma construct_grows h es c ty it v f a d :
  grows (h, es) (snd (let '(e, h) := construct h c ty it v f a d in (@Made A, (h, es ++ [e])))).
Proof.
  pose proof (construct_keeps h c ty it v f a d) as K. destruct (construct h c ty it v f a d) as [e h']. split; cbn in *; [exact K|].
  intros i e' H. apply nth_error_app_more. assumption.
Qed.
Lemma step_grows s o : grows s (snd (step s o)).
Proof.
  destruct s as [h es]. assert (R : grows (h, es) (h, es)) by (split; auto).
  destruct o as [ty it v f a d|ty it v f a d|ty it v f a d|i x|i x|i x|i x|i at_]; unfold step;
    try (destruct (nth_error es i) as [e|]; [|exact R]); try apply construct_grows.
  - unfold derive_value. pose proof (read_keeps h (pe_field e)) as K1. destruct (read_slot h (pe_field e)) as [[f|y] h1]; cbn in K1; [|split; cbn; auto].
    pose proof (read_keeps h1 (pe_annot e)) as K2. destruct (read_slot h1 (pe_annot e)) as [[a|y] h2]; cbn in K2; split; cbn; auto.
    intros j e' H. apply nth_error_app_more. assumption.
  - assert (K : forall b x, holds h b x -> holds (snd (get h e at_)) b x) by (intros b x H; destruct at_; cbn; auto using read_keeps).
    destruct (get h e at_) as [r h1]. split; cbn in *; auto.
Qed.
Lemma run_grows os : forall s, grows s (snd (run s os)).
Proof.
  induction os as [|o os IH]; intros s; simpl; [split; auto|].
  pose proof (step_grows s o) as [K1 K2]. destruct (step s o) as [x s1]. destruct (IH s1) as [L1 L2]. destruct (run s1 os) as [xs s2].
  split; cbn in *; auto.
Qed.
End PROOFS.

(** * Theorems *)

(** Whatever a program does with events, it sees what it would if every event were just its attributes, unchangeable: an event derived from
    another has the new attribute and the other's remaining ones (of any class, whatever was read before, and also if one raises). *)
Theorem C82_derive : forall (A : Type) (os : list (op A)), fst (run (heap_new, []) os) = mrun [] os.
Proof. intros A os. apply run_ok, start_ok. Qed.

(** Making an event and deriving a field name, annotations or a depth from one computes nothing, after any history. *)
Theorem C82_lazy : forall (A : Type) (os : list (op A)) (o : op A),
  let s := snd (run (heap_new, []) os) in
  match o with DeriveValue _ _ | Get _ _ => True | _ => hp_calls (fst (snd (step s o))) = hp_calls (fst s) end.
Proof.
  intros A os o s. destruct (run_ok os _ _ (@start_ok A)) as [_ [ms K]].
  destruct (step_ok _ _ o K) as (_ & _ & L). exact L.
Qed.

(** What has been read once is not computed again, whatever happens in between. *)
Theorem C82_once : forall (A : Type) (os os' : list (op A)) i at_ x,
  let first := step (snd (run (heap_new, []) os)) (Get i at_) in
  fst first = Got (Ok x) ->
  let s := snd (run (snd first) os') in
  fst (step s (Get i at_)) = Got (Ok x) /\ hp_calls (fst (snd (step s (Get i at_)))) = hp_calls (fst s).
Proof.
  intros A os os' i at_ x first Hf s. subst s first. set (s0 := snd (run (heap_new, []) os)) in *. clearbody s0. destruct s0 as [h es].
  destruct (nth_error es i) as [e|] eqn:E; [|unfold step in Hf; rewrite E in Hf; discriminate].
  set (s := snd (run (snd (step (h, es) (Get i at_))) os')).
  assert (G : exists h1, s = snd (run (h1, es) os') /\ get h e at_ = (Ok x, h1)).
  { subst s. unfold step in *. rewrite E in *. destruct (get h e at_) as [r h1]. cbn in *. exists h1. split; [reflexivity|congruence]. }
  clear Hf. destruct G as (h1 & -> & G). destruct (run_grows os' (h1, es)) as [K1 K2]. specialize (K2 i e E).
  destruct (snd (run (h1, es) os')) as [h2 es2]. cbn [fst snd] in *. unfold step. rewrite K2.
  assert (R : forall sl, read_slot h sl = (Ok x, h1) -> read_slot h2 sl = (Ok x, h2)).
  { intros sl Hs. destruct sl as [y|a|r]; cbn [read_slot] in *; [congruence| |discriminate].
    apply holds_call, K1. pose proof (call_holds (S a) h a x) as C. rewrite Hs in C. auto. }
  assert (G2 : get h2 e at_ = (Ok x, h2)) by (destruct at_; cbn [get] in *; auto; congruence).
  rewrite G2. split; reflexivity.
Qed.

(** [derive_value] computes nothing either if the event is not of the managed reader: not even the value which it replaces. *)
Theorem C82_value_lazy : forall (A : Type) (os : list (op A)) i x e,
  let s := snd (run (heap_new, []) os) in
  nth_error (snd s) i = Some e -> pe_class e <> ManagedEvent -> hp_calls (fst (snd (step s (DeriveValue i x)))) = hp_calls (fst s).
Proof.
  intros A os i x e s Hi Hc. destruct (run_ok os _ _ (@start_ok A)) as [_ [ms (D & _ & K)]]. fold s in K.
  pose proof (events_nth D _ _ i K) as N. rewrite Hi in N. destruct (nth_error ms i) as [m|]; [|contradiction].
  destruct N as [L _]. unfold lazy_slots in L. destruct s as [h es]. cbn [snd fst] in *. unfold step. rewrite Hi. unfold derive_value.
  destruct (pe_class e); [| |congruence]; destruct L as (_ & [y Ly] & [z Lz]); rewrite Ly, Lz; reflexivity.
Qed.

(** Cases: a managed event, read and derived in turns; its annotations cannot be resolved. *)
Theorem C82_cases :
  fst (run (heap_new, [])
    [NewManaged 1 2 (Ok 10) (Ok 20) (Err IonException) 0; DeriveFieldName 0 21; Get 0 FieldName; Get 1 FieldName; Get 1 Value;
     DeriveValue 1 11; DeriveAnnotations 1 30; DeriveValue 2 11; DeriveDepth 3 5; Get 4 Value; Get 4 FieldName; Get 4 Annotations; Get 4 Depth;
     Get 0 Annotations; NewThunk 1 2 (Err ValueError) 20 30 0; DeriveDepth 5 1; Get 6 Value; DeriveValue 6 12; Get 7 Value; Get 9 Value]%Z) =
  [Made; Made; Got (Ok 20); Got (Ok 21); Got (Ok 10); Raised IonException; Made; Made; Made; Got (Ok 11); Got (Ok 21); Got (Ok 30); Got (Ok 5);
   Got (Err IonException); Made; Made; Got (Err ValueError); Made; Got (Ok 12); NoEvent]%Z.
Proof. reflexivity. Qed.
