(** The events of the text reader are well nested whatever is sent to it, malformed data included. *)
From Verif Require Import Base BaseFacts CoreModel BinReaderModel SymbolsModel TextNumbers TextWriterModel TextReaderModel TextReaderFacts.
Local Open Scope Z_scope.

(** * Specification

    The open containers, innermost first; what each event does to them, and what the event must look
    like.  [flushed]: the application sent NEXT after INCOMPLETE (there is no more data). *)
Definition in_struct (st : list iontype) : Prop := exists r, st = TStruct :: r.

Inductive text_nest (flushed : bool) : list iontype -> event -> list iontype -> Prop :=
| tnest_scalar st t v fld an :
    (is_container t = true -> v = EvNone) (* typed nulls are scalars *) -> (fld <> None -> in_struct st) ->
    text_nest flushed st (mkev EScalar (Some t) v fld an (Some (zlen st))) st
| tnest_start st t fld an :
    is_container t = true -> (fld <> None -> in_struct st) ->
    text_nest flushed st (mkev EContainerStart (Some t) EvNone fld an (Some (zlen st))) (t :: st)
| tnest_end st t :
    text_nest flushed (t :: st) (mkev EContainerEnd (Some t) EvNone None [] (Some (zlen st))) st
| tnest_version :
    text_nest flushed [] version_marker_event []
| tnest_stream_end st :
    (flushed = false -> st = []) ->
    text_nest flushed st stream_end_event st
| tnest_incomplete st :
    text_nest flushed st incomplete_event st.

(** * The invariant *)

Definition scalar_ok (st : list iontype) (ev : event) : Prop :=
  exists t v fld an, ev = mkev EScalar (Some t) v fld an (Some (zlen st)) /\ (is_container t = true -> v = EvNone) /\
    (fld <> None -> in_struct st).
Definition start_ok (st : list iontype) (ev : event) : Prop :=
  exists t fld an, ev = mkev EContainerStart (Some t) EvNone fld an (Some (zlen st)) /\ is_container t = true /\
    (fld <> None -> in_struct st).
Definition event_ok (st : list iontype) (ev : event) : Prop :=
  scalar_ok st ev \/ start_ok st ev \/ (st = [] /\ ev = version_marker_event).

Definition ctx_ok (st : list iontype) (k : tctx) : Prop := k_field k <> None -> in_struct st.
Definition typed (k : tctx) : Prop := exists t, k_type k = Some t /\ is_container t = false.

Fixpoint hk_ok (st : list iontype) (h : hs) (k : tctx) : Prop :=
  match h with
  | HSlash ev | HLongQuote ev => scalar_ok st ev
  | HNeg | HZero | HNum | HNumeric _ _ | HTs _ _ _ _ _ | HTsZero => typed k
  | HComm0 w | HLine w | HBlock w _ => match w with Some h' => hk_ok st h' k | None => True end
  | HSexpSlash w ev =>
    match w with Some h' => hk_ok st h' k | None => True end /\ match ev with Some e => scalar_ok st e | None => True end
  | HLong _ _ clob is_field => (clob = false -> is_field = false -> typed k) /\ (is_field = true -> in_struct st)
  | HStr clob is_field => clob = false -> is_field = false -> typed k
  | HSq1 f | HSq2 f => f = true -> in_struct st
  | HCont t => is_container t = true
  | _ => True
  end.

Definition env_ok (st : list iontype) (v : tenv) : Prop := e_depth v = zlen st /\ e_type v = hd_error st.

Definition ans_ok (st : list iontype) (a : answer) : Prop :=
  let '(t, k, _) := a in
  ctx_ok st k /\
  match t with
  | TEv ev comp => event_ok st ev /\
                   match comp with
                   | Some (h, k') => ctx_ok st k' /\ match h with Some h' => hk_ok st h' k' | None => True end /\ scalar_ok st ev
                   | None => True
                   end
  | TGo h => hk_ok st h k
  | TBack => True
  end.

Section Handlers.
Variables (st : list iontype) (v : tenv).
Hypothesis (EV : env_ok st v).

Definition good (r : res answer) : Prop := forall a, r = Ok a -> ans_ok st a.

Lemma field_set_type t k : k_field (set_type t k) = k_field k.
Proof. unfold set_type. now destruct (opt_eqb _ _ _). Qed.
Lemma type_set_type t k : k_type (set_type t k) = t.
Proof.
  unfold set_type. destruct (opt_eqb iontype_eqb t (k_type k)) eqn:E; [|reflexivity].
  destruct t as [t|], (k_type k) as [t'|]; cbn in E; try discriminate; [|reflexivity].
  f_equal. symmetry. destruct t, t'; cbn in E; congruence.
Qed.
Lemma field_set_unicode q k k' : set_unicode q k = Ok k' -> k_field k' = k_field k /\ k_type k' = k_type k.
Proof. unfold set_unicode. destruct (k_codes k); [destruct (Bool.eqb _ _); [|discriminate]|]; intros [= <-]; auto. Qed.

Lemma ctx_push k c : ctx_ok st k -> ctx_ok st (push k c). Proof. auto. Qed.
Lemma ctx_with_val k l : ctx_ok st k -> ctx_ok st (with_val k l). Proof. auto. Qed.
Lemma ctx_set_quoted b k : ctx_ok st k -> ctx_ok st (set_quoted b k). Proof. auto. Qed.
Lemma ctx_set_self b k : ctx_ok st k -> ctx_ok st (set_self b k). Proof. auto. Qed.
Lemma ctx_set_line b k : ctx_ok st k -> ctx_ok st (set_line b k). Proof. auto. Qed.
Lemma ctx_set_pending s k : ctx_ok st k -> ctx_ok st (set_pending s k). Proof. auto. Qed.
Lemma ctx_set_comp k : ctx_ok st k -> ctx_ok st (set_comp k). Proof. auto. Qed.
Lemma ctx_set_empty k : ctx_ok st (set_empty_symbol k). Proof. intros []. reflexivity. Qed.
Lemma ctx_new : ctx_ok st child_new. Proof. intros []. reflexivity. Qed.
Lemma ctx_set_type t k : ctx_ok st k -> ctx_ok st (set_type t k).
Proof. unfold ctx_ok. now rewrite field_set_type. Qed.
Lemma ctx_text_push f k l : ctx_ok st k -> ctx_ok st (text_push f k l).
Proof. unfold text_push. destruct f; auto. destruct (k_pend k) as [[]|]; auto. Qed.
Lemma ctx_if (b : bool) k k' : ctx_ok st k -> ctx_ok st k' -> ctx_ok st (if b then k else k').
Proof. destruct b; auto. Qed.
Hint Resolve ctx_push ctx_with_val ctx_set_quoted ctx_set_self ctx_set_line ctx_set_pending ctx_set_comp ctx_set_empty ctx_new
  ctx_set_type ctx_text_push ctx_if : ctx.

Lemma typed_set t k : is_container t = false -> typed (set_type (Some t) k).
Proof. exists t. now rewrite type_set_type. Qed.
Lemma typed_push k c : typed k -> typed (push k c). Proof. auto. Qed.
Lemma typed_with_val k c : typed k -> typed (with_val k c). Proof. auto. Qed.
Lemma typed_set_self b k : typed k -> typed (set_self b k). Proof. auto. Qed.
Lemma typed_set_line b k : typed k -> typed (set_line b k). Proof. auto. Qed.
Lemma typed_set_quoted b k : typed k -> typed (set_quoted b k). Proof. auto. Qed.
Lemma typed_text_push f k l : typed k -> typed (text_push f k l).
Proof. unfold text_push. destruct f; auto. destruct (k_pend k) as [[]|]; auto. Qed.
Lemma typed_if (b : bool) k k' : typed k -> typed k' -> typed (if b then k else k').
Proof. destruct b; auto. Qed.
Hint Resolve typed_set typed_push typed_with_val typed_set_self typed_set_line typed_set_quoted typed_text_push typed_if : ctx.

Lemma scalar_value k t x : ctx_ok st k -> (is_container t = true -> x = EvNone) -> scalar_ok st (value_event v k EScalar (Some t) x).
Proof. intros C T. destruct EV as (D & _). exists t, x, (k_field k), (k_annot k). unfold value_event. rewrite D. auto. Qed.
Lemma scalar_typed k x : ctx_ok st k -> typed k -> scalar_ok st (value_event v k EScalar (k_type k) x).
Proof. intros C (t & -> & T). apply scalar_value; [exact C|]. congruence. Qed.
Lemma symbol_event_ok k s ev : ctx_ok st k -> symbol_event v k s = Ok ev ->
  scalar_ok st ev \/ (st = [] /\ ev = version_marker_event /\ exists l, s = SIvm l).
Proof.
  intros C. unfold symbol_event. destruct s as [l|t|l].
  1,2: intros [= <-]; left; apply scalar_value; [exact C|discriminate].
  destruct (k_annot k); [|discriminate]. destruct (e_depth v =? 0) eqn:D; [|discriminate].
  destruct (zlist_eqb l TEXT_ION_1_0); [|discriminate]. intros [= <-]. right. split; [|eauto].
  destruct EV as (D' & _). destruct st; [reflexivity|]. rewrite zlen_cons in D'. pose proof (zlen_nonneg l0). lia.
Qed.
Lemma symbol_event_scalar k l ev : ctx_ok st k -> symbol_event v k (SCodes l) = Ok ev -> scalar_ok st ev.
Proof. intros C E. destruct (symbol_event_ok _ _ _ C E) as [H|(_ & _ & ? & ?)]; [exact H|discriminate]. Qed.

Lemma good_err e : good (Err e). Proof. intros ? ?. discriminate. Qed.
Lemma good_illegal : good illegal. Proof. apply good_err. Qed.
Lemma good_go k h : ctx_ok st k -> hk_ok st h k -> good (go k h).
Proof. intros C H a [= <-]. split; auto. Qed.
Lemma good_back k : ctx_ok st k -> good (back k).
Proof. intros C a [= <-]. split; auto. Qed.
Lemma good_emits k ev : ctx_ok st k -> event_ok st ev -> good (emits k ev).
Proof. intros C H a [= <-]. repeat split; auto. Qed.
Lemma good_emits_then k ev h k' : ctx_ok st k -> scalar_ok st ev -> ctx_ok st k' ->
  match h with Some h' => hk_ok st h' k' | None => True end -> good (emits_then k ev h k').
Proof. intros C H C' Hh a [= <-]. split; [exact C|]. split; [now left|]. repeat split; auto. Qed.
Lemma good_bind {A} (x : res A) f : (forall a, x = Ok a -> good (f a)) -> good (let* a := x in f a).
Proof. intros H. destruct x; cbn [bind]; [now apply H|apply good_err]. Qed.
Lemma good_if (b : bool) x y : (b = true -> good x) -> (b = false -> good y) -> good (if b then x else y).
Proof. destruct b; auto. Qed.
Lemma good_putting_back c r : good r -> good (putting_back v c r).
Proof.
  intros G a E. unfold putting_back in E. apply bind_ok in E. destruct E as (u & _ & E).
  apply bind_ok in E. destruct E as ([[t k] u'] & Er & E). injection E as <-. exact (G _ Er).
Qed.
Lemma good_thunk k r : ctx_ok st k -> typed k -> event_ok st (thunk_event v k r).
Proof. intros C T. left. now apply scalar_typed. Qed.
Hint Resolve good_thunk : ctx.

Lemma good_start_numeric n c k : ctx_ok st k -> typed k -> good (start_numeric n c k).
Proof. intros C T. unfold start_numeric. destruct n; try apply good_go; auto with ctx; try (cbn; auto with ctx).
  all: apply good_if; intros; [apply good_go; cbn; auto with ctx|apply good_err]. Qed.
Lemma good_start_ts c k : ctx_ok st k -> good (start_ts c k).
Proof. intros C. unfold start_ts. cbv zeta. apply good_if; intros; [apply good_go; cbn; auto with ctx|apply good_err]. Qed.
Lemma good_start_zero c k : ctx_ok st k -> good (start_zero c k).
Proof.
  intros C. unfold start_zero. assert (G : good (go (push (set_type (Some TInt) k) c) HZero)) by (apply good_go; cbn; auto with ctx).
  intros a E. repeat match type of E with (match ?x with _ => _ end) = _ => destruct x; try discriminate end; exact (G a E).
Qed.
Hint Resolve good_start_numeric good_start_ts good_start_zero : ctx.
Lemma good_number_end c k r : ctx_ok st k -> typed k -> good (number_end v c k r).
Proof.
  intros C T. unfold number_end. cbv zeta. apply good_if; intros _.
  - apply good_go; [exact C|]. cbn [hk_ok]. now apply scalar_typed.
  - apply good_emits; auto with ctx.
Qed.
Lemma good_symbol_end c k f s : ctx_ok st k -> good (symbol_end v c k f s).
Proof.
  intros C. unfold symbol_end. apply good_if; intros _.
  - apply good_back. auto with ctx.
  - apply good_bind. intros ev E. apply good_emits; [exact C|].
    destruct (symbol_event_ok _ _ _ C E) as [H|(H1 & H2 & _)]; [now left|right; right; auto].
Qed.
Lemma start_unquoted_ok c k f h k' : ctx_ok st k -> start_unquoted v c k f = Ok (h, k') -> ctx_ok st k' /\ hk_ok st h k'.
Proof.
  intros C E. unfold start_unquoted in E. apply bind_ok in E. destruct E as (k1 & E1 & E).
  apply field_set_unicode in E1. destruct E1 as (F & _).
  assert (C1 : ctx_ok st k1) by (unfold ctx_ok; now rewrite F).
  cbv zeta in E. destruct (negb _); [destruct (_ && _); [|discriminate]|]; injection E as <- <-; cbn; auto.
Qed.
Lemma good_go_unquoted c k f : ctx_ok st k -> good (go_unquoted v c k f).
Proof.
  intros C. unfold go_unquoted. apply good_bind. intros [h k'] E. destruct (start_unquoted_ok _ _ _ _ _ C E).
  now apply good_go.
Qed.
Lemma start_oper_ok c k h k' : ctx_ok st k -> start_oper c k = Ok (h, k') -> ctx_ok st k' /\ hk_ok st h k'.
Proof.
  intros C E. unfold start_oper in E. destruct (is_op c); [|discriminate]. apply bind_ok in E. destruct E as (k1 & E1 & E).
  apply field_set_unicode in E1. destruct E1 as (F & _).
  injection E as <- <-. split; [|exact Logic.I]. apply ctx_push. unfold ctx_ok. now rewrite F.
Qed.
Lemma good_go_oper c k : ctx_ok st k -> good (go_oper c k).
Proof.
  intros C. unfold go_oper. apply good_bind. intros [h k'] E. destruct (start_oper_ok _ _ _ _ C E). now apply good_go.
Qed.
Lemma ctx_unicode q k k' : ctx_ok st k -> set_unicode q k = Ok k' -> ctx_ok st k'.
Proof. intros C E. apply field_set_unicode in E. destruct E as (F & _). unfold ctx_ok. now rewrite F. Qed.
Lemma typed_unicode q k k' : typed k -> set_unicode q k = Ok k' -> typed k'.
Proof. intros C E. apply field_set_unicode in E. destruct E as (_ & F). unfold typed. now rewrite F. Qed.
Hint Resolve good_number_end good_symbol_end good_go_unquoted good_go_oper : ctx.

Lemma good_start_long k f : ctx_ok st k -> (f = true -> in_struct st) -> good (start_long k f).
Proof.
  intros C F. unfold start_long. cbv zeta. apply good_if; intros Hc; [apply good_err|].
  destruct (k_val _); [|apply good_err]. apply good_bind. intros k1 E1.
  assert (C1 : ctx_ok st k1) by (eapply ctx_unicode; [|exact E1]; apply ctx_if; auto with ctx).
  assert (T1 : is_clob k = false -> f = false -> typed k1).
  { intros A B. eapply typed_unicode; [|exact E1]. rewrite A, B. cbn. auto with ctx. }
  apply good_go; [auto with ctx|]. cbn [hk_ok]. split; [|exact F]. intros A B. rewrite B. now apply T1.
Qed.
Lemma good_start_string k f : ctx_ok st k -> good (start_string k f).
Proof.
  intros C. unfold start_string. cbv zeta. apply good_bind. intros k1 E1.
  assert (C1 : ctx_ok st k1) by exact (ctx_unicode _ _ _ C E1).
  apply good_if; intros Hc; [apply good_err|].
  match goal with |- context [k_val ?x] => set (k2 := x) end.
  assert (C2 : ctx_ok st k2) by (unfold k2; apply ctx_if; auto with ctx).
  assert (G : good (go (if f then set_pending (SCodes []) k2 else k2) (HStr (is_clob k) f))).
  { apply good_go; [auto with ctx|]. cbn [hk_ok]. intros A B. rewrite B. unfold k2. rewrite A, B. cbn. auto with ctx. }
  destruct f; [destruct (k_val k2); [exact G|apply good_err]|exact G].
Qed.
Lemma start_quoted_symbol_ok c k f h k' : ctx_ok st k -> start_quoted_symbol c k f = Ok (h, k') -> ctx_ok st k' /\ hk_ok st h k'.
Proof.
  intros C E. unfold start_quoted_symbol in E. destruct (_ && _); [discriminate|]. cbv zeta in E.
  apply bind_ok in E. destruct E as (k1 & E1 & E). destruct (is_clob k); [discriminate|]. destruct (negb _); [discriminate|].
  injection E as <- <-. split; [|exact Logic.I]. pose proof (ctx_unicode _ _ _ C E1). auto with ctx.
Qed.
Lemma good_start_blob c k : ctx_ok st k -> good (start_blob c k).
Proof. intros C. unfold start_blob. cbv zeta. repeat (apply good_if; intros _); try apply good_err; apply good_go; cbn; auto with ctx. Qed.
Lemma good_start_clob_end c k : ctx_ok st k -> good (start_clob_end c k).
Proof. intros C. unfold start_clob_end. cbv zeta. repeat (apply good_if; intros _); try apply good_err; apply good_go; cbn; auto with ctx. Qed.
Hint Resolve good_start_long good_start_string good_start_blob good_start_clob_end : ctx.

Ltac gd :=
  cbv zeta;
  repeat first
  [ solve [auto with ctx]
  | apply good_err | apply good_illegal
  | (apply good_go; [solve [auto with ctx]|cbn [hk_ok]; auto with ctx])
  | (apply good_back; auto with ctx)
  | (apply good_emits; [solve [auto with ctx]|])
  | (apply good_bind; let a := fresh "a" in let E := fresh "E" in intros a E)
  | (apply good_if; intros ?)
  | match goal with |- good (match ?x with _ => _ end) => destruct x eqn:? end ].

Lemma good_send_numeric n p c k : ctx_ok st k -> typed k -> good (send_numeric v n p c k).
Proof. intros C T. unfold send_numeric. gd. Qed.
Lemma good_send_num c k : ctx_ok st k -> typed k -> good (send_num v c k).
Proof. intros C T. unfold send_num. gd. Qed.
Lemma good_send_zero c k : ctx_ok st k -> typed k -> good (send_zero v c k).
Proof. intros C T. unfold send_zero. gd. Qed.
Lemma good_send_ts_zero c k : ctx_ok st k -> typed k -> good (send_ts_zero c k).
Proof. intros C T. unfold send_ts_zero. gd. Qed.
Lemma good_send_ts p s n t b c k : ctx_ok st k -> typed k -> good (send_ts v p s n t b c k).
Proof. intros C T. unfold send_ts. gd. Qed.
Lemma good_send_unquoted p f c k : ctx_ok st k -> good (send_unquoted v p f c k).
Proof. intros C. unfold send_unquoted. gd. Qed.
Lemma good_send_dollar p i co s m po f c k : ctx_ok st k -> good (send_dollar v p i co s m po f c k).
Proof. intros C. unfold send_dollar. gd. Qed.
Lemma good_send_null s c k : ctx_ok st k -> good (send_null v s c k).
Proof. intros C. unfold send_null. gd. left. apply scalar_value; auto. Qed.
Lemma check_keyword_ok s t x d m f c k b a : ctx_ok st k -> is_container t = false ->
  check_keyword v s t x d m f c k = Ok (b, Some a) -> ans_ok st a.
Proof.
  unfold check_keyword. intros C T H.
  assert (SV : event_ok st (value_event v k EScalar (Some t) x)).
  { left. apply scalar_value; [exact C|congruence]. }
  repeat match type of H with
  | Ok _ = Ok _ => injection H; clear H; intros; subst; cbn; auto
  | (if ?x then _ else _) = _ => destruct x
  | _ => discriminate
  end.
Qed.
Lemma good_send_kw a b t f m i c k : ctx_ok st k -> good (send_kw v a b t f m i c k).
Proof.
  intros C. unfold send_kw. intros x E.
  apply bind_ok in E. destruct E as ([n1 t1] & E1 & E).
  apply bind_ok in E. destruct E as ([[[n2 tr] fl] t2] & E2 & E).
  assert (C1 : forall x, t1 = Some x -> ans_ok st x).
  { intros y ->. destruct a; [|discriminate]. eapply check_keyword_ok in E1; auto. }
  assert (C2 : forall x, t2 = Some x -> ans_ok st x).
  { intros y ->. destruct b; [|destruct t; [|destruct f]].
    1-3: apply bind_ok in E2; destruct E2 as ([b2 t2] & E2 & E3); injection E3 as _ _ _ ->;
         eapply check_keyword_ok in E2; auto.
    injection E2 as _ _ _ ->. now apply C1. }
  destruct (n1 || n2 || tr || fl).
  - destruct t2 as [y|].
    + injection E as <-. now apply C2.
    + injection E as <-. cbn. auto.
  - revert E. match goal with |- ?x = _ -> _ => enough (G : good x) by (intros E; exact (G _ E)) end. gd.
    left. apply scalar_value; [exact C|discriminate].
Qed.
Lemma good_send_inf n m c k : ctx_ok st k -> good (send_inf v n m c k).
Proof.
  intros C. unfold send_inf. cbv zeta.
  apply good_if; intros _; [apply good_emits; [auto with ctx|]; left; apply scalar_value; auto with ctx; discriminate|].
  apply good_if; intros _; [apply good_go; cbn; auto with ctx|].
  apply good_bind. intros k1 E1. assert (C1 : ctx_ok st k1) by (eapply ctx_unicode; [|exact E1]; auto with ctx).
  apply good_if; intros _; [apply good_err|].
  assert (SV : scalar_ok st (value_event v k1 EScalar (Some TSymbol) (EvVal (VSymbol (as_token (SCodes (k_val k1))))))).
  { apply scalar_value; [exact C1|discriminate]. }
  cbn [symbol_event bind]. destruct m.
  - apply good_if; intros _; [now apply good_go_oper|]. apply good_emits; [exact C1|]. now left.
  - apply good_bind. intros [h k'] E2.
    destruct (fun X => start_unquoted_ok _ _ _ _ _ X E2) as (C2 & H2); [auto with ctx|]. now apply good_emits_then.
Qed.
Lemma good_send_string b f c k : ctx_ok st k -> (b = false -> f = false -> typed k) -> good (send_string v b f c k).
Proof.
  intros C T. unfold send_string. cbv zeta. apply good_if; intros _.
  - apply good_if; intros Hc.
    + apply good_emits; [auto with ctx|]. left. apply (scalar_typed (set_self true k)); [auto with ctx|].
      apply T; [now destruct b|now destruct f, b].
    + apply good_if; intros _; [apply good_back; auto with ctx|]. auto with ctx.
  - apply good_if; intros _; [apply good_err|]. apply good_go; [auto with ctx|]. cbn [hk_ok]. intros A B. auto with ctx.
Qed.
Lemma good_send_quoted_symbol f c k : ctx_ok st k -> good (send_quoted_symbol v f c k).
Proof. intros C. unfold send_quoted_symbol. gd. Qed.
Lemma good_send_quote1 f c k : ctx_ok st k -> (f = true -> in_struct st) -> good (send_quote1 f c k).
Proof.
  intros C F. unfold send_quote1. apply good_if; intros _; [apply good_go; cbn; auto with ctx|].
  apply good_bind. intros k1 E1. pose proof (ctx_unicode _ _ _ C E1) as C1. apply good_bind. intros [h k2] E2.
  destruct (start_quoted_symbol_ok _ _ _ _ _ C1 E2). now apply good_go.
Qed.
Lemma good_send_quote2 f c k : ctx_ok st k -> (f = true -> in_struct st) -> good (send_quote2 f c k).
Proof.
  intros C F. unfold send_quote2. apply good_bind. intros k1 E1. pose proof (ctx_unicode _ _ _ C E1) as C1.
  apply good_if; intros _; [now apply good_start_long|]. apply good_back. auto with ctx.
Qed.
Lemma good_send_lob0 q c k : ctx_ok st k -> good (send_lob0 q c k).
Proof.
  intros C. unfold send_lob0. cbv zeta.
  apply good_if; intros _; [apply good_if; intros _; [apply good_err|apply good_go; cbn; auto]|].
  apply good_if; intros _; [|apply good_if; intros _].
  - apply good_if; intros _; [apply good_err|]. apply good_bind. intros k1 E1. apply good_start_string. eapply ctx_unicode; [|exact E1]. auto with ctx.
  - apply good_bind. intros k1 E1.
    assert (C1 : ctx_ok st k1). { destruct (q =? 0); [eapply ctx_unicode; [|exact E1]; auto with ctx|now injection E1 as <-]. }
    apply good_if; intros _; [apply good_start_long; [exact C1|discriminate]|apply good_go; cbn; auto].
  - now apply good_start_blob.
Qed.
Lemma good_send_blob p d q c k : ctx_ok st k -> good (send_blob v p d q c k).
Proof.
  intros C. unfold send_blob. gd. left. apply scalar_value; [auto with ctx|discriminate].
Qed.
Lemma good_send_clob p c k : ctx_ok st k -> good (send_clob v p c k).
Proof.
  intros C. unfold send_clob. gd. left. apply scalar_value; [auto with ctx|discriminate].
Qed.
Lemma good_send_long q i b f c k : ctx_ok st k -> hk_ok st (HLong q i b f) k -> good (send_long v q i b f c k).
Proof.
  intros C (T & F). unfold send_long. cbv zeta.
  assert (C1 : ctx_ok st (set_self false k)) by auto with ctx.
  assert (T1 : b = false -> f = false -> typed (set_self false k)) by auto with ctx.
  assert (HO : forall q' i' k', (b = false -> f = false -> typed k') -> hk_ok st (HLong q' i' b f) k') by (intros; cbn; auto).
  assert (SV : b = false -> f = false ->
    scalar_ok st (value_event v (set_self false k) EScalar (k_type (set_self false k)) (text_value (set_self false k)))).
  { intros A B. apply scalar_typed; auto. }
  apply good_if; intros _.
  { apply good_if; intros _; apply good_go; auto with ctx. }
  destruct i.
  { apply good_if; intros _; [apply good_err|]. apply good_go; [auto with ctx|]. apply HO. intros A B. auto with ctx. }
  apply good_if; intros _.
  { apply good_if; intros Hfb; [apply good_err|]. apply orb_false_elim in Hfb. destruct Hfb as (-> & ->).
    apply good_if; intros _; [apply good_err|]. apply good_if; intros _.
    - apply good_if; intros _; [apply good_err|]. apply good_putting_back. apply good_go; [auto with ctx|]. now apply SV.
    - apply good_emits_then; auto with ctx. }
  apply good_if; intros _; [apply good_go; auto|].
  destruct b; [auto with ctx|].
  apply good_if; intros _.
  { apply good_if; intros Hs.
    - assert (f = false) as ->.
      { destruct f; [|reflexivity]. destruct (F eq_refl) as (r & Er). destruct EV as (_ & Et). rewrite Er in Et. cbn in Et.
        unfold in_sexp in Hs. rewrite Et in Hs. discriminate. }
      apply good_go; [auto|]. split; [apply HO; auto|now apply SV].
    - apply good_go; [auto|]. cbn [hk_ok]. split; auto. }
  destruct f; [apply good_if; intros _; [now apply good_back|apply good_err]|].
  apply good_emits; [auto|]. left. now apply SV.
Qed.

Lemma hk_ext : forall h k k', k_type k = k_type k' -> hk_ok st h k -> hk_ok st h k'.
Proof.
  fix IH 1. intros h k k' E H. assert (T : typed k -> typed k') by (unfold typed; now rewrite E).
  destruct h; cbn [hk_ok] in *; auto.
  - destruct w as [w|]; [exact (IH w k k' E H)|exact H].
  - destruct w as [w|]; [exact (IH w k k' E H)|exact H].
  - destruct w as [w|]; [exact (IH w k k' E H)|exact H].
  - destruct H as (H1 & H2). split; [|exact H2]. destruct w as [w|]; [exact (IH w k k' E H1)|exact H1].
  - destruct H as (H1 & H2). split; auto.
Qed.
Lemma start_comment_ok c w k h k' : ctx_ok st k -> match w with Some w' => hk_ok st w' k | None => True end ->
  start_comment c w k = Ok (h, k') -> ctx_ok st k' /\ hk_ok st h k'.
Proof.
  intros C H E. unfold start_comment in E.
  destruct (cz c =? 47).
  { injection E as <- <-. split; [auto with ctx|]. cbn [hk_ok]. destruct w as [w|]; [|exact H]. now apply (hk_ext w k). }
  destruct (cz c =? 42); [|destruct c; discriminate].
  injection E as <- <-. split; [auto with ctx|]. cbn [hk_ok]. destruct w as [w|]; [|exact H].
  apply (hk_ext w k); [|exact H]. now destruct (k_line k).
Qed.
Lemma good_comment_done w k : ctx_ok st k -> match w with Some w' => hk_ok st w' k | None => True end -> good (comment_done w k).
Proof.
  intros C H. unfold comment_done. destruct w as [w|]; [|apply good_back; auto with ctx].
  apply good_go; [auto with ctx|]. now apply (hk_ext w k).
Qed.

Theorem send_ok h c k : ctx_ok st k -> hk_ok st h k -> good (send v h c k).
Proof.
  intros C H. destruct h; cbn [send hk_ok] in *; cbv zeta.
  - apply good_if; intros _; [auto with ctx|]. apply good_if; intros _; [auto with ctx|].
    apply good_putting_back. apply good_go; cbn; auto.
  - now apply good_send_zero.
  - now apply good_send_num.
  - apply good_bind. intros [h' k'] E.
    destruct (start_comment_ok c None child_new h' k' ctx_new Logic.I E) as (C' & H').
    now apply good_emits_then.
  - now apply good_send_numeric.
  - now apply good_send_ts_zero.
  - now apply good_send_ts.
  - apply good_bind. intros [h' k'] E. destruct (start_comment_ok _ _ _ _ _ C H E). now apply good_go.
  - apply good_if; intros _; [now apply good_comment_done|now apply good_go].
  - apply good_if; intros _; [now apply good_comment_done|now apply good_go].
  - destruct H as (H1 & H2). apply good_putting_back. apply good_if; intros _; [now apply good_go|].
    destruct ev as [ev|]; [|now apply good_go_oper]. apply good_bind. intros [h' k'] E.
    destruct (start_oper_ok _ _ _ _ ctx_new E). now apply good_emits_then.
  - now apply good_send_long.
  - apply good_bind. intros [h' k'] E. destruct (start_quoted_symbol_ok _ _ _ _ _ ctx_new E). now apply good_emits_then.
  - now apply good_send_null.
  - apply good_putting_back. now apply good_go_oper.
  - now apply good_send_kw.
  - now apply good_send_inf.
  - apply good_if; intros _; [apply good_go; cbn; auto with ctx|]. cbn [symbol_event bind].
    apply good_emits; [exact C|]. left. apply scalar_value; [exact C|discriminate].
  - apply good_putting_back. destruct (k_val k); [apply good_err|]. cbn [symbol_event bind].
    apply good_bind. intros [h' k'] E. destruct (start_oper_ok _ _ _ _ ctx_new E). apply good_emits_then; auto.
    apply scalar_value; [exact C|discriminate].
  - now apply good_send_unquoted.
  - now apply good_send_dollar.
  - now apply good_send_string.
  - now apply good_send_quoted_symbol.
  - now apply good_send_quote1.
  - now apply good_send_quote2.
  - apply good_if; intros _; [now apply good_go|]. apply good_putting_back. now apply good_go.
  - now apply good_send_lob0.
  - now apply good_send_blob.
  - now apply good_send_clob.
  - apply good_emits; [exact C|]. right. left. exists t, (k_field k), (k_annot k). unfold value_event.
    destruct EV as (D & _). rewrite D. auto.
Qed.

Lemma start_field_ok c k : ctx_ok st k -> in_struct st -> good (start_field v c k).
Proof.
  intros C S. unfold start_field. apply good_if; intros _; [now apply good_go|].
  apply good_if; intros _; [now apply good_start_string|]. apply good_if; intros _.
  - apply good_bind. intros [h k'] E. unfold start_dollar in E. apply bind_ok in E. destruct E as (k1 & E1 & E).
    pose proof (ctx_unicode _ _ _ C E1). injection E as <- <-. apply good_go; cbn; auto with ctx.
  - apply good_if; intros _; [|apply good_err]. unfold start_kw.
    apply good_if; intros _; [apply good_if; intros _; [now apply good_go|apply good_err]|].
    destruct (k_val k); [|apply good_err]. apply good_bind. intros k1 E1. pose proof (ctx_unicode _ _ _ C E1).
    apply good_go; cbn; auto with ctx.
Qed.
Lemma start_value_ok c k : ctx_ok st k -> good (start_value v c k).
Proof.
  intros C. unfold start_value.
  apply good_if; intros _; [destruct (k_val k); [apply good_go; cbn; auto with ctx|apply good_err]|].
  apply good_if; intros _; [apply good_go; cbn; auto with ctx|].
  apply good_if; intros _; [auto with ctx|].
  apply good_if; intros _; [apply good_go; cbn; auto with ctx|].
  apply good_if; intros _; [apply good_go; cbn; auto with ctx|].
  apply good_if; intros _; [apply good_go; cbn; auto with ctx|].
  apply good_if; intros _; [apply good_go; [auto|]; cbn; discriminate|].
  apply good_if; intros _; [now apply good_start_string|].
  apply good_if; intros _.
  { apply good_bind. intros [h k'] E. unfold start_dollar in E. apply bind_ok in E. destruct E as (k1 & E1 & E).
    pose proof (ctx_unicode _ _ _ C E1). injection E as <- <-. apply good_go; cbn; auto with ctx. }
  apply good_if; intros _; [apply good_go; cbn; auto with ctx|].
  unfold start_kw. apply good_if; intros _; [apply good_if; intros _; [now apply good_go|apply good_err]|].
  destruct (k_val k); [|apply good_err]. apply good_bind. intros k1 E1. pose proof (ctx_unicode _ _ _ C E1).
  apply good_go; cbn; auto with ctx.
Qed.
End Handlers.

(** * The containers *)

Inductive stack_ok : option iontype -> list (option iontype * bool) -> list iontype -> Prop :=
| so_top : stack_ok None [] []
| so_in t pt pf rest st : stack_ok pt rest st -> is_container t = true -> (pf = true -> in_struct st) ->
    stack_ok (Some t) ((pt, pf) :: rest) (t :: st).
Lemma stack_type t l st : stack_ok t l st -> t = hd_error st.
Proof. destruct 1; reflexivity. Qed.
Lemma stack_len t l st : stack_ok t l st -> zlen l = zlen st.
Proof. induction 1; [reflexivity|]. rewrite !zlen_cons. lia. Qed.
Lemma stack_nil t l st : stack_ok t l st -> st <> [] -> match l with [] => true | _ => false end = false.
Proof. destruct 1; congruence. Qed.

Definition kont_ok (st : list iontype) (k : option tctx) (c : kont) : Prop :=
  match c, k with
  | KTok h, Some x | KCode _ h, Some x => hk_ok st h x
  | _, _ => True
  end.
Definition pc_kont (p : tpc) : kont := match p with PRead k _ _ | PWait k _ _ => k | PTop _ => KTop end.
Definition pc_complete (p : tpc) : bool := match p with PRead _ c _ | PWait _ c _ => c | PTop _ => false end.

Record core_ok (fl : bool) (s : tcore) (st : list iontype) : Prop := mkcore {
  co_stack : stack_ok (t_type s) (t_stack s) st;
  co_field : t_field s = true -> in_struct st;
  co_child : match t_child s with Some k => ctx_ok st k | None => True end;
  co_kont : kont_ok st (t_child s) (pc_kont (t_pc s));
  co_eof : fl = false -> t_pc s <> PTop (Some Eof);
  co_complete : fl = false -> st <> [] -> t_complete s = false /\ pc_complete (t_pc s) = false
}.

Lemma env_of_ok uni s st : stack_ok (t_type s) (t_stack s) st -> env_ok st (env_of uni s).
Proof. intros H. split; cbn [env_of e_depth e_type]; [exact (stack_len _ _ _ H)|exact (stack_type _ _ _ H)]. Qed.
Lemma at_top_ok s st : stack_ok (t_type s) (t_stack s) st -> st <> [] -> at_top s = false.
Proof. intros H. exact (stack_nil _ _ _ H). Qed.

(** What does not depend on where the generator is. *)
Record base_ok (s : tcore) (st : list iontype) : Prop := mkbase {
  ba_stack : stack_ok (t_type s) (t_stack s) st;
  ba_field : t_field s = true -> in_struct st
}.
Lemma core_base fl s st : core_ok fl s st -> base_ok s st.
Proof. intros H. split; apply H. Qed.

Definition ends_ok (fl : bool) (c : option ch) : Prop := fl = false -> c <> Some Eof.

Lemma token_pc_kont s h b k : pc_kont (token_pc s h b k) = KTok h \/ exists c, pc_kont (token_pc s h b k) = KCode c h.
Proof. unfold token_pc. destruct (k_quoted k || b); cbn; eauto. Qed.
Lemma token_pc_complete s h b k : pc_complete (token_pc s h b k) = false.
Proof. unfold token_pc. destruct (k_quoted k || b); reflexivity. Qed.
Lemma token_pc_eof s h b k : token_pc s h b k <> PTop (Some Eof).
Proof. unfold token_pc. destruct (k_quoted k || b); discriminate. Qed.
Lemma token_kont_ok st s h b k : hk_ok st h k -> kont_ok st (Some k) (pc_kont (token_pc s h b k)).
Proof. intros H. destruct (token_pc_kont s h b k) as [->|(c & ->)]; exact H. Qed.

(** An event that is no signal. *)
Definition value_nest (fl : bool) (st : list iontype) (ev : event) (st' : list iontype) : Prop :=
  text_nest fl st ev st' /\ is_stream_signal (ev_type ev) = false.

Lemma after_event_ok fl s st k ev comp c s' :
  base_ok s st -> ctx_ok st k -> event_ok st ev ->
  match comp with Some (h, k') => ctx_ok st k' /\ match h with Some h' => hk_ok st h' k' | None => True end /\ scalar_ok st ev | None => True end ->
  ends_ok fl c -> after_event s k ev comp c = Ok s' ->
  exists st', core_ok fl s' st' /\ value_nest fl st ev st'.
Proof.
  intros (B1 & B2) C V CO EC E. unfold after_event in E. apply bind_ok in E. destruct E as ([[next child] self] & En & E).
  assert (NX : match child with Some k' => ctx_ok st k' | None => True end /\
               match next, child with Some h, Some k' => hk_ok st h k' | _, _ => True end).
  { destruct (k_comp k).
    - destruct comp as [[h k']|]; [|discriminate]. injection En as <- <- <-. destruct CO as (CO1 & CO2 & _). split; [exact CO1|].
      destruct h; auto.
    - injection En as <- <- <-. auto. }
  destruct NX as (NC & NH).
  destruct (is_container_start ev) eqn:Ec.
  - destruct next as [h|]; [discriminate|]. destruct (ev_ion_type ev) as [t|] eqn:Et; [|discriminate]. injection E as <-.
    destruct V as [(t0 & v & fld & an & -> & _)|[(t0 & fld & an & -> & T & F)|(_ & ->)]]; try discriminate.
    injection Et as ->. exists (t :: st). split; [|split; [now constructor|reflexivity]].
    constructor; cbn [open_container t_type t_stack t_field t_child t_pc t_complete pc_kont pc_complete kont_ok]; auto.
    + constructor; auto.
    + intros Hs. exists st. destruct t; cbn in Hs; congruence.
    + intros Hf. intros [= ->]. now apply EC.
  - cbv zeta in E. exists st.
    assert (TN : value_nest fl st ev st).
    { destruct V as [(t0 & v & fld & an & -> & T & F)|[(t0 & fld & an & -> & T & F)|(-> & ->)]].
      - split; [now constructor|reflexivity].
      - cbn in Ec. rewrite T in Ec. discriminate.
      - split; [constructor|reflexivity]. }
    split; [|exact TN].
    assert (AT : st <> [] -> at_top s = false) by (apply at_top_ok; exact B1).
    destruct self.
    { injection E as <-. constructor; cbn [t_type t_stack t_field t_child t_pc t_complete with_pc with_flags with_delim with_child pc_kont pc_complete]; auto.
      - exact Logic.I.
      - discriminate. }
    destruct next as [h|]; [destruct child as [k'|]|].
    + injection E as <-.
      constructor; cbn [t_type t_stack t_field t_child t_pc t_complete with_pc with_flags with_delim with_child]; auto.
      * now apply token_kont_ok.
      * intros _. apply token_pc_eof.
      * intros _ Hs. split; [exact (AT Hs)|apply token_pc_complete].
    + injection E as <-.
      constructor; cbn [t_type t_stack t_field t_child t_pc t_complete with_pc with_flags with_delim with_child pc_kont pc_complete]; try exact Logic.I; auto.
      intros Hf [= ->]. now apply EC.
    + injection E as <-.
      constructor; cbn [t_type t_stack t_field t_child t_pc t_complete with_pc with_flags with_delim with_child pc_kont pc_complete]; try exact Logic.I; auto.
      intros Hf [= ->]. now apply EC.
Qed.

Lemma after_back_ok fl s st k c : base_ok s st -> ctx_ok st k -> ends_ok fl (Some c) -> core_ok fl (after_back s k c) st.
Proof.
  intros (B1 & B2) C EC. pose proof (at_top_ok _ _ B1) as AT. unfold after_back. cbv zeta.
  assert (CT : ctx_ok st (set_type None k)) by now apply ctx_set_type.
  assert (G : forall complete flush p, (st <> [] -> complete = false) -> pc_kont p = KTop -> (st <> [] -> pc_complete p = false) ->
    (fl = false -> p <> PTop (Some Eof)) ->
    core_ok fl (with_pc (with_flags (with_child s (Some (set_type None k))) complete flush) p) st).
  { intros co fu p H1 H2 H3 H4. constructor; auto. cbn [t_pc with_pc]. now rewrite H2. }
  assert (EF : fl = false -> PTop (Some c) <> PTop (Some Eof)) by (intros Hf [= ->]; now apply EC).
  assert (RD : forall k b f, fl = false -> PRead k b f <> PTop (Some Eof)) by discriminate.
  change (t_field (with_flags (with_child s (Some (set_type None k))) false (can_flush s (set_type None k)))) with (t_field s).
  change (at_top (with_flags (with_child s (Some (set_type None k))) false (can_flush s (set_type None k)))) with (at_top s).
  destruct (t_field s).
  { destruct (_ || _); apply G; auto. }
  destruct (k_pend (set_type None k)).
  { destruct (_ || _); apply G; auto. }
  apply G; auto; intros Hs; cbn [pc_complete]; rewrite (AT Hs), ?andb_false_r, ?andb_false_l, ?andb_false_r; reflexivity.
Qed.

Lemma handled_ok fl s st c a s' ev u : base_ok s st -> ans_ok st a -> ends_ok fl (Some c) ->
  (fl = false -> st <> [] -> t_complete s = false) ->
  handled s c a = Ok (s', ev, u) ->
  match ev with
  | Some e => exists st', core_ok fl s' st' /\ value_nest fl st e st'
  | None => core_ok fl s' st
  end.
Proof.
  intros B A EC CC E. destruct a as [[t k] u0]. destruct A as (C & A). unfold handled in E. destruct t as [e comp|h'|].
  - apply bind_ok in E. destruct E as (s1 & Ea & E). injection E as -> <- ->. destruct A as (V & CO).
    exact (after_event_ok _ _ _ _ _ _ _ _ B C V CO EC Ea).
  - injection E as <- <- <-. destruct B as (B1 & B2).
    constructor; cbn [t_type t_stack t_field t_child t_pc t_complete with_pc with_flags with_child]; auto.
    + now apply token_kont_ok.
    + intros _. apply token_pc_eof.
    + intros Hf Hs. split; [now apply CC|apply token_pc_complete].
  - injection E as <- <- <-. now apply after_back_ok.
Qed.

Lemma take_ok fl uni s st k c s' ev u :
  base_ok s st -> match t_child s with Some x => ctx_ok st x | None => True end -> kont_ok st (t_child s) k ->
  (fl = false -> st <> [] -> t_complete s = false) -> (fl = false -> c <> Eof) ->
  take uni s k c = Ok (s', ev, u) ->
  match ev with
  | Some e => exists st', core_ok fl s' st' /\ value_nest fl st e st'
  | None => core_ok fl s' st
  end.
Proof.
  intros B C K CC EC E. assert (B1 := ba_stack _ _ B). assert (B2 := ba_field _ _ B). destruct k as [| |h|cs h]; cbn [take] in E.
  - injection E as <- <- <-. constructor; cbn [t_type t_stack t_field t_child t_pc t_complete with_pc pc_kont pc_complete]; try exact Logic.I; auto.
    intros Hf [= ->]. now apply EC.
  - destruct (cz c =? 58); [|discriminate]. destruct (t_child s) as [x|]; [|discriminate]. apply bind_ok in E. destruct E as (y & Ey & E).
    injection E as <- <- <-.
    assert (Cy : ctx_ok st y).
    { unfold set_annotation in Ey. destruct (k_pend x); [|discriminate]. destruct (k_val x); [|discriminate]. injection Ey as <-. exact C. }
    constructor; cbn [t_type t_stack t_field t_child t_pc t_complete with_pc with_child pc_kont pc_complete]; auto; try exact Logic.I; discriminate.
  - destruct (t_child s) as [x|]; [|discriminate]. apply bind_ok in E. destruct E as (a & Ea & E).
    eapply handled_ok; [exact B| |  |exact CC|exact E].
    + exact (send_ok st (env_of uni s) (env_of_ok uni s st B1) h c x C K a Ea).
    + intros Hf [= ->]. now apply EC.
  - destruct (t_child s) as [x|] eqn:Ex; [|discriminate]. apply bind_ok in E. destruct E as (r & Er & E). destruct r as [cs' u'|c' u'].
    + injection E as <- <- <-.
      constructor; cbn [t_type t_stack t_field t_child t_pc t_complete with_pc pc_kont pc_complete]; rewrite ?Ex; auto.
      discriminate.
    + apply bind_ok in E. destruct E as (a & Ea & E). apply bind_ok in E. destruct E as ([[s1 ev1] u1] & Eh & E).
      injection E as -> -> <-.
      eapply handled_ok; [exact B| | |exact CC|exact Eh].
      * exact (send_ok st (env_of uni s) (env_of_ok uni s st B1) h c' x C K a Ea).
      * intros _ [= ->]. revert Er. clear. unfold cp_step, escape_done.
        intros E. repeat match type of E with
        | (match ?x with _ => _ end) = _ => destruct x; try discriminate
        | (let* _ := ?x in _) = _ => apply bind_ok in E; destruct E as (? & ? & E)
        end.
Qed.

Lemma top_ok fl uni s st oc s' ev : core_ok fl s st -> ends_ok fl oc -> top uni s oc = Ok (s', ev) ->
  match ev with
  | Some e => exists st', core_ok fl s' st' /\ value_nest fl st e st'
  | None => core_ok fl s' st
  end.
Proof.
  intros CO EC E. destruct CO as [B1 B2 C _ _ CC].
  assert (CC' : fl = false -> st <> [] -> t_complete s = false) by (intros Hf Hs; apply (CC Hf Hs)).
  clear CC. pose proof (env_of_ok uni s st B1) as EV. pose proof (at_top_ok _ _ B1) as AT. unfold top in E. cbv zeta in E.
  assert (RD : core_ok fl (with_pc s (PRead KTop (t_complete s) (t_flush s))) st).
  { constructor; cbn [t_type t_stack t_field t_child t_pc t_complete with_pc pc_kont pc_complete]; try exact Logic.I; auto. discriminate. }
  destruct oc as [c|]; [|injection E as <- <-; exact RD].
  assert (AS : forall k p e fu, t_child s = Some k -> symbol_event (env_of uni s) k p = Ok e ->
    exists st', core_ok fl (with_flags (after_symbol s (Some c)) (t_complete s) fu) st' /\ value_nest fl st e st').
  { intros k p e fu Ek Ee. rewrite Ek in C. exists st. split.
    - constructor; cbn [t_type t_stack t_field t_child t_pc t_complete with_pc with_delim with_child with_flags after_symbol pc_kont pc_complete];
        try exact Logic.I; auto. intros Hf [= ->]. now apply EC.
    - destruct (symbol_event_ok st _ EV _ _ _ C Ee) as [(t & v & fld & an & -> & T & F)|(-> & -> & _)]; (split; [now constructor|reflexivity]). }
  destruct (is_end (t_type s) c || is_delim (t_type s) c || is_eof c) eqn:Ez.
  - apply bind_ok in E. destruct E as (p & Ep & E). destruct p as [e|].
    { injection E as <- <-. unfold pending_value in Ep. destruct (t_child s) as [k|] eqn:Ek; [|discriminate].
      destruct (k_pend k) as [p|] eqn:Ex; [|discriminate]. destruct (k_val k); [|discriminate].
      assert (Ep' : symbol_event (env_of uni s) k p = Ok e).
      { repeat match type of Ep with (match ?x with _ => _ end) = _ => destruct x; try discriminate
        | (let* _ := ?x in _) = _ => destruct x; [cbn [bind] in Ep; congruence|discriminate] end. }
      exact (AS k p e (t_flush s) eq_refl Ep'). }
    destruct (is_end (t_type s) c).
    + destruct (_ && _); [discriminate|]. destruct (t_stack s) as [|[pt pf] below] eqn:Es; [discriminate|]. injection E as <- <-.
      inversion B1 as [|t pt' pf' rest st1 S1 T1 F1]; subst. exists st1. split.
      * constructor; cbn [t_type t_stack t_field t_child t_pc t_complete pc_kont pc_complete]; try exact Logic.I; auto; [discriminate|].
        intros _ Hs. pose proof (stack_nil _ _ _ S1 Hs) as Hn. rewrite Hn. auto.
      * replace (t_depth s - 1) with (zlen st1); [split; [constructor|reflexivity]|]. unfold t_depth. rewrite Es, zlen_cons, (stack_len _ _ _ S1). lia.
    + destruct (is_delim (t_type s) c) eqn:Ed.
      * destruct (negb (t_delim s)); [discriminate|]. injection E as <- <-.
        constructor; cbn [t_type t_stack t_field t_child t_pc t_complete pc_kont pc_complete]; try exact Logic.I; auto; [|discriminate].
        intros Hs. pose proof (stack_type _ _ _ B1) as Et. destruct (t_type s) as [[]|]; try discriminate.
        destruct st as [|t st]; [discriminate|]. injection Et as <-. now exists st.
      * injection E as <- <-. cbn [orb] in Ez. destruct c as [|]; [discriminate|].
        assert (fl = true) as Hf by (destruct fl; [reflexivity|]; now destruct (EC eq_refl)). subst fl.
        constructor; cbn [t_type t_stack t_field t_child t_pc t_complete with_pc pc_kont pc_complete]; try exact Logic.I; auto; discriminate.
  - destruct (is_ws (cz c)); [injection E as <- <-; exact RD|].
    assert (TK : forall k h b, ctx_ok st k -> hk_ok st h k -> forall fu s0,
      core_ok fl (with_pc (with_flags (with_child s (Some k)) (t_complete s) fu) (token_pc s0 h b k)) st).
    { intros k h b Ck Hk fu s0. constructor; cbn [t_type t_stack t_field t_child t_pc t_complete with_pc with_child with_flags]; auto.
      - now apply token_kont_ok.
      - intros _. apply token_pc_eof.
      - intros Hf Hs. split; [now apply CC'|apply token_pc_complete]. }
    destruct (cz c =? 47).
    { apply bind_ok in E. destruct E as (h & Eh & E). injection E as <- <-.
      change (t_child (with_flags s (t_complete s) false)) with (t_child s) in *.
      assert (Ck : ctx_ok st (match t_child s with Some k => k | None => child_new end)).
      { destruct (t_child s); [exact C|apply ctx_new]. }
      apply (TK _ h false Ck).
      revert Eh. cbn [t_type with_flags]. destruct (t_type s) as [[]|]; intros Eh; try (injection Eh as <-; exact Logic.I).
      apply bind_ok in Eh. destruct Eh as (p & Ep & Eh). injection Eh as <-. split; [exact Logic.I|]. destruct p as [e|]; [|exact Logic.I].
      unfold pending_value in Ep. cbn [t_child with_flags t_type] in Ep. destruct (t_child s) as [k|] eqn:Ek; [|discriminate].
      destruct (k_pend k) as [p|] eqn:Ex; [|discriminate]. destruct (k_val k); [|discriminate].
      assert (Ep' : symbol_event (env_of uni s) k p = Ok e).
      { repeat match type of Ep with (match ?x with _ => _ end) = _ => destruct x; try discriminate
        | (let* _ := ?x in _) = _ => destruct x; [cbn [bind] in Ep; congruence|discriminate] end. }
      destruct (symbol_event_ok st _ EV _ _ _ C Ep') as [H|(Hst & _)]; [exact H|].
      pose proof (stack_type _ _ _ B1) as Et. rewrite Hst in Et. discriminate. }
    change (t_delim (with_flags s (t_complete s) false)) with (t_delim s) in E.
    change (t_child (with_flags s (t_complete s) false)) with (t_child s) in E.
    change (t_field (with_flags s (t_complete s) false)) with (t_field s) in E.
    destruct (t_delim s); [discriminate|].
    destruct (pending (t_child s)) as [p|] eqn:Ep.
    + destruct (t_child s) as [k|] eqn:Ek; [|discriminate]. destruct (cz c =? 58).
      * destruct (t_field s) eqn:Ef.
        -- apply bind_ok in E. destruct E as (k1 & E1 & E). injection E as <- <-.
           constructor; cbn [t_type t_stack t_field t_child t_pc t_complete with_flags pc_kont pc_complete]; try exact Logic.I; auto; try discriminate.
           intros _. now apply B2.
        -- injection E as <- <-.
           constructor; cbn [t_type t_stack t_field t_child t_pc t_complete with_pc with_flags pc_kont pc_complete]; try exact Logic.I; auto; try discriminate.
           ++ congruence.
           ++ now rewrite Ek.
      * destruct (t_field s); [destruct p; discriminate|].
        apply bind_ok in E. destruct E as (e & Ee & E). injection E as <- <-.
        exact (AS k p e false eq_refl Ee).
    + match type of E with context [start_field _ _ ?x] => set (k0 := x) in E end.
      assert (Ck : ctx_ok st k0).
      { unfold k0. destruct (decorated (t_child s)); [|apply ctx_new]. destruct (t_child s); [exact C|apply ctx_new]. }
      assert (E' : (let* x := (if t_field s then start_field (env_of uni s) (cz c) k0 else start_value (env_of uni s) (cz c) k0) in
      (let '(t, k, _) := x in
             match t with
             | TGo h =>
               let s := with_flags (with_child (with_flags s (t_complete s) false) (Some k)) (t_complete s) (negb (t_field s)) in
               if (cz c =? 91) || (cz c =? 40) then
                 let* (t, k, _) := send (env_of uni s) h Eof k in
                 match t with
                 | TEv ev comp => let* s' := after_event s k ev comp None in Ok (s', Some ev)
                 | _ => Err TypeError
                 end
               else Ok (with_pc s (token_pc s h ((cz c =? 34) || (cz c =? 39)) k), None)
             | _ => Err TypeError
             end)) = Ok (s', ev)) by exact E.
      clear E. apply bind_ok in E'. destruct E' as ([[t k1] u] & Es & E). destruct t as [|h|]; try discriminate. cbv zeta in E.
      assert (A1 : ans_ok st (TGo h, k1, u)).
      { destruct (t_field s) eqn:Ef.
        - exact (start_field_ok st _ (cz c) k0 Ck (B2 eq_refl) _ Es).
        - exact (start_value_ok st _ (cz c) k0 Ck _ Es). }
      destruct A1 as (C1 & H1).
      destruct ((cz c =? 91) || (cz c =? 40)).
      * apply bind_ok in E. destruct E as ([[t k2] u2] & E2 & E). destruct t as [e comp| |]; try discriminate.
        apply bind_ok in E. destruct E as (s2 & E3 & E). injection E as <- <-.
        assert (A2 : ans_ok st (TEv e comp, k2, u2)) by exact (send_ok st _ EV h Eof k1 C1 H1 _ E2).
        destruct A2 as (C2 & V2 & CO2).
        eapply after_event_ok; [split; [exact B1|exact B2]|exact C2|exact V2|exact CO2| |exact E3]. intros _. discriminate.
      * injection E as <- <-. now apply TK.
Qed.

(** * The trampolines *)

Lemma delegate_ok fl uni s st q d s' q' ev : core_ok fl s st ->
  (fl = false -> d = Some DNext -> waiting s = false) ->
  delegate uni s q d = Ok (s', q', ev) ->
  match ev with
  | Some e => exists st', core_ok fl s' st' /\ text_nest fl st e st' /\ is_stream_signal (ev_type e) = waiting s'
  | None => core_ok fl s' st
  end.
Proof.
  intros CO D E. assert (CC : fl = false -> st <> [] -> t_complete s = false) by (intros; now apply CO).
  assert (SG : forall k c f, t_pc s = PRead k c f \/ t_pc s = PWait k c f ->
    core_ok fl (with_pc s (PWait k c f)) st /\ core_ok fl (with_pc s (PRead k c f)) st /\ text_nest fl st (signal c) st).
  { intros k c f Ep. destruct CO as [B1 B2 C K _ X].
    assert (Kk : pc_kont (t_pc s) = k /\ pc_complete (t_pc s) = c) by (destruct Ep as [-> | ->]; auto). destruct Kk as (Kk & Kc).
    rewrite Kk in K. rewrite Kc in X.
    split; [|split].
    - constructor; cbn [t_type t_stack t_field t_child t_pc t_complete with_pc pc_kont pc_complete]; auto. discriminate.
    - constructor; cbn [t_type t_stack t_field t_child t_pc t_complete with_pc pc_kont pc_complete]; auto. discriminate.
    - destruct c; constructor. intros Hf. destruct st as [|t st]; [reflexivity|].
      destruct (X Hf) as (_ & H); [discriminate|]. discriminate. }
  unfold delegate in E. destruct (t_pc s) as [oc|k c f|k c f] eqn:Ep.
  - apply bind_ok in E. destruct E as ([s1 ev1] & Et & E). injection E as -> -> ->. rewrite (top_awake _ _ _ _ _ Et). apply (top_ok fl uni s st oc); auto.
    intros Hf ->. now apply (co_eof _ _ _ CO Hf).
  - destruct (SG k c f (or_introl eq_refl)) as (S1 & S2 & S3). destruct q as [|z q].
    + injection E as <- <- <-. exists st. split; [first [exact S1|exact CO]|]. split; [exact S3|]. unfold waiting; rewrite ?Ep; now destruct c.
    + apply bind_ok in E. destruct E as ([[s1 ev1] u] & Et & E). injection E as -> <- ->.
      pose proof (co_kont _ _ _ CO) as K. rewrite Ep in K. rewrite (take_awake _ _ _ _ _ _ _ Et).
      eapply take_ok; [exact (core_base _ _ _ CO)|exact (co_child _ _ _ CO)|exact K|exact CC| |exact Et]. discriminate.
  - destruct (SG k c f (or_intror eq_refl)) as (S1 & S2 & S3). destruct d as [[| |l]|].
    + destruct f; [|discriminate]. apply bind_ok in E. destruct E as ([[s1 ev1] u] & Et & E). injection E as -> <- ->.
      assert (fl = true) as ->.
      { destruct fl; [reflexivity|]. specialize (D eq_refl eq_refl). unfold waiting in D. rewrite Ep in D. discriminate. }
      pose proof (co_kont _ _ _ CO) as K. rewrite Ep in K. rewrite (take_awake _ _ _ _ _ _ _ Et).
      eapply take_ok; [exact (core_base _ _ _ CO)|exact (co_child _ _ _ CO)|exact K|exact CC| |exact Et]. discriminate.
    + injection E as <- <- <-. exists st. split; [first [exact S1|exact CO]|]. split; [exact S3|]. unfold waiting; rewrite ?Ep; now destruct c.
    + destruct l as [|x l]; injection E as <- <- <-; [|exact S2]. exists st. split; [first [exact S1|exact CO]|]. split; [exact S3|]. unfold waiting; rewrite ?Ep; now destruct c.
    + injection E as <- <- <-. exists st. split; [first [exact S1|exact CO]|]. split; [exact S3|]. unfold waiting; rewrite ?Ep; now destruct c.
Qed.

(** The whole reader: [last] is the last event returned. *)
Definition skippable (st : list iontype) (last : event) : Prop :=
  forall n, ev_depth last = Some n -> n <> 0 \/ ev_type last = EContainerStart -> st <> [].
Record tr_ok (fl : bool) (r : tr) (st : list iontype) : Prop := mktrok {
  to_core : core_ok fl (tr_core r) st;
  to_depth : 0 <= tr_skip_depth r;
  to_skip : tr_skipping r = true -> fl = false -> st <> []
}.
Lemma nest_depth fl st ev st' : text_nest fl st ev st' ->
  match ev_type ev, ev_depth ev with
  | EContainerStart, Some n => 0 <= n /\ st' <> []
  | EContainerEnd, Some n => n = zlen st' /\ 0 <= n
  | EScalar, Some n => n = zlen st' /\ st' = st
  | EVersionMarker, Some n => n = 0 /\ st' = st
  | (EStreamEnd | EIncomplete), None => st' = st
  | _, _ => False
  end.
Proof.
  destruct 1; cbn [ev_type ev_depth version_marker_event stream_end_event incomplete_event]; auto.
  - split; [apply zlen_nonneg|discriminate].
  - split; [reflexivity|apply zlen_nonneg].
Qed.
Lemma nest_skippable fl st ev st' : text_nest fl st ev st' -> skippable st' ev.
Proof.
  intros H n En D. apply nest_depth in H. rewrite En in H. destruct (ev_type ev) eqn:Et; try contradiction.
  all: try (apply H).
  all: destruct H as (-> & _); destruct D as [D|]; [|discriminate]; intros ->; now apply D.
Qed.

Lemma skip_step_ok fl uni r st d r' ev : tr_ok fl r st ->
  (d = Some DSkip -> fl = false -> st <> []) -> (fl = false -> d = Some DNext -> waiting (tr_core r) = false) ->
  skip_step uni r d = Ok (r', ev) ->
  exists st', tr_ok fl r' st' /\
  match ev with
  | Some e => is_stream_signal (ev_type e) = waiting (tr_core r') /\
              exists st1, text_nest fl st1 e st' /\ (tr_skipping r = false -> d <> Some DSkip -> st1 = st)
  | None => tr_skipping r = false -> d <> Some DSkip -> st' = st
  end.
Proof.
  intros [CO DE SK] DS DN E. unfold skip_step in E. cbv zeta in E. apply bind_ok in E. destruct E as ([[s q] e] & Ed & E).
  pose proof (delegate_ok fl uni _ st _ _ _ _ _ CO DN Ed) as DO.
  destruct (tr_skipping r || _) eqn:Es.
  - assert (NS : ~ (tr_skipping r = false /\ d <> Some DSkip)).
    { intros (A & B). rewrite A in Es. destruct d as [[]|]; cbn in Es; congruence. }
    assert (NE : fl = false -> st <> []).
    { intros Hf. apply orb_true_iff in Es. destruct Es as [Es|Es]; [now apply SK|]. destruct d as [[]|]; try discriminate. now apply DS. }
    destruct e as [e|].
    + destruct DO as (st' & CO' & TN & SW). pose proof (nest_depth _ _ _ _ TN) as ND.
      destruct (ev_type e) eqn:Et; try discriminate.
      * injection E as <- <-. exists st'. split; [|split; [rewrite Et; exact SW|exists st; split; [exact TN|tauto]]]. constructor; auto. intros _ Hf.
        destruct (ev_depth e); [contradiction|]. subst st'. now apply NE.
      * injection E as <- <-. exists st'. split; [|tauto]. constructor; auto. intros _ Hf.
        destruct (ev_depth e); [|contradiction]. destruct ND as (_ & ->). now apply NE.
      * injection E as <- <-. exists st'. split; [|tauto]. constructor; auto. intros _ Hf.
        destruct (ev_depth e); [|contradiction]. destruct ND as (_ & ->). now apply NE.
      * injection E as <- <-. exists st'. split; [|tauto]. constructor; auto. intros _ Hf.
        destruct (ev_depth e); [|contradiction]. apply ND.
      * destruct (ev_depth e) as [n|]; [|discriminate]. destruct ND as (-> & _).
        destruct (zlen st' <=? tr_skip_depth r) eqn:El.
        -- injection E as <- <-. exists st'. split; [constructor; auto; discriminate|]. split; [rewrite Et; exact SW|]. exists st. split; [exact TN|tauto].
        -- injection E as <- <-. exists st'. split; [|tauto]. constructor; auto. intros _ Hf ->. cbn in El. lia.
    + injection E as <- <-. exists st. split; [|tauto]. constructor; auto.
  - injection E as <- <-. destruct e as [e|].
    + destruct DO as (st' & CO' & TN & SW). exists st'. split; [|split; [exact SW|exists st; auto]]. constructor; [exact CO'| |discriminate].
      cbn [tr_skip_depth]. pose proof (nest_depth _ _ _ _ TN) as ND. destruct (ev_type e); auto; destruct (ev_depth e); auto; lia.
    + exists st. split; [constructor; auto; discriminate|auto].
Qed.
