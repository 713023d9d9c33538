(** The values in the events of the text reader: of the class of the event's type, or a listed exception when they are computed. *)
From Verif Require Import Base BaseFacts CoreModel BinReaderModel SymbolsModel TextNumbers TextWriterModel TextReaderModel TextReaderFacts.
Local Open Scope Z_scope.

(** * Specification *)
(** The Python class of the values of an Ion type. *)
Definition of_class (t : iontype) (s : scalar) : Prop :=
  match t, s with
  | TBool, VBool _ | TInt, VInt _ | TFloat, VFloat _ | TDecimal, VDecimal _ => True
  | TTimestamp, VTimestamp (TsStamp x) => ts_prec x <> None
  | TSymbol, VSymbol _ | TString, VString _ | TClob, VBytes _ | TBlob, VBytes _ => True
  | _, _ => False
  end.
(** What computing the value of an event may raise. *)
Definition value_exception (e : exc) : Prop :=
  match e with
  | TypeError | ValueError | AssertionError | OverflowError | DecimalException => True
  | _ => False
  end.
Definition value_kept (t : iontype) (r : res scalar) : Prop := match r with Ok s => of_class t s | Err e => value_exception e end.
Definition kept (e : event) : Prop :=
  match ev_value e with
  | EvNone => True
  | EvVal s => ev_type e = EScalar /\ exists t, ev_ion_type e = Some t /\ of_class t s
  | EvLazy r => ev_type e = EScalar /\ exists t, ev_ion_type e = Some t /\ value_kept t r
  | EvVersion _ _ => e = version_marker_event
  | EvThunk _ _ => False
  end.

(** * Values computed from text *)
Lemma kept_bind {A} t (x : res A) f : (forall e, x = Err e -> value_exception e) -> (forall a, x = Ok a -> value_kept t (f a)) -> value_kept t (let* a := x in f a).
Proof. destruct x as [a|e]; cbn; auto. Qed.
Definition raises {A} (r : res A) : Prop := match r with Ok _ => True | Err e => value_exception e end.
Lemma raises_bind {A B} (x : res A) (f : A -> res B) : raises x -> (forall a, x = Ok a -> raises (f a)) -> raises (let* a := x in f a).
Proof. destruct x as [a|e]; cbn; auto. Qed.
Ltac inside := cbv zeta; repeat match goal with
  | |- raises (Ok _) => exact Logic.I
  | |- raises (Err _) => exact Logic.I
  | |- raises (let* _ := _ in _) => apply raises_bind; [|intros ? _]
  | |- raises (if ?c then _ else _) => destruct c
  | |- raises (match ?c with _ => _ end) => destruct c
  end.
Lemma raises_datetime y mo d h mi s us off : raises (datetime_new y mo d h mi s us off).
Proof. unfold datetime_new. inside. Qed.
Lemma raises_fix prec d : raises (dec_fix prec d).
Proof. unfold dec_fix. inside. Qed.
Lemma raises_scaleb prec d n : raises (dec_scaleb prec d n).
Proof. unfold dec_scaleb. cbv zeta. destruct (_ || _); [exact Logic.I|apply raises_fix]. Qed.
Lemma raises_stamp y mo d h mi s micro off prec fprec frac : raises (timestamp_new y mo d h mi s micro off prec fprec frac).
Proof.
  unfold timestamp_new. repeat (apply raises_bind; [|intros ? ?]).
  all: try solve [inside]. all: try apply raises_datetime.
  - destruct frac as [f|]; [|inside]. cbv zeta. apply raises_bind; [apply raises_fix|]. intros; exact Logic.I.
  - destruct a3 as [[? ?] ?]. apply raises_bind; [apply raises_datetime|]. intros; exact Logic.I.
Qed.
Lemma raises_fn y mo d h mi s micro oh om prec fprec frac : raises (timestamp_fn y mo d h mi s micro oh om prec fprec frac).
Proof. unfold timestamp_fn, offset_tz. do 3 (apply raises_bind; [inside|intros ? _]). apply raises_stamp. Qed.
Lemma kept_raises {A} t (x : res A) f : raises x -> (forall a, x = Ok a -> value_kept t (f a)) -> value_kept t (let* a := x in f a).
Proof. destruct x as [a|e]; cbn; auto. Qed.
Lemma fn_precise y mo d h mi s micro oh om p fprec frac t : timestamp_fn y mo d h mi s micro oh om (Some p) fprec frac = Ok t -> ts_prec t <> None.
Proof.
  unfold timestamp_fn, offset_tz, timestamp_new. intros E. repeat (apply bind_ok in E; destruct E as (? & ? & E)).
  repeat match goal with x : (_ * _)%type |- _ => destruct x end. repeat (apply bind_ok in E; destruct E as (? & ? & E)). injection E as <-. discriminate.
Qed.
Lemma kept_ts l : value_kept TTimestamp (parse_ts l).
Proof.
  unfold parse_ts. cbv zeta. apply kept_raises; [inside|]. intros [oh om] _. apply kept_raises; [inside|]. intros y _.
  destruct (match tok_get l 1 with None => _ | Some _ => _ end) as [mo p]. destruct (match tok_get l 2 with None => _ | Some _ => _ end) as [d p'].
  apply kept_raises; [inside|]. intros [[h mi] p2] _. apply kept_raises.
  - destruct (tok_get l 5); [|exact Logic.I]. apply raises_bind; [|intros; exact Logic.I]. destruct (tok_get l 6); [|exact Logic.I]. apply raises_bind; [apply raises_scaleb|intros; exact Logic.I].
  - intros [[s f] p3] _. apply kept_raises; [apply raises_fn|]. intros t H. exact (fn_precise _ _ _ _ _ _ _ _ _ _ _ _ _ H).
Qed.
Definition num_type (n : numkind) : iontype := match n with NDec | NFrac => TDecimal | NFlt => TFloat | NWhole | NBin | NHex => TInt end.
Lemma kept_component n l : value_kept (num_type n) (parse_component n l).
Proof. destruct n; cbn [parse_component num_type]; try exact Logic.I; (apply kept_raises; [unfold decimal_of_text; destruct (parse_parts l) as [[? ?] ?]; inside|intros; exact Logic.I]). Qed.
Lemma raises_b64 l : forall pos left pads, raises (b64_decode_from l pos left pads).
Proof.
  induction l as [|c l IH]; intros pos left pads; cbn [b64_decode_from]; cbv zeta; [inside|].
  repeat match goal with |- raises (if ?c then _ else _) => destruct c | |- raises (let* _ := _ in _) => apply raises_bind; [|intros ? _] end; try apply IH; exact Logic.I.
Qed.
Lemma kept_blob k : value_kept TBlob (parse_blob k).
Proof. unfold parse_blob. destruct (k_codes k); [exact Logic.I|]. apply kept_raises; [apply raises_b64|intros; exact Logic.I]. Qed.
Lemma kept_clob k : value_kept TClob (parse_clob k).
Proof. unfold parse_clob. destruct (forallb _ _); exact Logic.I. Qed.

(** * The invariant *)
Fixpoint hk_kept (sexp : bool) (h : hs) (k : tctx) : Prop :=
  match h with
  | HSlash ev | HLongQuote ev => kept ev
  | HNeg | HZero | HNum => k_type k = Some TInt
  | HNumeric n _ => k_type k = Some (num_type n)
  | HTs _ _ _ _ _ | HTsZero => k_type k = Some TTimestamp
  | HComm0 w | HLine w | HBlock w _ => match w with Some h' => hk_kept sexp h' k | None => True end
  | HSexpSlash w ev =>
    match w with Some h' => hk_kept sexp h' k | None => True end /\ match ev with Some e => kept e | None => True end
  | HLong _ _ clob is_field => (clob = false -> is_field = false -> k_type k = Some TString) /\ (is_field = true -> sexp = false)
  | HStr clob is_field => clob = false -> is_field = false -> k_type k = Some TString
  | HSq1 f | HSq2 f => f = true -> sexp = false
  | _ => True
  end.
Definition ans_kept (sexp : bool) (a : answer) : Prop :=
  let '(t, k, _) := a in
  match t with
  | TEv ev comp => kept ev /\ match comp with Some (Some h, k') => hk_kept sexp h k' | _ => True end
  | TGo h => hk_kept sexp h k
  | TBack => True
  end.

Section Handlers.
Variable v : tenv.
Let sexp := in_sexp v.
Definition keeps (r : res answer) : Prop := match r with Ok a => ans_kept sexp a | Err _ => True end.

Lemma type_set_type t k : k_type (set_type t k) = t.
Proof.
  unfold set_type. destruct (opt_eqb iontype_eqb t (k_type k)) eqn:E; [|reflexivity].
  destruct t as [t|], (k_type k) as [t'|]; cbn in E; try discriminate; [|reflexivity].
  f_equal. symmetry. destruct t, t'; cbn in E; congruence.
Qed.
Lemma type_unicode q k k' : set_unicode q k = Ok k' -> k_type k' = k_type k.
Proof. unfold set_unicode. destruct (k_codes k); [destruct (Bool.eqb _ _); [|discriminate]|]; intros [= <-]; auto. Qed.
Lemma type_text_push f k l : k_type (text_push f k l) = k_type k.
Proof. unfold text_push. destruct f; auto. destruct (k_pend k) as [[]|]; auto. Qed.
Lemma kept_value k t s : of_class t s -> kept (value_event v k EScalar (Some t) (EvVal s)).
Proof. intros C. split; [reflexivity|]. exists t. auto. Qed.
Lemma kept_thunk k t r : k_type k = Some t -> value_kept t r -> kept (thunk_event v k r).
Proof. intros T K. split; [reflexivity|]. exists t. auto. Qed.
Lemma kept_symbol k s ev : symbol_event v k s = Ok ev -> kept ev.
Proof.
  unfold symbol_event. destruct s as [l|t|l]; try (intros [= <-]; apply kept_value; exact Logic.I).
  destruct (k_annot k); [|discriminate]. destruct (e_depth v =? 0); [|discriminate]. destruct (zlist_eqb l TEXT_ION_1_0); [|discriminate]. intros [= <-]. reflexivity.
Qed.
Lemma keeps_bind {A} (x : res A) f : (forall a, x = Ok a -> keeps (f a)) -> keeps (let* a := x in f a).
Proof. intros H. destruct x; cbn [bind]; [now apply H|exact Logic.I]. Qed.
Lemma keeps_if (b : bool) x y : (b = true -> keeps x) -> (b = false -> keeps y) -> keeps (if b then x else y).
Proof. destruct b; auto. Qed.
Lemma keeps_go k h : hk_kept sexp h k -> keeps (go k h). Proof. auto. Qed.
Lemma keeps_back k : keeps (back k). Proof. exact Logic.I. Qed.
Lemma keeps_emits k ev : kept ev -> keeps (emits k ev). Proof. intros K. split; [exact K|exact Logic.I]. Qed.
Lemma keeps_then k ev h k' : kept ev -> match h with Some h' => hk_kept sexp h' k' | None => True end -> keeps (emits_then k ev h k').
Proof. intros K H. split; [exact K|]. destruct h; exact H. Qed.
Lemma keeps_putting_back c r : keeps r -> keeps (putting_back v c r).
Proof. intros K. unfold putting_back. destruct (unread v c); [|exact Logic.I]. cbn [bind]. destruct r as [[[t k] u]|]; [exact K|exact Logic.I]. Qed.

Ltac kp :=
  cbv zeta;
  repeat match goal with
  | |- keeps (Err _) => exact Logic.I
  | |- keeps illegal => exact Logic.I
  | |- keeps (back _) => apply keeps_back
  | |- keeps (if _ then _ else _) => apply keeps_if; intros ?
  | |- keeps (bind _ _) => apply keeps_bind; let a := fresh "a" in let E := fresh "E" in intros a E
  | |- keeps (putting_back _ _) => apply keeps_putting_back
  | |- keeps (emits _ _) => apply keeps_emits
  | |- keeps (go _ _) => apply keeps_go
  | |- keeps (match ?x with _ => _ end) => destruct x eqn:?
  | |- kept ?e => assumption
  | |- kept (value_event _ _ _ _ EvNone) => exact Logic.I
  | |- True => exact Logic.I
  | |- hk_kept _ _ _ => exact Logic.I
  end.
Lemma keeps_start_numeric n c k : match n with NWhole | NBin | NHex => k_type k = Some TInt | _ => True end -> keeps (start_numeric n c k).
Proof.
  intros T. unfold start_numeric. destruct n; kp; cbn [hk_kept num_type]; try exact (type_set_type _ _); try exact T.
  destruct (c =? 95); exact T.
Qed.
Lemma keeps_start_ts c k : keeps (start_ts c k).
Proof. unfold start_ts. kp. cbn [hk_kept]. apply type_set_type. Qed.
Lemma keeps_number_end c k t r : k_type k = Some t -> value_kept t r -> keeps (number_end v c k r).
Proof. intros T K. unfold number_end. kp; exact (kept_thunk k t r T K). Qed.
Lemma keeps_send_numeric n p c k : k_type k = Some (num_type n) -> keeps (send_numeric v n p c k).
Proof.
  intros T. unfold send_numeric. cbv zeta. apply keeps_if; intros _.
  - apply keeps_if; intros _; [exact Logic.I|]. exact (keeps_number_end c k _ _ T (kept_component n _)).
  - kp; try (cbn [hk_kept]; exact T).
    + unfold after_frac in Heqo. apply keeps_start_numeric. destruct (is_exp_d _); [injection Heqo as <-; exact Logic.I|]. destruct (is_exp_e _); [injection Heqo as <-; exact Logic.I|discriminate].
    + unfold after_whole in Heqo. apply keeps_start_numeric. destruct (_ =? 46); [injection Heqo as <-; exact Logic.I|]. destruct (is_exp_d _); [injection Heqo as <-; exact Logic.I|]. destruct (is_exp_e _); [injection Heqo as <-; exact Logic.I|discriminate].
Qed.
Lemma after_whole_free z n : after_whole z = Some n -> match n with NWhole | NBin | NHex => False | _ => True end.
Proof. unfold after_whole. destruct (z =? 46); [intros [= <-]; exact Logic.I|]. destruct (is_exp_d _); [intros [= <-]; exact Logic.I|]. destruct (is_exp_e _); [intros [= <-]; exact Logic.I|discriminate]. Qed.
Lemma keeps_send_num c k : k_type k = Some TInt -> keeps (send_num v c k).
Proof.
  intros T. unfold send_num. cbv zeta. apply keeps_if; intros _; [apply (keeps_number_end c k TInt); [exact T|exact Logic.I]|]. kp; try (cbn [hk_kept]; exact T); try apply keeps_start_ts.
  all: apply keeps_start_numeric; try exact T. apply after_whole_free in Heqo. destruct n; auto; contradiction.
Qed.
Lemma keeps_start_zero c k : keeps (start_zero c k).
Proof. unfold start_zero. kp; cbn [hk_kept]; exact (type_set_type _ _). Qed.
Lemma keeps_send_zero c k : k_type k = Some TInt -> keeps (send_zero v c k).
Proof.
  intros T. unfold send_zero. cbv zeta. apply keeps_if; intros _; [apply (keeps_number_end c k TInt); [exact T|exact Logic.I]|]. destruct (after_whole (cz c)) as [n|] eqn:A.
  - apply keeps_start_numeric. apply after_whole_free in A. destruct n; auto; contradiction.
  - kp; try (apply keeps_start_numeric; exact T); cbn [hk_kept]; exact (type_set_type _ _).
Qed.
Lemma keeps_send_ts_zero c k : k_type k = Some TTimestamp -> keeps (send_ts_zero c k).
Proof. intros T. unfold send_ts_zero. kp; try apply keeps_start_ts. cbn [hk_kept]. exact T. Qed.
Lemma keeps_send_ts p s n t b c k : k_type k = Some TTimestamp -> keeps (send_ts v p s n t b c k).
Proof. intros T. unfold send_ts. kp; try (cbn [hk_kept]; exact T). exact (keeps_number_end c k _ _ T (kept_ts t)). Qed.
Lemma free_oper c k h k' : start_oper c k = Ok (h, k') -> hk_kept sexp h k'.
Proof. unfold start_oper. destruct (is_op c); [|discriminate]. destruct (set_unicode false k); [|discriminate]. cbn [bind]. intros [= <- <-]. exact Logic.I. Qed.
Lemma keeps_go_oper c k : keeps (go_oper c k).
Proof. unfold go_oper. apply keeps_bind. intros [h k'] E. apply keeps_go. exact (free_oper _ _ _ _ E). Qed.
Lemma keeps_symbol_end c k f s : keeps (symbol_end v c k f s).
Proof. unfold symbol_end. kp. exact (kept_symbol _ _ _ E). Qed.
Lemma free_unquoted c k f h k' : start_unquoted v c k f = Ok (h, k') -> hk_kept sexp h k'.
Proof. unfold start_unquoted. destruct (set_unicode false k); [|discriminate]. cbn [bind]. cbv zeta. destruct (negb _); [destruct (_ && _); [|discriminate]|]; intros [= <- <-]; exact Logic.I. Qed.
Lemma keeps_go_unquoted c k f : keeps (go_unquoted v c k f).
Proof. unfold go_unquoted. apply keeps_bind. intros [h k'] E. apply keeps_go. exact (free_unquoted _ _ _ _ _ E). Qed.
Lemma keeps_send_unquoted p f c k : keeps (send_unquoted v p f c k).
Proof. unfold send_unquoted. kp. apply keeps_symbol_end. Qed.
Lemma free_dollar k f h k' : start_dollar v k f = Ok (h, k') -> hk_kept sexp h k'.
Proof. unfold start_dollar. destruct (set_unicode false k); [|discriminate]. cbn [bind]. intros [= <- <-]. exact Logic.I. Qed.
Lemma keeps_send_dollar p i co s m po f c k : keeps (send_dollar v p i co s m po f c k).
Proof. unfold send_dollar. kp; try apply keeps_symbol_end; try apply keeps_go_unquoted. Qed.
Lemma keeps_send_null s c k : keeps (send_null v s c k).
Proof. unfold send_null. kp. Qed.
Lemma keeps_start_kw c k f : keeps (start_kw v c k f).
Proof. unfold start_kw. kp. Qed.
Lemma keyword_kept s t x d m f c k b a : (x = EvNone \/ exists y, x = EvVal y /\ of_class t y) -> check_keyword v s t x d m f c k = Ok (b, Some a) -> ans_kept sexp a.
Proof.
  intros K H. unfold check_keyword in H.
  assert (SV : kept (value_event v k EScalar (Some t) x)) by (destruct K as [-> | (y & -> & C)]; [exact Logic.I|apply kept_value; exact C]).
  repeat match type of H with
  | Ok _ = Ok _ => injection H; clear H; intros; subst; cbn; auto
  | (if ?x then _ else _) = _ => destruct x
  | _ => discriminate
  end.
Qed.
Lemma keeps_send_kw a b t f m i c k : keeps (send_kw v a b t f m i c k).
Proof.
  unfold send_kw. apply keeps_bind. intros [n1 t1] E1. apply keeps_bind. intros [[[n2 tr] fl] t2] E2.
  assert (C1 : forall x, t1 = Some x -> ans_kept sexp x).
  { intros y ->. destruct a; [|discriminate]. eapply keyword_kept; [|exact E1]. left; reflexivity. }
  assert (C2 : forall x, t2 = Some x -> ans_kept sexp x).
  { intros y ->. destruct b; [|destruct t; [|destruct f]].
    1-3: apply bind_ok in E2; destruct E2 as ([b2 t2] & E2 & E3); injection E3 as _ _ _ ->; eapply keyword_kept; [|exact E2]; right; eexists; (split; [reflexivity|exact Logic.I]).
    injection E2 as _ _ _ ->. now apply C1. }
  apply keeps_if; intros _; [destruct t2 as [y|]; [exact (C2 y eq_refl)|exact Logic.I]|]. apply keeps_if; intros _; [exact Logic.I|]. apply keeps_if; intros _; [|apply keeps_go_unquoted].
  apply keeps_bind. intros ev E. apply keeps_emits. exact (kept_symbol _ _ _ E).
Qed.
Lemma keeps_send_inf n m c k : keeps (send_inf v n m c k).
Proof.
  unfold send_inf. cbv zeta. apply keeps_if; intros _; [apply keeps_emits; apply kept_value; exact Logic.I|]. apply keeps_if; intros _; [exact Logic.I|].
  apply keeps_bind. intros k1 E1. apply keeps_if; intros _; [exact Logic.I|]. apply keeps_bind. intros ev E. pose proof (kept_symbol _ _ _ E) as K. destruct m.
  - apply keeps_if; intros _; [apply keeps_go_oper|apply keeps_emits; exact K].
  - apply keeps_bind. intros [h k'] E2. apply keeps_then; [exact K|exact (free_unquoted _ _ _ _ _ E2)].
Qed.
Lemma keeps_start_long k f : (f = true -> sexp = false) -> keeps (start_long k f).
Proof.
  intros F. unfold start_long. cbv zeta. apply keeps_if; intros _; [exact Logic.I|]. match goal with |- context [k_val ?x] => set (k2 := x) end.
  destruct (k_val k2); [|exact Logic.I]. apply keeps_bind. intros k1 E1. apply keeps_go. cbn [hk_kept]. split; [|exact F]. intros A B. rewrite B. rewrite (type_unicode _ _ _ E1). unfold k2. rewrite A, B. cbn [negb andb]. apply type_set_type.
Qed.
Lemma keeps_start_string k f : keeps (start_string k f).
Proof.
  unfold start_string. cbv zeta. apply keeps_bind. intros k1 E1. apply keeps_if; intros _; [exact Logic.I|]. match goal with |- context [k_val ?x] => set (k2 := x) end.
  assert (G : keeps (go (if f then set_pending (SCodes []) k2 else k2) (HStr (is_clob k) f))).
  { apply keeps_go. cbn [hk_kept]. intros A B. rewrite B. unfold k2. rewrite A, B. cbn [negb andb]. apply type_set_type. }
  destruct f; [destruct (k_val k2); [exact G|exact Logic.I]|exact G].
Qed.
Lemma free_quoted c k f h k' : start_quoted_symbol c k f = Ok (h, k') -> hk_kept sexp h k'.
Proof. unfold start_quoted_symbol. destruct (_ && _); [discriminate|]. cbv zeta. destruct (set_unicode true k); [|discriminate]. cbn [bind]. destruct (is_clob k); [discriminate|]. destruct (negb _); [discriminate|]. intros [= <- <-]. exact Logic.I. Qed.
Lemma keeps_start_blob c k : keeps (start_blob c k).
Proof. unfold start_blob. kp. Qed.
Lemma keeps_start_clob_end c k : keeps (start_clob_end c k).
Proof. unfold start_clob_end. kp. Qed.
Lemma keeps_send_string b f c k : (b = false -> f = false -> k_type k = Some TString) -> keeps (send_string v b f c k).
Proof.
  intros T. unfold send_string. cbv zeta. apply keeps_if; intros _.
  - apply keeps_if; intros Hc.
    + apply keeps_emits. change (k_type (set_self true k)) with (k_type k). rewrite T; [apply kept_value; exact Logic.I|now destruct b|now destruct f, b].
    + apply keeps_if; intros _; [exact Logic.I|apply keeps_start_clob_end].
  - apply keeps_if; intros _; [exact Logic.I|]. apply keeps_go. cbn [hk_kept]. intros A B. destruct (gone c); [auto|rewrite type_text_push; auto].
Qed.
Lemma keeps_send_quoted f c k : keeps (send_quoted_symbol v f c k).
Proof. unfold send_quoted_symbol. kp. apply keeps_symbol_end. Qed.
Lemma keeps_quote1 f c k : (f = true -> sexp = false) -> keeps (send_quote1 f c k).
Proof. intros F. unfold send_quote1. apply keeps_if; intros _; [apply keeps_go; exact F|]. apply keeps_bind. intros k1 _. apply keeps_bind. intros [h k2] E. apply keeps_go. exact (free_quoted _ _ _ _ _ E). Qed.
Lemma keeps_quote2 f c k : (f = true -> sexp = false) -> keeps (send_quote2 f c k).
Proof. intros F. unfold send_quote2. apply keeps_bind. intros k1 _. apply keeps_if; intros _; [apply keeps_start_long; exact F|exact Logic.I]. Qed.
Lemma keeps_lob0 q c k : keeps (send_lob0 q c k).
Proof. unfold send_lob0. kp; try apply keeps_start_string; try apply keeps_start_blob; apply keeps_start_long; discriminate. Qed.
Lemma keeps_blob p d q c k : keeps (send_blob v p d q c k).
Proof. unfold send_blob. kp. split; [reflexivity|]. exists TBlob. split; [reflexivity|apply kept_blob]. Qed.
Lemma keeps_clob p c k : keeps (send_clob v p c k).
Proof. unfold send_clob. kp. split; [reflexivity|]. exists TClob. split; [reflexivity|apply kept_clob]. Qed.
Lemma keeps_long q i b f c k : hk_kept sexp (HLong q i b f) k -> keeps (send_long v q i b f c k).
Proof.
  intros (T & F). unfold send_long. cbv zeta.
  assert (HO : forall q' i' k', (b = false -> f = false -> k_type k' = Some TString) -> hk_kept sexp (HLong q' i' b f) k') by (intros; cbn; auto).
  assert (SV : b = false -> f = false -> kept (value_event v (set_self false k) EScalar (k_type (set_self false k)) (text_value (set_self false k)))).
  { intros A B. change (k_type (set_self false k)) with (k_type k). rewrite (T A B). apply kept_value. exact Logic.I. }
  apply keeps_if; intros _.
  { apply keeps_if; intros _; apply keeps_go; apply HO; exact T. }
  destruct i.
  { apply keeps_if; intros _; [exact Logic.I|]. apply keeps_go. apply HO. intros A B. destruct (gone c); rewrite ?type_text_push; exact (T A B). }
  apply keeps_if; intros _.
  { apply keeps_if; intros Hfb; [exact Logic.I|]. apply orb_false_elim in Hfb. destruct Hfb as (-> & ->).
    apply keeps_if; intros _; [exact Logic.I|]. apply keeps_if; intros _.
    - apply keeps_if; intros _; [exact Logic.I|]. apply keeps_putting_back. apply keeps_go. now apply SV.
    - apply keeps_then; [now apply SV|exact Logic.I]. }
  apply keeps_if; intros _; [apply keeps_go; apply HO; exact T|].
  destruct b; [apply keeps_start_clob_end|].
  apply keeps_if; intros _.
  { apply keeps_if; intros Hs.
    - assert (f = false) as -> by (destruct f; [|reflexivity]; specialize (F eq_refl); unfold sexp in F; congruence).
      apply keeps_go. split; [apply HO; exact T|now apply SV].
    - apply keeps_go. cbn [hk_kept]. split; [exact T|exact F]. }
  destruct f; [apply keeps_if; intros _; exact Logic.I|]. apply keeps_emits. now apply SV.
Qed.
Lemma kept_ext : forall h k k', k_type k = k_type k' -> hk_kept sexp h k -> hk_kept sexp h k'.
Proof.
  fix IH 1. intros h k k' E H. destruct h; cbn [hk_kept] in *; try rewrite <- E; auto.
  - destruct w as [w|]; [exact (IH w k k' E H)|exact H].
  - destruct w as [w|]; [exact (IH w k k' E H)|exact H].
  - destruct w as [w|]; [exact (IH w k k' E H)|exact H].
  - destruct H as (H1 & H2). split; [|exact H2]. destruct w as [w|]; [exact (IH w k k' E H1)|exact H1].
Qed.
Lemma comment_kept c w k h k' : match w with Some w' => hk_kept sexp w' k | None => True end -> start_comment c w k = Ok (h, k') -> hk_kept sexp h k'.
Proof.
  intros H E. unfold start_comment in E. destruct (cz c =? 47).
  { injection E as <- <-. cbn [hk_kept]. destruct w as [w|]; [|exact H]. now apply (kept_ext w k). }
  destruct (cz c =? 42); [|destruct c; discriminate]. injection E as <- <-. cbn [hk_kept]. destruct w as [w|]; [|exact H]. apply (kept_ext w k); [|exact H]. now destruct (k_line k).
Qed.
Lemma keeps_comment_done w k : match w with Some w' => hk_kept sexp w' k | None => True end -> keeps (comment_done w k).
Proof. intros H. unfold comment_done. destruct w as [w|]; [|exact Logic.I]. apply keeps_go. now apply (kept_ext w k). Qed.
Theorem send_keeps h c k : hk_kept sexp h k -> keeps (send v h c k).
Proof.
  intros H. destruct h; cbn [send hk_kept] in *; cbv zeta.
  - apply keeps_if; intros _; [apply keeps_start_zero|]. apply keeps_if; intros _; [apply keeps_start_numeric; exact H|]. apply keeps_putting_back. exact Logic.I.
  - now apply keeps_send_zero.
  - now apply keeps_send_num.
  - apply keeps_bind. intros [h' k'] E. apply keeps_then; [exact H|]. exact (comment_kept c None child_new h' k' Logic.I E).
  - now apply keeps_send_numeric.
  - now apply keeps_send_ts_zero.
  - now apply keeps_send_ts.
  - apply keeps_bind. intros [h' k'] E. apply keeps_go. exact (comment_kept _ _ _ _ _ H E).
  - apply keeps_if; intros _; [now apply keeps_comment_done|exact H].
  - apply keeps_if; intros _; [now apply keeps_comment_done|exact H].
  - destruct H as (H1 & H2). apply keeps_putting_back. apply keeps_if; intros _; [exact H1|].
    destruct ev as [ev|]; [|apply keeps_go_oper]. apply keeps_bind. intros [h' k'] E. apply keeps_then; [exact H2|exact (free_oper _ _ _ _ E)].
  - now apply keeps_long.
  - apply keeps_bind. intros [h' k'] E. apply keeps_then; [exact H|exact (free_quoted _ _ _ _ _ E)].
  - apply keeps_send_null.
  - apply keeps_putting_back. apply keeps_go_oper.
  - apply keeps_send_kw.
  - apply keeps_send_inf.
  - apply keeps_if; intros _; [exact Logic.I|]. apply keeps_bind. intros ev E. apply keeps_emits. exact (kept_symbol _ _ _ E).
  - apply keeps_putting_back. destruct (k_val k); [exact Logic.I|]. apply keeps_bind. intros ev E. apply keeps_bind. intros [h' k'] E2. apply keeps_then; [exact (kept_symbol _ _ _ E)|exact (free_oper _ _ _ _ E2)].
  - apply keeps_send_unquoted.
  - apply keeps_send_dollar.
  - now apply keeps_send_string.
  - apply keeps_send_quoted.
  - now apply keeps_quote1.
  - now apply keeps_quote2.
  - apply keeps_if; intros _; [exact Logic.I|]. apply keeps_putting_back. exact Logic.I.
  - apply keeps_lob0.
  - apply keeps_blob.
  - apply keeps_clob.
  - apply keeps_emits. exact Logic.I.
Qed.
Lemma start_field_keeps c k : sexp = false -> keeps (start_field v c k).
Proof.
  intros S. unfold start_field. apply keeps_if; intros _; [apply keeps_go; intros _; exact S|]. apply keeps_if; intros _; [apply keeps_start_string|]. apply keeps_if; intros _.
  - apply keeps_bind. intros [h k'] E. apply keeps_go. exact (free_dollar _ _ _ _ E).
  - apply keeps_if; intros _; [apply keeps_start_kw|exact Logic.I].
Qed.
Lemma start_value_keeps c k : keeps (start_value v c k).
Proof.
  unfold start_value. kp; try apply keeps_start_zero; try apply keeps_start_string; try apply keeps_start_kw; try (cbn [hk_kept]; first [exact (type_set_type _ _)|discriminate]).
  exact (free_dollar _ _ _ _ E).
Qed.
End Handlers.

(** * The reader *)
Definition sx (s : tcore) : bool := opt_eqb iontype_eqb (t_type s) (Some TSexp).
Definition kont_kept (s : tcore) (k : kont) : Prop :=
  match k with
  | KTok h | KCode _ h => match t_child s with Some x => hk_kept (sx s) h x | None => True end
  | _ => True
  end.
Definition pc_kept (s : tcore) : Prop := match t_pc s with PTop _ => True | PRead k _ _ | PWait k _ _ => kont_kept s k end.
Definition field_fits (p : option iontype * bool) : Prop := snd p = true -> fst p = Some TStruct.
Definition core_kept (s : tcore) : Prop := field_fits (t_type s, t_field s) /\ Forall field_fits (t_stack s) /\ pc_kept s.
Definition reported (ev : option event) : Prop := match ev with Some e => kept e | None => True end.

Lemma token_kept s h q k : t_child s = Some k -> hk_kept (sx s) h k -> pc_kept (with_pc s (token_pc s h q k)).
Proof. intros C H. unfold pc_kept, token_pc. destruct (_ || _); cbn; rewrite C; exact H. Qed.
Lemma after_event_kept s k ev comp c s' : field_fits (t_type s, t_field s) -> Forall field_fits (t_stack s) ->
  (match comp with Some (Some h, k') => hk_kept (sx s) h k' | _ => True end) -> after_event s k ev comp c = Ok s' -> core_kept s'.
Proof.
  intros F K C H. unfold after_event in H. apply bind_ok in H. destruct H as ([[next child] self] & E & H).
  assert (N : match next, child with Some h, Some k' => hk_kept (sx s) h k' | _, _ => True end).
  { destruct (k_comp k); [|injection E as <- <- _; exact Logic.I]. destruct comp as [[h k']|]; [|discriminate]. injection E as <- <- _. destruct h; [exact C|exact Logic.I]. }
  destruct (is_container_start ev).
  - destruct next; [discriminate|]. destruct (ev_ion_type ev) as [t|]; [|discriminate]. injection H as <-. split; [|split; [|exact Logic.I]].
    + intros E1. cbn in *. destruct t; cbn in E1; try discriminate. reflexivity.
    + constructor; assumption.
  - destruct self; [injection H as <-; split; [exact F|split; [exact K|exact Logic.I]]|].
    destruct next as [h|]; [destruct child as [k'|]|]; injection H as <-; (split; [exact F|split; [exact K|]]); try exact Logic.I. apply token_kept; [reflexivity|exact N].
Qed.
Lemma after_back_kept s k c : field_fits (t_type s, t_field s) -> Forall field_fits (t_stack s) -> core_kept (after_back s k c).
Proof.
  intros F K. unfold after_back. cbv zeta.
  repeat match goal with |- core_kept (if ?b then _ else _) => destruct b | |- core_kept (match ?b with _ => _ end) => destruct b end; (split; [exact F|split; [exact K|exact Logic.I]]).
Qed.
Lemma handled_kept s c a s' ev u : field_fits (t_type s, t_field s) -> Forall field_fits (t_stack s) -> ans_kept (sx s) a -> handled s c a = Ok (s', ev, u) -> core_kept s' /\ reported ev.
Proof.
  intros F K A H. destruct a as [[t k] u0]. unfold handled in H. destruct t as [ev0 comp|h|]; cbn [ans_kept] in A.
  - destruct A as (A & B). apply bind_ok in H. destruct H as (s1 & E & H). injection H as <- <- _. split; [eapply after_event_kept; eassumption|exact A].
  - injection H as <- <- _. split; [|exact Logic.I]. split; [exact F|split; [exact K|]]. apply token_kept; [reflexivity|exact A].
  - injection H as <- <- _. split; [now apply after_back_kept|exact Logic.I].
Qed.
Lemma pending_kept v s ev : pending_value v s = Ok ev -> reported ev.
Proof.
  unfold pending_value. destruct (t_child s) as [k|]; [|intros [= <-]; exact Logic.I]. destruct (k_pend k) as [p|]; [|intros [= <-]; exact Logic.I]. destruct (k_val k); [|discriminate].
  assert (G : forall r, (let* ev0 := symbol_event v k p in Ok (Some ev0)) = Ok r -> reported r) by (intros r H; apply bind_ok in H; destruct H as (e & E & H); injection H as <-; exact (kept_symbol _ _ _ _ E)).
  destruct (t_type s) as [t|]; [|apply G]. destruct t; try apply G. destruct (k_field k); [apply G|discriminate].
Qed.
Lemma answered v r a : keeps v r -> r = Ok a -> ans_kept (in_sexp v) a.
Proof. intros K ->. exact K. Qed.
Lemma top_kept uni s oc s' ev : core_kept s -> top uni s oc = Ok (s', ev) -> core_kept s' /\ reported ev.
Proof.
  intros (F & K & _) H. unfold top in H. cbv zeta in H.
  assert (R : forall p, match p with PTop _ => True | PRead k _ _ | PWait k _ _ => match k with KTop | KColon => True | _ => False end end -> forall s1, t_type s1 = t_type s -> t_field s1 = t_field s -> t_stack s1 = t_stack s -> core_kept (with_pc s1 p)).
  { intros p P s1 E1 E2 E3. split; [cbn; rewrite E1, E2; exact F|split; [cbn; rewrite E3; exact K|]]. unfold pc_kept. cbn. destruct p as [|k ? ?|k ? ?]; auto; destruct k; try contradiction; exact Logic.I. }
  destruct oc as [c|]; [|injection H as <- <-; split; [now apply R|exact Logic.I]].
  destruct (_ || _ || _).
  { apply bind_ok in H. destruct H as (p & E & H). apply pending_kept in E. destruct p as [e|].
    { injection H as <- <-. split; [now apply R|exact E]. }
    destruct (is_end _ _).
    { destruct (_ && _); [discriminate|]. destruct (t_stack s) as [|[pt pf] below] eqn:ST; [discriminate|]. injection H as <- <-. inversion K. split; [|exact Logic.I]. split; [assumption|split; [assumption|exact Logic.I]]. }
    destruct (is_delim _ _).
    { destruct (negb _); [discriminate|]. injection H as <- <-. split; [|exact Logic.I]. split; [|split; [exact K|exact Logic.I]]. intros E1. cbn in *. destruct (t_type s) as [[]|]; congruence. }
    injection H as <- <-. split; [now apply R|exact Logic.I]. }
  destruct (is_ws _); [injection H as <- <-; split; [now apply R|exact Logic.I]|].
  destruct (_ =? 47).
  { apply bind_ok in H. destruct H as (h & E & H). injection H as <- <-. split; [|exact Logic.I]. split; [exact F|split; [exact K|]]. apply token_kept; [reflexivity|].
    assert (G : forall x, x = h -> match x with HComm0 None => True | _ => False end -> forall b k, hk_kept b h k) by (intros x <-; destruct x; try contradiction; destruct w; [contradiction|intros; exact Logic.I]).
    destruct (t_type s) as [[]|] eqn:TY; cbn [t_type with_flags] in E; rewrite TY in E; try (injection E as E; exact (G _ E Logic.I _ _)).
    apply bind_ok in E. destruct E as (p & E & E1). apply pending_kept in E. injection E1 as <-. cbn [hk_kept]. split; [exact Logic.I|]. destruct p; exact E. }
  destruct (t_delim _); [discriminate|].
  set (s1 := with_flags s (t_complete s) false) in *.
  assert (START : forall k, (let* (t, k0, _) := if t_field s1 then start_field (env_of uni s) (cz c) k else start_value (env_of uni s) (cz c) k in
     match t with
     | TGo h => let s2 := with_flags (with_child s1 (Some k0)) (t_complete s1) (negb (t_field s1)) in
        if (cz c =? 91) || (cz c =? 40) then
          let* (t1, k1, _) := send (env_of uni s) h Eof k0 in
          match t1 with TEv ev0 comp => let* s3 := after_event s2 k1 ev0 comp None in Ok (s3, Some ev0) | _ => Err TypeError end
        else Ok (with_pc s2 (token_pc s2 h ((cz c =? 34) || (cz c =? 39)) k0), None)
     | _ => Err TypeError end) = Ok (s', ev) -> core_kept s' /\ reported ev).
  { clear H. intros k H. apply bind_ok in H. destruct H as ([[t k0] u] & E & H).
    assert (A : ans_kept (sx s) (t, k0, u)).
    { change (sx s) with (in_sexp (env_of uni s)). destruct (t_field s1) eqn:FS; (eapply answered; [|exact E]); [apply start_field_keeps|apply start_value_keeps]. unfold in_sexp. cbn. change (t_field s1) with (t_field s) in FS. rewrite (F FS : t_type s = Some TStruct). reflexivity. }
    destruct t as [|h|]; [discriminate| |discriminate]. cbn [ans_kept] in A. cbv zeta in H. destruct (_ || _).
    - apply bind_ok in H. destruct H as ([[t1 k1] u1] & E1 & H). pose proof (answered _ _ _ (send_keeps (env_of uni s) h Eof k0 A) E1) as B.
      destruct t1 as [e comp|h1|]; [|discriminate|discriminate]. apply bind_ok in H. destruct H as (s3 & E2 & H). injection H as <- <-. destruct B as (B1 & B2). split; [|exact B1]. eapply after_event_kept; [| |exact B2|exact E2]; [exact F|exact K].
    - injection H as <- <-. split; [|exact Logic.I]. split; [exact F|split; [exact K|]]. apply token_kept; [reflexivity|exact A]. }
  destruct (pending (t_child s1)) as [p|] eqn:PE; [|exact (START _ H)]. destruct (t_child s1) as [k|] eqn:CE; [|exact (START _ H)].
  destruct (_ =? 58).
  { destruct (t_field s1).
    - apply bind_ok in H. destruct H as (k1 & E & H). injection H as <- <-. split; [|exact Logic.I]. split; [intros X; discriminate|split; [exact K|exact Logic.I]].
    - injection H as <- <-. split; [now apply R|exact Logic.I]. }
  destruct (t_field s1); [destruct p; discriminate|].
  apply bind_ok in H. destruct H as (e & E & H). injection H as <- <-. split; [now apply R|exact (kept_symbol _ _ _ _ E)].
Qed.
Lemma take_kept uni s k c s' ev u : field_fits (t_type s, t_field s) -> Forall field_fits (t_stack s) -> kont_kept s k -> take uni s k c = Ok (s', ev, u) -> core_kept s' /\ reported ev.
Proof.
  intros F K G H. destruct k as [| |h|cs h]; cbn [take kont_kept] in *.
  - injection H as <- <- _. split; [split; [exact F|split; [exact K|exact Logic.I]]|exact Logic.I].
  - destruct (_ =? 58); [|discriminate]. destruct (t_child s) as [x|]; [|discriminate]. apply bind_ok in H. destruct H as (x1 & E & H). injection H as <- <- _. split; [split; [exact F|split; [exact K|exact Logic.I]]|exact Logic.I].
  - destruct (t_child s) as [x|]; [|discriminate]. apply bind_ok in H. destruct H as (a & E & H). apply (handled_kept s c a s' ev u F K); [|exact H]. exact (answered _ _ _ (send_keeps (env_of uni s) h c x G) E).
  - destruct (t_child s) as [x|] eqn:CE; [|discriminate]. apply bind_ok in H. destruct H as (r & E & H). destruct r as [cs' u1|c' u1].
    + injection H as <- <- _. split; [|exact Logic.I]. split; [exact F|split; [exact K|]]. unfold pc_kept. cbn. rewrite CE. exact G.
    + apply bind_ok in H. destruct H as (a & E1 & H). apply bind_ok in H. destruct H as ([[s1 e1] u2] & E2 & H). injection H as <- <- _. apply (handled_kept s c' a s1 e1 u2 F K); [|exact E2]. exact (answered _ _ _ (send_keeps (env_of uni s) h c' x G) E1).
Qed.
Lemma kept_signal b : kept (signal b).
Proof. destruct b; exact Logic.I. Qed.
Lemma delegate_kept uni s q d s' q' ev : core_kept s -> delegate uni s q d = Ok (s', q', ev) -> core_kept s' /\ reported ev.
Proof.
  intros C H. pose proof C as (F & K & P). unfold delegate in H. unfold pc_kept in P. destruct (t_pc s) as [c|k a b|k a b].
  - apply bind_ok in H. destruct H as ([s1 e1] & E & H). injection H as <- _ <-. exact (top_kept _ _ _ _ _ C E).
  - destruct q as [|z q0].
    + injection H as <- _ <-. split; [split; [exact F|split; [exact K|exact P]]|apply kept_signal].
    + apply bind_ok in H. destruct H as ([[s1 e1] u] & E & H). injection H as <- _ <-. exact (take_kept _ _ _ _ _ _ _ F K P E).
  - assert (ST : Ok (s, q, Some (signal a)) = Ok (s', q', ev) -> core_kept s' /\ reported ev) by (intros [= <- _ <-]; split; [exact C|apply kept_signal]).
    destruct d as [[| |l]|]; try (exact (ST H)).
    + destruct b; [|discriminate]. apply bind_ok in H. destruct H as ([[s1 e1] u] & E & H). injection H as <- _ <-. exact (take_kept _ _ _ _ _ _ _ F K P E).
    + destruct l as [|x l]; [exact (ST H)|]. injection H as <- _ <-. split; [split; [exact F|split; [exact K|exact P]]|exact Logic.I].
Qed.
Lemma skip_step_kept uni r d r' ev : core_kept (tr_core r) -> skip_step uni r d = Ok (r', ev) -> core_kept (tr_core r') /\ reported ev.
Proof.
  intros C H. unfold skip_step in H. cbv zeta in H. apply bind_ok in H. destruct H as ([[s q] e] & E & H). destruct (delegate_kept _ _ _ _ _ _ _ C E) as (C' & R).
  repeat match type of H with
  | (if ?b then _ else _) = _ => destruct b
  | (match ?b with _ => _ end) = _ => destruct b
  | Err _ = _ => discriminate
  | Ok _ = Ok _ => injection H as <- <-
  end; (split; [exact C'|first [exact R|exact Logic.I]]).
Qed.
Lemma run_kept uni : forall n r d r' e, core_kept (tr_core r) -> run n uni r d = Ok (r', e) -> core_kept (tr_core r') /\ kept e.
Proof.
  induction n as [|n IH]; intros r d r' e C H; [discriminate|]. cbn [run] in H. destruct (skip_step uni r d) as [[r1 [ev|]]|] eqn:E; [| |discriminate].
  - injection H as <- <-. exact (skip_step_kept _ _ _ _ _ C E).
  - apply (IH _ _ _ _ (proj1 (skip_step_kept _ _ _ _ _ C E)) H).
Qed.
Definition keeping (t : treader) : Prop := match t with TFresh r | TAt r _ => core_kept (tr_core r) | TDead => True end.
Lemma keeping_new : keeping text_reader_new.
Proof. split; [intros X; discriminate|split; [constructor|exact Logic.I]]. Qed.
(** Every event the reader reports is [kept]. *)
Theorem keeping_send uni t d x t' : keeping t -> text_send uni t d = (x, t') -> keeping t' /\ match x with Ok e => kept e | Err _ => True end.
Proof.
  intros K H. unfold text_send in H. cbv zeta in H.
  assert (GO : forall r, core_kept (tr_core r) -> match run (steps_fuel r (Some d)) uni r (Some d) with Ok (r', ev) => (Ok ev, TAt r' ev) | Err e => (Err e, TDead) end = (x, t') -> keeping t' /\ match x with Ok e => kept e | Err _ => True end).
  { intros r C G. destruct (run _ _ _ _) as [[r' ev]|e] eqn:E; injection G as <- <-; [exact (run_kept _ _ _ _ _ _ C E)|split; exact Logic.I]. }
  destruct t as [r|r la|]; [destruct d|destruct (text_protocol_check la d)|]; try (exact (GO r K H)); injection H as <- <-; split; exact Logic.I.
Qed.
