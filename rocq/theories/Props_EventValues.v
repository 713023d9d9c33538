(** C76: the value of an event is of the class of the event's Ion type. *)
From Coq Require Import String.
From Verif Require Import Base BaseFacts FieldsModel CoreModel BufferModel BinWriterModel BinReaderModel SymbolsModel EventModel TextReaderModel TextReaderTrace TextValuesKept Props_BinLoadErrors.
Import BinReaderModel.
Local Open Scope Z_scope.
Local Open Scope list_scope.

(** * Specification *)
(** What can be seen of an event: with no value (signals, containers, nulls) anything; a version marker is the event of
    version 1.0; any other value is the value of a scalar event and of the Python class of its Ion type; and if computing
    the value raises, the event is a scalar event. *)
Definition python_class (t : iontype) (s : scalar) : Prop :=
  match t with
  | TBool => exists b, s = VBool b
  | TInt => exists z, s = VInt z
  | TFloat => exists x, s = VFloat x
  | TDecimal => exists d, s = VDecimal d
  | TTimestamp => exists u, s = VTimestamp (TsStamp u)
  | TSymbol => exists k, s = VSymbol k
  | TString => exists x, s = VString x
  | TClob | TBlob => exists b, s = VBytes b
  | TNull | TList | TSexp | TStruct => False
  end.
Definition fits (e : event) : Prop :=
  match attribute_of (ev_value e) with
  | Ok Nothing => True
  | Ok (Version major minor) => ev_type e = EVersionMarker /\ ev_ion_type e = None /\ (major, minor) = (1, 0)
  | Ok (Holds s) => ev_type e = EScalar /\ exists t, ev_ion_type e = Some t /\ python_class t s
  | Err _ => ev_type e = EScalar
  end.
(** What a raw binary reader answered, request by request. *)
Inductive talked : reader -> list (devent * event) -> reader -> Prop :=
| talked_none r : talked r [] r
| talked_more r d e r1 l r2 : reader_send r d = (Ok e, r1) -> talked r1 l r2 -> talked r ((d, e) :: l) r2.

(** * Proofs *)
Lemma class_of t s : of_class t s -> python_class t s.
Proof. destruct t, s; cbn; try contradiction; eauto. destruct t; try contradiction. eauto. Qed.
Lemma kept_fits e : kept e -> fits e.
Proof.
  unfold kept, fits. destruct (ev_value e) as [|s|k d|r|a b] eqn:V; cbn [attribute_of]; [auto| |contradiction| |].
  - intros (T & t & I & C). split; [exact T|]. exists t. split; [exact I|exact (class_of _ _ C)].
  - intros (T & t & I & C). destruct r as [s|x]; cbn [bind value_kept] in *; [|exact T]. split; [exact T|]. exists t. split; [exact I|exact (class_of _ _ C)].
  - intros ->. cbn in V. injection V as <- <-. cbn. auto.
Qed.

(** ** The text reader *)
Lemma exchange_fits uni l : forall t t', keeping t -> exchange uni t l t' -> Forall fits (map snd l).
Proof.
  induction l as [|[d e] l IH]; intros t t' K X; cbn [map snd]; [constructor|]. apply exchange_cons in X. destruct X as (t1 & S & X). destruct (keeping_send _ _ _ _ _ K S) as (K1 & KE). constructor; [exact (kept_fits _ KE)|exact (IH _ _ K1 X)].
Qed.

(** ** The binary reader *)
Definition kind_fits (k : option thunk_kind) (t : iontype) : Prop :=
  match k, t with
  | Some (KInt _), TInt | Some KFloat, TFloat | Some KDecimal, TDecimal | Some KTimestamp, TTimestamp | Some KSymbol, TSymbol | Some KString, TString
  | None, TClob | None, TBlob => True
  | _, _ => False
  end.
Lemma adjusted_stamp y mo d h mi s off p frac u : adjust_from_utc_fields y mo d h mi s off (Some p) frac = Ok u -> exists w, u = TsStamp w.
Proof.
  unfold adjust_from_utc_fields. intros H. apply bind_ok in H. destruct H as (raw & E & H).
  assert (P : ts_prec raw <> None).
  { clear H. unfold timestamp_new in E. repeat (apply bind_ok in E; destruct E as (? & ? & E)). destruct x3 as [[? ?] ?]. apply bind_ok in E. destruct E as (? & ? & E). injection E as <-. cbn. discriminate. }
  assert (G : forall o, (let* adj := dt_shift (ts_dt raw) o in match ts_prec raw with None => Ok (TsPlain adj) | Some _ => let* t := timestamp_new (dt_year adj) (dt_month adj) (dt_day adj) (dt_hour adj) (dt_minute adj) (dt_second adj) None off (ts_prec raw) None (Some (ts_frac raw)) in Ok (TsStamp t) end) = Ok u -> exists w, u = TsStamp w).
  { intros o G. apply bind_ok in G. destruct G as (adj & _ & G). destruct (ts_prec raw); [|contradiction P; reflexivity]. apply bind_ok in G. destruct G as (w & _ & G). injection G as <-. eauto. }
  destruct off as [[|o|o]|]; try (injection H as <-; eauto; fail); exact (G _ H).
Qed.
Lemma parsed_stamp data u : parse_timestamp data = Ok u -> exists w, u = TsStamp w.
Proof.
  unfold parse_timestamp. intros H. apply bind_ok in H. destruct H as ([[? ?] ?] & _ & H). cbv zeta in H. do 7 (apply bind_ok in H; destruct H as (? & ? & H); repeat match type of H with context [match ?x with pair _ _ => _ end] => is_var x; destruct x end).
  exact (adjusted_stamp _ _ _ _ _ _ _ _ _ _ H).
Qed.
Lemma thunk_class k t data s : kind_fits (Some k) t -> eval_thunk k data = Ok s -> python_class t s.
Proof.
  intros K E. destruct k, t; try contradiction; cbn [eval_thunk python_class] in *; try (injection E as <-; eauto; fail); apply bind_ok in E; destruct E as (x & E & H); injection H as <-; eauto. destruct (parsed_stamp _ _ E) as (w & ->). eauto.
Qed.

Definition user_fits (u : uhandler) : Prop := match u with UScalar k t => kind_fits k t | _ => True end.
Definition var_fits (v : vkont) : Prop := match v with VUser u => user_fits u | _ => True end.
Definition kont_fits (k : kont) : Prop := match k with KVar _ v _ => var_fits v | KScalar k t _ _ => kind_fits k t | _ => True end.
Definition pc_fits (p : pc) : Prop := match p with PRead _ _ sev k => plain_signal sev /\ kont_fits k | PK k => kont_fits k | PVar _ v _ => var_fits v | PLoop => True end.
Definition suits (r : sres) : Prop := match r with Ok (s, oe) => pc_fits (r_pc s) /\ match oe with Some e => fits e | None => True end | Err _ => True end.
Lemma suits_read fs q c n skip sev k : plain_signal sev -> kont_fits k -> suits (begin_read fs q c n skip sev k).
Proof.
  intros S K. unfold begin_read. destruct (if c_depth c =? 0 then _ else _); [|exact Logic.I]. cbn [bind]. cbv zeta. match goal with |- suits (let* _ := ?x in _) => destruct x end; [|exact Logic.I]. cbn [bind suits r_pc pc_fits]. split; [|exact Logic.I]. split; [|exact K]. destruct (0 <? aq_size q); [split; reflexivity|exact S].
Qed.
Lemma suits_wait fs q c n skip k : kont_fits k -> suits (begin_read fs q c n skip incomplete_event k).
Proof. apply suits_read. split; reflexivity. Qed.
Lemma suits_emit fs q c et t v : (forall f an d, fits (mkev et (Some t) v f an d)) -> suits (emit fs q c et t v).
Proof. intros P. unfold emit. cbv zeta. match goal with |- suits (let* _ := ?x in _) => destruct x end; [|exact Logic.I]. cbn. auto. Qed.
Lemma fits_scalar t k data f an d : kind_fits k t -> fits (mkev EScalar (Some t) (match k with Some k => EvThunk k data | None => EvVal (VBytes data) end) f an d).
Proof.
  intros K. unfold fits. destruct k as [k|]; cbn [ev_value attribute_of ev_type ev_ion_type].
  - destruct (eval_thunk k data) as [s|] eqn:E; cbn [bind]; [|reflexivity]. split; [reflexivity|]. exists t. split; [reflexivity|]. exact (thunk_class _ _ _ _ K E).
  - split; [reflexivity|]. exists t. split; [reflexivity|]. destruct t; try contradiction; cbn; eauto.
Qed.
Lemma suits_user fs q u n c : user_fits u -> suits (run_user fs q u n c).
Proof.
  intros U. destruct u as [k t|t| |]; cbn [run_user user_fits] in *.
  - destruct (n =? 0); [apply suits_emit; intros; apply fits_scalar; exact U|apply suits_wait; exact U].
  - cbv zeta. match goal with |- suits (let* _ := ?x in _) => destruct x end; [|exact Logic.I]. apply suits_emit. intros; exact Logic.I.
  - destruct (c_annot c); cbn; auto.
  - cbv zeta. destruct (match c_field c with Some _ => _ | None => _ end); [exact Logic.I|]. destruct (0 <? n); [apply suits_wait; exact Logic.I|cbn; auto].
Qed.
Definition handler_fits (h : handler) : Prop :=
  match h with HStatic t v => forall f an d, fits (mkev EScalar (Some t) v f an d) | HLen u _ | HVarLen u => user_fits u | _ => True end.
Lemma bound_fits u ln : user_fits u -> handler_fits (bind_len u ln).
Proof. intros U. unfold bind_len. repeat match goal with |- handler_fits (if ?c then _ else _) => destruct c | |- handler_fits (match ?c with _ => _ end) => destruct c end; exact U || exact Logic.I. Qed.
Lemma static_fits o t v : static_scalar o = Some (t, v) -> python_class t v.
Proof. unfold static_scalar. repeat match goal with |- match ?c with _ => _ end = _ -> _ => destruct c end; intros H; try discriminate H; injection H as <- <-; cbn; eauto. Qed.
Lemma dispatch_fits o : handler_fits (dispatch o).
Proof.
  unfold dispatch. cbv zeta. destruct (o =? 224); [exact Logic.I|]. destruct (_ =? 15); [destruct (_ <=? 13); [intros f an d; exact Logic.I|exact Logic.I]|]. destruct (static_scalar o) as [[t v]|] eqn:S.
  - intros f an d. split; [reflexivity|]. exists t. split; [reflexivity|exact (static_fits _ _ _ S)].
  - repeat match goal with |- handler_fits (if ?c then _ else _) => destruct c | |- handler_fits (match ?c with _ => _ end) => destruct c end; try exact Logic.I; apply bound_fits; exact Logic.I.
Qed.
Lemma suits_handler fs q o c : suits (run_handler fs q (dispatch o) c).
Proof.
  pose proof (dispatch_fits o) as D. destruct (dispatch o); cbn [run_handler handler_fits] in *; try exact Logic.I; try (cbn; auto; fail).
  - destruct (negb _); [exact Logic.I|apply suits_wait; exact Logic.I].
  - apply suits_emit. exact D.
  - apply suits_user. exact D.
Qed.
Lemma suits_start fs q c ex top : suits (start_type fs q c ex top).
Proof. apply suits_read; [apply signal_plain|exact Logic.I]. Qed.
Lemma suits_var fs q v vk c : var_fits vk -> suits (var_done fs q v vk c).
Proof.
  intros V. destruct vk; cbn [var_done var_fits] in *.
  - destruct fs; [exact Logic.I|apply suits_start].
  - apply suits_user. exact V.
  - destruct (v <? 2); [exact Logic.I|apply suits_user; exact Logic.I].
  - destruct (v <? 1); [exact Logic.I|apply suits_wait; exact Logic.I].
Qed.
Lemma suits_body fs q : suits (container_body fs q).
Proof.
  unfold container_body. destruct fs as [|f rest]; [exact Logic.I|]. destruct (opt_eqb _ _ _); [cbn; auto|]. cbv zeta. destruct (f_type f) as [[]|]; try apply suits_start. cbn; auto.
Qed.
Lemma suits_byte fs q acc vk c : var_fits vk -> suits (let* (octet, q) := aq_read_byte q in let value := varuint_step acc octet in if varuint_last octet then var_done fs q value vk c else Ok (mkr fs (PVar value vk c) q, None)).
Proof. intros V. destruct (aq_read_byte q) as [[o q']|]; [|exact Logic.I]. cbn [bind]. cbv zeta. destruct (varuint_last o); [apply suits_var; exact V|cbn; auto]. Qed.
Lemma signal_fits e : plain_signal e -> fits e.
Proof. intros (E & _). unfold fits. rewrite E. exact Logic.I. Qed.
Lemma step_suits s inp : pc_fits (r_pc s) -> suits (step s inp).
Proof.
  intros C. destruct s as [fs p q]. unfold step. cbn [r_q r_pc r_frames] in *. destruct p as [|n b sev k|k|acc vk c]; cbn [pc_fits] in C.
  - destruct inp as [[| |d]|]; try apply suits_body. destruct fs as [|g fs]; [exact Logic.I|]. destruct (f_limit g); [apply suits_wait; exact Logic.I|exact Logic.I].
  - destruct C as (C & K). destruct inp as [[| |d]|]; cbv zeta; (match goal with |- suits (if ?x then _ else _) => destruct x end); try (split; [exact K|exact Logic.I]); try (split; [split; [exact C|exact K]|exact (signal_fits _ C)]).
    assert (P : plain_signal (if 0 <? zlen d then incomplete_event else sev)) by (destruct (0 <? zlen d); [split; reflexivity|exact C]). split; [split; [exact P|exact K]|exact (signal_fits _ P)].
  - destruct k as [acc vk c| |c ex|k t n c|n c| |]; cbn [kont_fits] in C; try (apply suits_byte; exact C); try apply suits_body.
    + destruct (aq_read q 3) as [[d q']|]; [|exact Logic.I]. cbn [bind]. destruct (zlist_eqb _ _); cbn; auto.
    + destruct (aq_read_byte q) as [[o q']|]; [|exact Logic.I]. cbn [bind]. destruct (ex && _); [exact Logic.I|apply suits_handler].
    + destruct (aq_read q n) as [[d q']|]; [|exact Logic.I]. cbn [bind]. apply suits_emit. intros; apply fits_scalar; exact C.
    + destruct (aq_read q n) as [[d q']|]; [|exact Logic.I]. cbn [bind]. destruct (parse_sids d); [|exact Logic.I]. cbn [bind]. destruct (c_limit c); [|exact Logic.I]. destruct (_ <? 1); [exact Logic.I|apply suits_start].
  - destruct (aq_size q =? 0); [apply suits_wait; exact C|apply suits_byte; exact C].
Qed.
Lemma run_suits fuel : forall s inp s' ev, pc_fits (r_pc s) -> BinReaderModel.run fuel s inp = Ok (s', ev) -> pc_fits (r_pc s') /\ fits ev.
Proof.
  induction fuel as [|fuel IH]; intros s inp s' ev C; cbn [BinReaderModel.run]; [discriminate|]. pose proof (step_suits s inp C) as K. destruct (step s inp) as [[s1 [ev1|]]|e]; [intros H; injection H as <- <-; exact K| |discriminate]. apply IH. apply K.
Qed.
Definition fit_reader (r : reader) : Prop := match r with RFresh s | RAt s _ => pc_fits (r_pc s) | RDead => True end.
Lemma send_fits r d e r' : fit_reader r -> reader_send r d = (Ok e, r') -> fit_reader r' /\ fits e.
Proof.
  intros C H. destruct r as [s|s last|]; cbn [reader_send fit_reader] in *; [| |discriminate].
  - destruct d; try discriminate. destruct (BinReaderModel.run _ s _) as [[s' ev]|] eqn:R; [|discriminate]. injection H as <- <-. exact (run_suits _ _ _ _ _ C R).
  - destruct (protocol_check last d); [|discriminate]. destruct (BinReaderModel.run _ s _) as [[s' ev]|] eqn:R; [|discriminate]. injection H as <- <-. exact (run_suits _ _ _ _ _ C R).
Qed.
Lemma talked_fits r l r' : talked r l r' -> fit_reader r -> Forall fits (map snd l).
Proof. induction 1 as [|r d e r1 l r2 S T IH]; intros F; cbn [map snd]; [constructor|]. destruct (send_fits _ _ _ _ F S) as (F1 & FE). constructor; [exact FE|exact (IH F1)]. Qed.

(** * The theorems *)
(** C76, the text reader: any requests, any data. *)
Theorem C76_text_events_fit : forall uni l t, exchange uni text_reader_new l t -> Forall fits (map snd l).
Proof. intros uni l t X. exact (exchange_fits uni l _ _ keeping_new X). Qed.
Print Assumptions C76_text_events_fit.
(** C76, the binary reader. *)
Theorem C76_binary_events_fit : forall l r, talked reader_new l r -> Forall fits (map snd l).
Proof. intros l r T. exact (talked_fits _ _ _ T Logic.I). Qed.
Print Assumptions C76_binary_events_fit.

(** ** Concrete cases: both theorems speak of conversations in which values are reported, and in which a value raises. *)
Fixpoint converse (uni : bool) (t : treader) (ds : list devent) : option (list (devent * event) * treader) :=
  match ds with
  | [] => Some ([], t)
  | d :: ds => match text_send uni t d with (Ok e, t1) => match converse uni t1 ds with Some (l, t2) => Some ((d, e) :: l, t2) | None => None end | _ => None end
  end.
Lemma converse_exchange uni ds : forall t l t', converse uni t ds = Some (l, t') -> exchange uni t l t'.
Proof.
  induction ds as [|d ds IH]; intros t l t' H; cbn [converse] in H; [injection H as <- <-; constructor|]. destruct (text_send uni t d) as [[e|] t1] eqn:S; [|discriminate]. destruct (converse uni t1 ds) as [[l1 t2]|] eqn:C; [|discriminate]. injection H as <- <-. exact (ex_cons _ _ _ _ _ _ _ S (IH _ _ _ C)).
Qed.
Fixpoint talk (r : reader) (ds : list devent) : option (list (devent * event) * reader) :=
  match ds with
  | [] => Some ([], r)
  | d :: ds => match reader_send r d with (Ok e, r1) => match talk r1 ds with Some (l, r2) => Some ((d, e) :: l, r2) | None => None end | _ => None end
  end.
Lemma talk_talked ds : forall r l r', talk r ds = Some (l, r') -> talked r l r'.
Proof.
  induction ds as [|d ds IH]; intros r l r' H; cbn [talk] in H; [injection H as <- <-; constructor|]. destruct (reader_send r d) as [[e|] r1] eqn:S; [|discriminate]. destruct (talk r1 ds) as [[l1 r2]|] eqn:C; [|discriminate]. injection H as <- <-. exact (talked_more _ _ _ _ _ _ S (IH _ _ _ C)).
Qed.
Definition shown (e : event) : evtype * option iontype * res attribute := (ev_type e, ev_ion_type e, attribute_of (ev_value e)).
(** Of [$ion_1_0 [1.5, true, null.int, "x"]  2000-13-01T ]: the last value raises ValueError when it is asked for. *)
Theorem C76_text_cases : exists l t, exchange true text_reader_new l t /\
  map (fun p => shown (snd p)) l =
    [(EStreamEnd, None, Ok Nothing); (EVersionMarker, None, Ok (Version 1 0)); (EContainerStart, Some TList, Ok Nothing);
     (EScalar, Some TDecimal, Ok (Holds (VDecimal (mkdec false 15 (-1))))); (EScalar, Some TBool, Ok (Holds (VBool true)));
     (EScalar, Some TInt, Ok Nothing); (EScalar, Some TString, Ok (Holds (VString (chars "x")))); (EContainerEnd, Some TList, Ok Nothing);
     (EScalar, Some TTimestamp, Err ValueError); (EStreamEnd, None, Ok Nothing)].
Proof.
  set (ds := [DNext; DData (chars "$ion_1_0 [1.5, true, null.int, ""x""] 2000-13-01T "); DNext; DNext; DNext; DNext; DNext; DNext; DNext; DNext]).
  assert (S : option_map (fun x => map (fun p => shown (snd p)) (fst x)) (converse true text_reader_new ds) =
    Some [(EStreamEnd, None, Ok Nothing); (EVersionMarker, None, Ok (Version 1 0)); (EContainerStart, Some TList, Ok Nothing);
     (EScalar, Some TDecimal, Ok (Holds (VDecimal (mkdec false 15 (-1))))); (EScalar, Some TBool, Ok (Holds (VBool true)));
     (EScalar, Some TInt, Ok Nothing); (EScalar, Some TString, Ok (Holds (VString (chars "x")))); (EContainerEnd, Some TList, Ok Nothing);
     (EScalar, Some TTimestamp, Err ValueError); (EStreamEnd, None, Ok Nothing)]) by (vm_compute; reflexivity).
  destruct (converse true text_reader_new ds) as [[l t]|] eqn:C; [|discriminate S]. exists l, t. split; [exact (converse_exchange _ _ _ _ _ C)|]. cbn [option_map fst] in S. exact (f_equal (fun o => match o with Some x => x | None => [] end) S).
Qed.
(** A version marker, a list of the integer 300 and a string that is not UTF-8, and the decimal 0. *)
Theorem C76_binary_cases : exists l r, talked reader_new l r /\
  map (fun p => shown (snd p)) l =
    [(EStreamEnd, None, Ok Nothing); (EVersionMarker, None, Ok (Version 1 0)); (EContainerStart, Some TList, Ok Nothing);
     (EScalar, Some TInt, Ok (Holds (VInt 300))); (EScalar, Some TString, Err UnicodeDecodeError); (EContainerEnd, Some TList, Ok Nothing);
     (EScalar, Some TDecimal, Ok (Holds (VDecimal (mkdec false 0 0)))); (EStreamEnd, None, Ok Nothing)].
Proof.
  set (ds := [DNext; DData [224; 1; 0; 234; 181; 34; 1; 44; 129; 255; 80]; DNext; DNext; DNext; DNext; DNext; DNext]).
  assert (S : option_map (fun x => map (fun p => shown (snd p)) (fst x)) (talk reader_new ds) =
    Some [(EStreamEnd, None, Ok Nothing); (EVersionMarker, None, Ok (Version 1 0)); (EContainerStart, Some TList, Ok Nothing);
     (EScalar, Some TInt, Ok (Holds (VInt 300))); (EScalar, Some TString, Err UnicodeDecodeError); (EContainerEnd, Some TList, Ok Nothing);
     (EScalar, Some TDecimal, Ok (Holds (VDecimal (mkdec false 0 0)))); (EStreamEnd, None, Ok Nothing)]) by (vm_compute; reflexivity).
  destruct (talk reader_new ds) as [[l t]|] eqn:C; [|discriminate S]. exists l, t. split; [exact (talk_talked _ _ _ _ C)|]. cbn [option_map fst] in S. exact (f_equal (fun o => match o with Some x => x | None => [] end) S).
Qed.
