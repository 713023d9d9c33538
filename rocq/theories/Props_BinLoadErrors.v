(** C69: [load] and [loads] of any octets that start with the binary version marker return or raise one of eight exceptions. *)
From Verif Require Import Base BaseFacts FieldsModel BufferModel CoreModel BinWriterModel BinReaderModel BinReaderSession SymbolsModel SymbolsProofs ManagedModel MultimapModel SimpleionModel TextValueModel BinFormat BinFormatFacts
  ReaderGrammarProofs BinAccepts BinAcceptProofs Props_BinAccept Props_BinLoadAccept Props_BinErrors.
Local Open Scope Z_scope.
Local Open Scope list_scope.

(** The exceptions. *)
Definition load_exception (e : exc) : Prop :=
  match e with
  | IonException | CannotSubstituteTable | TypeError | ValueError | AttributeError | OverflowError | UnicodeDecodeError | DecimalException => True
  | IndexError | KeyError | AssertionError | UnicodeEncodeError | StopIteration | StructError | OutOfFuel => False
  end.
Definition within {A} (r : res A) : Prop := match r with Ok _ => True | Err e => load_exception e end.
Lemma within_bind {A B} (r : res A) (f : A -> res B) : within r -> (forall a, r = Ok a -> within (f a)) -> within (let* a := r in f a).
Proof. destruct r as [a|e]; cbn; auto. Qed.
Ltac inside := repeat first
  [ exact Logic.I | assumption
  | match goal with
    | |- within (bind _ _) => apply within_bind; [|intros ? ?]
    | |- within (let '(_, _) := ?x in _) => destruct x
    | |- within (match ?x with _ => _ end) => destruct x
    end ].

(** * Values *)
Lemma within_int_components buf : forall signed sign v, within (parse_var_int_components buf signed sign v).
Proof. induction buf as [|o r IH]; intros; cbn [parse_var_int_components]; [exact Logic.I|]. cbv zeta. destruct (Z.testbit o 7); [exact Logic.I|apply IH]. Qed.
Lemma within_int buf signed : within (parse_var_int buf signed).
Proof. unfold parse_var_int. apply within_bind; [apply within_int_components|]. intros [[? ?] ?] _. exact Logic.I. Qed.
Lemma within_fix prec d : within (dec_fix prec d).
Proof. unfold dec_fix. cbv zeta. inside. Qed.
Lemma within_decimal buf : within (parse_decimal buf).
Proof.
  unfold parse_decimal. apply within_bind; [apply within_int|]. intros [ex rest] _. destruct (parse_signed_int_components rest) as [sb co]. destruct (co =? 0); [exact Logic.I|]. unfold dec_scaleb. cbv zeta. destruct (_ || _); [exact Logic.I|apply within_fix].
Qed.
Lemma within_datetime y mo d h mi s us off : within (datetime_new y mo d h mi s us off).
Proof. unfold datetime_new. inside. Qed.
Lemma within_stamp y mo d h mi s micro off prec fprec frac : within (timestamp_new y mo d h mi s micro off prec fprec frac).
Proof.
  unfold timestamp_new. repeat (apply within_bind; [|intros ? ?]).
  all: try solve [inside]. all: try apply within_datetime.
  - destruct frac as [f|]; [|inside]. cbv zeta. apply within_bind; [apply within_fix|]. intros; exact Logic.I.
  - destruct a3 as [[? ?] ?]. apply within_bind; [apply within_datetime|]. intros; exact Logic.I.
Qed.
Lemma within_shift t d : within (dt_shift t d).
Proof. unfold dt_shift. cbv zeta. destruct (if _ <? 0 then _ else _) as [[? ?] ?]. destruct (_ && _); exact Logic.I. Qed.
Lemma within_adjust y mo d h mi s off prec frac : within (adjust_from_utc_fields y mo d h mi s off prec frac).
Proof.
  unfold adjust_from_utc_fields. apply within_bind; [apply within_stamp|]. intros raw _.
  assert (G : forall o, within (let* adj := dt_shift (ts_dt raw) o in match ts_prec raw with None => Ok (TsPlain adj) | Some _ => let* t := timestamp_new (dt_year adj) (dt_month adj) (dt_day adj) (dt_hour adj) (dt_minute adj) (dt_second adj) None off (ts_prec raw) None (Some (ts_frac raw)) in Ok (TsStamp t) end)).
  { intros o. apply within_bind; [apply within_shift|]. intros adj _. destruct (ts_prec raw); [|exact Logic.I]. apply within_bind; [apply within_stamp|]. intros; exact Logic.I. }
  destruct off as [[|o|o]|]; try exact Logic.I; apply G.
Qed.
Lemma within_timestamp data : within (parse_timestamp data).
Proof.
  unfold parse_timestamp. apply within_bind; [apply within_int_components|]. intros [[sg mag] buf] _. cbv zeta. apply within_bind; [unfold offset_tz; inside|]. intros tz _.
  apply within_bind; [apply within_int|]. intros [y b1] _.
  apply within_bind; [destruct b1; [exact Logic.I|apply within_bind; [apply within_int|intros [? ?] _; exact Logic.I]]|]. intros [[mo p1] b2] _.
  apply within_bind; [destruct b2; [exact Logic.I|apply within_bind; [apply within_int|intros [? ?] _; exact Logic.I]]|]. intros [[dd p2] b3] _.
  apply within_bind; [destruct b3; [exact Logic.I|apply within_bind; [apply within_int|intros [? ?] _; apply within_bind; [apply within_int|intros [? ?] _; exact Logic.I]]]|]. intros [[[h mi] p3] b4] _.
  apply within_bind; [destruct b4; [exact Logic.I|apply within_bind; [apply within_int|intros [? ?] _; exact Logic.I]]|]. intros [[s p4] b5] _.
  apply within_bind; [destruct b5; [exact Logic.I|apply within_bind; [apply within_decimal|intros f _; destruct (_ && _); exact Logic.I]]|]. intros fr _. apply within_adjust.
Qed.
Lemma within_char l : match utf8_decode_cp l with Ok (_, r) => (length r < length l)%nat | Err e => load_exception e end.
Proof.
  unfold utf8_decode_cp. cbv zeta. repeat match goal with |- match (match ?x with _ => _ end) with Ok _ => _ | Err _ => _ end => destruct x end; cbn [length]; try exact Logic.I; lia.
Qed.
Lemma within_utf8 f : forall l, (length l <= f)%nat -> within (utf8_decode_aux f l).
Proof.
  induction f as [|f IH]; intros l L; destruct l as [|b l]; cbn [utf8_decode_aux]; try exact Logic.I; [cbn in L; lia|]. pose proof (within_char (b :: l)) as C. destruct (utf8_decode_cp (b :: l)) as [[c r]|e]; [|exact C]. cbn [bind]. apply within_bind; [apply IH; cbn [length] in *; lia|]. intros; exact Logic.I.
Qed.
Lemma within_thunk k data : within (eval_thunk k data).
Proof.
  destruct k; cbn [eval_thunk]; try exact Logic.I.
  - apply within_bind; [unfold parse_float; inside|]. intros; exact Logic.I.
  - apply within_bind; [apply within_decimal|]. intros; exact Logic.I.
  - apply within_bind; [apply within_timestamp|]. intros; exact Logic.I.
  - apply within_bind; [apply within_utf8; lia|]. intros; exact Logic.I.
Qed.
Definition plain_value (v : evalue) : Prop := match v with EvLazy _ => False | _ => True end.
Lemma within_force v : plain_value v -> within (ev_force v).
Proof. destruct v; cbn [plain_value ev_force]; try contradiction; intros _; try exact Logic.I. apply within_bind; [apply within_thunk|]. intros; exact Logic.I. Qed.

(** * Symbols and tables *)
Lemma within_token table t : within (resolve_token table t).
Proof. unfold resolve_token. inside. Qed.
Lemma within_tokens table l : within (mapM (resolve_token table) l).
Proof. induction l as [|t l IH]; cbn [mapM]; [exact Logic.I|]. apply within_bind; [apply within_token|]. intros ? _. apply within_bind; [exact IH|]. intros; exact Logic.I. Qed.
Lemma within_table ty symbols name version imports sub : within (st_new ty symbols name version imports sub).
Proof. unfold st_new. cbv zeta. repeat match goal with |- within (if ?c then _ else _) => destruct c; [exact Logic.I|] end. exact Logic.I. Qed.
(** Catalogs that hold what was registered. *)
Definition no_empty_name (c : catalog) : Prop := forall name vs, dict_get zlist_eqb c name = Some vs -> vs <> [].
Lemma within_resolve cat name version max : no_empty_name cat -> within (resolve cat name version max).
Proof.
  intros N. unfold resolve. destruct (version <=? 0); [exact Logic.I|]. destruct (match max with Some m => m <? 0 | None => false end); [exact Logic.I|]. destruct (dict_get zlist_eqb cat name) as [vs|] eqn:G.
  - specialize (N _ _ G). cbv zeta. destruct (last_version_spec vs N) as (m & t & L & _). rewrite L. destruct (dict_get Z.eqb vs version) as [t0|]; (destruct (_ && _); [exact Logic.I|]; destruct max as [mx|]; [|exact Logic.I]; unfold substitute_symbol_table; cbv zeta; repeat match goal with |- within (if ?c then Err _ else _) => destruct c; [exact Logic.I|] end; apply within_table).
  - destruct max as [mx|]; [|exact Logic.I]. unfold placeholder_symbol_table. repeat match goal with |- within (if ?c then Err _ else _) => destruct c; [exact Logic.I|] end. apply within_table.
Qed.
Lemma registered_names h : forall c c', register_all c h = Ok c' -> no_empty_name c -> no_empty_name c'.
Proof.
  induction h as [|t h IH]; intros c c'; cbn [register_all]; [intros H; injection H as <-; auto|]. destruct (register c t) as [c1|] eqn:R; [|discriminate]. cbn [bind]. intros H N. apply (IH _ _ H). clear IH H. unfold register in R. destruct (is_system _); [discriminate|]. destruct (negb _); [discriminate|]. destruct (st_sub t); [discriminate|]. injection R as <-. cbv zeta.
  intros name vs. set (nm := match st_name t with Some n => n | None => [] end). destruct (zlist_eqb name nm) eqn:E.
  - apply zlist_eqb_eq in E. subst name. rewrite (dict_get_set_same zlist_eqb zlist_eqb_eq). intros H. injection H as <-. destruct (match dict_get zlist_eqb c nm with Some vs => vs | None => [] end) as [|[k y] d]; cbn [dict_set]; [discriminate|]. destruct (_ =? k); discriminate.
  - rewrite (dict_get_set_other zlist_eqb zlist_eqb_eq); [apply N|]. intros ->. rewrite (proj2 (zlist_eqb_eq nm nm) eq_refl) in E. discriminate.
Qed.

(** * The raw reader's events carry plain values *)
Definition plain_signal (e : event) : Prop := ev_value e = EvNone /\ ev_ion_type e = None.
Definition calm_pc (p : pc) : Prop := match p with PRead _ _ sev _ => plain_signal sev | _ => True end.
Definition calm (r : sres) : Prop := match r with Ok (s, oe) => calm_pc (r_pc s) /\ match oe with Some e => plain_value (ev_value e) | None => True end | Err _ => True end.
Lemma signal_plain (b : bool) : plain_signal (if b then stream_end_event else incomplete_event). Proof. destruct b; split; reflexivity. Qed.
Lemma calm_read fs q c n skip sev k : plain_signal sev -> calm (begin_read fs q c n skip sev k).
Proof.
  intros S. unfold begin_read. destruct (if c_depth c =? 0 then _ else _); [|exact Logic.I]. cbn [bind]. cbv zeta. match goal with |- calm (let* _ := ?x in _) => destruct x end; [|exact Logic.I]. cbn [bind calm r_pc calm_pc]. split; [|exact Logic.I]. destruct (0 <? aq_size q); [split; reflexivity|exact S].
Qed.
Lemma calm_wait fs q c n skip k : calm (begin_read fs q c n skip incomplete_event k).
Proof. apply calm_read. split; reflexivity. Qed.
Lemma calm_emit fs q c et t v : plain_value v -> calm (emit fs q c et t v).
Proof. intros P. unfold emit. cbv zeta. match goal with |- calm (let* _ := ?x in _) => destruct x end; [|exact Logic.I]. cbn. auto. Qed.
Lemma calm_user fs q u n c : calm (run_user fs q u n c).
Proof.
  destruct u as [k t|t| |]; cbn [run_user].
  - destruct (n =? 0); [apply calm_emit; destruct k; exact Logic.I|apply calm_wait].
  - cbv zeta. match goal with |- calm (let* _ := ?x in _) => destruct x end; [|exact Logic.I]. apply calm_emit. exact Logic.I.
  - destruct (c_annot c); cbn; auto.
  - cbv zeta. destruct (match c_field c with Some _ => _ | None => _ end); [exact Logic.I|]. destruct (0 <? n); [apply calm_wait|cbn; auto].
Qed.
Lemma static_plain o t v : dispatch o = HStatic t v -> plain_value v.
Proof.
  unfold dispatch, bind_len. cbv zeta. repeat match goal with |- (if ?c then _ else _) = _ -> _ => destruct c | |- (match ?c with _ => _ end) = _ -> _ => destruct c end; intros H; try discriminate H; injection H as _ <-; exact Logic.I.
Qed.
Lemma calm_handler fs q o c : calm (run_handler fs q (dispatch o) c).
Proof.
  destruct (dispatch o) eqn:D; cbn [run_handler]; try exact Logic.I; try (cbn; auto; fail).
  - destruct (negb _); [exact Logic.I|apply calm_wait].
  - apply calm_emit. exact (static_plain _ _ _ D).
  - apply calm_user.
Qed.
Lemma calm_start fs q c ex top : calm (start_type fs q c ex top).
Proof. apply calm_read. apply signal_plain. Qed.
Lemma calm_var fs q v vk c : calm (var_done fs q v vk c).
Proof.
  destruct vk; cbn [var_done].
  - destruct fs; [exact Logic.I|apply calm_start].
  - apply calm_user.
  - destruct (v <? 2); [exact Logic.I|apply calm_user].
  - destruct (v <? 1); [exact Logic.I|apply calm_wait].
Qed.
Lemma calm_body fs q : calm (container_body fs q).
Proof.
  unfold container_body. destruct fs as [|f rest]; [exact Logic.I|]. destruct (opt_eqb _ _ _); [cbn; auto|]. cbv zeta. destruct (f_type f) as [[]|]; try apply calm_start. cbn; auto.
Qed.
Lemma calm_byte fs q acc vk c : calm (let* (octet, q) := aq_read_byte q in let value := varuint_step acc octet in if varuint_last octet then var_done fs q value vk c else Ok (mkr fs (PVar value vk c) q, None)).
Proof. destruct (aq_read_byte q) as [[o q']|]; [|exact Logic.I]. cbn [bind]. cbv zeta. destruct (varuint_last o); [apply calm_var|cbn; auto]. Qed.
Lemma step_calm s inp : calm_pc (r_pc s) -> calm (step s inp).
Proof.
  intros C. destruct s as [fs p q]. unfold step. cbn [r_q r_pc r_frames] in *. destruct p as [|n b sev k|k|acc vk c].
  - destruct inp as [[| |d]|]; try apply calm_body. destruct fs as [|g fs]; [exact Logic.I|]. destruct (f_limit g); [apply calm_wait|exact Logic.I].
  - cbn [calm_pc] in C. assert (V : forall e, plain_signal e -> plain_value (ev_value e)) by (intros e (-> & _); exact Logic.I).
    destruct inp as [[| |d]|]; cbv zeta; (match goal with |- calm (if ?x then _ else _) => destruct x end; cbn; auto). split; [|apply V]; destruct (0 <? zlen d); auto; split; reflexivity.
  - destruct k as [acc vk c| |c ex|k t n c|n c| |]; try apply calm_byte; try apply calm_body.
    + destruct (aq_read q 3) as [[d q']|]; [|exact Logic.I]. cbn [bind]. destruct (zlist_eqb _ _); cbn; auto.
    + destruct (aq_read_byte q) as [[o q']|]; [|exact Logic.I]. cbn [bind]. destruct (ex && _); [exact Logic.I|apply calm_handler].
    + destruct (aq_read q n) as [[d q']|]; [|exact Logic.I]. cbn [bind]. apply calm_emit. destruct k; exact Logic.I.
    + destruct (aq_read q n) as [[d q']|]; [|exact Logic.I]. cbn [bind]. destruct (parse_sids d); [|exact Logic.I]. cbn [bind]. destruct (c_limit c); [|exact Logic.I]. destruct (_ <? 1); [exact Logic.I|apply calm_start].
  - destruct (aq_size q =? 0); [apply calm_wait|apply calm_byte].
Qed.
Lemma run_calm fuel : forall s inp s' ev, calm_pc (r_pc s) -> run fuel s inp = Ok (s', ev) -> calm_pc (r_pc s') /\ plain_value (ev_value ev).
Proof.
  induction fuel as [|fuel IH]; intros s inp s' ev C; cbn [run]; [discriminate|]. pose proof (step_calm s inp C) as K. destruct (step s inp) as [[s1 [ev1|]]|e]; [intros H; injection H as <- <-; exact K| |discriminate]. apply IH. apply K.
Qed.
Definition calm_reader (r : reader) : Prop := match r with RFresh s | RAt s _ => calm_pc (r_pc s) | RDead => True end.
Lemma send_calm r d : calm_reader r -> calm_reader (snd (reader_send r d)) /\ forall ev, fst (reader_send r d) = Ok ev -> plain_value (ev_value ev).
Proof.
  intros C. destruct r as [s|s last|]; cbn [reader_send calm_reader] in *; [| |split; [exact Logic.I|discriminate]].
  - destruct d; try (split; [exact Logic.I || exact C|discriminate]). destruct (run _ s _) as [[s' ev]|] eqn:R; [|split; [exact Logic.I|discriminate]]. destruct (run_calm _ _ _ _ _ C R) as (A & B). cbn [fst snd]. split; [exact A|]. intros e H. injection H as <-. exact B.
  - destruct (protocol_check last d); [|split; [exact Logic.I|discriminate]]. destruct (run _ s _) as [[s' ev]|] eqn:R; [|split; [exact Logic.I|discriminate]]. destruct (run_calm _ _ _ _ _ C R) as (A & B). cbn [fst snd]. split; [exact A|]. intros e H. injection H as <-. exact B.
Qed.

(** * Events are no more than twice the octets *)
Lemma some_long (x : Z) l : 1 <= zlen (x :: l).
Proof. rewrite zlen_cons. pose proof (zlen_nonneg l). lia. Qed.
Lemma header_long1 tid lo n hd : header tid lo n hd -> 1 <= zlen hd.
Proof. intros [(N & ->)|(c & _ & ->)]; apply some_long. Qed.
Lemma body_long t v body : scalar_code t v body -> 1 <= zlen body.
Proof. destruct 1 as [| | |tid k t hd data P H]; try apply some_long. rewrite zlen_app. pose proof (zlen_nonneg data). pose proof (header_long1 _ _ _ _ H). lia. Qed.
Lemma head_long t n hd : container_code t n hd -> 1 <= zlen hd.
Proof. destruct t; cbn [container_code]; try contradiction; try apply header_long1. intros [(_ & _ & ->)|[(c & _ & ->)|(c & _ & _ & ->)]]; apply some_long. Qed.
Lemma piece_count m fs pos seg oe fs' : piece m fs pos seg oe fs' -> zlen (told oe) + level (told oe) <= 2 * zlen seg.
Proof.
  destruct 1 as [f rest pos L|f rest pos fld w t v body E F W C|f rest pos fld w t n hd E F W C N|f rest pos w D T U E|f rest pos fld w body E F Z U P|f rest pos seg K L]; cbn [told]; rewrite ?zlen_app; cbn [level level_of ev_type end_of version_marker_event]; rewrite ?zlen_cons; change (zlen (@nil event)) with 0.
  - cbn; lia.
  - pose proof (body_long _ _ _ C). pose proof (zlen_nonneg (lead fld w)). lia.
  - pose proof (head_long _ _ _ C). pose proof (zlen_nonneg (lead fld w)). lia.
  - pose proof (zlen_nonneg (opt_octets wrapper_octets w)). change (zlen ivm) with 4. lia.
  - pose proof (zlen_nonneg (lead fld w)). pose proof (zlen_nonneg body). lia.
  - pose proof (zlen_nonneg seg). lia.
Qed.
Lemma chain_count opens m fs pos l es fs' : chain opens m fs pos l es fs' -> zlen es + level es <= 2 * zlen l.
Proof. induction 1 as [|m fs pos seg oe fs1 l es fs2 P C IH]; [cbn; lia|]. rewrite !zlen_app, level_app. pose proof (piece_count _ _ _ _ _ _ P). lia. Qed.
Lemma inv_count opens s D es : Inv opens s D es -> zlen es <= 2 * zlen D.
Proof.
  intros (f & rest & past & u & (-> & C & _) & _). pose proof (chain_count _ _ _ _ _ _ _ C). pose proof (chain_level _ _ _ _ _ _ _ C) as L. rewrite !zlen_cons in L. rewrite !zlen_app. pose proof (zlen_nonneg rest). pose proof (zlen_nonneg u). pose proof (zlen_nonneg (aq_data (r_q s))). change (zlen (@nil frame)) with 0 in L. lia.
Qed.

(** * The managed reader *)
Lemma within_string e : plain_value (ev_value e) -> within (string_value e).
Proof. intros P. unfold string_value. apply within_bind; [apply within_force; exact P|]. intros [[]|] _; exact Logic.I. Qed.
Lemma within_integer e : plain_value (ev_value e) -> within (int_value e).
Proof. intros P. unfold int_value. apply within_bind; [apply within_force; exact P|]. intros [[]|] _; exact Logic.I. Qed.
Lemma within_symbol e : plain_value (ev_value e) -> within (symbol_value e).
Proof. intros P. unfold symbol_value. apply within_bind; [apply within_force; exact P|]. intros [[]|] _; exact Logic.I. Qed.
Lemma within_desc table d e : plain_value (ev_value e) -> within (desc_field table d e).
Proof.
  intros P. unfold desc_field. destruct (ev_field e); [|exact Logic.I]. apply within_bind; [apply within_token|]. intros tk _. destruct (ev_ion_type e) as [[]|]; try exact Logic.I.
  - destruct (is_text _ _); [apply within_bind; [apply within_integer; exact P|intros; exact Logic.I]|]. destruct (is_text _ _); [apply within_bind; [apply within_integer; exact P|intros; exact Logic.I]|exact Logic.I].
  - destruct (is_text _ _); [apply within_bind; [apply within_string; exact P|intros; exact Logic.I]|exact Logic.I].
Qed.
Lemma within_lp cat table p e : no_empty_name cat -> plain_value (ev_value e) -> within (lp_step cat table p e).
Proof.
  intros N P. unfold lp_step. cbv zeta. destruct (lp_skip p); [exact Logic.I|].
  assert (FT : within (field_text table e)) by (unfold field_text; destruct (ev_field e); [apply within_bind; [apply within_token|intros; exact Logic.I]|exact Logic.I]).
  assert (IM : forall d, within (import_table cat d)).
  { intros d. unfold import_table. destruct (desc_name d); [|exact Logic.I]. destruct (desc_version d); [|exact Logic.I]. apply within_bind; [apply within_resolve; exact N|intros; exact Logic.I]. }
  destruct (lp_mode p) as [| | |dd]; destruct (ev_type e);
  repeat first [exact Logic.I | apply within_string; exact P | apply within_integer; exact P | apply within_symbol; exact P | apply within_desc; exact P | apply within_token | apply within_table | exact FT | apply IM
    | match goal with
      | |- within (bind _ _) => apply within_bind; [|intros ? ?]
      | |- within (match ?x with _ => _ end) => destruct x
      end ].
Qed.
Lemma within_mr cat m e : no_empty_name cat -> plain_value (ev_value e) -> within (mr_step cat m e).
Proof.
  intros N P. unfold mr_step. destruct (ms_proc m) as [p|].
  - destruct (is_stream_signal _); [exact Logic.I|]. apply within_bind; [apply within_lp; assumption|]. intros [] _; exact Logic.I.
  - repeat first [exact Logic.I | apply within_symbol; exact P | apply within_token
    | match goal with
      | |- within (bind _ _) => apply within_bind; [|intros ? ?]
      | |- within (match ?x with _ => _ end) => destruct x
      end ].
Qed.
Lemma send_next s ev : is_stream_signal (ev_type ev) = true -> reader_send (RAt s ev) DNext = (Err TypeError, RDead).
Proof. intros SG. cbn [reader_send]. unfold protocol_check. rewrite SG. reflexivity. Qed.
Definition tells (x : res event * reader) : Prop := match fst x with Err e => load_exception e | Ok ev => plain_value (ev_value ev) /\ calm_reader (snd x) end.
Lemma tame_listed e : tame e -> load_exception e.
Proof. intros [->| ->]; exact Logic.I. Qed.
Lemma tells_request s ev D es d : Inv Tb s D es -> at_event s ev -> asked_well Tb es (Some ev) d -> calm_reader (RAt s ev) -> tells (reader_send (RAt s ev) d).
Proof.
  intros I A AW C. destruct (send_calm (RAt s ev) d C) as (C1 & V). pose proof (fun e r' => request_tame Tb (RAt s ev) D es d e r' (conj I A) AW) as T. unfold tells. destruct (reader_send (RAt s ev) d) as [[ev'|e] r']; cbn [fst snd] in *; [auto|]. apply tame_listed. exact (T e r' eq_refl).
Qed.
Lemma tells_first r D es : rok Tb r D es -> calm_reader r -> tells (reader_send r DNext).
Proof.
  intros R C. destruct (send_calm r DNext C) as (C1 & V). pose proof (fun e r' => request_tame Tb r D es DNext e r' R Logic.I) as T. unfold tells. destruct (reader_send r DNext) as [[ev'|e] r']; cbn [fst snd] in *; [auto|]. apply tame_listed. exact (T e r' eq_refl).
Qed.
Lemma tells_data s ev D es c : Inv Tb s D es -> waits s ev -> octets c -> c <> [] -> calm_reader (RAt s ev) -> tells (reader_send (RAt s ev) (DData c)).
Proof.
  intros I W O NE C. destruct (send_calm (RAt s ev) (DData c) C) as (C1 & V). pose proof (fun e r' => data_tame Tb s ev D es c e r' I W O NE) as T. unfold tells. destruct (reader_send (RAt s ev) (DData c)) as [[ev'|e] r']; cbn [fst snd] in *; [auto|]. apply tame_listed. exact (T e r' eq_refl).
Qed.
Definition msays (n : Z) (D : list Z) (x : res mevent * mreader) : Prop :=
  match x with
  | (Err e, _) => load_exception e
  | (Ok u, (m, r)) => exists es s, r = RAt s (me_ev u) /\ Inv Tb s D es /\ at_event s (me_ev u) /\ mok m es /\ calm_reader r /\ plain_value (ev_value (me_ev u)) /\ n <= zlen es /\
      if is_stream_signal (ev_type (me_ev u)) then (match ms_proc m with Some p => lp_skip p = true -> skipping s | None => True end) else ms_proc m = None /\ n < zlen es
  end.
Lemma msays_less n n' D x : n <= n' -> msays n' D x -> msays n D x.
Proof.
  intros L. destruct x as [[u|e] [m r]]; cbn [msays]; [|auto]. intros (es & s & R & I & A & MO & C & P & G & H). exists es, s. repeat (split; [solve [auto; lia]|]). destruct (is_stream_signal _); [exact H|]. destruct H. split; [assumption|lia].
Qed.
Lemma msend_says fuel cat : no_empty_name cat -> forall m r d D es, mok m es -> sent Tb D es (reader_send r d) -> skip_state m (reader_send r d) -> tells (reader_send r d) ->
  zlen es <= 2 * zlen D -> 2 * zlen D + 2 < Z.of_nat fuel + zlen es -> msays (zlen es) D (mreader_send fuel cat (m, r) d).
Proof.
  intros NC. induction fuel as [|fuel IH]; intros m r d D es MO S K TL LE FU; [lia|]. cbn [mreader_send fst snd]. unfold tells in TL. destruct (reader_send r d) as [[ev|e] r']; cbn [fst snd] in TL; [|exact TL]. destruct TL as (PV & CR). destruct S as (s & -> & I & A). unfold skip_state in K. cbn [skip_reply] in K.
  pose proof (within_mr cat m ev NC PV) as WM. destruct (mr_step cat m ev) as [[m' od]|e] eqn:M; [|exact WM]. destruct (is_stream_signal (ev_type ev)) eqn:SG.
  - destruct (signal_stays _ _ _ _ _ M SG) as [(-> & ->)|(P0 & P1 & ->)].
    + exists es, s. cbn [me_ev]. rewrite SG. repeat (split; [solve [auto; lia]|]). destruct (ms_proc m) as [p|]; [|exact Logic.I]. intros L. specialize (K L). unfold skip_out in K. rewrite SG in K. exact K.
    + destruct fuel as [|fuel]; [lia|]. cbn [mreader_send fst snd]. rewrite (send_next s ev SG). exact Logic.I.
  - assert (K' : match ms_proc m with Some p => lp_skip p = true -> ev_type ev = EContainerEnd | None => True end) by (destruct (ms_proc m) as [p|]; [|exact Logic.I]; intros L; specialize (K L); unfold skip_out in K; rewrite SG in K; exact K).
    pose proof (mr_moves cat m es s D ev m' od M SG I MO K') as MM. pose proof (inv_count _ _ _ _ I) as IC. assert (LS : zlen (es ++ [ev]) = zlen es + 1) by (rewrite zlen_app; reflexivity). destruct od as [d'|].
    + destruct MM as (MO' & AW & SK). apply (msays_less _ (zlen (es ++ [ev]))); [lia|]. apply (IH m' (RAt s ev) d' D (es ++ [ev])); [exact MO'|exact (request_sent Tb (RAt s ev) D (es ++ [ev]) d' (conj I A) AW)| |exact (tells_request s ev D _ d' I A AW CR)|exact IC|lia].
      unfold skip_state. destruct (ms_proc m') as [p|]; [|exact Logic.I]. intros L. rewrite (SK L) in *. exact (skip_sent Tb s ev D (es ++ [ev]) I A AW).
    + exists (es ++ [ev]), s. cbn [me_ev]. rewrite SG. repeat (split; [solve [auto; lia]|]). split; [unfold mok; rewrite MM; exact Logic.I|]. repeat (split; [solve [auto; lia]|]). lia.
Qed.
Definition mfed_says (n : Z) (D : list Z) (chunks : list (list Z)) (x : res mevent * mreader * list (list Z)) : Prop :=
  match x with
  | (Err e, _, _) => load_exception e
  | (Ok u, (m, r), cs) => exists es s last gone, r = RAt s last /\ chunks = gone ++ cs /\ Inv Tb s (D ++ concat gone) es /\ at_event s last /\ calm_reader r /\ plain_value (ev_value (me_ev u)) /\
      if is_stream_signal (ev_type (me_ev u)) then is_stream_signal (ev_type last) = true else last = me_ev u /\ ms_proc m = None /\ n < zlen es
  end.
Lemma mfeed_says fuel cat chunks n : no_empty_name cat -> chunks_ok chunks -> forall u m r D, msays n D (Ok u, (m, r)) -> 2 * zlen (D ++ concat chunks) + 2 < Z.of_nat fuel -> mfed_says n D chunks (mfeed fuel cat (m, r) u chunks).
Proof.
  intros NC. induction chunks as [|c cs IH]; intros CO u m r D (es & s & -> & I & A & MO & CR & PV & G & K) FU; cbn [mfeed]; destruct (is_stream_signal (ev_type (me_ev u))) eqn:SG.
  - destruct (ev_type (me_ev u)) eqn:T; try discriminate SG.
    + destruct fuel as [|fuel]; [pose proof (zlen_nonneg (D ++ concat [])); lia|]. cbn [mreader_send fst snd]. rewrite send_next by (rewrite T; reflexivity). exact Logic.I.
    + cbn [mfed_says me_ev]. exists es, s, (me_ev u), []. cbn [concat is_stream_signal ev_type stream_end_event]. rewrite (app_nil_r D). repeat (split; [solve [auto]|]). cbn [ev_value stream_end_event]. split; [exact Logic.I|]. rewrite T. reflexivity.
  - exists es, s, (me_ev u), []. split; [reflexivity|]. split; [reflexivity|]. change (concat (@nil (list Z))) with (@nil Z). rewrite (app_nil_r D), SG. destruct K. auto 10.
  - destruct (Forall_inv CO) as (NE & OC). unfold at_event in A. rewrite SG in A. cbn [concat] in FU.
    assert (X : msays (zlen es) (D ++ c) (mreader_send fuel cat (m, RAt s (me_ev u)) (DData c))).
    { pose proof (inv_count _ _ _ _ I) as IC. apply (msend_says fuel cat NC m _ _ _ es MO (data_sent Tb s (me_ev u) D es c I A OC)).
      - unfold skip_state. destruct (ms_proc m) as [p|]; [|exact Logic.I]. intros L. exact (skip_more Tb s (me_ev u) D es c I A (K L) OC).
      - exact (tells_data s _ D es c I A OC NE CR).
      - rewrite zlen_app. pose proof (zlen_nonneg c). lia.
      - rewrite app_assoc, zlen_app in FU. pose proof (zlen_nonneg (concat cs)). pose proof (zlen_nonneg es). lia. }
    apply (msays_less n) in X; [|exact G]. destruct (mreader_send fuel cat (m, RAt s (me_ev u)) (DData c)) as [[u'|e] [m' r']]; [|exact X].
    assert (FU' : 2 * zlen ((D ++ c) ++ concat cs) + 2 < Z.of_nat fuel) by (rewrite <- app_assoc; exact FU).
    specialize (IH (Forall_inv_tail CO) u' m' r' (D ++ c) X FU'). destruct (mfeed fuel cat (m', r') u' cs) as [[[u2|e] [m2 r2]] cs2]; [|exact IH].
    destruct IH as (es2 & s2 & last & gone & R & -> & I2 & H). exists es2, s2, last, (c :: gone). cbn [concat]. rewrite app_assoc. auto.
  - exists es, s, (me_ev u), []. split; [reflexivity|]. split; [reflexivity|]. change (concat (@nil (list Z))) with (@nil Z). rewrite (app_nil_r D), SG. destruct K. auto 10.
Qed.

(** * Loading *)
Definition ready_at (whole : list Z) (n : Z) (s : feeder) : Prop :=
  exists D es, rok Tb (snd (fst s)) D es /\ calm_reader (snd (fst s)) /\ ms_proc (fst (fst s)) = None /\ chunks_ok (snd s) /\ whole = D ++ concat (snd s) /\ zlen es <= 2 * zlen D /\ n <= zlen es.
Definition done_at (s : feeder) : Prop := exists st last, snd (fst s) = RAt st last /\ is_stream_signal (ev_type last) = true.
Lemma next_ready fuel cat whole n s : no_empty_name cat -> 2 * zlen whole + 2 < Z.of_nat fuel -> ready_at whole n s ->
  match feeder_next fuel cat s with Err e => load_exception e | Ok (u, s') => plain_value (ev_value (me_ev u)) /\ if is_stream_signal (ev_type (me_ev u)) then done_at s' else ready_at whole (n + 1) s' end.
Proof.
  intros NC FU (D & es & R & CR & MP & CO & -> & LE & G). unfold feeder_next, mblocking_next. destruct s as [[m r] cs]. cbn [fst snd] in *.
  assert (X : msays (zlen es) D (mreader_send fuel cat (m, r) DNext)).
  { apply (msend_says fuel cat NC m r DNext D es); [unfold mok; rewrite MP; exact Logic.I|exact (request_sent Tb r D es DNext R Logic.I)|unfold skip_state; rewrite MP; exact Logic.I|exact (tells_first r D es R CR)|exact LE|].
    rewrite zlen_app in FU. pose proof (zlen_nonneg (concat cs)). pose proof (zlen_nonneg es). lia. }
  apply (msays_less n) in X; [|exact G]. destruct (mreader_send fuel cat (m, r) DNext) as [[u|e] [m' r']]; [|exact X].
  pose proof (mfeed_says fuel cat cs n NC CO u m' r' D X FU) as F. destruct (mfeed fuel cat (m', r') u cs) as [[[u2|e] [m2 r2]] cs2]; [|exact F]. destruct F as (es2 & s2 & last & gone & -> & -> & I2 & A2 & C2 & P2 & L). split; [exact P2|].
  destruct (is_stream_signal (ev_type (me_ev u2))).
  - exists s2, last. auto.
  - destruct L as (-> & Q2 & G2). exists (D ++ concat gone), es2. cbn [fst snd rok]. split; [auto|]. split; [exact C2|]. split; [exact Q2|]. apply Forall_app in CO. split; [tauto|]. rewrite concat_app, app_assoc. split; [reflexivity|]. split; [exact (inv_count _ _ _ _ I2)|lia].
Qed.
Lemma next_done fuel cat s : (0 < fuel)%nat -> done_at s -> feeder_next fuel cat s = Err TypeError.
Proof.
  intros FU (st & last & R & SG). destruct s as [[m r] cs]. cbn [fst snd] in R. subst r. unfold feeder_next, mblocking_next. destruct fuel as [|fuel]; [lia|]. cbn [mreader_send fst snd]. rewrite (send_next _ _ SG). reflexivity.
Qed.
Lemma within_load_scalar u : plain_value (ev_value (me_ev u)) -> within (load_scalar u).
Proof.
  intros P. unfold load_scalar. apply within_bind.
  - unfold me_value. apply within_bind; [apply within_force; exact P|]. intros v _. destruct (ev_ion_type (me_ev u)) as [[]|]; try exact Logic.I. destruct v as [[]|]; try exact Logic.I. apply within_bind; [apply within_token|intros; exact Logic.I].
  - intros v _. apply within_bind; [destruct (ev_ion_type (me_ev u)); exact Logic.I|]. intros t _. destruct v as [s|].
    + destruct (_ || _); [apply within_bind; [apply within_tokens|intros; exact Logic.I]|]. apply within_bind; [|intros; apply within_bind; [apply within_tokens|intros; exact Logic.I]].
      unfold py_scalar. destruct t; try exact Logic.I. destruct s; try exact Logic.I. destruct t; (apply within_bind; [apply within_stamp|intros; exact Logic.I]).
    + apply within_bind; [apply within_tokens|intros; exact Logic.I].
Qed.
Lemma within_add out u v : within (target_add out u v).
Proof. unfold target_add. destruct out; [exact Logic.I|]. apply within_bind; [unfold me_field; destruct (ev_field _); [apply within_bind; [apply within_token|intros; exact Logic.I]|exact Logic.I]|]. intros [|] _; exact Logic.I. Qed.
Definition load_ends (whole : list Z) (n : Z) (until : evtype) (r : res (target * feeder)) : Prop :=
  match r with Err e => load_exception e | Ok (_, s) => match until with EStreamEnd => done_at s | _ => ready_at whole (n + 1) s end end.
Lemma load_says g fuel cat whole : no_empty_name cat -> 2 * zlen whole + 2 < Z.of_nat fuel -> forall n s until out, until = EStreamEnd \/ until = EContainerEnd ->
  ready_at whole n s -> 2 * zlen whole + 2 < Z.of_nat g + n -> load_ends whole n until (load_into g (feeder_next fuel cat) s until out).
Proof.
  intros NC FU. induction g as [|g IH]; intros n s until out UN L GU.
  { destruct L as (D & es & R & _ & _ & _ & -> & LE & NL). rewrite zlen_app in GU. pose proof (zlen_nonneg (concat (snd s))). lia. }
  cbn [load_into]. pose proof (next_ready fuel cat whole n s NC FU L) as N. assert (F0 : (0 < fuel)%nat) by (pose proof (zlen_nonneg whole); lia). destruct (feeder_next fuel cat s) as [[u s1]|e]; [|exact N]. destruct N as (PV & N). cbn [bind].
  assert (MORE : forall k n' r, n <= n' -> load_ends whole n' until r -> k = r -> load_ends whole n until k).
  { intros k n' r LE H ->. unfold load_ends in *. destruct r as [[o s']|]; [|exact H]. destruct until; try exact H; destruct H as (D & es & A & B & C & E & F & G & H); exists D, es; repeat (split; [assumption|]); lia. }
  destruct (is_until (ev_type (me_ev u)) until) eqn:U.
  - destruct (ev_type (me_ev u)); try discriminate U; destruct until; try discriminate U; exact N.
  - assert (DN : done_at s1 -> load_ends whole n until (load_into g (feeder_next fuel cat) s1 until out)).
    { intros DA. destruct g as [|g']; [|cbn [load_into]; rewrite (next_done fuel cat s1 F0 DA); exact Logic.I]. destruct L as (D & es & R & _ & _ & _ & -> & LE & NL). rewrite zlen_app in GU. pose proof (zlen_nonneg (concat (snd s))). lia. }
    destruct (ev_type (me_ev u)) eqn:T; cbn [is_stream_signal] in N.
    + exact (DN N).
    + exact (DN N).
    + eapply MORE; [| |reflexivity]; [|apply IH; [exact UN|exact N|lia]]. lia.
    + pose proof (within_load_scalar u PV) as W. destruct (load_scalar u) as [v|e]; [|exact W]. cbn [bind]. pose proof (within_add out u v) as W2. destruct (target_add out u v) as [o|e]; [|exact W2]. cbn [bind]. eapply MORE; [| |reflexivity]; [|apply IH; [exact UN|exact N|lia]]. lia.
    + destruct (ev_ion_type (me_ev u)) as [t|]; [|exact Logic.I]. cbn [bind]. pose proof (within_tokens (me_table u) (ev_annot (me_ev u))) as W. fold (me_annotations u) in W. destruct (me_annotations u) as [an|e]; [|exact W]. cbn [bind].
      pose proof (IH (n + 1) s1 EContainerEnd (target_new t) (or_intror eq_refl) N ltac:(lia)) as LI. destruct (load_into g (feeder_next fuel cat) s1 EContainerEnd (target_new t)) as [[inner s2]|e]; [|exact LI]. cbn [load_ends] in LI. cbn [bind].
      pose proof (within_add out u (target_value t an inner)) as W2. destruct (target_add out u _) as [o|e]; [|exact W2]. cbn [bind]. eapply MORE; [| |reflexivity]; [|apply IH; [exact UN|exact LI|lia]]. lia.
    + eapply MORE; [| |reflexivity]; [|apply IH; [exact UN|exact N|lia]]. lia.
Qed.

(** C69.  Any octets in any pieces that start with the binary version marker, any catalog filled by [register]: the call
    ends, within a number of steps linear in the octets ([fuel]), with the values or one of the exceptions listed. *)
Theorem C69_binary_load_answers : forall fuel history cat cs,
  chunks_ok cs -> firstn 4 (concat cs) = ivm -> register_all catalog_new history = Ok cat -> 2 * zlen (concat cs) + 3 <= Z.of_nat fuel ->
  match load_from fuel OfOctets cat cs with Ok _ => True | Err e => load_exception e end.
Proof.
  intros fuel history cat cs CO M R FU. cbn [load_from]. rewrite M. change (zlist_eqb ivm [224; 1; 0; 234]) with true. cbn iota. assert (NC : no_empty_name cat) by (apply (registered_names _ _ _ R); intros ? ?; discriminate).
  unfold load_stream. assert (L : ready_at (concat cs) 0 (mreader_new, cs)).
  { exists [], []. cbn [fst snd mreader_new]. split; [apply start_rok|]. split; [exact Logic.I|]. repeat (split; [solve [auto]|]). cbn. lia. }
  pose proof (load_says fuel fuel cat (concat cs) NC ltac:(lia) 0 _ EStreamEnd (OnList []) (or_introl eq_refl) L ltac:(lia)) as W. destruct (load_into fuel (feeder_next fuel cat) (mreader_new, cs) EStreamEnd (OnList [])) as [[o s]|e]; [|exact W]. cbn [bind]. destruct o; exact Logic.I.
Qed.
Print Assumptions C69_binary_load_answers.
(** With [single_value] alike. *)
Theorem C69_single_value : forall fuel history cat cs,
  chunks_ok cs -> firstn 4 (concat cs) = ivm -> register_all catalog_new history = Ok cat -> 2 * zlen (concat cs) + 3 <= Z.of_nat fuel ->
  match load_one fuel OfOctets cat cs with Ok _ => True | Err e => load_exception e end.
Proof.
  intros fuel history cat cs CO M R FU. pose proof (C69_binary_load_answers fuel history cat cs CO M R FU) as W. unfold load_one. destruct (load_from fuel OfOctets cat cs) as [[|v [|w l]]|e]; cbn [bind]; exact Logic.I || exact W.
Qed.
Print Assumptions C69_single_value.
(** All eight are raised: a reserved type code; an import of an unknown table without a size; a decimal that ends inside its
    exponent; an import with version 0; [imports: null.symbol]; a timestamp with an offset of 2^41 minutes; a string that is
    not UTF-8; a decimal with an exponent of a million. *)
Definition fails_with (bs : list Z) (e : exc) : Prop := load_from 60 OfOctets catalog_new [ivm; bs] = Err e /\ 2 * zlen (ivm ++ bs) + 3 <= 60.
Theorem C69_cases :
  fails_with [0xF0] IonException /\
  fails_with [0xE9; 0x81; 0x83; 0xD6; 0x86; 0xB4; 0xD3; 0x84; 0x81; 0x61] CannotSubstituteTable /\
  fails_with [0x51; 0x00] TypeError /\
  fails_with [0xEB; 0x81; 0x83; 0xD8; 0x86; 0xB6; 0xD5; 0x84; 0x81; 0x61; 0x85; 0x20] ValueError /\
  fails_with [0xE5; 0x81; 0x83; 0xD2; 0x86; 0x7F] AttributeError /\
  fails_with [0x68; 0x3F; 0x7F; 0x7F; 0x7F; 0x7F; 0xFF; 0x0F; 0xE0] OverflowError /\
  fails_with [0x81; 0xFF] UnicodeDecodeError /\
  fails_with [0x54; 0x3F; 0x7F; 0xFF; 0x01] DecimalException.
Proof. unfold fails_with. repeat split; vm_compute; congruence. Qed.
Example C69_succeeds : exists v, load_from 60 OfOctets catalog_new [ivm; [0x21]; [0x05]] = Ok [v].
Proof. eexists. vm_compute. reflexivity. Qed.
