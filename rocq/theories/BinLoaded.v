(** What the events of a binary reader bring to [load]: values in the range of their type, symbols by identifier, depths that
    count the open containers.  Built on the invariant of C67 and C68. *)
From Verif Require Import Base BaseFacts FieldsModel FieldsFacts BufferModel CoreModel BinWriterModel BinReaderModel BinReaderSim BinReaderSession ScalarFacts ScalarProofs SymbolsModel ManagedModel MultimapModel SimpleionModel FloatProofs BinFormat BinScalars BinScalarProofs Props_BinScalars BinAccepts BinAcceptProofs Props_BinAccept Props_BinLoadAccept LoadedTables LoadedShape Props_EventValues.
Import BinReaderModel.
Local Open Scope Z_scope.
Local Open Scope list_scope.

(** * One event *)
(** A value in the range of its type. *)
Definition sound_scalar (t : iontype) (s : scalar) : Prop :=
  match t, s with
  | TBool, VBool _ | TInt, VInt _ | TDecimal, VDecimal _ | TSymbol, VSymbol _ => True
  | TFloat, VFloat b => 0 <= b < 2 ^ 64
  | TTimestamp, VTimestamp (TsStamp u) => ts_prec u <> None
  | TString, VString x => text_ok x
  | TClob, VBytes b | TBlob, VBytes b => octets b
  | _, _ => False
  end.
Lemma adjusted_prec y mo d h mi s off p frac w : adjust_from_utc_fields y mo d h mi s off (Some p) frac = Ok (TsStamp w) -> ts_prec w <> None.
Proof.
  assert (N : forall y mo d h mi s mc off q fp fr t, timestamp_new y mo d h mi s mc off (Some q) fp fr = Ok t -> ts_prec t <> None).
  { clear. intros y mo d h mi s mc off q fp fr t E. unfold timestamp_new in E. repeat (apply bind_ok in E; destruct E as (? & ? & E)). destruct x3 as [[? ?] ?]. apply bind_ok in E. destruct E as (? & ? & E). injection E as <-. cbn. discriminate. }
  unfold adjust_from_utc_fields. intros H. apply bind_ok in H. destruct H as (raw & E & H). pose proof (N _ _ _ _ _ _ _ _ _ _ _ _ E) as P.
  assert (G : forall o, (let* adj := dt_shift (ts_dt raw) o in match ts_prec raw with None => Ok (TsPlain adj) | Some _ => let* t := timestamp_new (dt_year adj) (dt_month adj) (dt_day adj) (dt_hour adj) (dt_minute adj) (dt_second adj) None off (ts_prec raw) None (Some (ts_frac raw)) in Ok (TsStamp t) end) = Ok (TsStamp w) -> ts_prec w <> None).
  { intros o G. apply bind_ok in G. destruct G as (adj & _ & G). destruct (ts_prec raw) as [q|]; [|contradiction P; reflexivity]. apply bind_ok in G. destruct G as (t & T & G). injection G as <-. exact (N _ _ _ _ _ _ _ _ _ _ _ _ T). }
  destruct off as [[|o|o]|]; try (injection H as <-; exact P); exact (G _ H).
Qed.
Lemma parsed_prec data w : parse_timestamp data = Ok (TsStamp w) -> ts_prec w <> None.
Proof.
  unfold parse_timestamp. intros H. apply bind_ok in H. destruct H as ([[? ?] ?] & _ & H). cbv zeta in H. do 7 (apply bind_ok in H; destruct H as (? & ? & H); repeat match type of H with context [match ?x with pair _ _ => _ end] => is_var x; destruct x end).
  exact (adjusted_prec _ _ _ _ _ _ _ _ _ _ H).
Qed.
Lemma utf8_scalars data s : utf8_text data s -> text_ok s.
Proof.
  induction 1 as [|bs c l s C T IH]; [constructor|]. constructor; [|exact IH]. unfold is_scalar. destruct C; lia.
Qed.
Lemma payload_sound tid k t data s : payload_type tid (Some k) t -> octets data -> eval_thunk k data = Ok s -> sound_scalar t s /\ match s with VSymbol y => exists sid, y = mktok None (Some sid) None /\ 0 <= sid | _ => True end.
Proof.
  intros P O E. inversion P; subst; cbn [eval_thunk] in E; try (injection E as <-; cbn; auto; fail); try (apply bind_ok in E; destruct E as (x & E & H); injection H as <-; cbn [sound_scalar]).
  - auto.
  - destruct (parsed_stamp _ _ E) as (w & ->). split; [exact (parsed_prec _ _ E)|exact Logic.I].
  - injection E as <-. split; [exact Logic.I|]. rewrite parse_int_value by exact O. eexists. split; [reflexivity|]. pose proof (big_endian_nonneg data 0 O). lia.
  - split; [|exact Logic.I]. apply (utf8_decode_exact _ _ O) in E. exact (utf8_scalars _ _ E).
Qed.
Lemma code_sound t v bs s : scalar_code t v bs -> octets bs -> ev_force v = Ok (Some s) -> sound_scalar t s /\ match s with VSymbol y => exists sid, y = mktok None (Some sid) None /\ 0 <= sid | _ => True end.
Proof.
  intros C O F. destruct C as [o t v V|data L|data L|tid k t hd data P H].
  - destruct V; cbn [ev_force] in F; try discriminate F; injection F as <-; cbn; repeat split; try constructor; try lia. eexists. split; [reflexivity|lia].
  - cbn [ev_force eval_thunk] in F. unfold parse_float in F. rewrite L in F. cbn [Z.eqb Pos.eqb bind] in F. injection F as <-. split; [|exact Logic.I]. cbn [sound_scalar]. apply widened_exact. rewrite unpack_value. pose proof (Forall_inv_tail O) as OD. pose proof (big_endian_nonneg data 0 OD). pose proof (big_endian_bound data 0 1 OD). rewrite L in *. change (1 * 256 ^ 4) with (2 ^ 32) in *. lia.
  - cbn [ev_force eval_thunk] in F. unfold parse_float in F. rewrite L in F. cbn [Z.eqb Pos.eqb bind] in F. injection F as <-. split; [|exact Logic.I]. cbn [sound_scalar]. rewrite unpack_value. pose proof (Forall_inv_tail O) as OD. pose proof (big_endian_nonneg data 0 OD). pose proof (big_endian_bound data 0 1 OD). rewrite L in *. change (1 * 256 ^ 8) with (2 ^ 64) in *. lia.
  - apply Forall_app in O. destruct O as (_ & O). destruct k as [k|]; cbn [payload_value ev_force] in F.
    + destruct (eval_thunk k data) as [x|] eqn:E; [|discriminate]. injection F as <-. exact (payload_sound _ _ _ _ _ P O E).
    + injection F as <-. inversion P; subst; split; exact O || exact Logic.I.
Qed.

(** The last event told of a chain of items. *)
Lemma last_piece opens e es0 : forall m fs pos l es fs', chain opens m fs pos l es fs' -> es = es0 ++ [e] -> stack_ok fs -> octets l ->
  exists m' fs0 pos' seg fs1, piece m' fs0 pos' seg (Some e) fs1 /\ octets seg /\ stack_ok fs0 /\ zlen fs0 = zlen fs + level es0.
Proof.
  intros m fs pos l es fs' C. revert es0. induction C as [m fs pos|m fs pos seg oe fs1 l es fs2 P C IH]; intros es0 E S O; [destruct es0; discriminate|]. apply Forall_app in O. destruct O as (O1 & O2).
  pose proof (piece_stack _ _ _ _ _ _ P S) as S1. pose proof (piece_level _ _ _ _ _ _ P) as LV. destruct oe as [e1|]; cbn [told app level] in *.
  - destruct es0 as [|e2 es0]; cbn [app] in E; injection E as -> E.
    + exists m, fs, pos, seg, fs1. cbn [level]. rewrite Z.add_0_r. auto.
    + destruct (IH es0 E S1 O2) as (m' & fs0 & pos' & sg & fs3 & P0 & OS & S0 & L). exists m', fs0, pos', sg, fs3. repeat (split; [assumption|]). cbn [level]. lia.
  - destruct (IH es0 E S1 O2) as (m' & fs0 & pos' & sg & fs3 & P0 & OS & S0 & L). exists m', fs0, pos', sg, fs3. repeat (split; [assumption|]). lia.
Qed.

Definition by_number (k : token) : Prop := exists sid, k = mktok None (Some sid) None /\ 0 <= sid.
Definition brought (n : Z) (e : event) : Prop :=
  Forall by_number (ev_annot e) /\ match ev_field e with Some f => by_number f | None => True end /\
  (forall s, ev_force (ev_value e) = Ok (Some s) -> exists t, ev_ion_type e = Some t /\ sound_scalar t s /\ match s with VSymbol y => by_number y | _ => True end) /\
  (ev_type e = EScalar \/ ev_type e = EContainerStart -> ev_depth e = Some n) /\ (ev_ion_type e = Some TSymbol -> level_of e = 0) /\ 0 <= n + level_of e.
Lemma var_nonneg acc bs n : var_code acc bs n -> 0 <= acc -> 0 <= n.
Proof. induction 1; intros; [lia|]. apply IHvar_code. lia. Qed.
Lemma stack_height f rest : stack_ok (f :: rest) -> f_depth f = zlen rest.
Proof.
  revert f. induction rest as [|g rest IH]; intros f S; [destruct S as (_ & _ & ->); reflexivity|]. destruct S as (_ & _ & D & _ & _ & S). rewrite D, (IH _ S), zlen_cons. lia.
Qed.
Lemma fields_by_number p f : field_code p f -> match field_of f with Some k => by_number k | None => True end.
Proof.
  destruct f as [[bs sid]|]; [|exact (fun _ => Logic.I)]. intros H. cbn [field_of]. exists sid. split; [reflexivity|]. destruct p; cbn [field_code] in H; try contradiction. exact (var_nonneg _ _ _ H ltac:(lia)).
Qed.
Lemma annots_by_number w n : wrapper_opt w n -> Forall by_number (annotations_of w).
Proof.
  destruct w as [w|]; [|constructor]. intros (_ & F & _). cbn [annotations_of]. apply Forall_map. revert F. apply Forall_impl. intros [bs sid] V. exists sid. split; [reflexivity|exact (var_nonneg _ _ _ V ltac:(lia))].
Qed.
Lemma event_brought s D es e : Inv Tb s D (es ++ [e]) -> octets D -> brought (level es) e.
Proof.
  intros (f & rest & past & u & (ED & C & _) & _) O. assert (OP : octets past) by (rewrite ED in O; apply Forall_app in O; exact (proj1 O)).
  destruct (last_piece Tb e es _ _ _ _ _ _ C eq_refl top_stack OP) as (m' & fs0 & pos' & seg & fs1 & P & OS & S0 & L). change (zlen [_]) with 1 in L. pose proof (piece_stack _ _ _ _ _ _ P S0) as S1. pose proof (piece_level _ _ _ _ _ _ P) as LV. cbn [told level] in LV.
  assert (N : 0 <= level es + level_of e) by (destruct fs1 as [|g fs1]; [destruct S1|]; rewrite zlen_cons in LV; pose proof (zlen_nonneg fs1); lia).
  inversion P; subst; unfold brought; cbn [ev_annot ev_field ev_value ev_type ev_depth ev_ion_type ev_force end_of version_marker_event].
  - split; [constructor|]. split; [exact Logic.I|]. split; [discriminate|]. split; [intros [X|X]; discriminate|]. split; [|exact N]. intros T. exfalso. destruct fs1 as [|g fs1]; [destruct S1|]. destruct S0 as ((t & T1 & T2) & _). rewrite T in T1. injection T1 as <-. destruct T2 as [X|[X|X]]; discriminate.
  - split; [apply (annots_by_number _ (zlen body)); assumption|]. split; [apply (fields_by_number (place_of f0)); assumption|]. split; [|split; [intros _; f_equal; rewrite (stack_height _ _ S0); rewrite zlen_cons in L; lia|split; [reflexivity|exact N]]].
    intros x FX. exists t. split; [reflexivity|]. apply Forall_app in OS. match goal with H : scalar_code _ _ _ |- _ => exact (code_sound _ _ _ _ H (proj2 OS) FX) end.
  - split; [eapply annots_by_number; eassumption|]. split; [apply (fields_by_number (place_of f0)); assumption|]. split; [discriminate|]. split; [intros _; f_equal; rewrite (stack_height _ _ S0); rewrite zlen_cons in L; lia|]. split; [|exact N]. intros T. injection T as ->. match goal with H : container_code TSymbol _ _ |- _ => destruct H end.
  - split; [constructor|]. split; [exact Logic.I|]. split; [discriminate|]. split; [intros [X|X]; discriminate|]. split; [discriminate|exact N].
  - split; [constructor|]. split; [exact Logic.I|]. split; [discriminate|]. split; [intros [X|X]; discriminate|]. split; [|exact N]. intros T. exfalso. destruct fs1 as [|g fs1]; [destruct S1|]. destruct S0 as ((t & T1 & T2) & _). rewrite T in T1. injection T1 as <-. destruct T2 as [X|[X|X]]; discriminate.
Qed.

(** * The managed reader *)
Notation fine := text_ok.
Lemma system_fine : Forall (speaks fine) system_tokens.
Proof. repeat (constructor; [split; [unfold says; cbn [tk_text]; repeat constructor|cbn; lia]|]); constructor. Qed.
Lemma system_table_fine : table_in fine system_table.
Proof. split; [exact system_fine|vm_compute; discriminate]. Qed.
Lemma number_speaks k : by_number k -> speaks fine k.
Proof. intros (sid & -> & N). split; [exact Logic.I|exact N]. Qed.
Lemma brought_texts n e : brought n e -> texts_in fine e.
Proof.
  intros (A & F & V & _). split; [revert A; apply Forall_impl; apply number_speaks|]. split; [destruct (ev_field e); [apply number_speaks; exact F|exact Logic.I]|].
  destruct (ev_force (ev_value e)) as [[s|]|]; try exact Logic.I. destruct (V s eq_refl) as (t & T & S & Y). destruct s; try exact Logic.I; [apply number_speaks; exact Y|]. intros X. rewrite X in T. injection T as <-. exact S.
Qed.
(** Not for the managed reader itself, when it stands at the top level. *)
Definition passes (table : symtab) (e : event) : Prop := ev_depth e = Some 0 ->
  (ev_type e = EScalar -> ev_ion_type e = Some TSymbol -> ev_annot e = [] -> forall k r, symbol_value e = Ok (Some k) -> resolve_token table k = Ok r -> is_text (tk_text r) TEXT_ION_1_0 = false) /\
  (ev_type e = EContainerStart -> ev_ion_type e = Some TStruct -> forall a l r, ev_annot e = a :: l -> resolve_token table a = Ok r -> is_text (tk_text r) TEXT_ION_SYMBOL_TABLE = false).
Lemma mr_passes cat m e m' : mr_step cat m e = Ok (m', None) -> is_stream_signal (ev_type e) = false -> m' = m /\ ms_proc m = None /\ passes (ms_table m) e.
Proof.
  unfold mr_step. intros H SG. destruct (ms_proc m) as [p|] eqn:MP.
  - rewrite SG in H. destruct (lp_step cat (ms_table m) p e) as [[]|]; discriminate.
  - assert (E : m' = m).
    { repeat match goal with
      | H : Ok (m, None) = Ok (m', None) |- _ => injection H as <-; reflexivity
      | H : Ok (_, Some _) = Ok (_, None) |- _ => discriminate H
      | H : Err _ = Ok _ |- _ => discriminate
      | H : (let* _ := ?x in _) = Ok _ |- _ => destruct x; cbn [bind] in H
      | H : match ?x with _ => _ end = Ok _ |- _ => destruct x
      end. }
    split; [exact E|]. split; [reflexivity|]. intros D. rewrite D in H. split.
    + intros T IT AN k r SV RT. rewrite T, IT, AN, SV in H. cbn [bind] in H. rewrite RT in H. cbn [bind] in H. destruct (is_text _ _); [discriminate|reflexivity].
    + intros T IT a l r AN RT. rewrite T, IT, AN, RT in H. cbn [bind] in H. destruct (is_text _ _); [discriminate|reflexivity].
Qed.
(** How deep: [n] when no table is being read, and no container open when one is. *)
Definition deep (m : mstate) (es : list event) (n : Z) : Prop := match ms_proc m with None => level es = n | Some _ => n = 0 end.
Lemma mr_deep cat m e m' d es n s D : mr_step cat m e = Ok (m', Some d) -> is_stream_signal (ev_type e) = false -> Inv Tb s D (es ++ [e]) -> mok m es -> brought (level es) e -> deep m es n ->
  deep m' (es ++ [e]) n.
Proof.
  unfold mr_step, mok, deep. intros H SG I MO B DE. destruct (ms_proc m) as [p|] eqn:MP.
  - rewrite SG in H. destruct (lp_step cat (ms_table m) p e) as [r|] eqn:LS; [|discriminate]. cbn [bind] in H. destruct r as [d1 p1|t]; injection H as <- <-; cbn [ms_proc]; [exact DE|]. subst n. rewrite level_snoc. destruct MO as (_ & ->).
    unfold lp_step in LS. cbv zeta in LS. unfold proc_level. destruct (lp_skip p); [discriminate|]. destruct (lp_mode p) as [| | |dd]; cbn [mode_level]; unfold level_of; destruct (ev_type e) eqn:T; try discriminate SG;
    repeat match goal with
    | H : Ok (LGo _ _) = Ok (LDone _) |- _ => discriminate H
    | H : Err _ = Ok _ |- _ => discriminate
    | |- 1 + 0 + -1 = 0 => reflexivity
    | H : (let* _ := ?x in _) = Ok _ |- _ => destruct x; cbn [bind] in H
    | H : match ?x with _ => _ end = Ok _ |- _ => destruct x
    end.
  - destruct B as (_ & _ & _ & BD & BS & _). destruct (ev_depth e) as [[|z|z]|] eqn:ED; try discriminate.
    assert (KEEP : forall m1, ms_proc m1 = None -> level_of e = 0 -> m1 = m' -> match ms_proc m' with Some _ => n = 0 | None => level (es ++ [e]) = n end) by (intros m1 M1 L <-; rewrite M1, level_snoc; lia).
    assert (OPEN : ev_type e = EContainerStart -> n = 0) by (intros T; specialize (BD (or_intror T)); injection BD as BD; lia).
    destruct (ev_type e) eqn:T; try discriminate SG; unfold level_of in *; rewrite T in *;
    repeat match goal with
    | H : Ok (m, Some _) = Ok (m', Some d) |- _ => injection H as H _; apply (KEEP m MP); [first [reflexivity|apply BS; reflexivity]|exact H]
    | H : Ok (mkms system_table None, Some _) = Ok (m', Some d) |- _ => injection H as H _; apply (KEEP (mkms system_table None) eq_refl); [reflexivity|exact H]
    | H : Ok (mkms _ (Some lproc_new), Some _) = Ok (m', Some d) |- _ => injection H as <- _; cbn [ms_proc]; exact (OPEN eq_refl)
    | H : Ok (_, None) = Ok (_, Some _) |- _ => discriminate H
    | H : Err _ = Ok _ |- _ => discriminate
    | H : (let* _ := ?x in _) = Ok _ |- _ => destruct x; cbn [bind] in H
    | H : match ?x with _ => _ end = Ok _ |- _ => destruct x eqn:?
    end.
Qed.

Definition msent2 (n : Z) (D : list Z) (x : res mevent * mreader) : Prop :=
  match x with
  | (Err _, _) => True
  | (Ok u, (m, r)) => me_table u = ms_table m /\ state_in fine m /\ exists es s, r = RAt s (me_ev u) /\ Inv Tb s D es /\ at_event s (me_ev u) /\ mok m es /\
      if is_stream_signal (ev_type (me_ev u)) then deep m es n /\ (match ms_proc m with Some p => lp_skip p = true -> skipping s | None => True end)
      else ms_proc m = None /\ passes (ms_table m) (me_ev u) /\ exists es0, es = es0 ++ [me_ev u] /\ level es0 = n
  end.
Lemma msend2 cat n fuel : catalog_in fine cat -> forall m r d D es, octets D -> state_in fine m -> mok m es -> deep m es n -> sent Tb D es (reader_send r d) -> skip_state m (reader_send r d) -> msent2 n D (mreader_send fuel cat (m, r) d).
Proof.
  intros CC. induction fuel as [|fuel IH]; intros m r d D es OD ST MO DE S K; cbn [mreader_send fst snd]; [exact Logic.I|]. destruct (reader_send r d) as [[ev|e] r']; [|exact Logic.I]. destruct S as (s & -> & I & A). unfold skip_state in K. cbn [skip_reply] in K.
  destruct (mr_step cat m ev) as [[m' od]|e] eqn:M; [|exact Logic.I]. destruct (is_stream_signal (ev_type ev)) eqn:SG.
  - destruct (signal_stays _ _ _ _ _ M SG) as [(-> & ->)|(P0 & P1 & ->)].
    + cbn [msent2 me_table me_ev]. split; [reflexivity|]. split; [exact ST|]. exists es, s. rewrite SG. repeat (split; [solve [auto]|]). destruct (ms_proc m) as [p|]; [|exact Logic.I]. intros L. specialize (K L). unfold skip_out in K. rewrite SG in K. exact K.
    + assert (E : m' = m).
      { unfold mr_step in M. rewrite P0 in M. destruct (ev_type ev) eqn:T; try discriminate SG;
        repeat match goal with
        | H : Ok (m, Some _) = Ok (m', Some _) |- _ => injection H as <-; reflexivity
        | H : Ok (_, None) = Ok (_, Some _) |- _ => discriminate H
        | H : Err _ = Ok _ |- _ => discriminate
        | H : (let* _ := ?x in _) = Ok _ |- _ => destruct x; cbn [bind] in H
        | H : match ?x with _ => _ end = Ok _ |- _ => destruct x
        end. }
      subst m'. apply (IH m (RAt s ev) DNext D es OD ST MO DE); [|unfold skip_state; rewrite P0; exact Logic.I]. exact (request_sent Tb (RAt s ev) D es DNext (conj I A) Logic.I).
  - assert (K' : match ms_proc m with Some p => lp_skip p = true -> ev_type ev = EContainerEnd | None => True end) by (destruct (ms_proc m) as [p|]; [|exact Logic.I]; intros L; specialize (K L); unfold skip_out in K; rewrite SG in K; exact K).
    pose proof (event_brought s D es ev I OD) as B. pose proof (mr_in fine system_fine system_table_fine cat m ev m' od CC ST (brought_texts _ _ B) M) as ST'.
    pose proof (mr_moves cat m es s D ev m' od M SG I MO K') as MM. destruct od as [d'|].
    + destruct MM as (MO' & AW & SK). pose proof (mr_deep cat m ev m' d' es n s D M SG I MO B DE) as DE'. apply (IH m' (RAt s ev) d' D (es ++ [ev]) OD ST' MO' DE'); [exact (request_sent Tb (RAt s ev) D (es ++ [ev]) d' (conj I A) AW)|].
      unfold skip_state. destruct (ms_proc m') as [p|]; [|exact Logic.I]. intros L. rewrite (SK L) in *. exact (skip_sent Tb s ev D (es ++ [ev]) I A AW).
    + destruct (mr_passes _ _ _ _ M SG) as (-> & P0 & PA). cbn [msent2 me_table me_ev]. split; [reflexivity|]. split; [exact ST|]. exists (es ++ [ev]), s. rewrite SG. split; [reflexivity|]. split; [exact I|]. split; [exact A|]. split; [unfold mok; rewrite P0; exact Logic.I|]. split; [exact P0|]. split; [exact PA|]. exists es. unfold deep in DE. rewrite P0 in DE. auto.
Qed.

(** Bytes handed over until there is an event. *)
Definition mfed2 (n : Z) (D : list Z) (chunks : list (list Z)) (x : res mevent * mreader * list (list Z)) : Prop :=
  match x with
  | (Err _, _, _) => True
  | (Ok u, (m, r), cs) => exists es s last gone, r = RAt s last /\ chunks = gone ++ cs /\ Inv Tb s (D ++ concat gone) es /\ at_event s last /\
      if is_stream_signal (ev_type (me_ev u)) then cs = [] /\ ev_type last = EStreamEnd
      else last = me_ev u /\ ms_proc m = None /\ me_table u = ms_table m /\ state_in fine m /\ passes (ms_table m) (me_ev u) /\ exists es0, es = es0 ++ [me_ev u] /\ level es0 = n
  end.
Lemma mfeed2 cat n fuel chunks : catalog_in fine cat -> chunks_ok chunks -> forall u m r D, octets D -> msent2 n D (Ok u, (m, r)) -> mfed2 n D chunks (mfeed fuel cat (m, r) u chunks).
Proof.
  intros CC. induction chunks as [|c cs IH]; intros CO u m r D OD (MT & ST & es & s & -> & I & A & MO & K); cbn [mfeed]; destruct (is_stream_signal (ev_type (me_ev u))) eqn:SG.
  - destruct (ev_type (me_ev u)) eqn:T; try discriminate SG.
    + assert (E : reader_send (RAt s (me_ev u)) DNext = (Err TypeError, RDead)) by (cbn [reader_send]; unfold protocol_check; rewrite T; reflexivity).
      assert (E' : exists e mr, mreader_send fuel cat (m, RAt s (me_ev u)) DNext = (Err e, mr)) by (destruct fuel; cbn [mreader_send fst snd]; [eauto|rewrite E; eauto]).
      destruct E' as (e & mr & ->). exact Logic.I.
    + cbn [mfed2 me_ev]. exists es, s, (me_ev u), []. cbn [concat is_stream_signal ev_type stream_end_event]. rewrite (app_nil_r D). repeat (split; [solve [auto]|]); auto.
  - exists es, s, (me_ev u), []. split; [reflexivity|]. split; [reflexivity|]. change (concat (@nil (list Z))) with (@nil Z). rewrite (app_nil_r D), SG. destruct K as (K1 & K2 & K3). auto 10.
  - destruct K as (DE & K). assert (OC : octets c) by (apply (Forall_inv CO)). unfold at_event in A. rewrite SG in A. assert (ODC : octets (D ++ c)) by (apply Forall_app; auto).
    assert (X : msent2 n (D ++ c) (mreader_send fuel cat (m, RAt s (me_ev u)) (DData c))).
    { apply (msend2 cat n fuel CC m _ _ _ es ODC ST MO DE (data_sent Tb s (me_ev u) D es c I A OC)). unfold skip_state. destruct (ms_proc m) as [p|]; [|exact Logic.I]. intros L. exact (skip_more Tb s (me_ev u) D es c I A (K L) OC). }
    destruct (mreader_send fuel cat (m, RAt s (me_ev u)) (DData c)) as [[u'|e] [m' r']]; [|exact Logic.I].
    specialize (IH (Forall_inv_tail CO) u' m' r' (D ++ c) ODC X). destruct (mfeed fuel cat (m', r') u' cs) as [[[u2|e] [m2 r2]] cs2]; [|exact Logic.I].
    destruct IH as (es2 & s2 & last & gone & R & -> & I2 & H). exists es2, s2, last, (c :: gone). cbn [concat]. rewrite app_assoc. auto.
  - exists es, s, (me_ev u), []. split; [reflexivity|]. split; [reflexivity|]. change (concat (@nil (list Z))) with (@nil Z). rewrite (app_nil_r D), SG. destruct K as (K1 & K2 & K3). auto 10.
Qed.
(** The reader between two events, [n] containers open; or at the end. *)
Definition live2 (n : Z) (s : feeder) : Prop := exists D es, octets D /\ rok Tb (snd (fst s)) D es /\ ms_proc (fst (fst s)) = None /\ state_in fine (fst (fst s)) /\ chunks_ok (snd s) /\ level es = n /\ 0 <= n.
Definition over2 (s : feeder) : Prop := exists st last, snd (fst s) = RAt st last /\ ev_type last = EStreamEnd.
Definition told_well (n : Z) (u : mevent) : Prop := brought n (me_ev u) /\ table_in fine (me_table u) /\ passes (me_table u) (me_ev u).
Lemma next2 fuel cat n s u s' : catalog_in fine cat -> live2 n s -> feeder_next fuel cat s = Ok (u, s') ->
  if is_stream_signal (ev_type (me_ev u)) then over2 s' else live2 (n + level_of (me_ev u)) s' /\ told_well n u.
Proof.
  intros CC (D & es & OD & R & MP & ST & CO & LV & NN). unfold feeder_next, mblocking_next. destruct s as [[m r] cs]. cbn [fst snd] in *.
  assert (X : msent2 n D (mreader_send fuel cat (m, r) DNext)).
  { apply (msend2 cat n fuel CC m r DNext D es OD ST); [unfold mok; rewrite MP; exact Logic.I|unfold deep; rewrite MP; exact LV|exact (request_sent Tb r D es DNext R Logic.I)|unfold skip_state; rewrite MP; exact Logic.I]. }
  destruct (mreader_send fuel cat (m, r) DNext) as [[u1|e] [m' r']]; [|discriminate].
  pose proof (mfeed2 cat n fuel cs CC CO u1 m' r' D OD X) as F. destruct (mfeed fuel cat (m', r') u1 cs) as [[[u2|e] [m2 r2]] cs2]; [|discriminate]. intros H. injection H as <- <-. destruct F as (es2 & s2 & last & gone & -> & -> & I2 & A2 & L).
  destruct (is_stream_signal (ev_type (me_ev u2))).
  - destruct L as (-> & T). exists s2, last. auto.
  - destruct L as (-> & P2 & MT & ST2 & PA & es0 & -> & L0). apply Forall_app in CO. destruct CO as (CO1 & CO2).
    assert (OG : octets (D ++ concat gone)) by (apply Forall_app; split; [exact OD|apply Forall_concat; revert CO1; apply Forall_impl; intros c (_ & H); exact H || intros; tauto]).
    pose proof (event_brought _ _ _ _ I2 OG) as B. rewrite L0 in B. split.
    + exists (D ++ concat gone), (es0 ++ [me_ev u2]). cbn [fst snd rok]. split; [exact OG|]. split; [auto|]. split; [exact P2|]. split; [exact ST2|]. split; [exact CO2|]. rewrite level_snoc, L0. split; [reflexivity|]. apply B.
    + split; [exact B|]. rewrite MT. split; [exact (proj1 ST2)|exact PA].
Qed.
Lemma next_over2 fuel cat s : over2 s -> exists e, feeder_next fuel cat s = Err e.
Proof.
  intros (st & last & R & T). destruct s as [[m r] cs]. cbn [fst snd] in R. subst r. unfold feeder_next, mblocking_next. destruct fuel as [|fuel]; cbn [mreader_send fst snd]; [eauto|].
  assert (E : reader_send (RAt st last) DNext = (Err TypeError, RDead)) by (cbn [reader_send]; unfold protocol_check; rewrite T; reflexivity). rewrite E. eauto.
Qed.
