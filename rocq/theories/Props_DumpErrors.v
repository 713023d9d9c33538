(** C74: [dump] and [dumps] of any value return, or raise one of the exceptions listed. *)
From Coq Require Import String.
From Verif Require Import Base BaseFacts FieldsModel FieldsFacts BufferModel BufferFacts CoreModel BinWriterModel BinReaderModel BinReaderSpec BinReaderNest
  CalendarFacts ScalarFacts TimestampFacts ScalarProofs SymbolsModel SymbolsProofs BinReaderSession BinFormat BinFormatFacts WriterFacts WriterProofs MultimapModel ManagedModel Cursor ManagedSpec
  ManagedWriterFacts ManagedWriterRun ManagedRoundTrip SimpleionModel SimpleionProofs Props_BinDump TextWriterModel TextValueModel.
Local Open Scope Z_scope.
Local Open Scope list_scope.

(** * Binary *)
Definition dump_exception (e : exc) : Prop :=
  match e with
  | IonException | TypeError | AttributeError | AssertionError | OverflowError | UnicodeEncodeError | DecimalException => True
  | ValueError | IndexError | KeyError | CannotSubstituteTable | UnicodeDecodeError | StopIteration | StructError | OutOfFuel => False
  end.
Definition within {A} (r : res A) : Prop := match r with Ok _ => True | Err e => dump_exception e end.
Lemma within_bind {A B} (r : res A) (f : A -> res B) : within r -> (forall a, r = Ok a -> within (f a)) -> within (let* a := r in f a).
Proof. destruct r as [a|e]; cbn; auto. Qed.

Lemma within_scaleb prec d n : within (dec_scaleb prec d n).
Proof.
  unfold dec_scaleb. cbv zeta. destruct (_ || _); [exact Logic.I|]. unfold dec_fix. cbv zeta.
  repeat match goal with |- within (match ?x with _ => _ end) => destruct x end; exact Logic.I.
Qed.
Lemma within_timestamp v : scalar_sane (VTimestamp v) -> within (serialize_timestamp v).
Proof.
  intros S. unfold serialize_timestamp.
  set (dt := match v with TsStamp t => ts_dt t | TsPlain t => t end) in *.
  set (prec := match v with TsStamp t => match ts_prec t with Some p => p | None => PSecond end | TsPlain _ => PSecond end) in *.
  assert (D : dt_sane dt) by (destruct v; exact S). destruct D as [D OF].
  assert (X : match (match dt_off dt with
    | None => Ok (dt, [0xC0], 1)
    | Some offset => let* dt' := dt_shift dt (- offset) in let* (b, n) := write_varint [] (offset / 60) in Ok (dt', b, n) end)
    with Ok (dt', b, n) => dt_ok dt' /\ good b n | Err e => dump_exception e end).
  { destruct (dt_off dt) as [o|].
    - pose proof (dt_shift_spec dt (- o) D ltac:(lia)) as Y. destruct (dt_shift dt (- o)) as [d'|]; [|rewrite Y; exact Logic.I]. cbn [bind].
      rewrite write_varint_spec. cbn [bind app]. split; [apply Y|]. split; [apply varint_octets_octets|]. split; [reflexivity|].
      apply octets_len_pos_varint.
    - split; [exact D|]. split; [constructor; [unfold is_octet; lia|constructor]|]. split; [reflexivity|lia]. }
  destruct (match dt_off dt with None => _ | Some _ => _ end) as [[[d' b0] n0]|]; [|exact X]. cbn [bind].
  destruct X as [(Y & [M DD] & Ho & Mi & Se & Us) G0].
  destruct (good_varuint b0 n0 (dt_year d') G0 ltac:(lia)) as (b1 & m1 & E1 & G1). rewrite E1. cbn [bind].
  destruct (good_gate (includes prec PMonth) b1 (n0 + m1) (dt_month d') G1 ltac:(lia)) as (b2 & n2 & E2 & G2). rewrite E2. cbn [bind].
  destruct (good_gate (includes prec PDay) b2 n2 (dt_day d') G2 ltac:(lia)) as (b3 & n3 & E3 & G3). rewrite E3. cbn [bind].
  assert (E4 : exists b4 n4, (if includes prec PMinute
    then let* (b, n) := write_varuint b3 (dt_hour d') in
         let* (b, m) := write_varuint b (dt_minute d') in Ok (b, n3 + n + m)
    else Ok (b3, n3)) = Ok (b4, n4) /\ good b4 n4).
  { destruct (includes prec PMinute); [|eauto].
    destruct (good_varuint b3 n3 (dt_hour d') G3 ltac:(lia)) as (x & mx & -> & Gx). cbn [bind].
    destruct (good_varuint x (n3 + mx) (dt_minute d') Gx ltac:(lia)) as (y & my & -> & Gy). cbn [bind]. eauto. }
  destruct E4 as (b4 & n4 & E4 & G4). rewrite E4. cbn [bind].
  assert (E5 : match (if includes prec PSecond
    then let* (b, n) := write_varuint b4 (dt_second d') in
         let* (b, m) := match v with TsStamp t => write_fractional_seconds b (ts_frac t)
                        | TsPlain _ => write_decimal_value b (-6) (dt_micro d') false end in Ok (b, n4 + n + m)
    else Ok (b4, n4)) with Ok (b, n) => good b n | Err e => dump_exception e end).
  { destruct (includes prec PSecond); [|exact G4].
    destruct (good_varuint b4 n4 (dt_second d') G4 ltac:(lia)) as (x & mx & -> & Gx). cbn [bind]. destruct v.
    - destruct (write_fractional_seconds x (ts_frac t)) as [[y my]|] eqn:F; [cbn [bind]; exact (good_frac _ _ _ _ _ Gx F)|]. cbn [bind].
      unfold write_fractional_seconds in F. pose proof (within_scaleb default_prec (ts_frac t) (- d_exp (ts_frac t))) as W. destruct (dec_scaleb _ _ _); [|injection F as <-; exact W]. cbn [bind] in F. destruct (_ && _); [discriminate|]. rewrite write_decimal_value_spec in F. discriminate.
    - rewrite write_decimal_value_spec. cbn [bind]. apply good_app; [exact Gx|apply dec_payload_octets]. }
  destruct (if includes prec PSecond then _ else _) as [[b5 n5]|]; [|exact E5]. cbn [bind].
  destruct E5 as (O & -> & L). rewrite write_length_spec by (try reflexivity; lia). exact Logic.I.
Qed.
Lemma within_decimal d : within (serialize_decimal d).
Proof.
  unfold serialize_decimal. apply within_bind; [apply within_scaleb|]. intros sc _. cbv zeta. destruct (_ && _); [exact Logic.I|].
  rewrite write_decimal_value_spec. cbn [bind app]. rewrite write_length_spec by (try reflexivity; apply zlen_nonneg). exact Logic.I.
Qed.
Lemma within_length buf n tid : 0 <= n -> within (write_length buf n tid).
Proof. intros N. unfold write_length. destruct (n <? 14); [exact Logic.I|]. rewrite write_varuint_spec by exact N. exact Logic.I. Qed.
Lemma within_int_value tid n : 0 <= n -> within (write_int_value [] tid n).
Proof. intros N. unfold write_int_value. rewrite write_uint_spec by exact N. cbn [bind]. apply within_bind; [apply within_length; apply zlen_nonneg|]. intros; exact Logic.I. Qed.
Lemma within_utf8 x : within (utf8_encode x).
Proof.
  induction x as [|c x IH]; [exact Logic.I|]. cbn [utf8_encode]. apply within_bind; [unfold utf8_encode_cp; repeat match goal with |- within (if ?c then _ else _) => destruct c end; exact Logic.I|]. intros a _. apply within_bind; [exact IH|]. intros; exact Logic.I.
Qed.
Lemma within_string x : within (serialize_string x).
Proof.
  unfold serialize_string. destruct x; [exact Logic.I|]. apply within_bind; [apply within_utf8|]. intros b _. apply within_bind; [apply within_length; apply zlen_nonneg|]. intros; exact Logic.I.
Qed.
Lemma within_scalar t v : (forall s, v = Some s -> scalar_sane s) -> within (serialize_scalar t v).
Proof.
  intros S. destruct t as [t|], v as [s|]; try exact Logic.I. specialize (S s eq_refl). cbn [serialize_scalar]. destruct (is_container t); [exact Logic.I|].
  destruct t, s; try exact Logic.I; try apply within_decimal; try (apply within_timestamp; exact S); try apply within_string.
  - unfold serialize_int. destruct b; (destruct (_ =? 0); [exact Logic.I|destruct (_ <? 0); exact Logic.I || apply within_int_value; lia]).
  - unfold serialize_int. destruct (z =? 0) eqn:Z0; [exact Logic.I|]. destruct (z <? 0) eqn:Z1; apply within_int_value; lia.
  - unfold serialize_float. destruct (bits =? 0); exact Logic.I.
  - unfold serialize_symbol. cbn in S. destruct (tk_sid t) as [sid|]; [|exact Logic.I]. destruct (sid =? 0); [exact Logic.I|apply within_int_value; exact S].
  - unfold serialize_lob. apply within_bind; [apply within_length; apply zlen_nonneg|intros; exact Logic.I].
  - unfold serialize_lob. apply within_bind; [apply within_length; apply zlen_nonneg|intros; exact Logic.I].
Qed.

Lemma field_none {A} (x : option A) : x = None \/ exists a, x = Some a.
Proof. destruct x; eauto. Qed.
Lemma wrapper_errors b k annots : at_depth b (S k) -> sids_ok annots -> within (end_annotation_wrapper b annots).
Proof.
  intros A S. unfold end_annotation_wrapper.
  assert (0 <= bt_len b) by (destruct A as [(_ & _ & L & _) _]; rewrite L; unfold total; apply zlen_nonneg).
  rewrite annotation_header_spec by auto. destruct (sids_of annots) as [l|]; cbn [bind]; [|exact Logic.I].
  destruct (at_end b k (wrapper_octets (wrapper_for l (bt_len b))) A) as (b' & -> & A'). exact Logic.I.
Qed.
(** What a raw binary writer may raise on an event whose value can be computed. *)
Definition value_known (e : event) : Prop := exists v, ev_force (ev_value e) = Ok v /\ forall s, v = Some s -> scalar_sane s.
Lemma step_errors s open e : ainv s open -> sids_natural e -> value_known e -> within (raw_write s e).
Proof.
  intros (F & FC & D) [AK FK] (v & EF & SV). unfold raw_write. rewrite F.
  assert (G : begins_value (ev_type e) = true ->
    match (if (match map (fun p : iontype * list token => mkwf (Some (fst p)) (snd p)) open with
      | f :: _ => match wf_type f with Some TStruct => true | _ => false end | [] => false end) && begins_value (ev_type e)
    then match ev_field e with
         | None => Err AttributeError
         | Some f => match tk_sid f with
                     | None => Err TypeError
                     | Some sid => let* (b, _) := write_varuint [] sid in Ok (bt_add (w_buf s) b)
                     end
         end
    else Ok (w_buf s)) with
    | Ok b => at_depth b (depth_of open)
    | Err x => dump_exception x end).
  { intros ->. rewrite andb_true_r. match goal with |- match (if ?c then _ else _) with _ => _ end => destruct c end; [|exact D].
    destruct (ev_field e) as [t|]; [|exact Logic.I]. destruct (tk_sid t) as [sid|]; [|exact Logic.I].
    rewrite write_varuint_spec by exact FK. cbn [bind]. apply at_add. exact D. }
  destruct (ev_type e) eqn:TY; cbn [begins_value andb] in *; rewrite ?andb_false_r, ?andb_true_r in *; cbn [bind]; try exact Logic.I.
  - destruct open as [|[t an] open]; cbn [map]; [|exact Logic.I].
    destruct (at_drain _ D) as [bufs ->]. exact Logic.I.
  - specialize (G eq_refl). match type of G with match ?X with Ok _ => _ | Err _ => _ end => destruct X as [b|] end; cbn [bind]; [|exact G].
    rewrite EF. cbn [bind]. apply within_bind; [apply within_scalar; exact SV|]. intros bs _.
    destruct (ev_annot e) as [|a an] eqn:EA; [exact Logic.I|].
    apply within_bind; [|intros; exact Logic.I].
    exact (wrapper_errors _ (depth_of open) (a :: an) (at_add _ _ bs (at_start _ _ G)) AK).
  - specialize (G eq_refl). match type of G with match ?X with Ok _ => _ | Err _ => _ end => destruct X as [b|] end; cbn [bind]; [|exact G].
    destruct (ev_ion_type e) as [t|]; [|exact Logic.I]. destruct (is_container t); exact Logic.I.
  - destruct open as [|[t an] open]; cbn [map fst snd]; [exact Logic.I|].
    pose proof (Forall_inv FC) as [CT SK]. cbn [fst snd] in *. unfold end_container_value. cbn [wf_type wf_annot].
    assert (H : 0 <= bt_len (w_buf s)) by (destruct D as [(_ & _ & L & _) _]; rewrite L; unfold total; apply zlen_nonneg).
    destruct (container_header_spec t (bt_len (w_buf s)) CT H) as (hd & -> & _). cbn [bind].
    cbn [depth_of fold_right snd] in D. fold (depth_of open) in D. destruct an as [|a an].
    + destruct (at_end _ _ hd D) as (b' & -> & D'). exact Logic.I.
    + destruct (at_end _ _ hd D) as (b' & -> & D'). cbn [bind]. apply within_bind; [|intros; exact Logic.I]. exact (wrapper_errors b' (depth_of open) (a :: an) D' SK).
Qed.

Definition wok (w : wstate) : Prop := exists open, ainv w open.
Definition fine (e : event) : Prop := sids_natural e /\ value_known e.
Lemma sane_fine e : event_sane e -> (exists v, ev_force (ev_value e) = Ok v) -> fine e.
Proof. intros (A & _ & B & C) (v & V). split; [split; [exact A|exact B]|]. exists v. split; [exact V|]. intros s ->. apply C. exact V. Qed.
Lemma write_ok w e : wok w -> fine e -> match raw_write w e with Ok (w', _) => wok w' | Err x => dump_exception x end.
Proof.
  intros (open & A) (N & K). pose proof (step_errors w open e A N K) as W. pose proof (step_accepts w open e A N) as S.
  destruct (raw_write w e) as [[w' ws]|x]; [|exact W]. destruct S as (open' & _ & A'). exists open'. exact A'.
Qed.
Lemma put_ok w e : wok w -> fine e -> match put w e with Ok w' => wok w' | Err x => dump_exception x end.
Proof. intros O F. pose proof (write_ok w e O F) as W. unfold put. destruct (raw_write w e) as [[w' ws]|x]; exact W. Qed.
Lemma puts_ok es : forall w, wok w -> Forall fine es -> match puts w es with Ok w' => wok w' | Err x => dump_exception x end.
Proof.
  induction es as [|e es IH]; intros w O F; cbn [puts]; [exact O|]. pose proof (put_ok w e O (Forall_inv F)) as P. destruct (put w e) as [w'|x]; cbn [bind]; [|exact P]. exact (IH w' P (Forall_inv_tail F)).
Qed.
Lemma wok_init : wok w_init.
Proof. exists []. exact ainv_init. Qed.

(** The events of a local symbol table. *)
Lemma fine_plain ty it v : (forall s, v = EvVal s -> scalar_sane s) -> (v = EvNone \/ exists s, v = EvVal s) -> forall f an, (f = None \/ exists k, f = Some (sys_token k) /\ 0 <= k) -> (an = [] \/ an = [sys_token 3]) -> fine (mkev ty it v f an None).
Proof.
  intros V VE f an F A. split; [split|].
  - destruct A as [-> | ->]; [constructor|]. constructor; [cbn; lia|constructor].
  - cbn [ev_field]. destruct F as [-> | (k & -> & K)]; [exact Logic.I|]. cbn. exact K.
  - unfold value_known. cbn [ev_value]. destruct VE as [-> | (s & ->)]; cbn [ev_force]; eexists; (split; [reflexivity|]); [discriminate|]. intros s' E. injection E as <-. apply V. reflexivity.
Qed.
Ltac fine := apply fine_plain; [intros ? E; try discriminate E; try (injection E as <-; exact Logic.I)|first [left; reflexivity|right; eexists; reflexivity]|first [left; reflexivity|right; eexists; split; [reflexivity|lia]]|first [left; reflexivity|right; reflexivity]].
Lemma fine_import t : Forall fine (import_events t).
Proof.
  unfold import_events, ev_struct_start, ev_field_value, ev_container_end. destruct (st_name t) as [n|], (st_version t) as [v|]; repeat (constructor; [fine|]); constructor.
Qed.
Lemma fine_flush : fine stream_end_event.
Proof. unfold stream_end_event. fine. Qed.
Lemma imports_ok ts : forall w, wok w -> match put_imports w ts with Ok w' => wok w' | Err x => dump_exception x end.
Proof.
  induction ts as [|t ts IH]; intros w O; cbn [put_imports]; [exact O|]. destruct (st_type t); try exact Logic.I.
  pose proof (puts_ok _ w O (fine_import t)) as P. destruct (puts w (import_events t)) as [w'|x]; cbn [bind]; [|exact P]. exact (IH w' P).
Qed.
Lemma start_ok imports : match sym_start imports symw_new with Ok s => wok (sw_raw s) | Err x => dump_exception x end.
Proof.
  unfold sym_start. cbn [symw_new sw_raw sw_has]. pose proof (put_ok w_init ev_lst_start wok_init ltac:(unfold ev_lst_start; fine)) as P. destruct (put w_init ev_lst_start) as [w|x]; cbn [bind]; [|exact P].
  assert (Q : match (match truthy_imports imports with
            | [] => Ok w
            | ts => let* w := put w ev_imports_start in
                    let* w := put_imports w ts in
                    put w ev_container_end
            end) with Ok w' => wok w' | Err x => dump_exception x end).
  { destruct (truthy_imports imports) as [|t ts]; [exact P|]. pose proof (put_ok w ev_imports_start P ltac:(unfold ev_imports_start; fine)) as P1. destruct (put w ev_imports_start) as [w1|x]; cbn [bind]; [|exact P1].
    pose proof (imports_ok (t :: ts) w1 P1) as P2. destruct (put_imports w1 (t :: ts)) as [w2|x]; cbn [bind]; [|exact P2]. apply put_ok; [exact P2|]. unfold ev_container_end. fine. }
  match type of Q with match ?X with _ => _ end => destruct X as [w3|x] end; cbn [bind]; [|exact Q]. unfold st_new. cbn [is_system is_shared is_local andb bind]. exact Q.
Qed.
Lemma symbol_ok imports s xs table a : sym_inv imports s xs table -> wok (sw_raw s) ->
  match sym_symbol s a with Ok (_, s') => wok (sw_raw s') | Err x => dump_exception x end.
Proof.
  intros (ST & TB & _ & _) O. destruct (table_of_ok _ _ _ TB) as [_ TY]. unfold sym_symbol. rewrite ST.
  assert (P : match (if sw_has s then Ok (sw_raw s) else put (sw_raw s) ev_symbols_start) with Ok w => wok w | Err x => dump_exception x end).
  { destruct (sw_has s); [exact O|]. apply put_ok; [exact O|]. unfold ev_symbols_start. fine. }
  match type of P with match ?X with _ => _ end => destruct X as [w|x] end; cbn [bind]; [|exact P].
  match goal with |- match (match ?X with _ => _ end) with _ => _ end => destruct X as [tok|] end; [exact P|].
  destruct (match a with AText x => Some x | ATok t => tk_text t end) as [x|]; [|exact Logic.I].
  unfold intern. rewrite TY. cbn [is_shared].
  assert (Q : forall tok table', match (let* w := put w (mkev EScalar (Some TString) (match tk_text tok with Some y => EvVal (VString y) | None => EvNone end) None [] None) in Ok (tok, mksw (Some table') w true)) with Ok (_, s') => wok (sw_raw s') | Err x => dump_exception x end).
  { intros tok table'. pose proof (put_ok w (mkev EScalar (Some TString) (match tk_text tok with Some y => EvVal (VString y) | None => EvNone end) None [] None) P ltac:(destruct (tk_text tok); fine)) as PP. destruct (put w _) as [w'|e]; exact PP. }
  destruct (get_text table x None) as [tok|]; [exact (Q tok table)|]. destruct (add_text table (Some x)) as [st' tok]. exact (Q tok st').
Qed.
Lemma annotations_ok imports l : forall s xs table, sym_inv imports s xs table -> wok (sw_raw s) ->
  match sym_annotations s l with Ok (_, s') => wok (sw_raw s') | Err x => dump_exception x end.
Proof.
  induction l as [|a l IH]; intros s xs table I O; cbn [sym_annotations]; [exact O|].
  pose proof (symbol_ok _ _ _ _ a I O) as P. destruct (sym_symbol s a) as [[t s1]|x] eqn:S; cbn [bind]; [|exact P]. destruct (symbol_sid _ _ _ _ _ _ _ I S) as (ys & tb & I1 & _).
  pose proof (IH s1 _ _ I1 P) as Q. destruct (sym_annotations s1 l) as [[ts s2]|x]; exact Q.
Qed.
Definition forced (v : evalue) : Prop := exists x, ev_force v = Ok x.
Lemma intern_ok imports s xs table e : sym_inv imports s xs table -> wok (sw_raw s) -> forced (ue_value e) ->
  match intern_symbols s e with Ok (e', s') => wok (sw_raw s') /\ forced (ev_value e') | Err x => dump_exception x end.
Proof.
  intros I O FV. unfold intern_symbols.
  assert (F : match (match ue_field e with None | Some (AText []) => Ok (None, s) | Some a => let* (t, s') := sym_symbol s a in Ok (Some t, s') end) with
    | Ok (_, s1) => wok (sw_raw s1) /\ exists ys tb, sym_inv imports s1 ys tb | Err x => dump_exception x end).
  { assert (G : forall a, match (let* (t, s') := sym_symbol s a in Ok (Some t, s')) with Ok (_, s1) => wok (sw_raw s1) /\ exists ys tb, sym_inv imports s1 ys tb | Err x => dump_exception x end).
    { intros a. pose proof (symbol_ok _ _ _ _ a I O) as P. destruct (sym_symbol s a) as [[t s1]|x] eqn:S; cbn [bind]; [|exact P]. destruct (symbol_sid _ _ _ _ _ _ _ I S) as (ys & tb & I1 & _). eauto. }
    destruct (ue_field e) as [[t|[|c x]]|]; try apply G; eauto. }
  match type of F with match ?X with _ => _ end => destruct X as [[f s1]|x] end; cbn [bind]; [|exact F]. destruct F as (O1 & ys & tb & I1).
  pose proof (annotations_ok _ (ue_annot e) _ _ _ I1 O1) as P. destruct (sym_annotations s1 (ue_annot e)) as [[an s2]|x] eqn:AE; cbn [bind]; [|exact P]. destruct (annotation_sids _ _ _ _ _ _ _ I1 AE) as (ys2 & tb2 & I2 & _).
  destruct (ue_ion_type e) as [[]|]; try (split; [exact P|exact FV]). destruct FV as (v & ->). cbn [bind]. destruct v as [v|]; [|split; [exact P|eexists; reflexivity]].
  match goal with |- match (match ?X with _ => _ end) with _ => _ end => destruct X as [a|] end; [|exact Logic.I].
  pose proof (symbol_ok _ _ _ _ a I2 P) as Q. destruct (sym_symbol s2 a) as [[t s3]|x]; cbn [bind]; [|exact Q]. split; [exact Q|]. eexists. reflexivity.
Qed.
Lemma finish_ok imports s : wok (sw_raw s) -> within (sym_finish imports s).
Proof.
  intros O. unfold sym_finish. destruct (_ || _); [|exact Logic.I].
  assert (FE : fine ev_container_end) by (unfold ev_container_end; fine).
  assert (P : match (if sw_has s then put (sw_raw s) ev_container_end else Ok (sw_raw s)) with Ok w => wok w | Err x => dump_exception x end) by (destruct (sw_has s); [apply put_ok; assumption|exact O]).
  match type of P with match ?X with _ => _ end => destruct X as [w|x] end; cbn [bind]; [|exact P]. pose proof (put_ok w _ P FE) as Q. destruct (put w ev_container_end) as [w1|x]; cbn [bind]; [|exact Q].
  pose proof (write_ok w1 _ Q fine_flush) as R. destruct (raw_write w1 stream_end_event) as [[w2 ws]|x]; [exact Logic.I|exact R].
Qed.

(** The managed writer. *)
Definition steady (imports : option (list symtab)) (m : mwriter) : Prop :=
  if mw_written m then wok (mw_value m) /\ wok (sw_raw (mw_sym m)) /\ exists xs table, sym_inv imports (mw_sym m) xs table
  else mw_value m = w_init /\ mw_sym m = symw_new.
Definition dumped (e : uevent) : Prop := python_event e /\ (ue_type e <> EVersionMarker -> ue_type e <> EStreamEnd -> forced (ue_value e)).
Lemma managed_ok imports m e : steady imports m -> dumped e -> match managed_write imports m e with Ok (m', _) => steady imports m' | Err x => dump_exception x end.
Proof.
  intros U (PE & FV). unfold managed_write.
  assert (VAL : forced (ue_value e) -> match (let* (pre, m) := (if mw_written m then Ok ([], m) else let* s := sym_start imports (mw_sym m) in Ok (if mw_ivm m then [HasPending IVM_BYTES] else [], mkmw (mw_value m) s true false)) in
     let* (e', s) := intern_symbols (mw_sym m) e in let* (w, ws) := raw_write (mw_value m) e' in Ok (mkmw w s (mw_written m) (mw_ivm m), pre ++ ws)) with Ok (m', _) => steady imports m' | Err x => dump_exception x end).
  { intros FF.
    assert (B : match (if mw_written m then Ok ([], m) else let* s := sym_start imports (mw_sym m) in Ok (if mw_ivm m then [HasPending IVM_BYTES] else [], mkmw (mw_value m) s true false)) with Ok (_, m1) => mw_written m1 = true /\ steady imports m1 | Err x => dump_exception x end).
    { unfold steady in *. destruct (mw_written m) eqn:W.
      - rewrite W. auto.
      - destruct U as (U1 & U2). rewrite U2. pose proof (start_ok imports) as S. destruct (sym_start imports symw_new) as [s|x] eqn:SS; cbn [bind]; [|exact S]. cbn [mw_written mw_value mw_sym]. split; [reflexivity|]. rewrite U1. split; [exact wok_init|]. split; [exact S|].
        destruct (sym_start_inv _ _ SS) as (table & I). eauto. }
    match type of B with match ?X with _ => _ end => destruct X as [[pre m1]|x] end; cbn [bind]; [|exact B]. destruct B as (W1 & S1). unfold steady in S1. rewrite W1 in S1. destruct S1 as (O1 & O2 & xs & table & I).
    pose proof (intern_ok _ _ _ _ e I O2 FF) as P. destruct (intern_symbols (mw_sym m1) e) as [[e' s]|x] eqn:IS; cbn [bind]; [|exact P]. destruct P as (O3 & F3).
    destruct (intern_sane _ _ _ _ _ _ _ I PE IS) as (ys & tb & I2 & ES). pose proof (write_ok _ _ O1 (sane_fine _ ES F3)) as Q. destruct (raw_write (mw_value m1) e') as [[w ws]|x]; cbn [bind]; [|exact Q].
    unfold steady. cbn [mw_written mw_value mw_sym]. rewrite W1. eauto. }
  destruct (ue_type e) eqn:TY; try (apply VAL; apply FV; discriminate); clear VAL.
  - destruct (mw_written m) eqn:W; [|unfold steady in *; rewrite W in U; cbn [mw_written mw_value mw_sym]; exact U]. unfold steady in U. rewrite W in U. destruct U as (O1 & O2 & _).
    pose proof (finish_ok imports _ O2) as P. destruct (sym_finish imports (mw_sym m)) as [sws|x]; cbn [bind]; [|exact P]. pose proof (write_ok _ _ O1 fine_flush) as Q. destruct (raw_write (mw_value m) stream_end_event) as [[w vws]|x]; cbn [bind]; [|exact Q]. split; reflexivity.
  - destruct (mw_written m) eqn:W; [exact Logic.I|]. unfold steady in *. rewrite W in U. cbn [mw_written mw_value mw_sym]. exact U.
Qed.
Lemma all_ok imports es : forall m, steady imports m -> Forall dumped es -> within (managed_write_all imports m es).
Proof.
  induction es as [|e es IH]; intros m U P; cbn [managed_write_all]; [exact Logic.I|].
  pose proof (managed_ok imports m e U (Forall_inv P)) as W. destruct (managed_write imports m e) as [[m1 ws]|x]; cbn [bind]; [|exact W].
  pose proof (IH m1 W (Forall_inv_tail P)) as R. destruct (managed_write_all imports m1 es) as [[m2 out]|x]; [exact Logic.I|exact R].
Qed.
Lemma dump_forced tas v : forall field ins depth, Forall (fun e => forced (ue_value e)) (dump_value tas v field ins depth).
Proof.
  assert (W : forall l : list uevent, Forall (fun e => forced (ue_value e)) l -> forall e, ue_value e = EvNone -> Forall (fun e => forced (ue_value e)) (e :: l ++ [container_end_event])).
  { intros l F e E. constructor; [rewrite E; eexists; reflexivity|]. apply Forall_app. split; [exact F|]. constructor; [eexists; reflexivity|constructor]. }
  induction v as [ |s|l IH|l IH|l IH|t an|t an s|sexp an l IH|an m IH] using pyval_induction; intros field ins depth; cbn [dump_value];
    try (constructor; [eexists; reflexivity|constructor]);
    try (apply W; [|reflexivity]; apply Forall_flat_map; rewrite Forall_forall in *; intros x I; apply (IH x I)).
  apply W; [|reflexivity]. apply Forall_flat_map. rewrite Forall_forall in *. intros x I. apply Forall_flat_map. pose proof (IH x I) as J. rewrite Forall_forall in *. intros y I2. apply (J y I2).
Qed.
Lemma dump_dumped tas seq v : python_value v -> Forall dumped (version_event :: dump_events tas seq v ++ [end_event]).
Proof.
  intros P. constructor; [split; [intros s E; discriminate E|intros N; exfalso; apply N; reflexivity]|]. apply Forall_app. split; [|constructor; [split; [apply quiet_event; reflexivity|intros _ N; exfalso; apply N; reflexivity]|constructor]].
  pose proof (dump_python tas seq v P) as A. assert (B : Forall (fun e => forced (ue_value e)) (dump_events tas seq v)) by (unfold dump_events; apply Forall_flat_map; apply Forall_forall; intros x _; apply dump_forced).
  rewrite Forall_forall in *. intros e I. split; [exact (A e I)|intros _ _; exact (B e I)].
Qed.
(** C74, binary: any value, any tables to import. *)
Theorem C74_binary_dump_answers : forall imports tas seq v, python_value v ->
  match dumps_binary imports tas seq v with Ok _ => True | Err x => dump_exception x end.
Proof.
  intros imports tas seq v P. unfold dumps_binary. pose proof (all_ok imports _ mwriter_new ltac:(split; reflexivity) (dump_dumped tas seq v P)) as W.
  destruct (managed_write_all imports mwriter_new _) as [[m out]|x]; [exact Logic.I|exact W].
Qed.
Print Assumptions C74_binary_dump_answers.

(** One value for each exception: a table to import that is not shared; text as an int; an empty key; a symbol by an SID that is not
    defined; the year 1 ahead of UTC; a lone surrogate; an exponent [Decimal.scaleb] refuses. *)
Definition early_stamp : ts := mkts (mkdt 1 1 1 0 0 0 0 (Some 3600)) (Some PSecond) 0 (mkdec false 0 0).
Definition refused (imports : option (list symtab)) (v : pyval) (x : exc) : Prop := python_value v /\ dumps_binary imports false false v = Err x.
Theorem C74_binary_cases :
  refused (Some [system_table]) (PPlain (VInt 1)) IonException /\
  refused None (PIon TInt [] (VString (txt "a"))) TypeError /\
  refused None (PDict [(Some [], PPlain (VInt 1))]) AttributeError /\
  refused None (PPlain (VSymbol (mktok None (Some 99) None))) AssertionError /\
  refused None (PPlain (VTimestamp (TsStamp early_stamp))) OverflowError /\
  refused None (PList [PPlain (VString [0xD800])]) UnicodeEncodeError /\
  refused None (PPlain (VDecimal (mkdec false 1 (-3000000)))) DecimalException /\
  (exists out, dumps_binary None false true (PTuple [PPlain (VInt 1); PPlain (VBool false)]) = Ok out).
Proof.
  repeat match goal with |- _ /\ _ => split end; try (vm_compute; reflexivity); try (eexists; vm_compute; reflexivity); repeat constructor; cbn; try exact Logic.I; try reflexivity; try lia.
Qed.

(** * Text *)
Definition text_exception (e : exc) : Prop :=
  match e with
  | TypeError | ValueError | AttributeError | UnicodeEncodeError => True
  | UnicodeDecodeError | IonException | AssertionError | OverflowError | DecimalException
  | IndexError | KeyError | CannotSubstituteTable | StopIteration | StructError | OutOfFuel => False
  end.
Definition tells {A} (r : res A) : Prop := match r with Ok _ => True | Err e => text_exception e end.
Lemma tells_bind {A B} (r : res A) (f : A -> res B) : tells r -> (forall a, r = Ok a -> tells (f a)) -> tells (let* a := r in f a).
Proof. destruct r as [a|e]; cbn; auto. Qed.
Lemma tells_iter f : forall s, (List.length s <= f)%nat -> tells (unicode_iter s).
Proof.
  induction f as [|f IH]; intros [|c s] L; try exact Logic.I; [cbn in L; lia|]. cbn [unicode_iter]. destruct (_ && _); [exact Logic.I|].
  cbn [List.length] in L. destruct (_ && _).
  - destruct s as [|l r]; [exact Logic.I|]. destruct (_ || _); [exact Logic.I|]. apply tells_bind; [apply IH; cbn [List.length] in L; lia|intros; exact Logic.I].
  - apply tells_bind; [apply IH; lia|intros; exact Logic.I].
Qed.
Lemma tells_symbol a suffix : tells (symbol_octets a suffix).
Proof.
  assert (T : forall t, tells (symbol_text t suffix)) by (intros t; unfold symbol_text; apply tells_bind; [eapply tells_iter; reflexivity|intros; exact Logic.I]).
  destruct a as [t|x]; cbn [symbol_octets]; [|apply T]. destruct (tk_text t); [apply T|]. destruct (tk_sid t); exact Logic.I.
Qed.
Lemma tells_datetime v : tells (datetime_text v).
Proof.
  unfold datetime_text. destruct v; cbv zeta; repeat match goal with |- tells (match ?x with _ => _ end) => destruct x end; exact Logic.I.
Qed.
Lemma tells_scalar t v : tells (text_scalar (Some t) v).
Proof.
  destruct v as [v|]; [|exact Logic.I]. destruct t, v; cbn [text_scalar]; try exact Logic.I; try apply tells_datetime; try apply tells_symbol.
  - apply tells_bind; [eapply tells_iter; reflexivity|intros; exact Logic.I].
  - destruct s; exact Logic.I.
Qed.
Lemma tells_annotations l : tells (snd (annotation_chunks l)).
Proof.
  induction l as [|a l IH]; cbn [annotation_chunks]; [exact Logic.I|]. pose proof (tells_symbol a [58; 58]) as T. destruct (symbol_octets a [58; 58]); [|exact T]. destruct (annotation_chunks l). exact IH.
Qed.
Lemma tells_field indent f e : tells (snd (field_chunks indent f e)).
Proof.
  unfold field_chunks. destruct (tf_type f) as [[]|]; try exact Logic.I. destruct (begins_value (ue_type e)); [|exact Logic.I]. destruct (ue_field e) as [a|]; [|exact Logic.I].
  pose proof (tells_symbol a [58]) as T. destruct (symbol_octets a [58]); [exact Logic.I|exact T].
Qed.
(** Events of [dump]: values that can be computed, with a type. *)
Definition plain_event (e : uevent) : Prop := match ue_type e with EScalar => forced (ue_value e) | _ => True end.
Lemma tells_core fs e : plain_event e -> tells (text_core fs e).
Proof.
  intros P. unfold text_core. destruct fs as [|f below]; [exact Logic.I|]. unfold plain_event in P. cbv zeta. destruct (ue_type e).
  - exact Logic.I.
  - destruct below; exact Logic.I.
  - destruct below; exact Logic.I.
  - destruct P as (v & ->). cbn [bind]. apply tells_bind; [|intros; destruct below; exact Logic.I]. destruct (ue_ion_type e) as [t|]; [apply tells_scalar|]. destruct v; exact Logic.I.
  - destruct (ue_ion_type e) as [t|]; [|exact Logic.I]. destruct (is_container t); exact Logic.I.
  - destruct below as [|g rest]; [exact Logic.I|]. destruct (tf_type f); exact Logic.I.
Qed.
Lemma tells_write indent fs e : plain_event e -> tells (snd (text_write indent fs e)).
Proof.
  intros P. unfold text_write. destruct fs as [|f below]; [exact Logic.I|]. cbv zeta. pose proof (tells_field indent f e) as F. destruct (field_chunks indent f e) as [names [[]|x]]; [|exact F].
  pose proof (tells_annotations (ue_annot e)) as A. assert (B : tells (snd (if begins_value (ue_type e) then annotation_chunks (ue_annot e) else ([], Ok tt)))) by (destruct (begins_value _); [exact A|exact Logic.I]).
  destruct (if begins_value (ue_type e) then _ else _) as [ans [[]|x]]; [|exact B]. cbn [snd]. apply tells_core. exact P.
Qed.
Lemma tells_all indent es : forall fs, Forall plain_event es -> tells (text_write_all indent fs es).
Proof.
  induction es as [|e es IH]; intros fs P; cbn [text_write_all]; [exact Logic.I|]. pose proof (tells_write indent fs e (Forall_inv P)) as W. destruct (text_write indent fs e) as [cs r]. cbn [snd] in W.
  apply tells_bind; [exact W|]. intros [fs' w] _. apply tells_bind; [apply IH; exact (Forall_inv_tail P)|]. intros [fs2 out] _. exact Logic.I.
Qed.
Lemma tells_char l : match utf8_decode_cp l with Ok (_, r) => (List.length r < List.length l)%nat | Err e => e = UnicodeDecodeError end.
Proof.
  unfold utf8_decode_cp. cbv zeta. repeat match goal with |- match (match ?x with _ => _ end) with Ok _ => _ | Err _ => _ end => destruct x end; cbn [List.length]; try reflexivity; lia.
Qed.
Lemma decode_errors f : forall l, (List.length l <= f)%nat -> match utf8_decode_aux f l with Ok _ => True | Err e => e = UnicodeDecodeError end.
Proof.
  induction f as [|f IH]; intros l L; destruct l as [|b l]; cbn [utf8_decode_aux]; try exact Logic.I; [cbn in L; lia|]. pose proof (tells_char (b :: l)) as C. destruct (utf8_decode_cp (b :: l)) as [[c r]|e]; [|exact C]. cbn [bind].
  specialize (IH r ltac:(cbn [List.length] in *; lia)). destruct (utf8_decode_aux f r); [exact Logic.I|exact IH].
Qed.
(** C74, text: any value at all, any indentation and settings; [dump], and [dumps], which decodes. *)
Theorem C74_text_dump_answers : forall indent omit tas seq v,
  match dump_text indent omit tas seq v with Ok _ => True | Err x => text_exception x end /\
  match dumps_text indent omit tas seq v with Ok _ => True | Err x => text_exception x \/ x = UnicodeDecodeError end.
Proof.
  intros indent omit tas seq v.
  assert (P : Forall plain_event ((if omit then [] else [version_event]) ++ dump_events tas seq v ++ [end_event])).
  { apply Forall_app. split; [destruct omit; repeat constructor|]. apply Forall_app. split; [|repeat constructor]. assert (B : Forall (fun e => forced (ue_value e)) (dump_events tas seq v)) by (unfold dump_events; apply Forall_flat_map; apply Forall_forall; intros x _; apply dump_forced).
    eapply Forall_impl; [|exact B]. intros e F. unfold plain_event. destruct (ue_type e); try exact Logic.I; exact F. }
  assert (D : tells (dump_text indent omit tas seq v)).
  { unfold dump_text. apply tells_bind.
    - unfold text_indent. destruct indent as [i|]; [|exact Logic.I]. destruct (negb _); [exact Logic.I|]. destruct (forallb _ _); exact Logic.I.
    - intros i _. apply tells_bind; [apply tells_all; exact P|]. intros [fs out] _. exact Logic.I. }
  split; [exact D|]. unfold dumps_text. destruct (dump_text indent omit tas seq v) as [out|x]; cbn [bind]; [|left; exact D].
  unfold utf8_decode. pose proof (decode_errors _ out (le_n _)) as U. destruct (utf8_decode_aux _ out); [exact Logic.I|right; exact U].
Qed.
Print Assumptions C74_text_dump_answers.
(** A symbol as an int; a lone surrogate; a timestamp without precision; an indentation that is no white space, or not Latin-1, or not ASCII. *)
Definition no_precision : ts := mkts (mkdt 2000 1 1 0 0 0 0 None) None 0 (mkdec false 0 0).
Theorem C74_text_cases :
  dump_text None false false false (PIon TInt [] (VString (txt "a"))) = Err TypeError /\
  dump_text None false false false (PPlain (VString [0xDC00])) = Err ValueError /\
  dump_text (Some (txt "..")) false false false PNone = Err ValueError /\
  dump_text None false false false (PPlain (VTimestamp (TsStamp no_precision))) = Err AttributeError /\
  dump_text (Some [0x2003]) false false false PNone = Err UnicodeEncodeError /\
  dumps_text (Some [0xA0]) false false false (PList [PNone]) = Err UnicodeDecodeError /\
  dumps_text None true false false (PDict [(Some (txt "a"), PPlain (VInt 1))]) = Ok (txt "{a:1} ").
Proof. repeat match goal with |- _ /\ _ => split end; vm_compute; reflexivity. Qed.
