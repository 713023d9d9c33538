(** Property theorems C05-C12: the raw binary writer, and the writer followed by the reader.
    Specifications used: BinFormat.v (the binary format as a grammar), [echoes], [accept],
    [round_trips] in WriterProofs.v, [datum] in FloatProofs.v. *)
From Verif Require Import Base BaseFacts FieldsModel FieldsFacts BufferModel CoreModel BinWriterModel
  BinReaderModel BinReaderSpec BinReaderSession CalendarFacts TimestampFacts ScalarFacts ScalarProofs BinFormat BinFormatFacts
  WriterFacts WriterProofs FloatProofs.

(** C05.  Whatever sequence of events the writer has accepted (with any number of flushes), the octets it
    has emitted are a concatenation of well-formed values of the grammar: every length field agrees with
    what it delimits, wrappers hold exactly one value, struct members carry a field SID. *)
Theorem C05_output_well_formed : forall es s out,
  Forall event_sane es -> raw_write_all w_init es = Ok (s, out) ->
  exists ns, Forall (node_ok Top) ns /\ out = flat_map code ns /\ octets out.
Proof.
  intros es s out ES H. apply (output_well_formed es s out w_init winv_init ES H).
Qed.
Print Assumptions C05_output_well_formed.

(** C06.  The writer accepts a sequence exactly if the events nest: [accept] follows the list of open
    containers with their annotations. *)
Theorem C06_accepts_exactly_well_nested : forall es, Forall sids_natural es ->
  ((exists s out, raw_write_all w_init es = Ok (s, out)) <-> exists open, accept_all [] es open).
Proof. intros es H. exact (run_accepts es w_init [] ainv_init H). Qed.
Print Assumptions C06_accepts_exactly_well_nested.

(** Every portable scalar and every typed null is encodable in the sense of [accept]. *)
Theorem C06_well_typed_encodable : forall t e, ev_ion_type e = Some t ->
  (ev_force (ev_value e) = Ok None \/ exists v, ev_force (ev_value e) = Ok (Some v) /\ scalar_portable t v) -> encodable e.
Proof.
  intros t e IT [N|(v & V & P)].
  - exists None, [null_octet t]. split; [exact N|]. rewrite IT. reflexivity.
  - destruct (scalar_carried t v P) as (bs & w & SS & _). exists (Some v), bs. rewrite IT. auto.
Qed.
Print Assumptions C06_well_typed_encodable.

Theorem C06_misuse_rejected : forall es open s out e,
  Forall sids_natural es -> raw_write_all w_init es = Ok (s, out) -> accept_all [] es open ->
  (ev_type e = EContainerEnd -> open = [] -> raw_write s e = Err TypeError) /\
  (ev_type e = EStreamEnd -> open <> [] -> raw_write s e = Err TypeError) /\
  (ev_type e = EVersionMarker \/ ev_type e = EIncomplete -> raw_write s e = Err TypeError) /\
  (forall t, ev_type e = EContainerStart -> ev_ion_type e = Some t -> is_container t = false -> field_given open e -> sids_natural e ->
    raw_write s e = Err TypeError) /\
  (forall t v, ev_type e = EScalar -> ev_ion_type e = Some t -> is_container t = true -> ev_force (ev_value e) = Ok (Some v) ->
    field_given open e -> sids_natural e -> raw_write s e = Err TypeError).
Proof. exact misuse_rejected. Qed.
Print Assumptions C06_misuse_rejected.

(** A finding beside C06: a container start whose annotation has no SID is accepted, and the error only
    comes when the container is closed. *)
Theorem C06_late_annotation_error_refuted :
  let start := mkev EContainerStart (Some TList) EvNone None [text_token [97]] (Some 0) in
  let end_ := mkev EContainerEnd (Some TList) EvNone None [] (Some 0) in
  (exists s, raw_write_all w_init [start] = Ok (s, [])) /\ raw_write_all w_init [start; end_] = Err TypeError.
Proof. split; [eexists|]; reflexivity. Qed.

(** C07. *)
Theorem C07_int_round_trip : forall z, round_trips TInt (VInt z) (VInt z).
Proof. intros z. apply (scalar_round_trips TInt (VInt z)). exact Logic.I. Qed.
Print Assumptions C07_int_round_trip.

(** Booleans as well. *)
Theorem C07_bool_round_trip : forall b, round_trips TBool (VBool b) (VBool b).
Proof. intros b. apply (scalar_round_trips TBool (VBool b)). exact Logic.I. Qed.

(** C08.  [dec_in_range] says that the adjusted exponent and the exponent lie inside the limits of the
    default decimal context; sign (negative zero too), coefficient and exponent come back. *)
Theorem C08_decimal_round_trip : forall d,
  0 <= d_coef d ->
  (if d_coef d =? 0 then -2000000 <= d_exp d <= 2000000
   else ndigits (d_coef d) <= 1000000 /\ ndigits (d_coef d) - 1 + d_exp d <= 999999 /\ -999998 - ndigits (d_coef d) <= d_exp d) ->
  round_trips TDecimal (VDecimal d) (VDecimal d).
Proof. intros d N R. apply (scalar_round_trips TDecimal (VDecimal d)). split; assumption. Qed.
Print Assumptions C08_decimal_round_trip.

(** Beyond the limits the writer still writes what the reader cannot read: 1E+1000000. *)
Theorem C08_beyond_limits_refuted :
  let d := mkdec false 1 1000000 in
  exists bs v, serialize_scalar (Some TDecimal) (Some (VDecimal d)) = Ok bs /\ scalar_code TDecimal v bs /\
    ev_force v = Err DecimalException.
Proof.
  eexists. eexists. split; [vm_compute; reflexivity|]. split.
  - apply (sc_payload 5 (Some KDecimal) TDecimal [0x54] [0x3d; 0x04; 0xc0; 0x01]); [constructor|left; vm_compute; intuition congruence].
  - vm_compute. reflexivity.
Qed.

(** C09, for the timestamps the encoding can carry ([ts_portable]); the others are the findings below.
    What comes back has the same local fields, offset, fractional seconds and precision (an absent
    precision reads back as SECOND). *)
Theorem C09_timestamp_round_trip_partial : forall t, ts_portable t ->
  round_trips TTimestamp (VTimestamp (TsStamp t))
    (VTimestamp (TsStamp (mkts (ts_dt t) (Some (match ts_prec t with Some p => p | None => PSecond end)) (ts_fprec t) (ts_frac t)))).
Proof. intros t P. exact (scalar_round_trips TTimestamp (VTimestamp (TsStamp t)) P). Qed.
Print Assumptions C09_timestamp_round_trip_partial.

(** A plain [datetime] comes back as the timestamp of second precision with six fraction digits. *)
Theorem C09_datetime_round_trip_partial : forall d,
  ts_portable (mkts d (Some PSecond) 6 (mkdec false (dt_micro d) (-6))) ->
  round_trips TTimestamp (VTimestamp (TsPlain d)) (VTimestamp (TsStamp (mkts d (Some PSecond) 6 (mkdec false (dt_micro d) (-6))))).
Proof. intros d P. exact (scalar_round_trips TTimestamp (VTimestamp (TsPlain d)) P). Qed.
Print Assumptions C09_datetime_round_trip_partial.

(** What the encoding loses: the year of [2000T] with offset +01:00, digits of a fraction beyond the 28th,
    and a local time whose UTC form leaves the calendar cannot be written. *)
Definition reads_as (t : ts) : res tsvalue :=
  let* bs := serialize_timestamp (TsStamp t) in parse_timestamp (tl bs).
Theorem C09_losses_refuted :
  reads_as (mkts (mkdt 2000 1 1 0 0 0 0 (Some 3600)) (Some PYear) 0 dec_zero)
  = Ok (TsStamp (mkts (mkdt 1999 1 1 1 0 0 0 (Some 3600)) (Some PYear) 0 dec_zero)) /\
  serialize_timestamp (TsStamp (mkts (mkdt 1 1 1 0 0 0 0 (Some 3600)) (Some PSecond) 0 dec_zero)) = Err OverflowError /\
  (let f := mkdec false (123456 * 10 ^ 24 + 1) (-30) in
   timestamp_new 2000 1 1 0 0 0 None None (Some PSecond) None (Some f) =
     Ok (mkts (mkdt 2000 1 1 0 0 0 123456 None) (Some PSecond) 6 f) /\
   match serialize_timestamp (TsStamp (mkts (mkdt 2000 1 1 0 0 0 123456 None) (Some PSecond) 6 f)) with
   | Ok bs => match parse_timestamp (skipn 2 bs) with
              | Ok (TsStamp u) => ts_frac u <> f
              | _ => False end
   | Err _ => False
   end).
Proof. vm_compute. repeat split; discriminate. Qed.

(** C10. *)
Theorem C10_float_round_trip : forall bits, 0 <= bits < 2 ^ 64 -> round_trips TFloat (VFloat bits) (VFloat bits).
Proof. intros b H. exact (scalar_round_trips TFloat (VFloat b) H). Qed.
Print Assumptions C10_float_round_trip.

(** A 4-octet float denotes, after reading, exactly the same datum: [datum] gives the IEEE meaning. *)
Theorem C10_single_widened_exactly : forall data, zlen data = 4 -> octets data ->
  exists b, ev_force (EvThunk KFloat data) = Ok (Some (VFloat b)) /\ 0 <= b < 2 ^ 64 /\
    double b = in_double_units (single (undigits 8 data 0)).
Proof.
  intros data L O. exists (float32_to_64 (unpack_be data)).
  split; [cbn [ev_force eval_thunk]; unfold parse_float; rewrite L; reflexivity|].
  rewrite unpack_undigits. apply widening_exact.
  destruct data as [|a [|b [|c [|d [|x r]]]]]; try (unfold zlen in L; cbn in L; lia).
  inversion O as [|? ? A O1]; inversion O1 as [|? ? B O2]; inversion O2 as [|? ? C O3]; inversion O3 as [|? ? D O4]; subst.
  unfold is_octet in *. unfold undigits. cbn [fold_left]. change (2 ^ 8) with 256. change (2 ^ 32) with 4294967296. lia.
Qed.
Print Assumptions C10_single_widened_exactly.

Example C10_case :
  ev_force (EvThunk KFloat [0x3d; 0xcc; 0xcc; 0xcd]) = Ok (Some (VFloat 0x3fb99999a0000000)) /\
  double 0x8000000000000000 = Finite true 0 /\ single 0x80000000 = Finite true 0 /\ single 1 = Finite false 1.
Proof. repeat split; vm_compute; reflexivity. Qed.

(** C11.  [text_ok]: no surrogates, at most U+10FFFF. *)
Theorem C11_text_and_lob_round_trip :
  (forall s, Forall (fun c => (0 <= c < 0xD800) \/ (0xE000 <= c < 0x110000)) s -> round_trips TString (VString s) (VString s)) /\
  (forall b, octets b -> round_trips TBlob (VBytes b) (VBytes b)) /\
  (forall b, octets b -> round_trips TClob (VBytes b) (VBytes b)).
Proof.
  split; [|split].
  - intros s H. apply (scalar_round_trips TString (VString s)). eapply Forall_impl; [|exact H]. intros c C. unfold is_scalar. destruct C; lia.
  - intros b H. exact (scalar_round_trips TBlob (VBytes b) H).
  - intros b H. exact (scalar_round_trips TClob (VBytes b) H).
Qed.
Print Assumptions C11_text_and_lob_round_trip.

(** Text with a surrogate cannot be written. *)
Theorem C11_surrogate_rejected : forall s, ~ text_ok s -> exists e, serialize_scalar (Some TString) (Some (VString s)) = Err e.
Proof.
  intros s H. cbn [serialize_scalar is_container]. unfold serialize_string.
  assert (G : exists e, utf8_encode s = Err e).
  { induction s as [|c s IH]; [exfalso; apply H; constructor|]. cbn [utf8_encode]. unfold utf8_encode_cp at 1.
    destruct (is_scalar c) eqn:C; [|eexists; cbn [negb bind]; reflexivity]. cbn [negb].
    assert (exists e, utf8_encode s = Err e) as [e E] by (apply IH; intros T; apply H; constructor; assumption).
    rewrite E. exists e. destruct (_ <? _); [reflexivity|]. destruct (_ <? _); [reflexivity|]. destruct (_ <? _); reflexivity. }
  destruct G as [e E]. destruct s as [|c s]; [exfalso; apply H; constructor|]. rewrite E. exists e. reflexivity.
Qed.
Print Assumptions C11_surrogate_rejected.

(** C12.  Events written up to a flush are read back one for one, however the octets are cut; extra
    requests give STREAM_END ([echoes]: same types, SIDs of names and annotations, nesting, depth, values). *)
Theorem C12_stream_round_trip : forall es fl s out,
  Forall event_sane es -> Forall (fun e => is_flush e = false) es -> is_flush fl = true -> event_sane fl ->
  raw_write_all w_init (es ++ [fl]) = Ok (s, out) ->
  exists evs, echoes [] es evs /\ forall chunks n, chunks_ok chunks -> concat chunks = ivm ++ out ->
    session reader_new chunks (repeat DNext (S (length es) + n)) =
    (version_marker_event :: evs, match n with O => SMore | S _ => SEnd end).
Proof. exact write_read. Qed.
Print Assumptions C12_stream_round_trip.

(** Cases that meet the hypotheses. *)
Definition sample_events : list event :=
  [mkev EContainerStart (Some TStruct) EvNone None [sid_token 10; sid_token 300] (Some 0);
   mkev EScalar (Some TInt) (EvVal (VInt (-1234567890123))) (Some (sid_token 4)) [] (Some 1);
   mkev EContainerStart (Some TList) EvNone (Some (sid_token 5)) [sid_token 11] (Some 1);
   mkev EScalar (Some TString) (EvVal (VString [97; 0x1F600])) None [] (Some 2);
   mkev EScalar (Some TDecimal) EvNone None [sid_token 7] (Some 2);
   mkev EContainerEnd (Some TList) EvNone None [] (Some 1);
   mkev EContainerEnd (Some TStruct) EvNone None [] (Some 0)].
Example sample_hypotheses :
  Forall event_sane (sample_events ++ [stream_end_event]) /\ Forall sids_natural sample_events /\
  exists s, raw_write_all w_init (sample_events ++ [stream_end_event]) =
    Ok (s, [238; 157; 131; 138; 2; 172; 222; 151; 132; 54; 1; 31; 113; 251; 4; 203; 133; 237; 129; 139; 186; 133; 97; 240;
            159; 152; 128; 227; 129; 135; 95]).
Proof.
  split; [|split].
  - unfold sample_events. cbn [app]. repeat apply Forall_cons; try apply Forall_nil;
      (split; [repeat constructor; cbn; lia|]; split; [discriminate|]; split; [cbn; (exact Logic.I || lia)|]);
      cbn; try discriminate; intros s E; injection E as <-; exact Logic.I.
  - unfold sample_events. repeat apply Forall_cons; try apply Forall_nil; (split; [repeat constructor; cbn; lia|cbn; (exact Logic.I || lia)]).
  - eexists. vm_compute. reflexivity.
Qed.
Example portable_cases :
  ts_portable (mkts (mkdt 2016 2 29 23 59 59 12345 (Some (-3600))) (Some PSecond) 6 (mkdec false 1234567 (-8))) /\
  ts_portable (mkts (mkdt 2016 2 1 0 0 0 0 None) (Some PMonth) 0 dec_zero) /\
  dec_in_range (mkdec true 0 (-7)) /\ dec_in_range (mkdec true 123456789012345678901234567890123456789 (-1000)).
Proof.
  split; [|split; [|split]].
  - split; [vm_compute; reflexivity|]. cbn. repeat split; try discriminate; try lia. eexists; vm_compute; reflexivity.
  - split; [vm_compute; reflexivity|]. cbn. repeat split; try discriminate; try lia.
  - split; [cbn; lia|]. vm_compute. split; discriminate.
  - split; [cbn; lia|]. vm_compute. repeat split; discriminate.
Qed.
