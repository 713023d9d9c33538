(** Property theorems C14, C17, C18, C19, C52, C53: the raw binary reader against the format.
    [BinFormat] is the specification of the format. *)
From Verif Require Import Base BaseFacts FieldsModel BufferModel CoreModel BinFormat BinWriterModel BinReaderModel
  BinReaderSpec BinReaderNest BinReaderSession ReaderProofs BinFormatFacts ReaderGrammarProofs ReaderEvents.

(** C53.  Every stream of the format, cut into pieces in any way, is read as the events it means,
    and then the end of the stream is reported for every further request. *)
Theorem C53_format_is_read : forall ns chunks n,
  stream_ok ns -> chunks_ok chunks -> concat chunks = stream ns ->
  session reader_new chunks (repeat DNext (length (stream_events ns) + n)) =
  (stream_events ns, match n with O => SMore | S _ => SEnd end).
Proof. exact grammar_session. Qed.
Print Assumptions C53_format_is_read.

(** Conversely every reported event was read from octets that the format gives that meaning ([read_from]), and the octets
    of successive events follow one another ([in_order]): for any octets at all, any pieces, any requests (SKIP anywhere
    too), and also when the reader meets an error afterwards. *)
Theorem C53_only_format_is_reported : forall chunks reqs,
  chunks_ok chunks -> in_order (fst (session reader_new chunks reqs)) (concat chunks).
Proof. intros chunks reqs C. exact (session_order reqs reader_new chunks [] [] C start_from Logic.I). Qed.
Print Assumptions C53_only_format_is_reported.
(** The same of a reader driven by hand: the answers other than "need data" signals against the octets sent. *)
Theorem C53_only_format_is_answered : forall ds,
  Forall (fun d => match d with DData x => octets x | _ => True end) ds ->
  in_order (filter (fun e => negb (is_stream_signal (ev_type e))) (replies reader_new ds)) (sent ds).
Proof. intros ds O. exact (replies_order ds reader_new [] [] start_from O). Qed.
Print Assumptions C53_only_format_is_answered.
Lemma reported_from_any chunks reqs ev : chunks_ok chunks -> In ev (fst (session reader_new chunks reqs)) ->
  exists before seg after, concat chunks = before ++ seg ++ after /\ read_from ev seg.
Proof. intros C. apply in_order_in. exact (C53_only_format_is_reported chunks reqs C). Qed.

(** An annotated struct with a padded, over-long field, read in two pieces. *)
Definition a_struct : list node :=
  [NPad None [0x02; 0xFF; 0xFF];
   NCont None (Some (mkwrapper [0xEE; 0x8A] [0x81] [([0x84], 4)])) TStruct [0xDE; 0x86]
     [NPad (Some ([0x80], 0)) [0x00]; NScalar (Some ([0x00; 0x85], 5)) None TInt (EvThunk (KInt 1) [7]) [0x21; 0x07]];
   NIvm].
Example a_struct_ok : stream_ok a_struct.
Proof.
  unfold stream_ok, a_struct.
  apply Forall_cons; [|apply Forall_cons; [|apply Forall_cons; [reflexivity|constructor]]].
  - split; [exact Logic.I|]. split; [exact Logic.I|]. exists [2], [255; 255].
    split; [left; split; [cbv; intuition discriminate|reflexivity]|reflexivity].
  - split; [exact Logic.I|]. split.
    + split; [discriminate|]. split; [constructor; [apply (var_last 0 4); lia|constructor]|].
      split; [apply (var_last 0 1); lia|]. right. exists [0x8A]. split; [apply (var_last 0 10); lia|reflexivity].
    + split; [right; left; exists [0x86]; split; [apply (var_last 0 6); lia|reflexivity]|].
      split; [|split; [|exact Logic.I]].
      * split; [apply (var_last 0 0); lia|]. split; [reflexivity|]. exists [0], [].
        split; [left; split; [cbv; intuition discriminate|reflexivity]|reflexivity].
      * split; [apply (var_more 0 0); [lia|]; apply (var_last 0 5); lia|]. split; [exact Logic.I|].
        apply (sc_payload 2 (Some (KInt 1)) TInt [0x21] [7]); [constructor|].
        left. split; [cbv; intuition discriminate|reflexivity].
Qed.
Example C53_case : fst (session reader_new [stream a_struct] (repeat DNext 5)) =
  [version_marker_event; mkev EContainerStart (Some TStruct) EvNone None [by_sid 4] (Some 0);
   mkev EScalar (Some TInt) (EvThunk (KInt 1) [7]) (Some (by_sid 5)) [] (Some 1);
   mkev EContainerEnd (Some TStruct) EvNone None [] (Some 0); version_marker_event].
Proof. vm_compute. reflexivity. Qed.

(** C14.  [closes 0 evs]: [evs] is the rest of the innermost open container, up to and including its
    end.  If reading it event by event took [k] requests, one SKIP instead gives its end event,
    nothing of what lies between, and the same answers to whatever is asked next — whatever the
    pieces the input comes in. *)
Theorem C14_skip_is_reading : forall a b before after k evs stop,
  chunks_ok a -> chunks_ok b -> concat a = concat b ->
  well_formed (concat a) (before ++ repeat DNext k ++ after) ->
  session reader_new a (before ++ repeat DNext k ++ after) = (evs, stop) ->
  (length before + k <= length evs)%nat ->
  closes 0 (firstn k (skipn (length before) evs)) ->
  session reader_new b (before ++ DSkip :: after) =
  (firstn (length before) evs ++ skipn (length before + k - 1) evs, stop).
Proof. intros a b before after k evs stop. apply skip_session. Qed.
Print Assumptions C14_skip_is_reading.
Example C14_case :
  let s := [stream a_struct] in
  exists evs, session reader_new s ([DNext; DNext] ++ repeat DNext 2 ++ [DNext; DNext]) = (evs, SEnd) /\
    closes 0 (firstn 2 (skipn 2 evs)) /\
    session reader_new (one_by_one (stream a_struct)) ([DNext; DNext] ++ DSkip :: [DNext; DNext]) =
    (firstn 2 evs ++ skipn 3 evs, SEnd) /\ length evs = 5%nat.
Proof.
  eexists. split; [vm_compute; reflexivity|]. split; [apply cl_other; try discriminate; apply cl_end; reflexivity|].
  split; vm_compute; reflexivity.
Qed.

(** C17.  Whatever is sent: either the reader has so far answered only "need data" signals, or its
    first other answer is the version marker and the data sent to it begins with the octets
    E0 01 00 EA. *)
Theorem C17_version_marker_first : forall ds,
  Forall (fun e => is_stream_signal (ev_type e) = true) (replies reader_new ds) \/
  exists signals others t, replies reader_new ds = signals ++ version_marker_event :: others /\
    Forall (fun e => is_stream_signal (ev_type e) = true) signals /\ sent ds = [0xE0; 0x01; 0x00; 0xEA] ++ t.
Proof. intros ds. apply (version_first ds reader_new []). split; [|reflexivity]. repeat split. Qed.
Print Assumptions C17_version_marker_first.

(** Anywhere in a run, a version marker is reported only when no container is open, and from
    exactly those four octets. *)
Theorem C17_version_marker_top_level : forall ds before after,
  replies reader_new ds = before ++ version_marker_event :: after ->
  nested [] before [] /\ exists open, nested [] after open.
Proof.
  intros ds before after E. destruct (replies_nested reader_new ds [] reader_new_nest) as [open N]. rewrite E in N.
  clear E. revert N. generalize (@nil iontype) at 1 2 as st. induction before as [|e before IH]; intros st N; cbn [app] in N.
  - inversion N; subst. inversion H2; subst. split; [constructor|eauto].
  - inversion N; subst. destruct (IH _ H4) as [A B]. split; [econstructor; eauto|exact B].
Qed.
Print Assumptions C17_version_marker_top_level.
Theorem C17_version_marker_octets : forall chunks reqs ev,
  chunks_ok chunks -> In ev (fst (session reader_new chunks reqs)) ->
  ev_type ev = EVersionMarker ->
  exists before after, concat chunks = before ++ [0xE0; 0x01; 0x00; 0xEA] ++ after.
Proof.
  intros chunks reqs ev C H T. destruct (reported_from_any _ _ _ C H) as (before & seg & after & E & R).
  destruct R; try discriminate. eauto.
Qed.
Print Assumptions C17_version_marker_octets.
Example C17_case : replies reader_new [DNext; DData [0xE0; 0x01]; DData [0x00; 0xEA; 0x0F]; DNext] =
    [stream_end_event; incomplete_event; version_marker_event;
     mkev EScalar (Some TNull) EvNone None [] (Some 0)] /\
  fst (reader_send (snd (reader_send reader_new DNext)) (DData [0x0F])) = Err IonException /\
  session reader_new [[0xE0; 0x01; 0x00; 0xEA; 0xB4; 0xE0; 0x01; 0x00; 0xEA]] (repeat DNext 3) =
    ([version_marker_event; mkev EContainerStart (Some TList) EvNone None [] (Some 0)], SExc IonException).
Proof. repeat split; vm_compute; reflexivity. Qed.

(** The code does accept a version marker inside an annotation wrapper, and drops the annotation. *)
Theorem C17_annotated_marker_refuted :
  session reader_new [[0xE0; 0x01; 0x00; 0xEA; 0xE5; 0x81; 0x84; 0xE0; 0x01; 0x00; 0xEA]] (repeat DNext 3) =
  ([version_marker_event; version_marker_event], SEnd).
Proof. vm_compute. reflexivity. Qed.

(** C18.  Every annotated event, whatever the input and the requests, was read from a wrapper with at least one
    annotation (those reported), whose declared length is exactly that of its SID list and the value
    in it, and that value is a scalar or a container, not a wrapper. *)
Theorem C18_wrapper_exactly_filled : forall chunks reqs ev,
  chunks_ok chunks -> In ev (fst (session reader_new chunks reqs)) ->
  ev_annot ev <> [] ->
  exists before fld w value after n,
    concat chunks = before ++ opt_octets (@fst (list Z) Z) fld ++ wrapper_octets w ++ value ++ after /\
    wr_sids w <> [] /\ ev_annot ev = map (fun p => by_sid (snd p)) (wr_sids w) /\ wrapper_code w n /\
    ((exists t, ev_type ev = EScalar /\ ev_ion_type ev = Some t /\ scalar_code t (ev_value ev) value /\ n = zlen value) \/
     (exists t m, ev_type ev = EContainerStart /\ ev_ion_type ev = Some t /\ container_code t m value /\ n = zlen value + m)).
Proof.
  intros chunks reqs ev C H A. destruct (reported_from_any _ _ _ C H) as (before & seg & after & E & R).
  destruct (annotated_from ev seg R A) as (fld & w & body & n & -> & B & D & F).
  exists before, fld, w, body, after, n. rewrite E, <- !app_assoc. split; [reflexivity|]. split; [apply D|]. split; [exact B|].
  split; [exact D|]. destruct F as [(t & v & F1 & F2 & F3 & F4 & F5)|F]; [left|right; exact F].
  exists t. subst v. auto.
Qed.
Print Assumptions C18_wrapper_exactly_filled.
(** An event without annotations (a scalar or a container's start) was read from no wrapper at all: there are no empty
    annotation lists. *)
Theorem C18_no_empty_wrapper : forall chunks reqs ev,
  chunks_ok chunks -> In ev (fst (session reader_new chunks reqs)) -> ev_annot ev = [] ->
  ev_type ev = EScalar \/ ev_type ev = EContainerStart ->
  exists before fld value after, concat chunks = before ++ opt_octets (@fst (list Z) Z) fld ++ value ++ after /\
    ev_field ev = field_of fld /\ (fld = None \/ field_code InStruct fld) /\ exists t, ev_ion_type ev = Some t /\
    ((ev_type ev = EScalar /\ scalar_code t (ev_value ev) value) \/ (exists m, ev_type ev = EContainerStart /\ container_code t m value)).
Proof.
  intros chunks reqs ev C H A T. destruct (reported_from_any _ _ _ C H) as (before & seg & after & E & R).
  assert (W : forall w n, wrapper_opt w n -> annotations_of w = [] -> w = None).
  { intros [w|] n WO AN; [|reflexivity]. destruct WO as (NE & _). cbn [annotations_of] in AN. destruct (wr_sids w); [congruence|discriminate]. }
  destruct R as [fld w t v body d F WO S|fld w t n hd d F WO S|t d|]; cbn [ev_annot ev_type ev_ion_type ev_value ev_field version_marker_event] in *; try (destruct T; discriminate).
  - rewrite (W _ _ WO A) in *. exists before, fld, body, after. cbn [opt_octets app] in E. rewrite E, <- !app_assoc. cbn [app]. repeat (split; [solve [auto]|]). exists t. auto.
  - rewrite (W _ _ WO A) in *. exists before, fld, hd, after. cbn [opt_octets app] in E. rewrite E, <- !app_assoc. cbn [app]. repeat (split; [solve [auto]|]). exists t. split; [reflexivity|]. right. eauto.
Qed.
Print Assumptions C18_no_empty_wrapper.
Example C18_case : chunks_ok [stream a_struct] /\
  map ev_annot (fst (session reader_new [stream a_struct] (repeat DNext 6))) = [[]; [by_sid 4]; []; []; []].
Proof. split; [|vm_compute; reflexivity]. constructor; [|constructor]. split; [discriminate|]. vm_compute. repeat constructor; discriminate. Qed.
(** An annotated value before an error; late SKIPs. *)
Example C18_case_errors :
  (let r := session reader_new [[0xE0; 0x01; 0x00; 0xEA; 0xE3; 0x81; 0x84; 0x11; 0xF0]] (repeat DNext 3) in
   snd r = SExc IonException /\ map ev_annot (fst r) = [[]; [by_sid 4]]) /\
  map ev_annot (fst (session reader_new [[0xE0; 0x01; 0x00; 0xEA; 0xB5; 0x21; 0x07; 0xE3; 0x81; 0x84; 0x11; 0xE3; 0x81; 0x85; 0x11]]
    [DNext; DNext; DNext; DSkip; DNext; DNext])) = [[]; []; []; []; []; [by_sid 5]].
Proof. vm_compute. auto. Qed.
(** A wrapper that is too long or too short, a wrapper in a wrapper, and a wrapper with no
    annotation are errors. *)
Example C18_rejects : map (fun bs => snd (session reader_new [[0xE0; 0x01; 0x00; 0xEA] ++ bs ++ [0x0F]] (repeat DNext 3)))
   [[0xE4; 0x81; 0x84; 0x11; 0x11]; [0xE3; 0x81; 0x84; 0x21; 0x01]; [0xE6; 0x81; 0x84; 0xE3; 0x81; 0x84; 0x11];
    [0xE3; 0x80; 0x11; 0x11]] = repeat (SExc IonException) 4.
Proof. vm_compute. reflexivity. Qed.

(** Padding inside a wrapper is accepted, with a length (here 9) that is not checked. *)
Theorem C18_wrapped_padding_refuted :
  session reader_new [[0xE0; 0x01; 0x00; 0xEA; 0xE9; 0x81; 0x84; 0x00; 0x0F]] (repeat DNext 3) =
  ([version_marker_event; mkev EScalar (Some TNull) EvNone None [] (Some 0)], SEnd).
Proof. vm_compute. reflexivity. Qed.

(** C19.  [repadded ns ms]: the same values, apart from padding put anywhere (at the top level, in
    lists, or as $0 fields of structs) and the lengths that grow with it. *)
Theorem C19_padding_invisible : forall ns ms a b,
  stream_ok ns -> stream_ok ms -> repadded ns ms ->
  chunks_ok a -> chunks_ok b -> concat a = stream ns -> concat b = stream ms ->
  forall n, session reader_new a (repeat DNext n) = session reader_new b (repeat DNext n).
Proof. exact padding_invisible. Qed.
Print Assumptions C19_padding_invisible.
Definition a_struct_bare : list node :=
  [NCont None (Some (mkwrapper [0xE6] [0x81] [([0x84], 4)])) TStruct [0xD3]
     [NScalar (Some ([0x85], 5)) None TInt (EvThunk (KInt 1) [7]) [0x21; 0x07]]; NIvm].
Example C19_case : repadded a_struct a_struct_bare.
Proof. unfold a_struct, a_struct_bare. repeat constructor. Qed.

(** C52 does not hold: a decimal and a timestamp whose octets end inside a number raise TypeError
    when their value is taken, and padding under a field name other than $0 raises TypeError when
    read. *)
Theorem C52_malformed_number_refuted :
  eval_thunk KDecimal [0x00] = Err TypeError /\ eval_thunk KTimestamp [0x00] = Err TypeError /\
  fst (session reader_new [[0xE0; 0x01; 0x00; 0xEA; 0x51; 0x00]] (repeat DNext 2)) =
    [version_marker_event; mkev EScalar (Some TDecimal) (EvThunk KDecimal [0x00]) None [] (Some 0)].
Proof. repeat split; vm_compute; reflexivity. Qed.
Theorem C52_named_padding_refuted :
  snd (session reader_new [[0xE0; 0x01; 0x00; 0xEA; 0xD2; 0x84; 0x00]] (repeat DNext 3)) = SExc TypeError.
Proof. vm_compute. reflexivity. Qed.
(** What holds of C52 is in Props_BinErrors.v.  A stream cut short raises TypeError. *)
Theorem C52_truncated_refuted :
  session reader_new [[0xE0; 0x01; 0x00; 0xEA; 0x21]] (repeat DNext 2) = ([version_marker_event], SExc TypeError).
Proof. vm_compute. reflexivity. Qed.
