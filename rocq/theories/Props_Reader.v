(** Property theorems C13, C15, C16, C20: the raw binary reader on any input. *)
From Verif Require Import Base BaseFacts FieldsModel BufferModel CoreModel BinReaderModel
  BinReaderSpec BinReaderNest BinReaderSession ReaderProofs.

(** C13.  [session reader chunks reqs] is the application's view: the events returned for its NEXT
    and SKIP requests while the blocking reader pulls the pieces [chunks] from the source.
    [well_formed]: the input is not rejected by the whole-input specification [spec_read], which
    knows nothing of pieces or buffers (being cut short is allowed). *)
Theorem C13_chunking_irrelevant : forall a b reqs,
  chunks_ok a -> chunks_ok b -> concat a = concat b -> well_formed (concat a) reqs ->
  session reader_new a reqs = session reader_new b reqs.
Proof. exact chunking_irrelevant. Qed.
Print Assumptions C13_chunking_irrelevant.

(** For every input at all, malformed included: what the specification accepts comes out first
    whatever the pieces; and one octet at a time, reading gives exactly the specification, errors
    included. *)
Theorem C13_accepted_prefix_always_delivered : forall a b reqs,
  chunks_ok a -> chunks_ok b -> concat a = concat b ->
  exists n, firstn n (fst (session reader_new a reqs)) = fst (spec_read (concat a) reqs) /\
            firstn n (fst (session reader_new b reqs)) = fst (spec_read (concat a) reqs).
Proof. exact chunking_prefix. Qed.
Print Assumptions C13_accepted_prefix_always_delivered.

Theorem C13_octet_by_octet_is_the_specification : forall bs n, octets bs ->
  session reader_new (one_by_one bs) (repeat DNext n) =
  (fst (spec_read bs (repeat DNext n)),
   match snd (spec_read bs (repeat DNext n)) with
   | PMore => SMore | PEnd => SEnd | PCut => SExc TypeError | PBad e => SExc e end).
Proof. exact one_by_one_exact. Qed.
Print Assumptions C13_octet_by_octet_is_the_specification.

(** The full claim fails on malformed input: a list of declared length 1 holding the octet 0x8E
    (string with a length field), and the length field outside the list. *)
Definition overrun : list Z := [0xE0; 0x01; 0x00; 0xEA; 0xB1; 0x8E; 0x80].
Theorem C13_malformed_depends_on_pieces_refuted :
  concat [overrun] = concat (one_by_one overrun) /\
  exists ev,
  session reader_new [overrun] (repeat DNext 3) =
    (fst (spec_read overrun (repeat DNext 3)) ++ [ev], SMore) /\
  session reader_new (one_by_one overrun) (repeat DNext 3) =
    (fst (spec_read overrun (repeat DNext 3)), SExc IonException).
Proof. split; [reflexivity|]. eexists. split; vm_compute; reflexivity. Qed.

(** A well-formed, non-trivial case in three different divisions. *)
Definition sample : list Z :=
  [0xE0; 0x01; 0x00; 0xEA; 0xDE; 0x8C; 0x84; 0xE4; 0x81; 0x85; 0x21; 0x07; 0x86; 0xB1; 0x0F; 0x87; 0x21; 0x01].
Example C13_case : well_formed sample (repeat DNext 9) /\
  snd (session reader_new [sample] (repeat DNext 9)) = SEnd /\
  length (fst (session reader_new [sample] (repeat DNext 9))) = 8%nat /\
  session reader_new [firstn 6 sample; skipn 6 sample] (repeat DNext 9) =
  session reader_new [sample] (repeat DNext 9).
Proof.
  split; [intros e; vm_compute; discriminate|]. split; [vm_compute; reflexivity|].
  split; vm_compute; reflexivity.
Qed.

(** C15.  Whatever is sent to a reader, in whatever order, the events it answers are well nested:
    the specification [nest_step] keeps the stack of open container types and fixes, for each
    event, its depth, its type, and whether it carries a field name. *)
Theorem C15_events_well_nested : forall ds, exists open, nested [] (replies reader_new ds) open.
Proof. intros ds. apply (replies_nested reader_new ds [] reader_new_nest). Qed.
Print Assumptions C15_events_well_nested.

Example C15_case : exists e1 e2 e3 e4, replies reader_new [DNext; DData overrun; DNext; DNext] = [e1; e2; e3; e4] /\
  ev_type e4 = EScalar /\ ev_depth e4 = Some 1.
Proof. do 4 eexists. split; [vm_compute; reflexivity|]. split; reflexivity. Qed.

(** C16.  From every state of the machine and every input, the number of internal transitions to
    the answer is finite and linear in the octets at hand; no other outcome exists. *)
Theorem C16_linear_progress : forall s inp,
  exists n r, transitions s inp n r /\
    (n <= 6 * (length (aq_data (r_q s)) + length (BinReaderSim.data_of inp)) + 12)%nat /\
    r <> Err OutOfFuel.
Proof. exact linear_time. Qed.
Print Assumptions C16_linear_progress.
Theorem C16_every_send_answered : forall r d, fst (reader_send r d) <> Err OutOfFuel.
Proof. exact send_answers. Qed.
Print Assumptions C16_every_send_answered.
Example C16_case : exists s, transitions reader_init (Some DNext) 2 (Ok (s, stream_end_event)) /\
  fst (reader_send reader_new DNext) = Ok stream_end_event.
Proof.
  eexists. split; [|reflexivity]. eapply tr_go; [reflexivity|]. apply tr_event. reflexivity.
Qed.

(** C20.  [after ds ev st r]: the sends [ds] were all answered, the last answer is [ev], the open
    containers are [st] and the reader is [r].  Violations raise and end the reader. *)
Theorem C20_protocol_enforced : forall ds ev st r, after ds ev st r ->
  let bad e d := reader_send r d = (Err e, RDead) in
  (is_stream_signal (ev_type ev) = true ->
     bad TypeError DNext /\ bad TypeError DSkip /\ bad ValueError (DData []) /\
     forall d, d <> [] -> forall e, reader_send r (DData d) = (Err e, RDead) ->
        exists s, r = RAt s ev /\ run (steps_fuel s (Some (DData d))) s (Some (DData d)) = Err e) /\
  (is_stream_signal (ev_type ev) = false ->
     (forall d, bad TypeError (DData d)) /\ (st = [] -> bad TypeError DSkip)).
Proof. exact protocol_enforced. Qed.
Print Assumptions C20_protocol_enforced.
Theorem C20_starts_with_next : forall d, d <> DNext -> reader_send reader_new d = (Err TypeError, RDead).
Proof. intros [| |d] H; try reflexivity. congruence. Qed.
Theorem C20_finished_after_error : forall r d e r', reader_send r d = (Err e, r') ->
  forall d', reader_send r' d' = (Err StopIteration, RDead).
Proof. intros r d e r' H d'. pose proof (send_state r d) as S. rewrite H in S. subst r'. reflexivity. Qed.
Print Assumptions C20_finished_after_error.

Example C20_case : exists ev r, after [DNext; DData [0xE0; 0x01; 0x00; 0xEA; 0xB1; 0x0F]; DNext] ev [TList] r.
Proof.
  do 2 eexists. exists [stream_end_event; version_marker_event]. split; [vm_compute; reflexivity|].
  econstructor; [constructor|]. econstructor; [constructor|]. econstructor; [|constructor].
  apply (nest_start [] TList None []); [reflexivity|]. split; [congruence|]. intros [r H]; discriminate.
Qed.
