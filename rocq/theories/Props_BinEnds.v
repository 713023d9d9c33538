(** C81: reading Ion binary ends.
    A binary reader over a source of any octets in any pieces, asked for anything: it reports at most two events for each
    octet, and after that many requests the session has stopped - at the end of the stream or with an exception. *)
From Verif Require Import Base BaseFacts FieldsModel BufferModel CoreModel BinReaderModel BinReaderSpec BinReaderNest BinReaderSession BinFormat BinFormatFacts
  ReaderGrammarProofs ReaderEvents Props_ReaderGrammar Props_BinAccept Props_BinErrors.
Local Open Scope Z_scope.
Local Open Scope list_scope.

Definition ends_container (e : event) : bool := match ev_type e with EContainerEnd => true | _ => false end.
Definition starts_container (e : event) : bool := match ev_type e with EContainerStart => true | _ => false end.
Definition count (p : event -> bool) (es : list event) : nat := List.length (filter p es).
(** Each event but the end of a container was read from an octet or more. *)
Lemma read_long e seg : read_from e seg -> ends_container e = false -> 1 <= zlen seg.
Proof.
  intros R. inversion R; subst; cbn [ends_container ev_type]; try discriminate; intros _.
  - match goal with H : scalar_code _ _ _ |- _ => apply scalar_code_len in H end. rewrite !zlen_app. pose proof (zlen_nonneg (opt_octets fst fld)). pose proof (zlen_nonneg (opt_octets wrapper_octets w)). lia.
  - match goal with H : container_code _ _ _ |- _ => apply container_len in H end. rewrite !zlen_app. pose proof (zlen_nonneg (opt_octets fst fld)). pose proof (zlen_nonneg (opt_octets wrapper_octets w)). lia.
Qed.
Lemma order_count es l : in_order es l -> Z.of_nat (count (fun e => negb (ends_container e)) es) <= zlen l.
Proof.
  induction 1 as [l|e es gap seg l R I IH]; [apply zlen_nonneg|]. unfold count in *. cbn [filter]. rewrite !zlen_app. pose proof (zlen_nonneg gap). pose proof (zlen_nonneg seg).
  destruct (ends_container e) eqn:N; cbn [negb]; [lia|]. pose proof (read_long _ _ R N). cbn [List.length]. lia.
Qed.
(** A container ends once for each that was opened. *)
Lemma nested_count st es st' : nested st es st' -> (count ends_container es + List.length st' = count starts_container es + List.length st)%nat.
Proof.
  induction 1 as [|st e st1 es st2 N M IH]; [reflexivity|]. unfold count in *. cbn [filter].
  inversion N; subst; cbn [ends_container starts_container ev_type version_marker_event stream_end_event incomplete_event] in *; try exact IH; cbn [List.length] in *; lia.
Qed.
Lemma starts_less es : (count starts_container es <= count (fun e => negb (ends_container e)) es)%nat.
Proof.
  unfold count. induction es as [|e es IH]; [apply le_n|]. cbn [filter]. unfold starts_container at 1, ends_container at 1. destruct (ev_type e); cbn [negb List.length]; lia.
Qed.
Lemma split_count es : List.length es = (count ends_container es + count (fun e => negb (ends_container e)) es)%nat.
Proof. unfold count. induction es as [|e es IH]; [reflexivity|]. cbn [filter List.length]. destruct (ends_container e); cbn [negb List.length]; lia. Qed.
Lemma bounded es l st : in_order es l -> nested [] es st -> Z.of_nat (List.length es) <= 2 * zlen l.
Proof.
  intros O N. apply order_count in O. apply nested_count in N. pose proof (starts_less es). pose proof (split_count es). cbn [List.length] in N. lia.
Qed.

(** Sessions are nested too. *)
Lemma feed_quiet r ev chunks : is_stream_signal (ev_type ev) = false -> feed r ev chunks = (Ok ev, r, chunks).
Proof. intros S. destruct chunks; cbn [feed]; rewrite S; reflexivity. Qed.
Lemma feed_nested chunks : forall s ev st, nest s st -> is_stream_signal (ev_type ev) = true -> match feed (RAt s ev) ev chunks with
  | (Ok ev', r', _) => ev_type ev' = EStreamEnd \/ exists st', nest_step st ev' st' /\ reader_nest r' st'
  | (Err _, _, _) => True end.
Proof.
  induction chunks as [|c cs IH]; intros s ev st N SG; cbn [feed]; rewrite SG.
  - destruct (ev_type ev) eqn:T; try discriminate SG; [|auto]. cbn [reader_send]. unfold protocol_check. rewrite T. exact Logic.I.
  - pose proof (reader_send_nest (RAt s ev) (DData c) st N) as X. destruct (reader_send (RAt s ev) (DData c)) as [[ev'|e] r'] eqn:RS; [|exact Logic.I].
    destruct X as (st1 & S1 & N1). destruct (send_at _ _ _ _ RS) as (s' & ->). destruct (is_stream_signal (ev_type ev')) eqn:SG1.
    + assert (st1 = st) as -> by (inversion S1; subst; cbn in SG1; try discriminate; reflexivity). exact (IH s' ev' st N1 SG1).
    + rewrite (feed_quiet _ _ _ SG1). right. eauto.
Qed.
Lemma session_nested reqs : forall r chunks st, reader_nest r st -> exists st', nested st (fst (session r chunks reqs)) st'.
Proof.
  induction reqs as [|q qs IH]; intros r chunks st N; cbn [session]; [exists st; constructor|]. unfold blocking_next.
  pose proof (reader_send_nest r q st N) as X. destruct (reader_send r q) as [[ev|e] r'] eqn:RS; [|exists st; constructor]. destruct X as (st1 & S1 & N1).
  destruct (send_at _ _ _ _ RS) as (s & ->).
  assert (F : match feed (RAt s ev) ev chunks with (Ok ev', r', _) => ev_type ev' = EStreamEnd \/ exists st', nest_step st ev' st' /\ reader_nest r' st' | (Err _, _, _) => True end).
  { destruct (is_stream_signal (ev_type ev)) eqn:SG.
    - assert (st1 = st) as -> by (inversion S1; subst; cbn in SG; try discriminate; reflexivity). exact (feed_nested chunks s ev st N1 SG).
    - rewrite (feed_quiet _ _ _ SG). right. eauto. }
  destruct (feed (RAt s ev) ev chunks) as [[[ev2|e] r2] cs2]; [|exists st; constructor]. destruct F as [T|(st2 & S2 & N2)]; [rewrite T; exists st; constructor|].
  destruct (IH r2 cs2 st2 N2) as (st3 & M).
  assert (G : exists st', nested st (fst (let '(evs, st0) := session r2 cs2 qs in (ev2 :: evs, st0))) st') by (exists st3; destruct (session r2 cs2 qs); cbn [fst] in *; econstructor; eassumption).
  destruct (ev_type ev2); try exact G. exists st. constructor.
Qed.
Lemma session_length reqs : forall r chunks evs, session r chunks reqs = (evs, SMore) -> List.length evs = List.length reqs.
Proof.
  induction reqs as [|q qs IH]; intros r chunks evs; cbn [session]; [intros [= <-]; reflexivity|]. destruct (blocking_next r chunks q) as [[[ev|e] r'] cs]; [|discriminate].
  intros E. assert (G : exists evs', evs = ev :: evs' /\ session r' cs qs = (evs', SMore)).
  { destruct (session r' cs qs) as [evs' st]. destruct (ev_type ev); try discriminate; injection E as <- ->; eauto. }
  destruct G as (evs' & -> & E'). cbn [List.length]. f_equal. exact (IH _ _ _ E').
Qed.

Definition octets_of (pieces : list (list Z)) : nat := List.length (concat pieces).
(** At most two events for each octet: for any octets, any pieces, any requests (SKIP anywhere too). *)
Theorem C81_events_bounded : forall pieces requests, chunks_ok pieces ->
  (List.length (fst (session reader_new pieces requests)) <= 2 * octets_of pieces)%nat.
Proof.
  intros pieces requests C. destruct (session_nested requests reader_new pieces [] reader_new_nest) as (st & N).
  pose proof (bounded _ _ _ (C53_only_format_is_reported pieces requests C) N) as B. unfold zlen, octets_of in *. lia.
Qed.
Print Assumptions C81_events_bounded.
(** The same of a reader driven by hand with any requests: its answers other than "need data" against the octets sent. *)
Theorem C81_answers_bounded : forall sends, Forall (fun d => match d with DData x => octets x | _ => True end) sends ->
  (List.length (filter (fun e => negb (is_stream_signal (ev_type e))) (replies reader_new sends)) <= 2 * List.length (sent sends))%nat.
Proof.
  intros sends O. destruct (replies_nested reader_new sends [] reader_new_nest) as (st & N). pose proof (C53_only_format_is_answered sends O) as I.
  assert (N' : nested [] (filter (fun e => negb (is_stream_signal (ev_type e))) (replies reader_new sends)) st).
  { revert N. generalize (replies reader_new sends), (@nil iontype). intros es. induction es as [|e es IH]; intros st0 N; inversion N; subst; [constructor|]. cbn [filter].
    match goal with H : nest_step st0 e ?s |- _ => assert (st0 = s \/ is_stream_signal (ev_type e) = false) as K by (inversion H; subst; auto) end.
    destruct (is_stream_signal (ev_type e)) eqn:SG; cbn [negb].
    - destruct K as [->|K]; [auto|discriminate].
    - econstructor; [eassumption|auto]. }
  pose proof (bounded _ _ _ I N') as B. unfold zlen in *. lia.
Qed.
Print Assumptions C81_answers_bounded.
(** So the session stops, with the end of the stream or an exception. *)
Theorem C81_reading_ends : forall pieces requests, chunks_ok pieces -> (2 * octets_of pieces < List.length requests)%nat ->
  let how := snd (session reader_new pieces requests) in
  how = SEnd \/ how = SExc IonException \/ how = SExc TypeError \/ how = SExc IndexError.
Proof.
  intros pieces requests C L. pose proof (C81_events_bounded pieces requests C) as B. cbv zeta.
  destruct (session reader_new pieces requests) as [evs [| |e]] eqn:E; cbn [fst snd] in *; [|now left|].
  - pose proof (session_length _ _ _ _ E). lia.
  - right. destruct (C52_any_requests_partial pieces requests evs e C E) as [->|[->| ->]]; auto.
Qed.
Print Assumptions C81_reading_ends.
Theorem C81_next_ends : forall pieces n, chunks_ok pieces -> (2 * octets_of pieces < n)%nat ->
  let how := snd (session reader_new pieces (repeat DNext n)) in
  how = SEnd \/ how = SExc IonException \/ how = SExc TypeError.
Proof.
  intros pieces n C L. pose proof (C81_reading_ends pieces (repeat DNext n) C ltac:(rewrite repeat_length; exact L)) as H. cbv zeta in *.
  destruct (session reader_new pieces (repeat DNext n)) as [evs [| |e]] eqn:E; cbn [snd] in *; [destruct H as [H|[H|[H|H]]]; discriminate|now left|].
  right. assert (S : skips_opened None (repeat DNext n) evs).
  { clear. generalize (@None event). revert evs. induction n as [|n IH]; intros evs last; cbn [repeat skips_opened]; [exact Logic.I|]. split; [now left|]. destruct evs; [exact Logic.I|apply IH]. }
  destruct (C52_exceptions_partial pieces (repeat DNext n) evs e C E S) as [-> | ->]; auto.
Qed.
Print Assumptions C81_next_ends.

(** The bound is close: three empty lists are six events of three octets. *)
Theorem C81_cases :
  chunks_ok [[224; 1]; [0; 234; 0xB0; 0xB0]; [0xB0]] /\
  session reader_new [[224; 1]; [0; 234; 0xB0; 0xB0]; [0xB0]] (repeat DNext 15) =
    (version_marker_event :: flat_map (fun _ => [mkev EContainerStart (Some TList) EvNone None [] (Some 0); mkev EContainerEnd (Some TList) EvNone None [] (Some 0)]) [1; 2; 3], SEnd) /\
  snd (session reader_new [[224; 1]; [0; 234; 0xB7]] (repeat DNext 15)) = SExc TypeError /\
  snd (session reader_new [[224; 1]; [0; 234; 0xB7]] (repeat DNext 2)) = SMore.
Proof.
  split; [repeat constructor; unfold is_octet; try discriminate; lia|]. repeat split; vm_compute; reflexivity.
Qed.
