(** Property theorems C56-C60: the text reader on any input. *)
From Coq Require Import String.
From Verif Require Import Base BaseFacts CoreModel BinReaderModel SymbolsModel TextNumbers TextWriterModel TextReaderModel
  TextReaderFacts TextReaderNest TextReaderChunks TextReaderErrors TextReaderTrace.
Local Open Scope Z_scope.

(** C56.  [text_session uni reader chunks reqs]: the events the application gets for its NEXT and SKIP
    requests, and how it ends, while the blocking reader takes the pieces [chunks] from the source
    ([uni]: the source is text, not octets).  Whatever the input and the requests, malformed or not,
    the pieces make no difference. *)
Theorem C56_pieces_irrelevant : forall uni a b reqs,
  Forall (fun c => c <> []) a -> Forall (fun c => c <> []) b -> concat a = concat b ->
  text_session uni text_reader_new a reqs = text_session uni text_reader_new b reqs.
Proof. exact chunks_irrelevant. Qed.
Print Assumptions C56_pieces_irrelevant.

Definition sample : text := Eval compute in chars "{a: x::[1, 2.5e0, 'b c' /* c */], ""d"": '''e''' '''f'''} 2000-01-01T ".
Definition kinds (l : list event) : list (evtype * option iontype) := map (fun e => (ev_type e, ev_ion_type e)) l.
Example C56_case :
  kinds (fst (text_session true text_reader_new [sample] (repeat DNext 9))) =
    [(EContainerStart, Some TStruct); (EContainerStart, Some TList); (EScalar, Some TInt); (EScalar, Some TFloat);
     (EScalar, Some TSymbol); (EContainerEnd, Some TList); (EScalar, Some TString); (EContainerEnd, Some TStruct);
     (EScalar, Some TTimestamp)] /\
  text_session true text_reader_new (map (fun z => [z]) sample) (repeat DNext 10) =
  text_session true text_reader_new [sample] (repeat DNext 10) /\
  Forall (fun c => c <> []) (map (fun z => [z]) sample) /\ concat (map (fun z => [z]) sample) = sample.
Proof.
  split; [vm_compute; reflexivity|]. split; [vm_compute; reflexivity|].
  split; [repeat constructor; discriminate|vm_compute; reflexivity].
Qed.

(** C57.  A conversation with the reader: any sends (NEXT, DATA; SKIP is C58), any data.  The events
    answered are well nested: [text_nest] fixes for each event its depth, and for an end the type of
    the container it closes; version markers at the top level only; a field name only in a struct;
    end of stream only at the top level, unless the application has declared the end of data by
    answering INCOMPLETE with NEXT. *)
Theorem C57_events_well_nested : forall uni l t,
  exchange uni text_reader_new l t -> ~ In DSkip (map fst l) -> nested l.
Proof. exact conversation_nested. Qed.
Print Assumptions C57_events_well_nested.

(** For the examples: the conversation, computed. *)
Fixpoint talk (uni : bool) (t : treader) (ds : list devent) : option (list (devent * event) * treader) :=
  match ds with
  | [] => Some ([], t)
  | d :: ds' =>
    match text_send uni t d with
    | (Ok e, t1) => match talk uni t1 ds' with Some (l, t2) => Some ((d, e) :: l, t2) | None => None end
    | _ => None
    end
  end.
Lemma talk_exchange uni ds : forall t l t', talk uni t ds = Some (l, t') -> exchange uni t l t' /\ map fst l = ds.
Proof.
  induction ds as [|d ds IH]; intros t l t' H; cbn [talk] in H.
  - injection H as <- <-. split; [constructor|reflexivity].
  - destruct (text_send uni t d) as [[e|] t1] eqn:E; [|discriminate].
    destruct (talk uni t1 ds) as [[l1 t2]|] eqn:T; [|discriminate]. injection H as <- <-.
    destruct (IH _ _ _ T) as (EX & M). split; [econstructor; eassumption|cbn; now f_equal].
Qed.
Definition replies (l : list (devent * event)) : list event := map snd l.
Example C57_case : exists l t,
  exchange true text_reader_new l t /\ ~ In DSkip (map fst l) /\
  kinds (replies l) = [(EStreamEnd, None); (EContainerStart, Some TStruct); (EContainerStart, Some TList); (EScalar, Some TInt);
    (EIncomplete, None); (EScalar, Some TFloat); (EScalar, Some TSymbol); (EContainerEnd, Some TList)].
Proof.
  destruct (talk true text_reader_new [DNext; DData (firstn 14 sample); DNext; DNext; DNext; DData (skipn 14 sample); DNext; DNext])
    as [[l t]|] eqn:T; [|vm_compute in T; discriminate].
  exists l, t. destruct (talk_exchange _ _ _ _ _ T) as (EX & M). split; [exact EX|]. split.
  - rewrite M. cbn. intuition discriminate.
  - vm_compute in T. injection T as <- _. vm_compute. reflexivity.
Qed.

(** Two deviations from the Ion text format that the nesting specification has to allow.  An open list
    at the end of the source ends the stream quietly (the blocking reader answers INCOMPLETE with NEXT):
    no IonException. *)
Theorem C57_unclosed_list_refuted :
  exists evs, text_session true text_reader_new [chars "[1"] (repeat DNext 3) = (evs, SEnd) /\
    kinds evs = [(EContainerStart, Some TList); (EScalar, Some TInt)].
Proof. eexists. split; vm_compute; reflexivity. Qed.
(** A single letter between the braces is a symbol value without a field name. *)
Theorem C57_missing_field_name_refuted :
  exists a b c, text_session true text_reader_new [chars "{a} "] (repeat DNext 4) = ([a; b; c], SEnd) /\
    ev_type b = EScalar /\ ev_ion_type b = Some TSymbol /\ ev_depth b = Some 1 /\ ev_field b = None.
Proof. do 3 eexists. split; [vm_compute; reflexivity|]. vm_compute. auto. Qed.

(** C58.  After a conversation without SKIP whose last container event was the start of a container at
    depth [k], sending SKIP is reading event by event ([(d1, e1) :: l]) up to the end of that
    container: the same data is asked for, the last answer is the same, and the reader is left in the
    same state.  [skip_view] drops the events passed over, with the requests for them. *)
Theorem C58_skip_is_reading : forall uni past t k start d1 e1 l t' la,
  exchange uni text_reader_new past t -> ~ In DSkip (map fst past) ->
  last_boundary None past = Some start -> ev_type start = EContainerStart -> ev_depth start = Some k ->
  last_reply past = Some la -> is_stream_signal (ev_type la) = false ->
  (ev_depth la = Some 0 -> ev_type la = EContainerStart) ->
  exchange uni t ((d1, e1) :: l) t' -> ~ In DSkip (map fst ((d1, e1) :: l)) ->
  Forall (fun x => stream_end (snd x) = false) ((d1, e1) :: l) ->
  Forall (fun x => closes k (snd x) = false) (removelast ((d1, e1) :: l)) ->
  (exists z, ev_type (snd (last ((d1, e1) :: l) z)) = EContainerEnd /\
             ev_depth (snd (last ((d1, e1) :: l) z)) = Some k) ->
  exchange uni t (skip_view DSkip ((d1, e1) :: l)) t'.
Proof. intros uni past t k start d1 e1 l t' la H1 H2 H3 _. exact (skip_is_reading uni past t k start d1 e1 l t' la H1 H2 H3). Qed.
Print Assumptions C58_skip_is_reading.

(** The struct of the sample, its list skipped with the data in two pieces: the hypotheses hold, and
    the skipping conversation is SKIP answered by INCOMPLETE, the rest of the data answered by the
    end of the list. *)
Example C58_case : exists past t l t',
  exchange true text_reader_new past t /\ ~ In DSkip (map fst past) /\
  (exists start, last_boundary None past = Some start /\ ev_type start = EContainerStart /\ ev_depth start = Some 1 /\ last_reply past = Some start) /\
  exchange true t l t' /\ ~ In DSkip (map fst l) /\ Forall (fun x => stream_end (snd x) = false) l /\
  Forall (fun x => closes 1 (snd x) = false) (removelast l) /\
  ev_type (snd (last l (DNext, incomplete_event))) = EContainerEnd /\ ev_depth (snd (last l (DNext, incomplete_event))) = Some 1 /\
  map fst (skip_view DSkip l) = [DSkip; DData (skipn 14 sample)] /\
  kinds (replies (skip_view DSkip l)) = [(EIncomplete, None); (EContainerEnd, Some TList)].
Proof.
  destruct (talk true text_reader_new [DNext; DData (firstn 14 sample); DNext]) as [[past t]|] eqn:T; [|vm_compute in T; discriminate].
  destruct (talk true t [DNext; DNext; DData (skipn 14 sample); DNext; DNext]) as [[l t']|] eqn:T2.
  2:{ vm_compute in T. injection T as _ <-. vm_compute in T2. discriminate. }
  destruct (talk_exchange _ _ _ _ _ T) as (EX & M). destruct (talk_exchange _ _ _ _ _ T2) as (EX2 & M2).
  exists past, t, l, t'. split; [exact EX|]. split; [rewrite M; cbn; intuition discriminate|].
  vm_compute in T. injection T as <- <-. vm_compute in T2. injection T2 as <- <-.
  split; [eexists; split; [vm_compute; reflexivity|]; split; [vm_compute; reflexivity|]; split; vm_compute; reflexivity|].
  split; [exact EX2|]. split; [cbn; intuition discriminate|].
  split; [repeat constructor|]. split; [repeat constructor|].
  split; [vm_compute; reflexivity|]. split; [vm_compute; reflexivity|]. split; vm_compute; reflexivity.
Qed.

(** After the END of a nested container SKIP does not go to the end of the container that is open: it
    stops at the END of the next sibling, whose start was never reported. *)
Definition siblings : text := Eval compute in chars "[[1],[2],3] ".
Theorem C58_sibling_refuted :
  exists e rest, text_session true text_reader_new [siblings] [DNext; DNext; DNext; DNext; DSkip; DNext; DNext] =
    (fst (text_session true text_reader_new [siblings] (repeat DNext 4)) ++ e :: rest, SMore) /\
  ev_type e = EContainerEnd /\ ev_depth e = Some 1 /\
  map (fun e => (ev_type e, ev_depth e)) rest = [(EScalar, Some 1); (EContainerEnd, Some 0)].
Proof. do 2 eexists. split; [vm_compute; reflexivity|]. vm_compute. auto. Qed.

(** C59.  Every send is answered with an event or with one of eight exceptions (StopIteration from a
    reader that has already failed): the reader never goes on for ever ([OutOfFuel] in the model,
    whose budget is sixteen steps for every character at hand and a hundred more), except after both a
    declared end of data and a SKIP. *)
Theorem C59_every_send_answered : forall uni l t d e t',
  exchange uni text_reader_new l t -> text_send uni t d = (Err e, t') ->
  In e [IonException; TypeError; ValueError; AttributeError; AssertionError; UnicodeDecodeError; StructError; KeyError; StopIteration] \/
  e = OutOfFuel /\ flushed (l ++ [(d, incomplete_event)]) = true /\ In DSkip (map fst l ++ [d]).
Proof.
  intros uni l t d e t' EX E. destruct (conversation_answered _ _ _ _ _ _ EX E) as [[K| ->]|H]; [|left; cbn; tauto|right; exact H].
  left. unfold known_exception in K. cbn in *. tauto.
Qed.
Print Assumptions C59_every_send_answered.

(** The budget is no restriction: the answer is the one of the relation [steps], which has none. *)
Theorem C59_budget_suffices : forall uni r d, steps uni r d (run (steps_fuel r d) uni r d).
Proof. exact run_steps. Qed.
Print Assumptions C59_budget_suffices.

(** The exception is real.  A list skipped up to an end of data within it: the loop of the skipping
    co-routine finds itself where it was. *)
Lemma waits_for_ever uni s q k c f : t_pc s = PWait k c f -> delegate uni s q None = Ok (s, q, Some (signal c)).
Proof. intros E. unfold delegate. now rewrite E. Qed.
Theorem C59_skip_unclosed_refuted : exists l t t',
  exchange true text_reader_new l t /\ map fst l = [DNext; DData (chars "[1"); DSkip] /\
  text_send true t DNext = (Err OutOfFuel, t').
Proof.
  destruct (talk true text_reader_new [DNext; DData (chars "[1"); DSkip]) as [[l t]|] eqn:T; [|vm_compute in T; discriminate].
  destruct (talk_exchange _ _ _ _ _ T) as (EX & M). exists l, t. vm_compute in T. injection T as <- <-.
  eexists. split; [exact EX|]. split; [exact M|]. vm_compute. reflexivity.
Qed.
(** And the blocking reader, which answers INCOMPLETE with NEXT when the source is empty, never
    returns from a block comment left open after a long string: each NEXT is answered by INCOMPLETE
    from the same state. *)
Theorem C59_open_comment_refuted : exists l t e,
  exchange true text_reader_new l t /\ map fst l = [DNext; DData (chars "'''a'''/*"); DNext] /\
  last_reply l = Some e /\ ev_type e = EIncomplete /\ text_send true t DNext = (Ok e, t).
Proof.
  destruct (talk true text_reader_new [DNext; DData (chars "'''a'''/*"); DNext]) as [[l t]|] eqn:T; [|vm_compute in T; discriminate].
  destruct (talk_exchange _ _ _ _ _ T) as (EX & M). exists l, t. vm_compute in T. injection T as <- <-.
  eexists. split; [exact EX|]. split; [exact M|]. split; [reflexivity|]. split; vm_compute; reflexivity.
Qed.

(** C60.  Malformed text is not always reported as IonException (what can be raised at all is in C59). *)
Theorem C60_other_exceptions_refuted :
  text_session false text_reader_new [chars "-"] [DNext] = ([], SExc StructError) /\
  text_session true text_reader_new [chars "1/"] [DNext] = ([], SExc TypeError) /\
  snd (text_session true text_reader_new [chars "{$10 a:1}"] [DNext; DNext]) = SExc TypeError /\
  text_session true text_reader_new [chars """\U00110000"" "] [DNext] = ([], SExc UnicodeDecodeError) /\
  text_session true text_reader_new [chars """\udc00"" "] [DNext] = ([], SExc ValueError) /\
  snd (text_session true text_reader_new [chars "'''a''' ''::1 "] [DNext; DNext]) = SExc AttributeError.
Proof. repeat split; vm_compute; reflexivity. Qed.
