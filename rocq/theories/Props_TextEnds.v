(** C79: reading Ion text ends.
    A reader of text that is asked for one event after the other (NEXT) over a source in any pieces: the number of events
    is bounded by the length of the text, after which the session has stopped - at the end of the stream or with an
    exception; and unless the text holds a star or a backslash it never waits for ever. *)
From Coq Require Import String.
From Verif Require Import Base BaseFacts CoreModel BinReaderModel TextNumbers TextWriterModel TextReaderModel TextReaderFacts TextReaderNest TextReaderChunks TextReaderTrace TextEnds TextFinish TextRequests.
Local Open Scope Z_scope.
Local Open Scope list_scope.

(** What has been received when the session stopped: [SMore] stands for a session that could go on. *)
Definition length_of (pieces : list (list Z)) : nat := List.length (concat pieces).
(** At most 37 events for each character, and 16 more. *)
Theorem C79_reading_ends : forall uni pieces n, (forall p, In p pieces -> p <> []) -> (37 * length_of pieces + 16 <= n)%nat ->
  snd (text_session uni text_reader_new pieces (repeat DNext n)) <> SMore.
Proof. intros uni pieces n P B. apply reading_ends; [apply Forall_forall; exact P|exact B]. Qed.
(** The same for requests of any kind and in any order: the next event, the end of the container, or data. *)
Theorem C79_requests_end : forall uni pieces requests, (forall p, In p pieces -> p <> []) -> (37 * length_of pieces + 16 <= List.length requests)%nat ->
  snd (text_session uni text_reader_new pieces requests) <> SMore.
Proof. intros uni pieces requests P B. apply requesting_ends; [apply Forall_forall; exact P|exact B]. Qed.
(** No event is waited for in vain: [OutOfFuel] stands for a reader that asks for data again and again after the end. *)
Theorem C79_reading_answers : forall uni pieces n, (forall p, In p pieces -> p <> []) ->
  (forall c, In c (concat pieces) -> c <> 42 /\ c <> 92) ->
  snd (text_session uni text_reader_new pieces (repeat DNext n)) <> SExc OutOfFuel.
Proof. intros uni pieces n P F. apply reading_answers; [apply Forall_forall; exact P|apply Forall_forall; exact F]. Qed.
(** So every such text is read to the end of the stream or refused with an exception. *)
Theorem C79_text_is_read : forall uni pieces, (forall p, In p pieces -> p <> []) -> (forall c, In c (concat pieces) -> c <> 42 /\ c <> 92) ->
  exists n, forall m, (n <= m)%nat ->
    snd (text_session uni text_reader_new pieces (repeat DNext m)) = SEnd \/
    exists e, snd (text_session uni text_reader_new pieces (repeat DNext m)) = SExc e /\ e <> OutOfFuel.
Proof.
  intros uni pieces P F. exists (37 * length_of pieces + 16)%nat. intros m B.
  pose proof (C79_reading_ends uni pieces m P B) as A. pose proof (C79_reading_answers uni pieces m P F) as A'.
  destruct (snd _) as [| |e]; [congruence|now left|right]. exists e. split; congruence.
Qed.

(** Concrete cases: the events, then the end; the end in the middle of a list; in a comment of one line. *)
Definition kinds (s : list event * stop) : list evtype * stop := (map ev_type (fst s), snd s).
Theorem C79_cases :
  kinds (text_session true text_reader_new [chars "{a:[1, 2"; chars "]} 3"] (repeat DNext 600)) =
    ([EContainerStart; EContainerStart; EScalar; EScalar; EContainerEnd; EContainerEnd; EScalar], SEnd) /\
  kinds (text_session true text_reader_new [chars "[1, 25"] (repeat DNext 600)) = ([EContainerStart; EScalar], SExc IonException) /\
  kinds (text_session true text_reader_new [chars "'''x''' // x"] (repeat DNext 600)) = ([EScalar], SEnd) /\
  (* after a token of one character the end is accepted inside a container *)
  kinds (text_session true text_reader_new [chars "[1, x"] (repeat DNext 600)) = ([EContainerStart; EScalar; EScalar], SEnd) /\
  (* an open comment is waited for for ever *)
  kinds (text_session true text_reader_new [chars "1 '''x'''/* y"] (repeat DNext 600)) = ([EScalar], SExc OutOfFuel).
Proof. vm_compute. auto. Qed.
(** Containers skipped and read: the events; the end of the data inside a container that is skipped is an exception or is waited for for ever. *)
Definition asking (l : list devent) (n : nat) : list devent := l ++ repeat DNext n.
Theorem C79_request_cases :
  kinds (text_session true text_reader_new [chars "{a:[1, 2"; chars "]} 3"] (asking [DNext; DNext; DSkip] 600)) =
    ([EContainerStart; EContainerStart; EContainerEnd; EContainerEnd; EScalar], SEnd) /\
  kinds (text_session true text_reader_new [chars "[[1, 2], 3] [4] 5"] (asking [DNext; DSkip; DNext; DSkip] 600)) =
    ([EContainerStart; EContainerEnd; EContainerStart; EContainerEnd; EScalar], SEnd) /\
  kinds (text_session true text_reader_new [chars "5 [1, 2]"] (asking [DNext; DSkip] 600)) = ([EScalar], SExc TypeError) /\
  kinds (text_session true text_reader_new [chars "[1, "] (asking [DNext; DSkip] 600)) = ([EContainerStart], SExc IonException) /\
  kinds (text_session true text_reader_new [chars "[1, x"] (asking [DNext; DSkip] 600)) = ([EContainerStart], SExc OutOfFuel).
Proof. vm_compute. auto. Qed.
