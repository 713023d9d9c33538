(** Model of the writer protocol: /repo/amazon/ion/writer.py [writer_trampoline], [_drain],
    [blocking_writer], over any writer co-routine that answers an event with some HAS_PENDING chunks
    followed by a last event (or an exception). *)
From Verif Require Import Base CoreModel BinWriterModel SymbolsModel ManagedModel TextWriterModel.
Local Open Scope Z_scope.

Inductive wtype := WPending | WNeeds | WComplete.
Definition wtype_of (w : wevent) : wtype :=
  match w with HasPending _ => WPending | NeedsInput _ => WNeeds | Complete _ => WComplete end.

Section MACHINE.
  Variable S : Type.
  (** One event: the chunks yielded first, then the last event and the new state, or an exception. *)
  Variable answers : S -> uevent -> list (list Z) * res (S * wevent).

  (** The co-routine between two sends: waiting for an event, or in the middle of its chunks. *)
  Inductive co := Waiting (s : S) | Yielding (rest : list (list Z)) (fin : res (S * wevent)).
  Definition co_next (rest : list (list Z)) (fin : res (S * wevent)) : res (co * wevent) :=
    match rest with
    | c :: cs => Ok (Yielding cs fin, HasPending c)
    | [] => let* (s, w) := fin in Ok (Waiting s, w)
    end.
  (** [delegate.send]: in the middle of its chunks the co-routine ignores what it is sent
      (writer.py:51-53, the value of [yield partial_transition(...)] is dropped); waiting, it needs
      an event ([None.event_type] raises AttributeError). *)
  Definition co_send (c : co) (m : option uevent) : res (co * wevent) :=
    match c with
    | Yielding rest fin => co_next rest fin
    | Waiting s => match m with
                   | None => Err AttributeError
                   | Some e => let '(cs, r) := answers s e in co_next cs r
                   end
    end.

  (** writer.py:79-111 [writer_trampoline]: the last event it yielded, and the delegate. *)
  Record tramp := mktr { tr_last : option wevent; tr_co : co }.
  Definition tramp_new (s : S) : tramp := mktr None (Waiting s).
  Definition tramp_send (t : tramp) (m : option uevent) : res (tramp * wevent) :=
    let* _ :=
      match tr_last t with
      | None => match m with None => Err TypeError | Some _ => Ok tt end
      | Some w =>
        match wtype_of w, m with
        | WPending, Some _ => Err TypeError
        | WPending, None => Ok tt
        | _, None => Err TypeError
        | _, Some e => match ue_type e with EIncomplete => Err TypeError | _ => Ok tt end
        end
      end in
    let* (c, w) := co_send (tr_co t) m in
    Ok (mktr (Some w) c, w).

  (** writer.py:117-131 [_drain] and 134-152 [blocking_writer]: the data written to the output, and
      the writer's state and answer, or the exception that escapes.  [fuel] bounds the number of
      chunks. *)
  Fixpoint drain (fuel : nat) (t : tramp) (m : option uevent) : list (list Z) * res (tramp * wtype) :=
    match fuel with
    | O => ([], Err OutOfFuel)
    | Datatypes.S f =>
      match tramp_send t m with
      | Err e => ([], Err e)
      | Ok (t', w) =>
        match wtype_of w with
        | WPending => let '(ds, r) := drain f t' None in (wdata w :: ds, r)
        | ty => ([wdata w], Ok (t', ty))
        end
      end
    end.
  Fixpoint blocking (fuel : nat) (t : tramp) (es : list uevent) : list (list Z) * res (tramp * list wtype) :=
    match es with
    | [] => ([], Ok (t, []))
    | e :: es' =>
      let '(ds, r) := drain fuel t (Some e) in
      match r with
      | Err x => (ds, Err x)
      | Ok (t', ty) => let '(ds', r') := blocking fuel t' es' in
                       (ds ++ ds', let* (t'', tys) := r' in Ok (t'', ty :: tys))
      end
    end.
End MACHINE.
Arguments Waiting {S} s.
Arguments Yielding {S} rest fin.
Arguments mktr {S} _ _.
Arguments tr_last {S} _.
Arguments tr_co {S} _.
Arguments tramp_new {S} s.
Arguments tramp_send {S} answers t m.
Arguments drain {S} answers fuel t m.
Arguments blocking {S} answers fuel t es.
Arguments co_send {S} answers c m.
Arguments co_next {S} rest fin.

(** The three writers as such co-routines.  A list of answers [HasPending .. HasPending last]. *)
Fixpoint split_answers {A} (s : A) (ws : list wevent) : list (list Z) * res (A * wevent) :=
  match ws with
  | [] => ([], Err StopIteration)
  | [w] => ([], Ok (s, w))
  | w :: r => let '(cs, x) := split_answers s r in (wdata w :: cs, x)
  end.
Definition as_answers {A} (r : res (A * list wevent)) : list (list Z) * res (A * wevent) :=
  match r with Err e => ([], Err e) | Ok (s, ws) => split_answers s ws end.
(** writer_text.py:456 [text_writer] *)
Definition text_answers (indent : option (list Z)) : tstate -> uevent -> list (list Z) * res (tstate * wevent) := text_write indent.
(** writer_binary.py:220-247 [binary_writer] *)
Definition binary_answers (imports : option (list symtab)) (m : mwriter) (e : uevent) : list (list Z) * res (mwriter * wevent) :=
  as_answers (managed_write imports m e).
