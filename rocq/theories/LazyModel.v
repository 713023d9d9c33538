(** Model of lazily computed attributes: [MemoizingThunk] and [IonThunkEvent] (core.py), and the
    events of the managed reader (reader_managed.py) as objects that refer to a context. *)
From Verif Require Import Base CoreModel BufferModel BinReaderModel SymbolsModel ManagedModel.
Local Open Scope Z_scope.

(** * Thunks (core.py:252-261)

    Thunk objects live at addresses.  A delegate is a parser (number [k]; what its [n]-th evaluation
    gives is arbitrary), or another thunk: [derive_*] (core.py:170-249) constructs the new event from
    [self[2]], so [IonThunkEvent.__new__] (core.py:266-275) wraps the old thunk in a new one. *)
Section THUNKS.
Context {A : Type}.
(** core.py:254-255. *)
Inductive delegate := Parser (k : nat) | Wrapped (a : nat).
(** core.py:252-255. *)
Record thunk := mkthunk { th_delegate : delegate; th_value : option A }.
(** The heap of thunks, and how often each parser has been evaluated: all the results, in order.
    (core.py:252-261: the thunks of a program) *)
Record lheap := mkheap { lh_thunks : list thunk; lh_log : list (nat * res A) }.
Variable parser : nat -> nat -> res A.
(** core.py:260: the calls of a delegate. *)
Definition evaluations (h : lheap) (k : nat) : nat := length (filter (fun p => Nat.eqb (fst p) k) (lh_log h)).

(** core.py:260: assignment to one object's attribute. *)
Fixpoint upd {B} (l : list B) (i : nat) (x : B) : list B :=
  match l, i with [], _ => [] | _ :: r, O => x :: r | y :: r, S j => y :: upd r j x end.

(** core.py:257-261 [__call__].  The fuel bounds chains of wrapped thunks; a thunk wraps an older
    one, so [S a] suffices for the thunk at [a]. *)
Fixpoint call (fuel : nat) (h : lheap) (a : nat) : res A * lheap :=
  match fuel with
  | O => (Err OutOfFuel, h)
  | S f =>
    match nth_error (lh_thunks h) a with
    | None => (Err TypeError, h)
    | Some t =>
      match th_value t with
      | Some v => (Ok v, h)
      | None =>
        let '(r, h1) := match th_delegate t with
                        | Parser k => let r := parser k (evaluations h k) in (r, mkheap (lh_thunks h) (lh_log h ++ [(k, r)]))
                        | Wrapped b => call f h b
                        end in
        match r with
        | Err e => (Err e, h1)
        | Ok v => (Ok v, mkheap (upd (lh_thunks h1) a (mkthunk (th_delegate t) (Some v))) (lh_log h1))
        end
      end
    end
  end.

(** Histories: a reader makes an event with parser [k] (each parser is given to one event); an event
    is derived from the one at [a]; the value of the one at [a] is forced. (core.py:171-249, 282-285) *)
Inductive laction := ARead (k : nat) | ADerive (a : nat) | AValue (a : nat).
(** core.py:171-249, 270-285. *)
Definition lstep (h : lheap) (x : laction) : option (res A) * lheap :=
  match x with
  | ARead k => (None, mkheap (lh_thunks h ++ [mkthunk (Parser k) None]) (lh_log h))
  | ADerive a => (None, mkheap (lh_thunks h ++ [mkthunk (Wrapped a) None]) (lh_log h))
  | AValue a => let '(r, h') := call (S a) h a in (Some r, h')
  end.
(** core.py:171-249, 270-285. *)
Fixpoint lrun (h : lheap) (xs : list laction) : list (option (res A)) * lheap :=
  match xs with
  | [] => ([], h)
  | x :: xs' => let '(o, h1) := lstep h x in let '(os, h2) := lrun h1 xs' in (o :: os, h2)
  end.
(** Histories Python can produce: a parser belongs to one event, and only existing events are used.
    (core.py:270-285; reader_binary.py: each event has its own parser) *)
Fixpoint possible (n : nat) (ks : list nat) (xs : list laction) : Prop :=
  match xs with
  | [] => True
  | ARead k :: r => ~ In k ks /\ possible (S n) (k :: ks) r
  | ADerive a :: r => (a < n)%nat /\ possible (S n) ks r
  | AValue a :: r => (a < n)%nat /\ possible n ks r
  end.
(** core.py:252-261. *)
Definition lheap_new : lheap := mkheap [] [].
End THUNKS.
Arguments delegate : clear implicits.
Arguments thunk : clear implicits.
Arguments lheap : clear implicits.

(** * Events of the managed reader as objects

    A context object (reader_managed.py:33-52) holds a symbol table; the thunks of an event
    (98-124) refer to the context object, not to a copy, and compute when forced.  The heap holds the
    tables of the context objects by address. *)
(** reader_managed.py:33-52, 290-300. *)
Record hstate := mkhs { hs_heap : list symtab; hs_ctx : nat; hs_proc : option lproc }.
(** reader_managed.py:290-300. *)
Definition hs_new : hstate := mkhs [system_table] 0 None.
(** reader_managed.py:33-52. *)
Definition table_at (heap : list symtab) (c : nat) : symtab := nth c heap system_table.
(** [ctx = _ManagedContext(...)]: a fresh object; [ctx] refers to it. (reader_managed.py:33-36) *)
Definition new_context (h : hstate) (t : symtab) (p : option lproc) : hstate := mkhs (hs_heap h ++ [t]) (length (hs_heap h)) p.

(** reader_managed.py:277-335 as [mr_step] of ManagedModel, with contexts as objects. *)
Definition hr_step (cat : catalog) (h : hstate) (e : event) : res (hstate * option devent) :=
  let table := table_at (hs_heap h) (hs_ctx h) in
  match hs_proc h with
  | Some p =>
    if is_stream_signal (ev_type e) then Ok (h, None)
    else let* r := lp_step cat table p e in
         match r with
         | LGo d p' => Ok (mkhs (hs_heap h) (hs_ctx h) (Some p'), Some d)
         | LDone t => Ok (new_context h t None, Some DNext)
         end
  | None =>
    match ev_depth e with
    | Some 0 =>
      match ev_type e, ev_ion_type e, ev_annot e with
      | EVersionMarker, _, _ => if is_version_1_0 e then Ok (new_context h system_table None, Some DNext) else Err IonException
      | _, Some TSymbol, [] =>
        let* v := symbol_value e in
        match v with
        | None => Ok (h, None)
        | Some t => let* r := resolve_token table t in
                    if is_text (tk_text r) TEXT_ION_1_0 then Ok (h, Some DNext) else Ok (h, None)
        end
      | EContainerStart, Some TStruct, a :: _ =>
        let* r := resolve_token table a in
        if is_text (tk_text r) TEXT_ION_SYMBOL_TABLE then Ok (mkhs (hs_heap h) (hs_ctx h) (Some lproc_new), Some DNext) else Ok (h, None)
      | _, _, _ => Ok (h, None)
      end
    | _ => Ok (h, None)
    end
  end.

(** An event object: the raw event, its context, and the memo of each of its three thunks
    (reader_managed.py:62-76) *)
Record hevent := mkhe { he_ev : event; he_ctx : nat;
  he_value : option (option scalar); he_field : option (option token); he_annot : option (list token) }.
(** core.py:107-126; reader_managed.py:62-76. *)
Inductive attribute := AtValue | AtField | AtAnnotations.
(** reader_managed.py:62-76. *)
Inductive answered := GotValue (r : res (option scalar)) | GotField (r : res (option token)) | GotAnnotations (r : res (list token)).

(** core.py:257-261. *)
Definition memo {B} (m : option B) (compute : res B) : res B * option B :=
  match m with
  | Some v => (Ok v, m)
  | None => match compute with Ok v => (Ok v, Some v) | Err e => (Err e, None) end
  end.
(** reader_managed.py:62-124. *)
Definition force_attr (heap : list symtab) (o : hevent) (a : attribute) : answered * hevent :=
  let now := mkme (he_ev o) (table_at heap (he_ctx o)) in
  match a with
  | AtValue => let '(r, m) := memo (he_value o) (me_value now) in (GotValue r, mkhe (he_ev o) (he_ctx o) m (he_field o) (he_annot o))
  | AtField => let '(r, m) := memo (he_field o) (me_field now) in (GotField r, mkhe (he_ev o) (he_ctx o) (he_value o) m (he_annot o))
  | AtAnnotations => let '(r, m) := memo (he_annot o) (me_annotations now) in (GotAnnotations r, mkhe (he_ev o) (he_ctx o) (he_value o) (he_field o) m)
  end.

(** reader_managed.py:277-335. *)
Definition hreader : Type := hstate * reader.
(** reader_managed.py:277-300. *)
Definition hreader_new : hreader := (hs_new, reader_new).
(** reader_managed.py:277-335. *)
Fixpoint hreader_send (fuel : nat) (cat : catalog) (hr : hreader) (d : devent) : res hevent * hreader :=
  match fuel with
  | O => (Err OutOfFuel, hr)
  | S f =>
    match reader_send (snd hr) d with
    | (Err e, r') => (Err e, (fst hr, r'))
    | (Ok ev, r') =>
      match hr_step cat (fst hr) ev with
      | Err e => (Err e, (fst hr, RDead))
      | Ok (h', Some d') => hreader_send f cat (h', r') d'
      | Ok (h', None) => (Ok (mkhe ev (hs_ctx h') None None None), (h', r'))
      end
    end
  end.

(** A program that uses the reader: it sends requests and data, and looks at any attribute of any
    event it has been given, whenever it likes.  What it sees:
    (core.py:295-302; reader_managed.py:62-76: the uses of a reader) *)
Inductive act := Send (d : devent) | Look (i : nat) (a : attribute).
(** core.py:107-126; reader_managed.py:62-76. *)
Inductive seen := SawEvent (et : evtype) (t : option iontype) (d : option Z) | SawExc (e : exc) | SawAttr (a : answered) | SawNothing.
(** reader_managed.py:62-76, 277-335. *)
Fixpoint hprogram (fuel : nat) (cat : catalog) (hr : hreader) (objs : list hevent) (acts : list act) : list seen :=
  match acts with
  | [] => []
  | Send d :: r =>
    match hreader_send fuel cat hr d with
    | (Ok o, hr') => SawEvent (ev_type (he_ev o)) (ev_ion_type (he_ev o)) (ev_depth (he_ev o)) :: hprogram fuel cat hr' (objs ++ [o]) r
    | (Err e, hr') => SawExc e :: hprogram fuel cat hr' objs r
    end
  | Look i a :: r =>
    match nth_error objs i with
    | None => SawNothing :: hprogram fuel cat hr objs r
    | Some o => let '(x, o') := force_attr (hs_heap (fst hr)) o a in SawAttr x :: hprogram fuel cat hr (upd objs i o') r
    end
  end.
