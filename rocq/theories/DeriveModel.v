(** Model of the derivation of events: [IonEvent.derive_*] (core.py) on plain events, thunk events (core.py) and the events
    of the managed reader (reader_managed.py). *)
From Verif Require Import Base.

Section EVENTS.
(** Python objects, the values of attributes; none of them is callable. *)
Context {A : Type}.

(** What a [MemoizingThunk] (core.py:252-255) calls: a function, or another thunk.  Simplified: a function gives the
    same result whenever it is called (those of the readers do: they parse octets that do not change, reader_binary.py:616-741,
    and look symbols up in a context that does not change, reader_managed.py:102-115). *)
Inductive delegate := Function (r : res A) | Wrapped (a : nat).
(** core.py:252-261 [MemoizingThunk]: the delegate, and the attribute [value] if it is set. *)
Record thunk := mkthunk { th_delegate : delegate; th_value : option A }.
(** core.py:252-261: the thunks of a program by address, and how many calls of functions there have been. *)
Record heap := mkheap { hp_thunks : list thunk; hp_calls : nat }.
(** core.py:252-261: no thunk yet. *)
Definition heap_new : heap := mkheap [] 0.

(** core.py:260: the assignment to [self.value]. *)
Fixpoint store (l : list thunk) (a : nat) (t : thunk) : list thunk :=
  match l, a with [], _ => [] | _ :: r, O => t :: r | x :: r, S b => x :: store r b t end.
(** core.py:257-261 [__call__].  A thunk wraps an older one only, so fuel [S a] suffices for the thunk at [a]. *)
Fixpoint call (fuel : nat) (h : heap) (a : nat) : res A * heap :=
  match fuel with
  | O => (Err OutOfFuel, h)
  | S f =>
    match nth_error (hp_thunks h) a with
    | None => (Err TypeError, h)
    | Some t =>
      match th_value t with
      | Some x => (Ok x, h)
      | None =>
        let '(r, h) := match th_delegate t with
                       | Function r => (r, mkheap (hp_thunks h) (S (hp_calls h)))
                       | Wrapped b => call f h b
                       end in
        match r with
        | Ok x => (Ok x, mkheap (store (hp_thunks h) a (mkthunk (th_delegate t) (Some x))) (hp_calls h))
        | Err e => (Err e, h)
        end
      end
    end
  end.

(** core.py:107-126: what a component of the tuple holds: an object, a [MemoizingThunk], or (as an argument only) a function. *)
Inductive slot := Object (x : A) | Thunk (a : nat) | Callable (r : res A).
(** core.py:107 [IonEvent], core.py:270 [IonThunkEvent], reader_managed.py:62 [_IonManagedThunkEvent]. *)
Inductive class := PlainEvent | ThunkEvent | ManagedEvent.
(** core.py:107-126: the named tuple. *)
Record pevent := mkpe { pe_class : class; pe_type : A; pe_ion_type : A; pe_value : slot; pe_field : slot; pe_annot : slot; pe_depth : A }.

(** core.py:254-255 [MemoizingThunk(s)]; calling an object that is not callable is a TypeError. *)
Definition memoizing (h : heap) (s : slot) : slot * heap :=
  (Thunk (length (hp_thunks h)),
   mkheap (hp_thunks h ++ [mkthunk (match s with Object _ => Function (Err TypeError) | Thunk a => Wrapped a | Callable r => Function r end) None])
          (hp_calls h)).
(** core.py:272-280 and reader_managed.py:64-69 [__new__], with six positional arguments. *)
Definition construct (h : heap) (c : class) (ty it : A) (v f a : slot) (d : A) : pevent * heap :=
  match c with
  | PlainEvent => (mkpe c ty it v f a d, h)
  | ThunkEvent => let '(v, h) := memoizing h v in (mkpe c ty it v f a d, h)
  | ManagedEvent => let '(f, h) := memoizing h f in
                    let '(a, h) := memoizing h a in
                    let '(v, h) := memoizing h v in (mkpe c ty it v f a d, h)
  end.
(** core.py:282-285, reader_managed.py:71-79: the properties call what is in the slot; for the others it is the component itself. *)
Definition read_slot (h : heap) (s : slot) : res A * heap :=
  match s with Object x => (Ok x, h) | Thunk a => call (S a) h a | Callable _ => (Err TypeError, h) end.

(** core.py:107-126: the attributes. *)
Inductive attribute := EventType | IonType | Value | FieldName | Annotations | Depth.
(** core.py:107-126, 282-285; reader_managed.py:71-79. *)
Definition get (h : heap) (e : pevent) (at_ : attribute) : res A * heap :=
  match at_ with
  | EventType => (Ok (pe_type e), h)
  | IonType => (Ok (pe_ion_type e), h)
  | Value => read_slot h (pe_value e)
  | FieldName => read_slot h (pe_field e)
  | Annotations => read_slot h (pe_annot e)
  | Depth => (Ok (pe_depth e), h)
  end.

(** reader_managed.py:81-95: a managed event puts an object that is not callable into a function. *)
Definition argument (c : class) (x : A) : slot := match c with ManagedEvent => Callable (Ok x) | _ => Object x end.
(** core.py:171-188, reader_managed.py:89-95. *)
Definition derive_field_name (h : heap) (e : pevent) (x : A) : pevent * heap :=
  construct h (pe_class e) (pe_type e) (pe_ion_type e) (pe_value e) (argument (pe_class e) x) (pe_annot e) (pe_depth e).
(** core.py:190-209, reader_managed.py:81-87. *)
Definition derive_annotations (h : heap) (e : pevent) (x : A) : pevent * heap :=
  construct h (pe_class e) (pe_type e) (pe_ion_type e) (pe_value e) (pe_field e) (argument (pe_class e) x) (pe_depth e).
(** core.py:230-249. *)
Definition derive_depth (h : heap) (e : pevent) (x : A) : pevent * heap :=
  construct h (pe_class e) (pe_type e) (pe_ion_type e) (pe_value e) (pe_field e) (pe_annot e) x.
(** core.py:211-228. *)
Definition derive_value (h : heap) (e : pevent) (x : A) : res pevent * heap :=
  match read_slot h (pe_field e) with
  | (Err y, h) => (Err y, h)
  | (Ok f, h) =>
    match read_slot h (pe_annot e) with
    | (Err y, h) => (Err y, h)
    | (Ok a, h) => (Ok (mkpe PlainEvent (pe_type e) (pe_ion_type e) (Object x) (Object f) (Object a) (pe_depth e)), h)
    end
  end.

(** A program: it makes events (core.py:107, 270; reader_managed.py:117-124; a thunk's function may raise), derives events from any it has, and
    looks at attributes of any it has.  Events are numbered in the order in which they were made. *)
Inductive op :=
| NewPlain (ty it v f a d : A)
| NewThunk (ty it : A) (v : res A) (f a d : A)
| NewManaged (ty it : A) (v f a : res A) (d : A)
| DeriveFieldName (i : nat) (x : A)
| DeriveAnnotations (i : nat) (x : A)
| DeriveValue (i : nat) (x : A)
| DeriveDepth (i : nat) (x : A)
| Get (i : nat) (at_ : attribute).
(** core.py:107-285: what it sees: a new event, the exception of [derive_value], an attribute; [NoEvent]: there is no event of that number. *)
Inductive seen := Made | Raised (e : exc) | Got (r : res A) | NoEvent.
(** core.py:107-285: one operation. *)
Definition step (s : heap * list pevent) (o : op) : seen * (heap * list pevent) :=
  let '(h, es) := s in
  let made (r : pevent * heap) := let '(e, h) := r in (Made, (h, es ++ [e])) in
  let on i (k : pevent -> seen * (heap * list pevent)) := match nth_error es i with Some e => k e | None => (NoEvent, s) end in
  match o with
  | NewPlain ty it v f a d => made (construct h PlainEvent ty it (Object v) (Object f) (Object a) d)
  | NewThunk ty it v f a d => made (construct h ThunkEvent ty it (Callable v) (Object f) (Object a) d)
  | NewManaged ty it v f a d => made (construct h ManagedEvent ty it (Callable v) (Callable f) (Callable a) d)
  | DeriveFieldName i x => on i (fun e => made (derive_field_name h e x))
  | DeriveAnnotations i x => on i (fun e => made (derive_annotations h e x))
  | DeriveDepth i x => on i (fun e => made (derive_depth h e x))
  | DeriveValue i x => on i (fun e => match derive_value h e x with
                                      | (Ok e', h) => (Made, (h, es ++ [e']))
                                      | (Err y, h) => (Raised y, (h, es))
                                      end)
  | Get i at_ => on i (fun e => let '(r, h) := get h e at_ in (Got r, (h, es)))
  end.
(** core.py:107-285: operations one after the other. *)
Fixpoint run (s : heap * list pevent) (os : list op) : list seen * (heap * list pevent) :=
  match os with
  | [] => ([], s)
  | o :: os => let '(x, s) := step s o in let '(xs, s) := run s os in (x :: xs, s)
  end.
End EVENTS.
Arguments pevent : clear implicits.
Arguments heap : clear implicits.
Arguments op : clear implicits.
Arguments seen : clear implicits.
