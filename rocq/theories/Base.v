(** Shared vocabulary of the model: Python exceptions as values, octets, Python indexing.
    Standard library only. *)
From Coq Require Export List ZArith Bool Lia.
From Coq Require Export ZifyBool.
Export ListNotations.
Open Scope Z_scope.

(** The exception classes that the modelled code raises or lets escape.
    [IonException] is /repo/amazon/ion/exceptions.py:24-28; the others are Python built-ins.
    [OutOfFuel] is an artefact of the model (recursion budget exhausted); the theorems exclude it. *)
Inductive exc : Type :=
| IonException
| ValueError
| TypeError
| IndexError
| KeyError
| AttributeError
| AssertionError
| OverflowError
| UnicodeDecodeError
| UnicodeEncodeError
| StopIteration
| DecimalException
| StructError           (* struct.error *)
| CannotSubstituteTable (* exceptions.py:31-32, a subclass of IonException *)
| OutOfFuel.

(** Result of running Python code: a value or an escaped exception.
    (a Python call in any of the modelled files: its value, or the exception class of exceptions.py:24-32 or of Python it raises.) *)
Inductive res (A : Type) : Type :=
| Ok (a : A)
| Err (e : exc).
Arguments Ok {A} a.
Arguments Err {A} e.

(** Python sequencing: an exception escapes from the enclosing function. *)
Definition bind {A B} (r : res A) (f : A -> res B) : res B :=
  match r with Ok a => f a | Err e => Err e end.
Notation "'let*' x ':=' r 'in' k" := (bind r (fun x => k))
  (at level 200, x pattern, r at level 100, k at level 200, right associativity).

(** [except C] tests on the classes above: used for core.py:508-513 and json_encoder.py:34-69. *)
Definition exc_eqb (a b : exc) : bool :=
  match a, b with
  | IonException, IonException | ValueError, ValueError | TypeError, TypeError
  | IndexError, IndexError | KeyError, KeyError | AttributeError, AttributeError
  | AssertionError, AssertionError | OverflowError, OverflowError
  | UnicodeDecodeError, UnicodeDecodeError | UnicodeEncodeError, UnicodeEncodeError
  | StopIteration, StopIteration | DecimalException, DecimalException | StructError, StructError
  | CannotSubstituteTable, CannotSubstituteTable
  | OutOfFuel, OutOfFuel => true
  | _, _ => false
  end.

(** An octet of a [bytes]/[bytearray] object.
    (an element of the [bytes] which every reader and writer takes and gives, for example writer_buffer.py:122-129.) *)
Definition is_octet (b : Z) : Prop := 0 <= b < 256.
(** a [bytes] object as in reader.py:142-148. *)
Definition octets (l : list Z) : Prop := Forall is_octet l.
(** [is_octet] as a test. *)
Definition octetb (b : Z) : bool := (0 <=? b) && (b <? 256).

(** [len(l)] as a Python integer.
    (the built-in [len]; used, for example, at reader.py:176 and writer_binary_raw.py:114-119.) *)
Definition zlen {A} (l : list A) : Z := Z.of_nat (length l).

(** Python sequence indexing [l[i]], negative indices included.
    (the built-in subscript; used at symbols.py:299-317 and core.py:639-645.) *)
Definition py_index {A} (l : list A) (i : Z) : res A :=
  let n := zlen l in
  let j := if i <? 0 then n + i else i in
  if j <? 0 then Err IndexError
  else match nth_error l (Z.to_nat j) with Some x => Ok x | None => Err IndexError end.

(** Python slicing [l[a:b]] for [0 <= a <= b <= len(l)]. (the built-in slice; used at reader_binary.py:616-621.) *)
Definition zslice {A} (l : list A) (a b : Z) : list A :=
  firstn (Z.to_nat (b - a)) (skipn (Z.to_nat a) l).

(** the slice [l[:n]], for example reader.py:182. *)
Definition ztake {A} (n : Z) (l : list A) : list A := firstn (Z.to_nat n) l.
(** the slice [l[n:]], for example reader_binary.py:388. *)
Definition zdrop {A} (n : Z) (l : list A) : list A := skipn (Z.to_nat n) l.

(** [range(n)] as a list of Python integers. (the built-in [range]; used at writer_binary_raw_fields.py:231-252.) *)
Definition zrange (n : nat) : list Z := map Z.of_nat (seq 0 n).

(** Map a partial function over a list, left to right, stopping at the first exception.
    (a Python loop which appends the results of calls that may raise, for example simpleion.py:162-240.) *)
Fixpoint mapM {A B} (f : A -> res B) (l : list A) : res (list B) :=
  match l with
  | [] => Ok []
  | x :: xs => let* y := f x in let* ys := mapM f xs in Ok (y :: ys)
  end.

(** Equality on Python integers lists. ([==] of [str] or [bytes] objects, for example symbols.py:331-367.) *)
Fixpoint zlist_eqb (a b : list Z) : bool :=
  match a, b with
  | [], [] => true
  | x :: xs, y :: ys => (x =? y) && zlist_eqb xs ys
  | _, _ => false
  end.
