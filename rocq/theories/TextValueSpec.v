(** Which Python values text Ion can hold, and what it keeps of them.  Nothing here refers to the text
    writer or the text reader. *)
From Coq Require Import String.
From Verif Require Import Base CoreModel BinWriterModel SymbolsModel ManagedModel ManagedSpec SimpleionModel SimpleionSpec TextRoundTripSpec.
Local Open Scope Z_scope.

(** A name is text other than [$] and digits (DESIGN.md, finding 28), or symbol zero. *)
Definition text_name (a : symarg) : Prop :=
  match arg_text a with
  | Some x => Forall scalar_value x /\ ~ like_sid x
  | None => match a with ATok t => tk_sid t = Some 0 | AText _ => False end
  end.
(** A scalar of its type's own class ([scalar_fits]: offsets in whole minutes, times only from minute
    precision on, a precision). *)
Definition text_scalar_ok (t : iontype) (s : scalar) : Prop :=
  match t with
  | TSymbol => exists a, symbol_arg s = Some a /\ text_name a
  | _ => scalar_fits t s
  end.
(** A struct key.  None needs a value with Ion nature (C33). *)
Definition text_key (k : option text) (v : pyval) : Prop :=
  match k with Some x => text_name (AText x) | None => has_nature v end.
Notation text_storable := (storable_by text_name text_scalar_ok text_key).

(** What is kept of a scalar: all of it but the bits of a NaN. *)
Definition text_content (s : scalar) : scalar :=
  match s with
  | VFloat b => if 2047 * 2 ^ 52 <? b mod 2 ^ 63 then VFloat 0x7FF8000000000000 else s
  | _ => content s
  end.
Notation text_meaning := (meaning_by text_content).
Notation text_loaded := (loaded_by text_content).

(** Top-level values that a reader takes for system values: a symbol [$ion_1_0] or the like, and a
    struct annotated [$ion_symbol_table]. *)
Definition text_reserved (v : pyval) : Prop :=
  match v with
  | PPlain (VSymbol t) => exists x, tk_text t = Some x /\ like_ivm x
  | PIon TSymbol [] s => exists a x, symbol_arg s = Some a /\ arg_text a = Some x /\ like_ivm x
  | PStruct (a :: _) _ => arg_text a = Some (txt "$ion_symbol_table")
  | _ => False
  end.
