(** What Ion value a Python value stands for, and which Python values binary Ion can hold. *)
From Coq Require Import String.
From Verif Require Import Base CoreModel ScalarFacts ScalarProofs TimestampFacts SymbolsModel ManagedModel ManagedSpec ManagedAccept SimpleionModel.
Local Open Scope Z_scope.

(** Ion values: symbols, annotations and field names are known by their text (None: symbol zero). *)
Inductive ionval :=
| INull (t : iontype) (an : list (option text))
| ISymbol (an : list (option text)) (x : option text)
| IScalar (t : iontype) (an : list (option text)) (s : scalar)
| ISeq (sexp : bool) (an : list (option text)) (l : list ionval)
| IStruct (an : list (option text)) (fields : list (option text * ionval)).

(** A [datetime] stands for the timestamp with its microseconds; a timestamp of unspecified
    precision has precision SECOND. *)
Definition content (s : scalar) : scalar :=
  match s with
  | VTimestamp (TsPlain d) => VTimestamp (TsStamp (mkts d (Some PSecond) 6 (mkdec false (dt_micro d) (-6))))
  | VTimestamp (TsStamp t) => VTimestamp (TsStamp (mkts (ts_dt t) (Some (match ts_prec t with Some p => p | None => PSecond end)) (ts_fprec t) (ts_frac t)))
  | _ => s
  end.
(** The Ion type of a plain Python object (the table in the documentation of [dump]). *)
Definition documented_type (s : scalar) : iontype :=
  match s with
  | VBool _ => TBool | VInt _ => TInt | VFloat _ => TFloat | VDecimal _ => TDecimal | VTimestamp _ => TTimestamp
  | VSymbol _ => TSymbol | VString _ => TString | VBytes _ => TBlob
  end.
Section MEANING.
(** [keep]: what the format keeps of a scalar; binary Ion keeps its content. *)
Variable keep : scalar -> scalar.
Definition ion_scalar_by (t : iontype) (an : list (option text)) (s : scalar) : ionval :=
  match t with
  | TSymbol => ISymbol an (match symbol_arg s with Some a => arg_text a | None => None end)
  | _ => IScalar t an (keep s)
  end.
Fixpoint meaning_by (tas : bool) (v : pyval) : ionval :=
  match v with
  | PNone => INull TNull []
  | PPlain s => ion_scalar_by (documented_type s) [] s
  | PList l => ISeq false [] (map (meaning_by tas) l)
  | PTuple l => ISeq tas [] (map (meaning_by tas) l)
  | PDict l => IStruct [] (map (fun p => (fst p, meaning_by tas (snd p))) l)
  | PNull t an => INull t (map arg_text an)
  | PIon t an s => ion_scalar_by t (map arg_text an) s
  | PSeq sexp an l => ISeq sexp (map arg_text an) (map (meaning_by tas) l)
  | PStruct an m => IStruct (map arg_text an) (flat_map (fun p => map (fun x => (fst p, meaning_by tas x)) (snd p)) m)
  end.
End MEANING.
Notation ion_scalar := (ion_scalar_by content).
Notation meaning := (meaning_by content).

(** Values binary Ion can hold.  A struct key that is the empty text, or None, needs a value with Ion
    nature: this is a limit of the library, not of the format (C33). *)
Definition has_nature (v : pyval) : Prop :=
  match v with PNull _ _ | PIon _ _ _ | PSeq _ _ _ | PStruct _ _ => True | _ => False end.
Definition key_ok (k : option text) (v : pyval) : Prop :=
  match k with Some x => text_ok x /\ (x = [] -> has_nature v) | None => has_nature v end.
Definition scalar_ok (t : iontype) (s : scalar) : Prop :=
  match t with
  | TSymbol => scalar_sane s /\ exists a, symbol_arg s = Some a /\ good_arg a
  | _ => scalar_portable t s
  end.
(** A value all of whose annotations, scalars and keys are such. *)
Section STORABLE.
Variable names : symarg -> Prop.
Variable scalars : iontype -> scalar -> Prop.
Variable keys : option text -> pyval -> Prop.
Inductive storable_by : pyval -> Prop :=
| so_none : storable_by PNone
| so_plain s : scalars (documented_type s) s -> storable_by (PPlain s)
| so_list l : Forall storable_by l -> storable_by (PList l)
| so_tuple l : Forall storable_by l -> storable_by (PTuple l)
| so_dict l : NoDup (map fst l) -> Forall (fun p => keys (fst p) (snd p) /\ storable_by (snd p)) l -> storable_by (PDict l)
| so_null t an : Forall names an -> storable_by (PNull t an)
| so_ion t an s : Forall names an -> scalars t s -> storable_by (PIon t an s)
| so_seq sexp an l : Forall names an -> Forall storable_by l -> storable_by (PSeq sexp an l)
| so_struct an m : Forall names an -> NoDup (map fst m) ->
    Forall (fun p => snd p <> [] /\ Forall (fun x => keys (fst p) x /\ storable_by x) (snd p)) m -> storable_by (PStruct an m).
End STORABLE.
Arguments so_none {_ _ _}. Arguments so_plain {_ _ _}. Arguments so_list {_ _ _}. Arguments so_tuple {_ _ _}. Arguments so_dict {_ _ _}.
Arguments so_null {_ _ _}. Arguments so_ion {_ _ _}. Arguments so_seq {_ _ _}. Arguments so_struct {_ _ _}.
Notation storable := (storable_by good_arg scalar_ok key_ok).

(** Top-level values that a reader takes for system values. *)
Definition reserved_value (v : pyval) : Prop :=
  match v with
  | PPlain (VSymbol t) => tk_text t = Some TEXT_ION_1_0
  | PIon TSymbol [] s => match symbol_arg s with Some a => arg_text a = Some TEXT_ION_1_0 | None => False end
  | PStruct (a :: _) _ => arg_text a = Some TEXT_ION_SYMBOL_TABLE
  | _ => False
  end.

(** The class of a scalar object fits its [ion_type] (as it does for everything [load] returns). *)
Definition class_fits (t : iontype) (s : scalar) : Prop :=
  match t, s with
  | TBool, VBool _ | TBool, VInt _ | TInt, VInt _ | TInt, VBool _ | TFloat, VFloat _ | TDecimal, VDecimal _ | TTimestamp, VTimestamp _
  | TSymbol, VSymbol _ | TSymbol, VString _ | TString, VString _ | TBlob, VBytes _ | TClob, VBytes _ => True
  | _, _ => False
  end.
(** What [load] makes: Ion natures throughout, classes that fit the types, annotations that are tokens,
    scalars that are what the format keeps of them ([keep]). *)
Section LOADED.
Variable keep : scalar -> scalar.
Inductive loaded_by : pyval -> Prop :=
| lo_null t an : loaded_by (PNull t (map ATok an))
| lo_ion t an s : class_fits t s -> keep s = s -> loaded_by (PIon t (map ATok an) s)
| lo_seq sexp an l : Forall loaded_by l -> loaded_by (PSeq sexp (map ATok an) l)
| lo_struct an m : NoDup (map fst m) -> Forall (fun p => snd p <> [] /\ Forall loaded_by (snd p)) m -> loaded_by (PStruct (map ATok an) m).
End LOADED.
Arguments lo_null {_}. Arguments lo_ion {_}. Arguments lo_seq {_}. Arguments lo_struct {_}.
Notation loaded := (loaded_by content).
