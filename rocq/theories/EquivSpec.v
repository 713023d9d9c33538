(** Vocabulary for the theorems on [ion_equals]: which Python objects there are, and what their fields
    and annotations are. *)
From Verif Require Import Base CoreModel ManagedModel SimpleionModel SimpleionSpec.
Local Open Scope Z_scope.

(** Objects that can be constructed: a token has a text or a symbol id, a decimal coefficient is not
    negative, a float is a 64-bit pattern, a dict has each key once, a multimap no empty entry. *)
Definition real_token (t : token) : Prop := tk_text t <> None \/ tk_sid t <> None.
Definition real_arg (a : symarg) : Prop := match a with ATok t => real_token t | AText _ => True end.
Definition real_scalar (s : scalar) : Prop :=
  match s with
  | VSymbol t => real_token t
  | VDecimal d => 0 <= d_coef d
  | VFloat x => 0 <= x < 2 ^ 64
  | _ => True
  end.
Inductive real : pyval -> Prop :=
| re_none : real PNone
| re_plain s : real_scalar s -> real (PPlain s)
| re_list l : Forall real l -> real (PList l)
| re_tuple l : Forall real l -> real (PTuple l)
| re_dict l : NoDup (map fst l) -> Forall (fun p => real (snd p)) l -> real (PDict l)
| re_null t an : Forall real_arg an -> real (PNull t an)
| re_ion t an s : Forall real_arg an -> real_scalar s -> real (PIon t an s)
| re_seq sexp an l : Forall real_arg an -> Forall real l -> real (PSeq sexp an l)
| re_struct an m : Forall real_arg an -> NoDup (map fst m) -> Forall (fun p => snd p <> [] /\ Forall real (snd p)) m -> real (PStruct an m).

(** [typed lists tokens v]: every scalar in [v] fits its type; plain lists occur in [v] only if [lists],
    plain symbol tokens only if [tokens]. *)
Inductive typed (lists tokens : bool) : pyval -> Prop :=
| ty_none : typed lists tokens PNone
| ty_plain s : (match s with VSymbol _ => tokens = true | _ => True end) -> typed lists tokens (PPlain s)
| ty_list l : lists = true -> Forall (typed lists tokens) l -> typed lists tokens (PList l)
| ty_tuple l : Forall (typed lists tokens) l -> typed lists tokens (PTuple l)
| ty_dict l : Forall (fun p => typed lists tokens (snd p)) l -> typed lists tokens (PDict l)
| ty_null t an : typed lists tokens (PNull t an)
| ty_ion t an s : class_fits t s -> typed lists tokens (PIon t an s)
| ty_seq sexp an l : Forall (typed lists tokens) l -> typed lists tokens (PSeq sexp an l)
| ty_struct an m : Forall (fun p => Forall (typed lists tokens) (snd p)) m -> typed lists tokens (PStruct an m).

(** The fields of a struct, in order; the annotations of an object. *)
Definition fields_of (v : pyval) : option (list (option text * pyval)) :=
  match v with
  | PDict l => Some l
  | PStruct _ m => Some (flat_map (fun p => map (pair (fst p)) (snd p)) m)
  | _ => None
  end.
Definition annotations_of (v : pyval) : list symarg :=
  match v with PNull _ an | PIon _ an _ | PSeq _ an _ | PStruct an _ => an | _ => [] end.
(** How often a name occurs. *)
Definition name_dec : forall a b : option text, {a = b} + {a <> b}.
Proof. decide equality. apply list_eq_dec. apply Z.eq_dec. Defined.
Definition times (k : option text) (fs : list (option text * pyval)) : nat := count_occ name_dec (map fst fs) k.

(** Two symbols (or annotations) are the same: the same text or, where both texts are unknown, the
    same import location, or none, and both symbol zero or neither. *)
Definition text_of (a : symarg) : option text := match a with ATok t => tk_text t | AText x => Some x end.
Definition same_symbol (a b : symarg) : Prop :=
  text_of a = text_of b /\
  match a, b with
  | ATok x, ATok y => tk_text x = None -> tk_loc x = tk_loc y /\ (tk_sid x = Some 0 <-> tk_sid y = Some 0)
  | _, _ => True
  end.
