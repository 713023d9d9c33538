(** Model of what pickling and [copy.deepcopy] make of enumeration members, and of the tests of types that look at identity:
    util.py, core.py, simpleion.py, equivalence.py. *)
From Coq Require Import String.
From Verif Require Import Base BaseFacts CoreModel SymbolsModel TextReaderModel UtilModel.
Local Open Scope Z_scope.
Local Open Scope list_scope.

(** util.py:59-92: an object of an enumeration class: its identity, what it is as an int, and its attributes [name] and [value]. *)
Record eobj := mkobj { eo_addr : nat; eo_int : Z; eo_name : text; eo_value : Z }.
(** util.py:87-92 [__new__] and [__init__]. *)
Definition enum_new (addr : nat) (args : text * Z) : eobj := mkobj addr (snd args) (fst args) (snd args).
(** util.py:94-95 [__getnewargs__]. *)
Definition getnewargs (o : eobj) : text * Z := (eo_name o, eo_value o).
(** util.py:40-41: the members are bound one after the other; identities are numbered. *)
Fixpoint bind_members (next : nat) (l : list (text * member)) : list eobj :=
  match l with [] => [] | (_, m) :: r => enum_new next m :: bind_members (S next) r end.
(** util.py:33-47: the objects of a class. *)
Definition class_objects (e : eclass) : list eobj := bind_members 0 (ec_attrs e).
(** util.py:94-95: pickling and unpickling, and [copy.deepcopy], call [cls.__new__(cls, *getnewargs)] for a new object and give it the attributes
    of the old one (Python's [copyreg.__newobj__]). *)
Definition copy_object (addr : nat) (o : eobj) : eobj :=
  let n := enum_new addr (getnewargs o) in mkobj (eo_addr n) (eo_int n) (eo_name o) (eo_value o).
(** util.py:94-95: copying one object after the other, of any there are. *)
Fixpoint copies (os : list eobj) (which : list nat) : list eobj :=
  match which with
  | [] => os
  | i :: r => copies (match nth_error os i with Some o => os ++ [copy_object (List.length os) o] | None => os end) r
  end.

(** Python's [is] (core.py:56). *)
Definition same (a b : eobj) : bool := Nat.eqb (eo_addr a) (eo_addr b).
(** core.py:31-46, 76-90: [IonType.SYMBOL]: the object that the class binds the name to. *)
Definition attribute (class : list eobj) (n : text) : res eobj :=
  match find (fun o => zlist_eqb (eo_name o) n) class with Some o => Ok o | None => Err AttributeError end.
(** core.py:49-50. *)
Definition is_numeric (class : list eobj) (o : eobj) : res bool :=
  let* a := attribute class (chars "INT") in let* b := attribute class (chars "TIMESTAMP") in Ok ((eo_int a <=? eo_int o) && (eo_int o <=? eo_int b)).
(** core.py:53-56. *)
Definition is_text (class : list eobj) (o : eobj) : res bool :=
  let* a := attribute class (chars "SYMBOL") in let* b := attribute class (chars "STRING") in Ok (same o a || same o b).
(** core.py:58-61. *)
Definition is_lob (class : list eobj) (o : eobj) : res bool :=
  let* a := attribute class (chars "CLOB") in let* b := attribute class (chars "BLOB") in Ok (same o a || same o b).
(** core.py:63-66. *)
Definition is_container (class : list eobj) (o : eobj) : res bool :=
  let* a := attribute class (chars "LIST") in Ok (eo_int a <=? eo_int o).
(** simpleion.py:211-224: how [_dump] goes through a value that is not null: as a scalar, over its items or over its elements. *)
Inductive route := AsScalar | OverItems | OverElements.
(** simpleion.py:211-224 [_dump]. *)
Definition dump_route (class : list eobj) (o : eobj) : res route :=
  let* c := is_container class o in
  if c then let* s := attribute class (chars "STRUCT") in Ok (if same o s then OverItems else OverElements) else Ok AsScalar.
(** equivalence.py:74: the test of the types of two values with Ion nature. *)
Definition types_agree (a b : eobj) : bool := same a b.

(** core.py:31-66: the body of [IonType]. *)
Definition ion_type_body : list (text * attr) :=
  [(chars "NULL", AInt 0); (chars "BOOL", AInt 1); (chars "INT", AInt 2); (chars "FLOAT", AInt 3); (chars "DECIMAL", AInt 4); (chars "TIMESTAMP", AInt 5);
   (chars "SYMBOL", AInt 6); (chars "STRING", AInt 7); (chars "CLOB", AInt 8); (chars "BLOB", AInt 9); (chars "LIST", AInt 10); (chars "SEXP", AInt 11);
   (chars "STRUCT", AInt 12); (chars "is_numeric", AMethod); (chars "is_text", AMethod); (chars "is_lob", AMethod); (chars "is_container", AMethod)].
