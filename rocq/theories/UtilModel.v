(** amazon/ion/util.py: the classes that [record] and [Enum] declare. *)
From Coq Require Import String.
From Verif Require Import Base BaseFacts CoreModel SymbolsModel TextReaderModel.
Local Open Scope Z_scope.
Local Open Scope list_scope.

(** * Records *)
(** One argument of [record(...)] (util.py:140-161): the name of a field, a pair of a name and a default, or anything else.
    [V]: the values.  The name of a pair is taken to be a string. (util.py:140-161) *)
Inductive decl (V : Type) := DName (n : text) | DPair (n : text) (d : V) | DOther.
Arguments DName {V}. Arguments DPair {V}. Arguments DOther {V}.

(** util.py:115-129: the loop over the declarations; [has]: has_defaults. *)
Fixpoint gather {V} (has : bool) (names : list text) (defaults : list V) (ds : list (decl V)) : res (list text * list V) :=
  match ds with
  | [] => Ok (names, defaults)
  | DName n :: r => if has then Err ValueError else gather has (names ++ [n]) defaults r
  | DPair n d :: r => gather true (names ++ [n]) (defaults ++ [d]) r
  | DOther :: _ => Err ValueError
  end.

(** collections.namedtuple refuses a name that is not an identifier, is a keyword, starts with an underscore or comes twice
    (Python 3.8; of the identifiers only those of ASCII characters are modelled: others are taken to be refused).
    (util.py:132: namedtuple checks the names) *)
Definition name_start (c : Z) : bool := ((65 <=? c) && (c <=? 90)) || ((97 <=? c) && (c <=? 122)) || (c =? 95).
(** util.py:132. *)
Definition name_char (c : Z) : bool := name_start c || ((48 <=? c) && (c <=? 57)).
(** util.py:132: keyword.kwlist of Python 3.8. *)
Definition keywords : list text := Eval compute in map chars
  ["False"; "None"; "True"; "and"; "as"; "assert"; "async"; "await"; "break"; "class"; "continue"; "def"; "del"; "elif"; "else"; "except";
   "finally"; "for"; "from"; "global"; "if"; "import"; "in"; "is"; "lambda"; "nonlocal"; "not"; "or"; "pass"; "raise"; "return"; "try";
   "while"; "with"; "yield"]%string.
(** util.py:132. *)
Definition known (n : text) (l : list text) : bool := existsb (zlist_eqb n) l.
(** util.py:132. *)
Definition name_ok (n : text) : bool :=
  match n with
  | c :: r => name_start c && forallb name_char r && negb (c =? 95) && negb (known n keywords)
  | [] => false
  end.
(** util.py:132. *)
Fixpoint namedtuple_ok (seen names : list text) : bool :=
  match names with
  | [] => true
  | n :: r => name_ok n && negb (known n seen) && namedtuple_ok (n :: seen) r
  end.

(** The class: the fields of the named tuple and [base_class.__new__.__defaults__], the defaults of the last parameters.
    (util.py:131-137) *)
Record rclass (V : Type) := mkrec { rc_names : list text; rc_defaults : list V }.
Arguments mkrec {V}. Arguments rc_names {V}. Arguments rc_defaults {V}.
(** util.py:104-137 [_RecordMetaClass.__new__]; a base class is here what [getattr(base, '_record_fields', None)] says of
    it.  [Ok None]: no base is a [record(...)], so the class is left as it is. *)
Definition declare {V} (bases : list (option (list (decl V)))) : res (option (rclass V)) :=
  let declared := flat_map (fun b => match b with Some ds => ds | None => [] end) bases in
  if existsb (fun b => match b with Some _ => true | None => false end) bases then
    let* (names, defaults) := gather false [] [] declared in
    if namedtuple_ok [] names then Ok (Some (mkrec names defaults)) else Err ValueError
  else Ok None.

(** Python's binding of the arguments of a call [C( *pos, **kw)] to the parameters of [__new__].
    (util.py:131-137: a call of the class) *)
Fixpoint fill_pos {V} (names : list text) (pos : list V) : res (list (option V)) :=
  match names, pos with
  | [], [] => Ok []
  | [], _ => Err TypeError
  | _ :: ns, [] => let* r := fill_pos ns [] in Ok (None :: r)
  | _ :: ns, p :: ps => let* r := fill_pos ns ps in Ok (Some p :: r)
  end.
(** util.py:131-137. *)
Fixpoint fill_key {V} (names : list text) (slots : list (option V)) (k : text) (v : V) : res (list (option V)) :=
  match names, slots with
  | n :: ns, s :: ss =>
    if zlist_eqb n k then match s with Some _ => Err TypeError | None => Ok (Some v :: ss) end
    else let* r := fill_key ns ss k v in Ok (s :: r)
  | _, _ => Err TypeError
  end.
(** util.py:131-137. *)
Fixpoint fill_keys {V} (names : list text) (slots : list (option V)) (kw : list (text * V)) : res (list (option V)) :=
  match kw with
  | [] => Ok slots
  | (k, v) :: r => let* s := fill_key names slots k v in fill_keys names s r
  end.
(** The last parameters have defaults; [skip]: how many of the parameters still to come have none. (util.py:133) *)
Fixpoint fill_defaults {V} (skip : nat) (slots : list (option V)) (defaults : list V) : res (list V) :=
  match slots with
  | [] => Ok []
  | s :: ss =>
    match skip with
    | S k => match s with Some v => let* r := fill_defaults k ss defaults in Ok (v :: r) | None => Err TypeError end
    | O => match defaults with
           | d :: ds => let* r := fill_defaults O ss ds in Ok (match s with Some v => v | None => d end :: r)
           | [] => Err TypeError
           end
    end
  end.
(** util.py:131-137. *)
Definition construct {V} (c : rclass V) (pos : list V) (kw : list (text * V)) : res (list V) :=
  let* s := fill_pos (rc_names c) pos in
  let* s := fill_keys (rc_names c) s kw in
  fill_defaults (List.length (rc_names c) - List.length (rc_defaults c)) s (rc_defaults c).

(** * Enumerations *)
(** An attribute of a class body: an int, something that is callable or a property, anything else.
    (util.py:36-39) *)
Inductive attr := AInt (z : Z) | AMethod | AThing.
(** A member: its name and its value (it is equal, as an int, to the value). (util.py:87-92) *)
Definition member : Type := (text * Z)%type.
(** The class: its attributes that are members, and [_enum_members]. (util.py:34, 41-45) *)
Record eclass := mkenum { ec_attrs : list (text * member); ec_members : dict Z member }.
(** util.py:37. *)
Definition magic (n : text) : bool := match n with c :: _ => c =? 95 | [] => false end.
(** util.py:33-47 [_EnumMetaClass.__init__], over [attrs] in their order. *)
Fixpoint declare_enum (attrs : list (text * attr)) (e : eclass) : res eclass :=
  match attrs with
  | [] => Ok e
  | (n, a) :: r =>
    if magic n then declare_enum r e
    else match a with
         | AMethod => declare_enum r e
         | AThing => Err TypeError
         | AInt z => declare_enum r (mkenum (ec_attrs e ++ [(n, (n, z))]) (dict_set Z.eqb (ec_members e) z (n, z)))
         end
  end.
(** util.py:33-47. *)
Definition enum_class (attrs : list (text * attr)) : res eclass := declare_enum attrs (mkenum [] []).
(** [MyEnum.A] (the attribute that [setattr] bound), [MyEnum[v]] (util.py:50-52) and [iter(MyEnum)] (54-56).
    (util.py:41) *)
Definition enum_attr (e : eclass) (n : text) : option member := dict_get zlist_eqb (ec_attrs e) n.
(** util.py:49-51. *)
Definition enum_item (e : eclass) (v : Z) : res member := match dict_get Z.eqb (ec_members e) v with Some m => Ok m | None => Err KeyError end.
(** util.py:53-55. *)
Definition enum_iter (e : eclass) : list member := map snd (ec_members e).
