(** What a stream of Ion values means to a reader with symbol tables, said on trees: which top-level
    values are system values, which table each of them establishes, and under which table each user
    value is read.  Nothing here knows of requests, co-routines or pieces of input. *)
From Verif Require Import Base CoreModel BinWriterModel ScalarProofs SymbolsModel ManagedModel BinReaderModel Cursor.
Local Open Scope Z_scope.

Definition head_of (t : etree event) : event := match t with Leaf e => e | Branch s _ _ => s end.

(** The text of the field name, by the table in force. *)
Definition name_in (table : symtab) (t : etree event) : res (option text) :=
  match ev_field (head_of t) with
  | None => Ok None
  | Some f => let* r := resolve_token table f in Ok (tk_text r)
  end.
Definition has_type (t : etree event) (ty : iontype) : bool := opt_eqb iontype_eqb (ev_ion_type (head_of t)) (Some ty).

(** The symbols of a symbol list: its strings, a null one standing for unknown text. *)
Fixpoint listed (ks : list (etree event)) : res (list (option text)) :=
  match ks with
  | [] => Ok []
  | Leaf e :: r => if has_type (Leaf e) TString
                   then let* s := string_value e in let* ss := listed r in Ok (s :: ss)
                   else listed r
  | Branch _ _ _ :: r => listed r
  end.

(** An import description: the last name, version and max_id given; version 1 if none is. *)
Fixpoint described (table : symtab) (d : import_desc) (ks : list (etree event)) : res import_desc :=
  match ks with
  | [] => Ok d
  | Branch _ _ _ :: r => described table d r
  | Leaf e :: r =>
    match ev_field e with
    | None => Err AttributeError
    | Some f =>
      let* n := resolve_token table f in
      let* d' := if is_text (tk_text n) TEXT_NAME && has_type (Leaf e) TString
                 then let* s := string_value e in Ok (mkdesc s (desc_version d) (desc_max d))
                 else if is_text (tk_text n) TEXT_VERSION && has_type (Leaf e) TInt
                 then let* v := int_value e in Ok (mkdesc (desc_name d) v (desc_max d))
                 else if is_text (tk_text n) TEXT_MAX_ID && has_type (Leaf e) TInt
                 then let* v := int_value e in Ok (mkdesc (desc_name d) (desc_version d) v)
                 else Ok d in
      described table d' r
    end
  end.

(** The imports of an import list: the structs with a name, looked up in the catalog. *)
Fixpoint imported (cat : catalog) (table : symtab) (ks : list (etree event)) : res (list symtab) :=
  match ks with
  | [] => Ok []
  | Branch s k f :: r =>
    if has_type (Branch s k f) TStruct
    then let* d := described table desc_new k in
         let* ts := import_table cat d in
         let* rest := imported cat table r in
         Ok (ts ++ rest)
    else imported cat table r
  | Leaf _ :: r => imported cat table r
  end.

(** A local symbol table: every list called "symbols" adds symbols; the last "imports" counts, a list
    of imports or the symbol $ion_symbol_table, which imports the table in force. *)
Fixpoint declared (cat : catalog) (table : symtab) (syms : list (option text)) (imps : option (list symtab))
  (ks : list (etree event)) : res symtab :=
  match ks with
  | [] => st_new LocalTable syms None None imps false
  | t :: r =>
    let* n := name_in table t in
    match t with
    | Branch _ k _ =>
      if is_text n TEXT_SYMBOLS && has_type t TList
      then let* ss := listed k in declared cat table (syms ++ ss) imps r
      else if is_text n TEXT_IMPORTS && has_type t TList
      then let* ts := imported cat table k in declared cat table syms (Some ts) r
      else declared cat table syms imps r
    | Leaf e =>
      if is_text n TEXT_IMPORTS && has_type t TSymbol
      then let* v := symbol_value e in
           match v with
           | None => Err AttributeError
           | Some tok =>
             let* s := resolve_token table tok in
             if is_text (tk_text s) TEXT_ION_SYMBOL_TABLE
             then declared cat table syms (if is_system (st_type table) then None else Some [table]) r
             else declared cat table syms imps r
           end
      else declared cat table syms imps r
    end
  end.

(** A top-level value: a system value, after which the given table is in force, or a user value. *)
Definition system_value (cat : catalog) (table : symtab) (t : etree event) : res (option symtab) :=
  match t with
  | Leaf e =>
    match ev_type e with
    | EVersionMarker => if is_version_1_0 e then Ok (Some system_table) else Err IonException
    | _ =>
      match ev_annot e with
      | [] =>
        if has_type t TSymbol
        then let* v := symbol_value e in
             match v with
             | None => Ok None
             | Some tok => let* s := resolve_token table tok in
                           Ok (if is_text (tk_text s) TEXT_ION_1_0 then Some table else None)
             end
        else Ok None
      | _ => Ok None
      end
    end
  | Branch s ks f =>
    match ev_annot s with
    | a :: _ =>
      if has_type t TStruct
      then let* n := resolve_token table a in
           if is_text (tk_text n) TEXT_ION_SYMBOL_TABLE
           then let* t' := declared cat table [] None ks in Ok (Some t')
           else Ok None
      else Ok None
    | [] => Ok None
    end
  end.

(** The user's view: user values with the tables in force, and how the stream ends. *)
Fixpoint user_view (cat : catalog) (table : symtab) (ts : list (etree event)) : list (etree mevent) * stop :=
  match ts with
  | [] => ([], SEnd)
  | t :: r =>
    match system_value cat table t with
    | Err e => ([], SExc e)
    | Ok (Some table') => user_view cat table' r
    | Ok None => let '(us, fin) := user_view cat table r in (tree_map (fun e => mkme e table) t :: us, fin)
    end
  end.

(** * Events given and events got *)

(** Symbols as a user gives them, by their text. *)
Definition arg_text (a : symarg) : option text := match a with AText x => Some x | ATok t => tk_text t end.
Definition symbol_arg (v : scalar) : option symarg :=
  match v with VSymbol t => Some (ATok t) | VString x => Some (AText x) | _ => None end.

(** [u], got inside [within] ([None]: at top level), has the names of [e]. *)
Definition shows_names (within : option iontype) (e : uevent) (u : mevent) : Prop :=
  (match within with
   | Some TStruct => exists a r, ue_field e = Some a /\ me_field u = Ok (Some r) /\ tk_text r = arg_text a
   | _ => me_field u = Ok None
   end) /\
  exists rs, me_annotations u = Ok rs /\ map tk_text rs = map arg_text (ue_annot e).
(** [u] has the value of [e]: null for null, a symbol of the same text for a symbol, and any other
    value of its type as [as_read] says. *)
Definition shows_value (e : uevent) (u : mevent) : Prop :=
  match ev_force (ue_value e) with
  | Ok None => me_value u = Ok None
  | Ok (Some s) =>
    match ue_ion_type e with
    | Some TSymbol => exists a r, symbol_arg s = Some a /\ me_value u = Ok (Some (VSymbol r)) /\ tk_text r = arg_text a
    | Some t => scalar_portable t s -> me_value u = Ok (Some (as_read s))
    | None => False
    end
  | Err _ => False
  end.
Definition shape_of (u : mevent) : evtype * option iontype * option Z := (ev_type (me_ev u), ev_ion_type (me_ev u), ev_depth (me_ev u)).
Definition within (open : list iontype) : option iontype := match open with [] => None | t :: _ => Some t end.

(** [mirrors open es us]: with the containers [open], the events [us] got answer the events [es]
    given, one by one; flushes and version markers, at top level, are not answered.  [mirrors_by]: for
    any notion of the same value. *)
Inductive mirrors_by (same_value : uevent -> mevent -> Prop) : list iontype -> list uevent -> list mevent -> Prop :=
| mi_nil : mirrors_by same_value [] [] []
| mi_mark e es us : ue_type e = EStreamEnd \/ ue_type e = EVersionMarker -> mirrors_by same_value [] es us -> mirrors_by same_value [] (e :: es) us
| mi_scalar open e es u us : ue_type e = EScalar -> shape_of u = (EScalar, ue_ion_type e, Some (zlen open)) ->
    shows_names (within open) e u -> same_value e u -> mirrors_by same_value open es us -> mirrors_by same_value open (e :: es) (u :: us)
| mi_start open e t es u us : ue_type e = EContainerStart -> ue_ion_type e = Some t -> is_container t = true ->
    shape_of u = (EContainerStart, Some t, Some (zlen open)) -> shows_names (within open) e u ->
    mirrors_by same_value (t :: open) es us -> mirrors_by same_value open (e :: es) (u :: us)
| mi_end t open e es u us : ue_type e = EContainerEnd -> shape_of u = (EContainerEnd, Some t, Some (zlen open)) ->
    mirrors_by same_value open es us -> mirrors_by same_value (t :: open) (e :: es) (u :: us).
Arguments mi_nil {_}. Arguments mi_mark {_}. Arguments mi_scalar {_}. Arguments mi_start {_}. Arguments mi_end {_}.
Notation mirrors := (mirrors_by shows_value).

(** Top-level values a reader takes for system values. *)
Definition reserved (e : uevent) : Prop :=
  match ue_type e, ue_ion_type e, ue_annot e with
  | EScalar, Some TSymbol, [] =>
    match ev_force (ue_value e) with
    | Ok (Some v) => match symbol_arg v with Some a => arg_text a = Some TEXT_ION_1_0 | None => False end
    | _ => False
    end
  | EContainerStart, Some TStruct, a :: _ => arg_text a = Some TEXT_ION_SYMBOL_TABLE
  | _, _, _ => False
  end.
Fixpoint unreserved (depth : nat) (es : list uevent) : Prop :=
  match es with
  | [] => True
  | e :: es' => (depth = O -> ~ reserved e) /\
      unreserved (match ue_type e with EContainerStart => S depth | EContainerEnd => pred depth | _ => depth end) es'
  end.
