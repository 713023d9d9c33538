(** Model of the constructors of values with Ion nature, /repo/amazon/ion/simple_types.py. *)
From Verif Require Import Base CoreModel BinWriterModel SymbolsModel ManagedModel MultimapModel SimpleionModel EquivModel.
Local Open Scope Z_scope.

(** simple_types.py:134-217: the classes (IonPyBool is IonPyInt). *)
Inductive pyclass := IonPyInt | IonPyFloat | IonPyDecimal | IonPyText | IonPyBytes | IonPySymbol | IonPyTimestamp | IonPyNull | IonPyList | IonPyDict.
(** What a constructor makes, before type and annotations are set.
    (simple_types.py:62, 84, 99: the object that cls makes) *)
Inductive made := AScalar (s : scalar) | ANull | ASeq (l : list pyval) | AStruct (m : multimap (option text) pyval).

(** [cls( *cls._to_constructor_args(value))].  None: a combination that is not modelled (Python converts,
    as in IonPyFloat(123), or refuses).
    - 69-71: the others are built from the value itself; [int(True)] is 1.
    - 146-156 IonPySymbol: from a token, or from a text.
    - 158-171 IonPyTimestamp, from a Timestamp or a datetime ([py_scalar]).
    - 193-195 IonPyNull ignores the value.
    - core.py:608-613: IonPyDict from the items of a mapping. (simple_types.py:67-69, 147-218) *)
Definition construct (c : pyclass) (v : pyval) : option (res made) :=
  match c with
  | IonPyNull => Some (Ok ANull)
  | IonPyList => match v with PList l | PTuple l | PSeq _ _ l => Some (Ok (ASeq l)) | _ => None end
  | IonPyDict => match v with
                 | PDict l => Some (Ok (AStruct (mm_of_items name_eqb l)))
                 | PStruct _ m => Some (Ok (AStruct (mm_of_items name_eqb (mm_items m))))
                 | _ => None
                 end
  | _ =>
    match scalar_of v with
    | None => None
    | Some s =>
      match c, s with
      | IonPyInt, VBool b => Some (Ok (AScalar (VInt (if b then 1 else 0))))
      | IonPyInt, VInt z => Some (Ok (AScalar (VInt z)))
      | IonPyFloat, VFloat x => Some (Ok (AScalar (VFloat x)))
      | IonPyDecimal, VDecimal d => Some (Ok (AScalar (VDecimal d)))
      | IonPyText, VString x => Some (Ok (AScalar (VString x)))
      | IonPyBytes, VBytes b => Some (Ok (AScalar (VBytes b)))
      | IonPySymbol, VSymbol t => Some (Ok (AScalar (VSymbol (mktok (tk_text t) (tk_sid t) (tk_loc t)))))
      | IonPySymbol, VString x => Some (Ok (AScalar (VSymbol (mktok (Some x) None None))))
      | IonPyTimestamp, VTimestamp x => Some (let* s := py_scalar TTimestamp (VTimestamp x) in Ok (AScalar s))
      | _, _ => None
      end
    end
  end.
(** The attributes [ion_type] and [ion_annotations] set on it; [t] a type the class can have.
    (simple_types.py:63-64, 85-86, 103-104) *)
Definition natured (t : iontype) (an : list symarg) (x : made) : pyval :=
  match x with
  | AScalar s => PIon t an s
  | ANull => PNull t an
  | ASeq l => PSeq (iontype_eqb t TSexp) an l
  | AStruct m => PStruct an m
  end.
(** simple_types.py:56-65, 71-87, 89-105. *)
Definition natured_res (t : iontype) (an : list symarg) (x : option (res made)) : option (res pyval) :=
  match x with Some r => Some (let* y := r in Ok (natured t an y)) | None => None end.

(** simple_types.py:89-105 [from_value]. *)
Definition from_value (c : pyclass) (t : iontype) (v : pyval) (an : list symarg) : option (res pyval) :=
  match v with PNone => Some (Ok (PNull t an)) | _ => natured_res t an (construct c v) end.
(** The class of an object with Ion nature. (simple_types.py:147-218) *)
Definition class_of (v : pyval) : option pyclass :=
  match v with
  | PNull _ _ => Some IonPyNull
  | PSeq _ _ _ => Some IonPyList
  | PStruct _ _ => Some IonPyDict
  | PIon _ _ s =>
    Some match s with
         | VBool _ | VInt _ => IonPyInt | VFloat _ => IonPyFloat | VDecimal _ => IonPyDecimal | VTimestamp _ => IonPyTimestamp
         | VSymbol _ => IonPySymbol | VString _ => IonPyText | VBytes _ => IonPyBytes
         end
  | _ => None
  end.
(** simple_types.py:56-65 [_copy]. *)
Definition copy (v : pyval) : option (res pyval) :=
  match class_of v, nature v with
  | Some c, Some (t, an) => natured_res t an (construct c v)
  | _, _ => None
  end.
(** simple_types.py:71-87 [from_event]: no value, no arguments (an empty list or Multimap; IonPyNull); the scalar
    constructors without arguments are not modelled. *)
Definition from_event (c : pyclass) (e : uevent) : option (res pyval) :=
  match ue_ion_type e, ev_force (ue_value e) with
  | Some t, Ok (Some s) => natured_res t (ue_annot e) (construct c (PPlain s))
  | Some t, Ok None =>
    match c with
    | IonPyNull => Some (Ok (PNull t (ue_annot e)))
    | IonPyList => Some (Ok (natured t (ue_annot e) (ASeq [])))
    | IonPyDict => Some (Ok (natured t (ue_annot e) (AStruct [])))
    | _ => None
    end
  | Some _, Err x => Some (Err x)
  | None, _ => None
  end.
(** simple_types.py:107-133 [to_event]; [field]: text or None. *)
Definition to_event (v : pyval) (et : evtype) (field : option text) (in_struct : bool) (depth : option Z) : option uevent :=
  match nature v with
  | None => None
  | Some (t, an) =>
    Some (mkue et (Some t) (match v with PIon _ _ s => EvVal s | _ => EvNone end) (nature_field in_struct field) an depth)
  end.
