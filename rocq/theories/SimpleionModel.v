(** Model of the Python value API: [dump], [dumps], [load], [loads] of /repo/amazon/ion/simpleion.py
    for binary Ion, and the value classes of /repo/amazon/ion/simple_types.py. *)
From Verif Require Import Base CoreModel BufferModel BinWriterModel BinReaderModel SymbolsModel ManagedModel MultimapModel.
Local Open Scope Z_scope.

(** * Python values

    Plain objects, and objects with an "Ion nature" (simple_types.py:38-59), which carry an Ion type
    and annotations.
    - [PPlain s]: bool, int, float, Decimal, Timestamp, datetime, SymbolToken, str, bytes.
    - [PDict]: keys are strings or None; a Python dict has each key once (see [storable]).
    - [PIon t an s]: IonPyBool, IonPyInt, IonPyFloat, IonPyDecimal, IonPyTimestamp, IonPySymbol,
      IonPyText, IonPyBytes.  [t] is a scalar type: a scalar object whose [ion_type] attribute was set
      to a container type, or left None, is not modelled.
    - [PSeq sexp an l]: IonPyList of type SEXP or LIST.
    - [PStruct an m]: IonPyDict, a Multimap. *)
Inductive pyval :=
| PNone
| PPlain (s : scalar)
| PList (l : list pyval)
| PTuple (l : list pyval)
| PDict (l : list (option text * pyval))
| PNull (t : iontype) (an : list symarg)
| PIon (t : iontype) (an : list symarg) (s : scalar)
| PSeq (sexp : bool) (an : list symarg) (l : list pyval)
| PStruct (an : list symarg) (m : list (option text * list pyval)).

(** simpleion.py:162-201: the Ion type of a plain object. *)
Definition plain_type (s : scalar) : iontype :=
  match s with
  | VBool _ => TBool
  | VInt _ => TInt
  | VFloat _ => TFloat
  | VDecimal _ => TDecimal
  | VTimestamp _ => TTimestamp
  | VSymbol _ => TSymbol
  | VString _ => TString
  | VBytes _ => TBlob
  end.

(** * dump *)

(** simple_types.py:107-133 [to_event]: the field name of an event made from an object with Ion
    nature; in a struct it is always a token, symbol zero for None. *)
Definition nature_field (in_struct : bool) (field : option text) : option symarg :=
  if in_struct then Some (ATok (mktok field (match field with None => Some 0 | Some _ => None end) None)) else None.
(** simpleion.py:216, 230: of an event made from a plain object. *)
Definition plain_field (field : option text) : option symarg := match field with Some x => Some (AText x) | None => None end.
(** simpleion.py:43. *)
Definition container_end_event : uevent := mkue EContainerEnd None EvNone None [] None.

(** simpleion.py:204-231 [_dump]: the events sent, in order.  [tas]: tuple_as_sexp. *)
Fixpoint dump_value (tas : bool) (v : pyval) (field : option text) (in_struct : bool) (depth : Z) : list uevent :=
  match v with
  | PNone => [mkue EScalar (Some TNull) EvNone (plain_field field) [] (Some depth)]
  | PPlain s => [mkue EScalar (Some (plain_type s)) (EvVal s) (plain_field field) [] (Some depth)]
  | PList l =>
    mkue EContainerStart (Some TList) EvNone (plain_field field) [] (Some depth)
    :: flat_map (fun x => dump_value tas x None false (depth + 1)) l ++ [container_end_event]
  | PTuple l =>
    mkue EContainerStart (Some (if tas then TSexp else TList)) EvNone (plain_field field) [] (Some depth)
    :: flat_map (fun x => dump_value tas x None false (depth + 1)) l ++ [container_end_event]
  | PDict l =>
    mkue EContainerStart (Some TStruct) EvNone (plain_field field) [] (Some depth)
    :: flat_map (fun p => dump_value tas (snd p) (fst p) true (depth + 1)) l ++ [container_end_event]
  | PNull t an => [mkue EScalar (Some t) EvNone (nature_field in_struct field) an (Some depth)]
  | PIon t an s => [mkue EScalar (Some t) (EvVal s) (nature_field in_struct field) an (Some depth)]
  | PSeq sexp an l =>
    mkue EContainerStart (Some (if sexp then TSexp else TList)) EvNone (nature_field in_struct field) an (Some depth)
    :: flat_map (fun x => dump_value tas x None false (depth + 1)) l ++ [container_end_event]
  | PStruct an m =>
    (* [six.iteritems(obj)] is [Multimap.items] *)
    mkue EContainerStart (Some TStruct) EvNone (nature_field in_struct field) an (Some depth)
    :: flat_map (fun p => flat_map (fun x => dump_value tas x (fst p) true (depth + 1)) (snd p)) m ++ [container_end_event]
  end.

(** simpleion.py:151-155: [isinstance(obj, (list, tuple))], and the elements.  A SymbolToken is a named
    tuple (text, sid, location), and so is an ImportLocation (name, position). *)
Definition py_opt_text (x : option text) : pyval := match x with Some s => PPlain (VString s) | None => PNone end.
(** simpleion.py:151-155; core.py and symbols.py: named tuples. *)
Definition token_elements (t : token) : list pyval :=
  [py_opt_text (tk_text t);
   match tk_sid t with Some sid => PPlain (VInt sid) | None => PNone end;
   match tk_loc t with Some l => PTuple [PPlain (VString (loc_name l)); PPlain (VInt (loc_pos l))] | None => PNone end].
(** simpleion.py:151-155. *)
Definition py_elements (v : pyval) : option (list pyval) :=
  match v with
  | PList l | PTuple l | PSeq _ _ l => Some l
  | PPlain (VSymbol t) => Some (token_elements t)
  | PIon _ _ (VSymbol t) => Some (token_elements t)
  | _ => None
  end.

(** simpleion.py:48-159 [dump] with [binary=True]: the octets written to [fp]; an exception may
    leave some written. *)
Definition version_event : uevent := mkue EVersionMarker None (EvVersion 1 0) None [] (Some 0).
(** simpleion.py:158. *)
Definition end_event : uevent := mkue EStreamEnd None EvNone None [] (Some 0).
(** simpleion.py:151-157. *)
Definition top_level (seq : bool) (v : pyval) : list pyval :=
  match (if seq then py_elements v else None) with Some l => l | None => [v] end.
(** simpleion.py:151-157, 204-231. *)
Definition dump_events (tas seq : bool) (v : pyval) : list uevent :=
  flat_map (fun x => dump_value tas x None false 0) (top_level seq v).
(** simpleion.py:48-159, 281-295. *)
Definition dumps_binary (imports : option (list symtab)) (tas seq : bool) (v : pyval) : res (list Z) :=
  let* (_, out) := managed_write_all imports mwriter_new (version_event :: dump_events tas seq v ++ [end_event]) in Ok out.

(** * load *)

(** simple_types.py:76-91 [from_event] and the constructors it calls: a timestamp is built anew from
    its fields (158-171), a symbol copied (146-156), the others are exact copies. *)
Definition py_scalar (t : iontype) (v : scalar) : res scalar :=
  match t, v with
  | TTimestamp, VTimestamp (TsStamp x) =>
    let d := ts_dt x in
    let* x' := timestamp_new (dt_year d) (dt_month d) (dt_day d) (dt_hour d) (dt_minute d) (dt_second d)
                             None (dt_off d) (ts_prec x) None (Some (ts_frac x)) in
    Ok (VTimestamp (TsStamp x'))
  | TTimestamp, VTimestamp (TsPlain d) =>
    let* x' := timestamp_new (dt_year d) (dt_month d) (dt_day d) (dt_hour d) (dt_minute d) (dt_second d)
                             (Some (dt_micro d)) (dt_off d) (Some PSecond) None None in
    Ok (VTimestamp (TsStamp x'))
  | _, _ => Ok v
  end.

(** What [_load] fills: a list, or a Multimap ([in_struct]). (simpleion.py:374-388, 391-397) *)
Inductive target := OnList (l : list pyval) | OnMap (m : multimap (option text) pyval).
(** simpleion.py:403. *)
Definition target_new (t : iontype) : target := match t with TStruct => OnMap mm_new | _ => OnList [] end.
(** simpleion.py:391-397; simple_types.py:71-87. *)
Definition target_value (t : iontype) (an : list token) (o : target) : pyval :=
  match o with
  | OnList l => PSeq (match t with TSexp => true | _ => false end) (map ATok an) l
  | OnMap m => PStruct (map ATok an) m
  end.
(** simpleion.py:395: equality of keys. *)
Definition name_eqb : option text -> option text -> bool := opt_eqb zlist_eqb.
(** simpleion.py:393-397 [add] *)
Definition target_add (o : target) (u : mevent) (v : pyval) : res target :=
  match o with
  | OnList l => Ok (OnList (l ++ [v]))
  | OnMap m => let* f := me_field u in
               match f with
               | None => Err AttributeError
               | Some t => Ok (OnMap (mm_add_item name_eqb m (tk_text t) v))
               end
  end.

(** The [blocking_reader] over the managed binary reader: its state, and [send(NEXT_EVENT)].
    (simpleion.py:363-364) *)
Definition feeder : Type := mreader * list (list Z).
(** simpleion.py:364, 399. *)
Definition feeder_next (fuel : nat) (cat : catalog) (s : feeder) : res (mevent * feeder) :=
  match mblocking_next fuel cat (fst s) (snd s) DNext with
  | (Ok u, r, cs) => Ok (u, (r, cs))
  | (Err e, _, _) => Err e
  end.

(** simpleion.py:405-410: the object for a scalar event. *)
Definition load_scalar (u : mevent) : res pyval :=
  let* v := me_value u in
  let* t := match ev_ion_type (me_ev u) with Some t => Ok t | None => Err TypeError end in
  match v with
  | Some s =>
    if iontype_eqb t TNull || is_container t then let* an := me_annotations u in Ok (PNull t (map ATok an))
    else let* s' := py_scalar t s in let* an := me_annotations u in Ok (PIon t (map ATok an) s')
  | None => let* an := me_annotations u in Ok (PNull t (map ATok an))
  end.

(** simpleion.py:400. *)
Definition is_until (e until : evtype) : bool :=
  match e, until with EStreamEnd, EStreamEnd | EContainerEnd, EContainerEnd => true | _, _ => false end.
(** simpleion.py:391-412 [_load]; [until] is STREAM_END or CONTAINER_END.  [F]: the states of the
    reader, binary or text. *)
Fixpoint load_into {F : Type} (fuel : nat) (next : F -> res (mevent * F)) (s : F) (until : evtype) (out : target) : res (target * F) :=
  match fuel with
  | O => Err OutOfFuel
  | S f =>
    let* (u, s) := next s in
    if is_until (ev_type (me_ev u)) until then Ok (out, s)
    else match ev_type (me_ev u) with
    | EContainerStart =>
      let* t := match ev_ion_type (me_ev u) with Some t => Ok t | None => Err TypeError end in
      let* an := me_annotations u in
      let* (inner, s) := load_into f next s EContainerEnd (target_new t) in
      let* out := target_add out u (target_value t an inner) in
      load_into f next s until out
    | EScalar =>
      let* v := load_scalar u in
      let* out := target_add out u v in
      load_into f next s until out
    | _ => load_into f next s until out
    end
  end.

(** simpleion.py:298-371 [load] of binary Ion (input that starts with the version marker, 356-361),
    read in the pieces [chunks]. *)
Definition load_stream (fuel : nat) (cat : catalog) (chunks : list (list Z)) : res (list pyval) :=
  let* (o, _) := load_into fuel (feeder_next fuel cat) (mreader_new, chunks) EStreamEnd (OnList []) in
  match o with OnList l => Ok l | OnMap _ => Err TypeError end.
(** simpleion.py:366-371. *)
Definition load_single (fuel : nat) (cat : catalog) (chunks : list (list Z)) : res pyval :=
  let* l := load_stream fuel cat chunks in
  match l with [v] => Ok v | _ => Err IonException end.
