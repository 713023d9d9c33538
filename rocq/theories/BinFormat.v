(** The binary Ion 1.0 format as a grammar: which octet strings encode which values.  Written from
    the Ion specification and the comments in /repo, with no reference to the reader's or the
    writer's code.  Only the types of events come from the model. *)
From Verif Require Import Base CoreModel.

(** VarUInt: base-128 digits, most significant first, the last one marked with 0x80.
    [var_code acc bs n]: the octets [bs] continue a number that so far reads [acc] and make it [n]. *)
Inductive var_code : Z -> list Z -> Z -> Prop :=
| var_last acc d : 0 <= d < 128 -> var_code acc [128 + d] (acc * 128 + d)
| var_more acc d bs n : 0 <= d < 128 -> var_code (acc * 128 + d) bs n -> var_code acc (d :: bs) n.
Definition varuint_code : list Z -> Z -> Prop := var_code 0.

(** Type octet and length: in the low nibble, or in a VarUInt after the nibble 14.  [lo] is the
    least length the short form can carry. *)
Definition header (tid lo n : Z) (bs : list Z) : Prop :=
  (lo <= n < 14 /\ bs = [tid * 16 + n]) \/
  (exists c, varuint_code c n /\ bs = tid * 16 + 14 :: c).

(** Type ids. *)
Definition type_id (t : iontype) : Z :=
  match t with
  | TNull => 0 | TBool => 1 | TInt => 2 | TFloat => 4 | TDecimal => 5 | TTimestamp => 6
  | TSymbol => 7 | TString => 8 | TClob => 9 | TBlob => 10 | TList => 11 | TSexp => 12 | TStruct => 13
  end.

(** Type ids whose values are a length and that many octets, with the interpretation of the octets
    ([None]: the octets themselves). *)
Inductive payload_type : Z -> option thunk_kind -> iontype -> Prop :=
| pt_int : payload_type 2 (Some (KInt 1)) TInt
| pt_negint : payload_type 3 (Some (KInt (-1))) TInt
| pt_decimal : payload_type 5 (Some KDecimal) TDecimal
| pt_timestamp : payload_type 6 (Some KTimestamp) TTimestamp
| pt_symbol : payload_type 7 (Some KSymbol) TSymbol
| pt_string : payload_type 8 (Some KString) TString
| pt_clob : payload_type 9 None TClob
| pt_blob : payload_type 10 None TBlob.

Definition payload_value (k : option thunk_kind) (data : list Z) : evalue :=
  match k with Some k => EvThunk k data | None => EvVal (VBytes data) end.

(** Values of one octet. *)
Inductive octet_value : Z -> iontype -> evalue -> Prop :=
| ov_null t : octet_value (type_id t * 16 + 15) t EvNone
| ov_negnull : octet_value 0x3F TInt EvNone
| ov_false : octet_value 0x10 TBool (EvVal (VBool false))
| ov_true : octet_value 0x11 TBool (EvVal (VBool true))
| ov_int0 : octet_value 0x20 TInt (EvVal (VInt 0))
| ov_float0 : octet_value 0x40 TFloat (EvVal (VFloat 0))
| ov_decimal0 : octet_value 0x50 TDecimal (EvVal (VDecimal (mkdec false 0 0)))
| ov_symbol0 : octet_value 0x70 TSymbol (EvVal (VSymbol (mktok None (Some 0) None)))
| ov_string0 : octet_value 0x80 TString (EvVal (VString []))
| ov_clob0 : octet_value 0x90 TClob (EvVal (VBytes []))
| ov_blob0 : octet_value 0xA0 TBlob (EvVal (VBytes [])).

(** Scalars. *)
Inductive scalar_code : iontype -> evalue -> list Z -> Prop :=
| sc_octet o t v : octet_value o t v -> scalar_code t v [o]
| sc_float32 data : zlen data = 4 -> scalar_code TFloat (EvThunk KFloat data) (0x44 :: data)
| sc_float64 data : zlen data = 8 -> scalar_code TFloat (EvThunk KFloat data) (0x48 :: data)
| sc_payload tid k t hd data : payload_type tid k t -> header tid 1 (zlen data) hd ->
    scalar_code t (payload_value k data) (hd ++ data).

(** Container headers for a content of [n] octets; for structs the nibble 1 means "ordered, and
    not empty". *)
Definition container_code (t : iontype) (n : Z) (hd : list Z) : Prop :=
  match t with
  | TList => header 11 0 n hd
  | TSexp => header 12 0 n hd
  | TStruct => (n <> 1 /\ 0 <= n < 14 /\ hd = [0xD0 + n]) \/
               (exists c, varuint_code c n /\ hd = 0xDE :: c) \/
               (exists c, varuint_code c n /\ 2 <= n /\ hd = 0xD1 :: c)
  | _ => False
  end.

(** Padding. *)
Definition pad_code (bs : list Z) : Prop :=
  exists hd data, header 0 0 (zlen data) hd /\ bs = hd ++ data.

(** Annotation wrapper around [n] octets: header, length of the SID list, the SIDs. *)
Record wrapper := mkwrapper { wr_head : list Z; wr_len : list Z; wr_sids : list (list Z * Z) }.
Definition wr_sid_octets (w : wrapper) : list Z := flat_map fst (wr_sids w).
Definition wrapper_octets (w : wrapper) : list Z := wr_head w ++ wr_len w ++ wr_sid_octets w.
Definition wrapper_code (w : wrapper) (n : Z) : Prop :=
  wr_sids w <> [] /\
  Forall (fun p => varuint_code (fst p) (snd p)) (wr_sids w) /\
  varuint_code (wr_len w) (zlen (wr_sid_octets w)) /\
  header 14 3 (zlen (wr_len w) + zlen (wr_sid_octets w) + n) (wr_head w).

(** A field name: its octets and its SID. *)
Definition fieldname : Type := list Z * Z.

(** Syntax trees: padding, scalars, containers and version markers, with the octets chosen for
    each header (the format leaves choices, e.g. over-long lengths). *)
Inductive node :=
| NPad (f : option fieldname) (bs : list Z)
| NScalar (f : option fieldname) (w : option wrapper) (t : iontype) (v : evalue) (bs : list Z)
| NCont (f : option fieldname) (w : option wrapper) (t : iontype) (hd : list Z) (kids : list node)
| NIvm.

Definition opt_octets {A} (g : A -> list Z) (o : option A) : list Z :=
  match o with Some a => g a | None => [] end.
Definition ivm : list Z := [0xE0; 0x01; 0x00; 0xEA].

(** The octets of a tree. *)
Fixpoint code (n : node) : list Z :=
  match n with
  | NPad f bs => opt_octets fst f ++ bs
  | NScalar f w _ _ bs => opt_octets fst f ++ opt_octets wrapper_octets w ++ bs
  | NCont f w _ hd kids => opt_octets fst f ++ opt_octets wrapper_octets w ++ hd ++ flat_map code kids
  | NIvm => ivm
  end.

(** What a tree means: the events at depth [d]. *)
Definition by_sid (sid : Z) : token := mktok None (Some sid) None.
Definition field_of (f : option fieldname) : option token :=
  match f with Some (_, sid) => Some (by_sid sid) | None => None end.
Definition annotations_of (w : option wrapper) : list token :=
  match w with Some w => map (fun p => by_sid (snd p)) (wr_sids w) | None => [] end.
Fixpoint events (d : Z) (n : node) : list event :=
  match n with
  | NPad _ _ => []
  | NScalar f w t v _ => [mkev EScalar (Some t) v (field_of f) (annotations_of w) (Some d)]
  | NCont f w t _ kids =>
    mkev EContainerStart (Some t) EvNone (field_of f) (annotations_of w) (Some d)
      :: flat_map (events (d + 1)) kids
      ++ [mkev EContainerEnd (Some t) EvNone None [] (Some d)]
  | NIvm => [mkev EVersionMarker None (EvVersion 1 0) None [] (Some 0)]
  end.

(** Where a tree may stand. *)
Inductive place := Top | InSequence | InStruct.
Definition inside (t : iontype) : place := match t with TStruct => InStruct | _ => InSequence end.
Definition field_code (p : place) (f : option fieldname) : Prop :=
  match p, f with
  | InStruct, Some (c, sid) => varuint_code c sid
  | InStruct, None => False
  | _, None => True
  | _, Some _ => False
  end.
Definition wrapper_opt (w : option wrapper) (n : Z) : Prop :=
  match w with Some w => wrapper_code w n | None => True end.

(** Well-formed trees. *)
Fixpoint node_ok (p : place) (n : node) : Prop :=
  match n with
  | NPad f bs => field_code p f /\ (match f with Some (_, sid) => sid = 0 | None => True end) /\ pad_code bs
  | NScalar f w t v bs => field_code p f /\ wrapper_opt w (zlen bs) /\ scalar_code t v bs
  | NCont f w t hd kids =>
    field_code p f /\ wrapper_opt w (zlen (hd ++ flat_map code kids)) /\
    container_code t (zlen (flat_map code kids)) hd /\
    fold_right (fun k P => node_ok (inside t) k /\ P) True kids
  | NIvm => p = Top
  end.

(** A stream: version marker first, then trees. *)
Definition stream (ns : list node) : list Z := ivm ++ flat_map code ns.
Definition stream_ok (ns : list node) : Prop := Forall (node_ok Top) ns.
Definition stream_events (ns : list node) : list event :=
  mkev EVersionMarker None (EvVersion 1 0) None [] (Some 0) :: flat_map (events 0) ns.
