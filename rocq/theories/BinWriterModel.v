(** Model of the raw binary writer: /repo/amazon/ion/writer_binary_raw.py, with the shared pieces
    of /repo/amazon/ion/writer.py.  Also the scalar thunks of reader_binary.py (an event's value
    may be such a thunk). *)
From Verif Require Import Base FieldsModel BufferModel CoreModel.

(** * Scalar thunks (reader side) *)

(** reader_binary.py:187-204 [_parse_decimal].  The exponent/coefficient limits of the C decimal
    constructor (about 10^18) are not modelled. *)
Definition parse_decimal (buf : list Z) : res dec :=
  let* (exponent, rest) := parse_var_int buf true in
  let '(sign_bit, coefficient) := parse_signed_int_components rest in
  if coefficient =? 0 then Ok (mkdec (sign_bit =? 1) 0 exponent)
  else
    (* context.prec = len(str(coefficient)): the minus sign counts *)
    let prec := ndigits coefficient + (if sign_bit =? 0 then 0 else 1) in
    dec_scaleb prec (mkdec (negb (sign_bit =? 0)) coefficient 0) exponent.

(** reader_binary.py:665-722 [_timestamp_factory(data)()]. *)
Definition parse_timestamp (data : list Z) : res tsvalue :=
  let* (off_sign, off_mag, buf) := parse_var_int_components data true 1 0 in
  let off_value := off_sign * off_mag in
  let* tz :=
    if (off_sign =? -1) && (off_value =? 0) then Ok None
    else (* OffsetTZInfo(timedelta(minutes=off_value)) *)
      if 999999999 <? Z.abs (off_value / 1440) then Err OverflowError
      else let* o := offset_tz (off_value * 60) in Ok (Some o) in
  let* (year, buf) := parse_var_int buf false in
  let* (month, prec, buf) :=
    match buf with
    | [] => Ok (1, PYear, buf)
    | _ => let* (m, b) := parse_var_int buf false in Ok (m, PMonth, b)
    end in
  let* (day, prec, buf) :=
    match buf with
    | [] => Ok (1, prec, buf)
    | _ => let* (d, b) := parse_var_int buf false in Ok (d, PDay, b)
    end in
  let* (hour, minute, prec, buf) :=
    match buf with
    | [] => Ok (0, 0, prec, buf)
    | _ => let* (h, b) := parse_var_int buf false in
           let* (m, b) := parse_var_int b false in Ok (h, m, PMinute, b)
    end in
  let* (second, prec, buf) :=
    match buf with
    | [] => Ok (0, prec, buf)
    | _ => let* (s, b) := parse_var_int buf false in Ok (s, PSecond, b)
    end in
  let* fraction :=
    match buf with
    | [] => Ok None
    | _ => let* f := parse_decimal buf in
           if (d_coef f =? 0) && (-1 <? d_exp f) then Ok None else Ok (Some f)
    end in
  adjust_from_utc_fields year month day hour minute second tz (Some prec) fraction.

(** [struct.unpack('>f', data)] widened to a binary64 pattern (C float to double). (reader_binary.py:650-655.) *)
Definition float32_to_64 (b : Z) : Z :=
  let sign := b / 2 ^ 31 in
  let e := (b / 2 ^ 23) mod 256 in
  let m := b mod 2 ^ 23 in
  sign * 2 ^ 63 +
  (if e =? 255 then 2047 * 2 ^ 52 + (if m =? 0 then 0 else Z.lor (m * 2 ^ 29) (2 ^ 51))
   else if e =? 0 then
     (if m =? 0 then 0
      else (* subnormal: normalise *)
        let k := Z.log2 m in
        (k - 149 + 1023) * 2 ^ 52 + (m - 2 ^ k) * 2 ^ (52 - k))
   else (e - 127 + 1023) * 2 ^ 52 + m * 2 ^ 29).

(** reader_binary.py:650-655 [_float_factory]; the length is 4 or 8 by the dispatch table. *)
Definition parse_float (data : list Z) : res Z :=
  if zlen data =? 8 then Ok (unpack_be data)
  else if zlen data =? 4 then Ok (float32_to_64 (unpack_be data))
  else Err ValueError.

(** Evaluation of a thunk: reader_binary.py:624-742. *)
Definition eval_thunk (k : thunk_kind) (data : list Z) : res scalar :=
  match k with
  | KInt sign => Ok (VInt (parse_int sign data))
  | KFloat => let* b := parse_float data in Ok (VFloat b)
  | KDecimal => let* d := parse_decimal data in Ok (VDecimal d)
  | KTimestamp => let* t := parse_timestamp data in Ok (VTimestamp t)
  | KSymbol => Ok (VSymbol (sid_token (parse_int 1 data)))
  | KString => let* s := utf8_decode data in Ok (VString s)
  end.

(** [ion_event.value] (core.py:252-285 for thunk events). *)
Definition ev_force (v : evalue) : res (option scalar) :=
  match v with
  | EvNone => Ok None
  | EvVal s => Ok (Some s)
  | EvThunk k d => let* s := eval_thunk k d in Ok (Some s)
  | EvLazy r => let* s := r in Ok (Some s)
  | EvVersion _ _ => Err TypeError (* a version tuple is not a scalar any serializer accepts *)
  end.

(** * Scalar serializers *)

(** writer_binary_raw.py:87-101 [_NULLS]: type id of each Ion type, ored with 0x0F. *)
Definition null_octet (t : iontype) : Z :=
  match t with
  | TNull => 0x0F | TBool => 0x1F | TInt => 0x2F | TFloat => 0x4F | TDecimal => 0x5F
  | TTimestamp => 0x6F | TSymbol => 0x7F | TString => 0x8F | TClob => 0x9F | TBlob => 0xAF
  | TList => 0xBF | TSexp => 0xCF | TStruct => 0xDF
  end.

(** writer_binary_raw.py:114-119 [_write_length]. *)
Definition write_length (buf : list Z) (length tid : Z) : res (list Z) :=
  if length <? 14 then Ok (buf ++ [Z.lor tid length])
  else let* (b, _) := write_varuint (buf ++ [Z.lor tid 0x0E]) length in Ok b.

(** writer_binary_raw.py:122-126 [_write_int_value]. *)
Definition write_int_value (buf : list Z) (tid value : Z) : res (list Z) :=
  let* (value_buf, length) := write_uint [] value in
  let* buf := write_length buf length tid in
  Ok (buf ++ value_buf).

(** writer_binary_raw.py:129-142 [_serialize_int]. *)
Definition serialize_int (value : Z) : res (list Z) :=
  if value =? 0 then Ok [0x20]
  else if value <? 0 then write_int_value [] 0x30 (- value)
  else write_int_value [] 0x20 value.

(** [struct.pack('>d', f)]: the eight octets of the bit pattern, most significant first.
    (writer_binary_raw.py:145-157.) *)
Definition pack_be (n : nat) (v : Z) : list Z :=
  map (fun i => (v / 2 ^ (8 * (Z.of_nat n - 1 - i))) mod 256) (zrange n).

(** writer_binary_raw.py:145-157 [_serialize_float]: positive zero is the zero bit pattern. *)
Definition serialize_float (bits : Z) : res (list Z) :=
  if bits =? 0 then Ok [0x40] else Ok (Z.lor 0x40 0x08 :: pack_be 8 bits).

(** writer_binary_raw.py:160-170 [_write_decimal_value]. *)
Definition write_decimal_value (buf : list Z) (exponent coefficient : Z) (sign : bool)
  : res (list Z * Z) :=
  let* (buf, length) := write_varint buf exponent in
  if negb (coefficient =? 0)
  then let* (buf, n) := write_int buf coefficient in Ok (buf, length + n)
  else if sign then Ok (buf ++ [0x80], length + 1)
  else Ok (buf, length).

(** writer_binary_raw.py:173-180 [_write_timestamp_fractional_seconds]: [scaleb] runs in the
    default context (28 digits). *)
Definition write_fractional_seconds (buf : list Z) (value : dec) : res (list Z * Z) :=
  let* scaled := dec_scaleb default_prec value (- d_exp value) in
  let coefficient := dec_int (dec_to_integral scaled) in
  if (coefficient =? 0) && (0 <=? d_exp value) then Ok (buf, 0)
  else write_decimal_value buf (d_exp value) coefficient (d_neg value).

(** writer_binary_raw.py:183-201 [_serialize_decimal]. *)
Definition serialize_decimal (value : dec) : res (list Z) :=
  let* scaled := dec_scaleb (ndigits (d_coef value)) value (- d_exp value) in
  let coefficient := dec_int (dec_to_integral scaled) in
  if negb (d_neg value) && (d_exp value =? 0) && (coefficient =? 0) then Ok [0x50]
  else
    let* (value_buf, length) := write_decimal_value [] (d_exp value) coefficient (d_neg value) in
    let* buf := write_length [] length 0x50 in
    Ok (buf ++ value_buf).

(** writer_binary_raw.py:204-214 [_serialize_string]. *)
Definition serialize_string (s : text) : res (list Z) :=
  match s with
  | [] => Ok [0x80]
  | _ => let* value_buf := utf8_encode s in
         let* buf := write_length [] (zlen value_buf) 0x80 in
         Ok (buf ++ value_buf)
  end.

(** writer_binary_raw.py:217-226 [_serialize_symbol]; comparing a missing SID with an int in
    [_write_unsigned] raises TypeError. *)
Definition serialize_symbol (t : token) : res (list Z) :=
  match tk_sid t with
  | None => Err TypeError
  | Some sid => if sid =? 0 then Ok [0x70] else write_int_value [] 0x70 sid
  end.

(** writer_binary_raw.py:229-234 [_serialize_lob_value]. *)
Definition serialize_lob (value : list Z) (tid : Z) : res (list Z) :=
  let* buf := write_length [] (zlen value) tid in Ok (buf ++ value).

(** writer_binary_raw.py:241-277 [_serialize_timestamp]. *)
Definition serialize_timestamp (v : tsvalue) : res (list Z) :=
  let dt := match v with TsStamp t => ts_dt t | TsPlain t => t end in
  let prec := match v with
              | TsStamp t => match ts_prec t with Some p => p | None => PSecond end
              | TsPlain _ => PSecond end in
  let* (dt, value_buf, length) :=
    match dt_off dt with
    | None => Ok (dt, [0xC0], 1)
    | Some offset =>
      let* dt' := dt_shift dt (- offset) in
      let* (b, n) := write_varint [] (offset / 60) in
      Ok (dt', b, n)
    end in
  let* (value_buf, n) := write_varuint value_buf (dt_year dt) in
  let length := length + n in
  let* (value_buf, length) :=
    if includes prec PMonth
    then let* (b, n) := write_varuint value_buf (dt_month dt) in Ok (b, length + n)
    else Ok (value_buf, length) in
  let* (value_buf, length) :=
    if includes prec PDay
    then let* (b, n) := write_varuint value_buf (dt_day dt) in Ok (b, length + n)
    else Ok (value_buf, length) in
  let* (value_buf, length) :=
    if includes prec PMinute
    then let* (b, n) := write_varuint value_buf (dt_hour dt) in
         let* (b, m) := write_varuint b (dt_minute dt) in Ok (b, length + n + m)
    else Ok (value_buf, length) in
  let* (value_buf, length) :=
    if includes prec PSecond
    then
      let* (b, n) := write_varuint value_buf (dt_second dt) in
      let* (b, m) :=
        match v with
        | TsStamp t => write_fractional_seconds b (ts_frac t)
        | TsPlain _ => write_decimal_value b (-6) (dt_micro dt) false
        end in
      Ok (b, length + n + m)
    else Ok (value_buf, length) in
  let* buf := write_length [] length 0x60 in
  Ok (buf ++ value_buf).

(** writer.py:53-75 [validate_scalar_value], [illegal_state_null], [serialize_scalar] and
    writer_binary_raw.py:104-111, 280-296 (the jump table).  A Python bool is an int. *)
Definition serialize_scalar (t : option iontype) (v : option scalar) : res (list Z) :=
  match t, v with
  | None, None => Err TypeError
  | None, Some _ => Err AttributeError
  | Some t, None => Ok [null_octet t]
  | Some t, Some v =>
    if is_container t then Err TypeError else
    match t, v with
    | TBool, VBool b => Ok [if b then 0x11 else 0x10]
    | TBool, VInt z => Ok [if z =? 0 then 0x10 else 0x11]
    | TBool, VFloat b => Ok [if (b =? 0) || (b =? 2 ^ 63) then 0x10 else 0x11]
    | TBool, VDecimal d => Ok [if d_coef d =? 0 then 0x10 else 0x11]
    | TBool, VString s => Ok [if zlen s =? 0 then 0x10 else 0x11]
    | TBool, VBytes s => Ok [if zlen s =? 0 then 0x10 else 0x11]
    | TBool, _ => Ok [0x11]
    | TInt, VInt z => serialize_int z
    | TInt, VBool b => serialize_int (if b then 1 else 0)
    | TFloat, VFloat b => serialize_float b
    | TDecimal, VDecimal d => serialize_decimal d
    | TTimestamp, VTimestamp t => serialize_timestamp t
    | TSymbol, VSymbol t => serialize_symbol t
    | TString, VString s => serialize_string s
    | TClob, VBytes b => serialize_lob b 0x90
    | TBlob, VBytes b => serialize_lob b 0xA0
    | _, _ => Err TypeError
    end
  end.

(** * Container and wrapper headers *)

(** writer_binary_raw.py:302-304: the annotation SIDs ([annotation.sid]; a missing SID raises). *)
Fixpoint write_sids (buf : list Z) (len : Z) (annots : list token) : res (list Z * Z) :=
  match annots with
  | [] => Ok (buf, len)
  | t :: ts =>
    match tk_sid t with
    | None => Err TypeError
    | Some sid => let* (b, n) := write_varuint buf sid in write_sids b (len + n) ts
    end
  end.

(** writer_binary_raw.py:299-311: the header computed by [_serialize_annotation_wrapper]. *)
Definition annotation_header (annots : list token) (value_length : Z) : res (list Z) :=
  let* (annot_buf, annot_length) := write_sids [] 0 annots in
  let* (length_buf, n) := write_varuint [] annot_length in
  let* header := write_length [] (n + annot_length + value_length) 0xE0 in
  Ok (header ++ length_buf ++ annot_buf).

(** writer_binary_raw.py:314-330: the header computed by [_serialize_container]. *)
Definition container_header (t : option iontype) (length : Z) : res (list Z) :=
  match t with
  | Some TStruct =>
    if length =? 0 then Ok [0xD0]
    else let* (b, _) := write_varuint [Z.lor 0xD0 0x0E] length in Ok b
  | Some TSexp => write_length [] length 0xC0
  | _ => write_length [] length 0xB0
  end.

(** writer_binary_raw.py:299-311. *)
Definition end_annotation_wrapper (t : btree) (annots : list token) : res btree :=
  let* h := annotation_header annots (bt_len t) in bt_end t h.
(** writer_binary_raw.py:314-330. *)
Definition end_container_value (t : btree) (ty : option iontype) : res btree :=
  let* h := container_header ty (bt_len t) in bt_end t h.

(** * The raw writer co-routine *)

(** One suspended [_raw_writer_coroutine] frame below the current one: the container's event
    (only its Ion type is read) and its pending annotations.  [depth] is the number of frames.
    (writer_binary_raw.py:337-338.) *)
Record wframe := mkwf { wf_type : option iontype; wf_annot : list token }.

(** Writer state: the frames of the open containers (innermost first) and the shared buffer.
    When draining, [w_pending] holds the buffers still to be yielded. (writer_binary_raw.py:337-338.) *)
Record wstate := mkw { w_frames : list wframe; w_buf : btree }.
(** writer_binary_raw.py:387-395. *)
Definition w_init : wstate := mkw [] bt_init.

(** writer.py:26-42 [WriteEventType] with the data. *)
Inductive wevent := HasPending (d : list Z) | NeedsInput (d : list Z) | Complete (d : list Z).

(** writer_binary_raw.py:336-384: the effect of one event.  The result is the new state and the
    sequence of events the co-routine yields (for STREAM_END: one HAS_PENDING per drained buffer,
    then COMPLETE). *)
Definition raw_write (s : wstate) (e : event) : res (wstate * list wevent) :=
  let in_struct := match w_frames s with
                   | f :: _ => match wf_type f with Some TStruct => true | _ => false end
                   | [] => false end in
  let has_annot := match ev_annot e with [] => false | _ => true end in
  (* 349-354: field name *)
  let* buf :=
    if in_struct && begins_value (ev_type e)
    then match ev_field e with
         | None => Err AttributeError
         | Some f => match tk_sid f with
                     | None => Err TypeError
                     | Some sid => let* (b, _) := write_varuint [] sid in Ok (bt_add (w_buf s) b)
                     end
         end
    else Ok (w_buf s) in
  (* 355-356 *)
  let buf := if begins_value (ev_type e) && has_annot then bt_start buf else buf in
  match ev_type e with
  | EScalar =>
    let* v := ev_force (ev_value e) in
    let* d := serialize_scalar (ev_ion_type e) v in
    let buf := bt_add buf d in
    let* buf := if has_annot then end_annotation_wrapper buf (ev_annot e) else Ok buf in
    Ok (mkw (w_frames s) buf, [NeedsInput []])
  | EStreamEnd =>
    match w_frames s with
    | _ :: _ => Err TypeError
    | [] => let* (bufs, buf) := bt_drain buf in
            Ok (mkw [] buf, map HasPending bufs ++ [Complete []])
    end
  | EContainerStart =>
    match ev_ion_type e with
    | None => Err AttributeError
    | Some t =>
      if is_container t
      then Ok (mkw (mkwf (Some t) (ev_annot e) :: w_frames s) (bt_start buf), [NeedsInput []])
      else Err TypeError
    end
  | EContainerEnd =>
    match w_frames s with
    | [] => Err TypeError
    | f :: fs =>
      let* buf := end_container_value buf (wf_type f) in
      let* buf := match wf_annot f with
                  | [] => Ok buf
                  | a => end_annotation_wrapper buf a
                  end in
      Ok (mkw fs buf, [NeedsInput []])
    end
  | _ => Err TypeError
  end.

(** Feeding a sequence of events; the emitted octets are the data of all yielded events in
    order (writer.py:134-152 [blocking_writer] writes exactly these to the output). *)
Definition wdata (w : wevent) : list Z :=
  match w with HasPending d | NeedsInput d | Complete d => d end.

(** writer_binary_raw.py:336-384, event after event. *)
Fixpoint raw_write_all (s : wstate) (es : list event) : res (wstate * list Z) :=
  match es with
  | [] => Ok (s, [])
  | e :: es' =>
    let* (s', ws) := raw_write s e in
    let* (s'', out) := raw_write_all s' es' in
    Ok (s'', flat_map wdata ws ++ out)
  end.
