(** Model of the integer sub-fields of binary Ion.
    Writer side: /repo/amazon/ion/writer_binary_raw_fields.py:38-266.
    Reader side: /repo/amazon/ion/reader_binary.py:132-213 and 614-650.
    Buffers ([bytearray]) are lists of integers; a function that appends to a buffer returns
    the new buffer and the returned count. *)
From Verif Require Import Base.

(** util.py:bit_length on non-negative integers: [int.bit_length]. *)
Definition bit_length (v : Z) : Z := if v =? 0 then 0 else Z.log2 (Z.abs v) + 1.

(** writer_binary_raw_fields.py:45-48 [_OCTET_MASKS]. *)
Definition octet_mask (bits : Z) : Z := if bits =? 7 then 0x7F else 0xFF.

(** writer_binary_raw_fields.py:170-185, body of the [for i in range(num_octets)] loop. *)
Definition base_octet (value num_bits num_octets remainder bits end_bit sign_bit i : Z) : Z :=
  let octet := if i =? 0 then sign_bit else 0 in
  let octet := if i =? num_octets - 1 then Z.lor octet end_bit else octet in
  Z.lor octet (Z.land (Z.shiftr value (num_bits - (remainder + bits * i))) (octet_mask bits)).

(** writer_binary_raw_fields.py:147-185 [_write_base]. *)
Definition write_base (buf : list Z) (value bits end_bit sign_bit : Z) (is_signed : bool)
  : list Z * Z :=
  if value =? 0 then (buf ++ [Z.lor sign_bit end_bit], 1)
  else
    let num_bits := bit_length value in
    let num_octets0 := num_bits / bits in
    let remainder0 := num_bits mod bits in
    let grow := negb (remainder0 =? 0) || is_signed in
    let num_octets := if grow then num_octets0 + 1 else num_octets0 in
    let remainder := if grow then remainder0 else bits in
    (buf ++ map (base_octet value num_bits num_octets remainder bits end_bit sign_bit)
                (zrange (Z.to_nat num_octets)),
     num_octets).

(** writer_binary_raw_fields.py:95-101 [_write_signed_uncached]. *)
Definition write_signed_uncached (buf : list Z) (value sign_bit_mask bits end_bit : Z)
  : list Z * Z :=
  if value <? 0 then write_base buf (- value) bits end_bit sign_bit_mask true
  else write_base buf value bits end_bit 0 true.

(** writer_binary_raw_fields.py:67-69. *)
Definition write_varint_uncached (buf : list Z) (value : Z) : list Z * Z :=
  write_signed_uncached buf value 0x40 7 0x80.
(** writer_binary_raw_fields.py:86-87. *)
Definition write_int_uncached (buf : list Z) (value : Z) : list Z * Z :=
  write_signed_uncached buf value 0x80 8 0.
(** writer_binary_raw_fields.py:120-121. *)
Definition write_varuint_uncached (buf : list Z) (value : Z) : list Z * Z :=
  write_base buf value 7 0x80 0 false.
(** writer_binary_raw_fields.py:136-137. *)
Definition write_uint_uncached (buf : list Z) (value : Z) : list Z * Z :=
  write_base buf value 8 0 0 false.

(** writer_binary_raw_fields.py:188 [_CACHE_SIZE] and 220-225 (signed bounds). *)
Definition cache_size : Z := 64.
(** writer_binary_raw_fields.py:220 [__HALF]. *)
Definition cache_half : Z := cache_size / 2.
(** writer_binary_raw_fields.py:212-214, 225. *)
Definition signed_min : Z := 0 - cache_half.
(** writer_binary_raw_fields.py:212-214, 224. *)
Definition signed_max : Z := cache_size - cache_half.

(** writer_binary_raw_fields.py:231-252 [_fill_cache]: each cache is a bytearray appended to by
    the uncached writers (the [assert ... == 1] holds, see FieldsFacts). *)
Definition fill_cache (w : list Z -> Z -> list Z * Z) (value_of : Z -> Z) : list Z :=
  fold_left (fun buf i => fst (w buf (value_of i))) (zrange 64) [].
(** writer_binary_raw_fields.py:231-252 for the Int fields. *)
Definition cached_ints := fill_cache write_int_uncached (fun i => i - cache_half).
(** writer_binary_raw_fields.py:231-252 for the VarInt fields. *)
Definition cached_varints := fill_cache write_varint_uncached (fun i => i - cache_half).
(** writer_binary_raw_fields.py:231-252 for the UInt fields. *)
Definition cached_uints := fill_cache write_uint_uncached (fun i => i).
(** writer_binary_raw_fields.py:231-252 for the VarUInt fields. *)
Definition cached_varuints := fill_cache write_varuint_uncached (fun i => i).

(** writer_binary_raw_fields.py:88-92 [_write_signed], with 254-258 [get_int]/[get_varint]. *)
Definition write_signed (cache : list Z) (uncached : list Z -> Z -> list Z * Z)
  (buf : list Z) (value : Z) : res (list Z * Z) :=
  if (signed_min <=? value) && (value <? signed_max)
  then let* o := py_index cache (cache_half + value) in Ok (buf ++ [o], 1)
  else Ok (uncached buf value).

(** writer_binary_raw_fields.py:140-144 [_write_unsigned], with 260-264.  A negative value takes
    the cached path and indexes the bytearray with a negative index, as Python does. *)
Definition write_unsigned (cache : list Z) (uncached : list Z -> Z -> list Z * Z)
  (buf : list Z) (value : Z) : res (list Z * Z) :=
  if value <? cache_size
  then let* o := py_index cache value in Ok (buf ++ [o], 1)
  else Ok (uncached buf value).

(** writer_binary_raw_fields.py:53-64, 72-83, 106-117, 124-135. *)
Definition write_varint := write_signed cached_varints write_varint_uncached.
(** writer_binary_raw_fields.py:72-83. *)
Definition write_int := write_signed cached_ints write_int_uncached.
(** writer_binary_raw_fields.py:106-117. *)
Definition write_varuint := write_unsigned cached_varuints write_varuint_uncached.
(** writer_binary_raw_fields.py:124-135. *)
Definition write_uint := write_unsigned cached_uints write_uint_uncached.

(** ** Reader side *)

(** reader_binary.py:132-152 [_parse_var_int_components].  [buf] is what remains of the
    [BytesIO].  At its end [buf.read(1)] is [b''], which is not equal to [''], so the guard at
    line 137 never fires and [ord(b'')] raises [TypeError]. *)
Fixpoint parse_var_int_components (buf : list Z) (signed : bool) (sign value : Z)
  : res (Z * Z * list Z) :=
  match buf with
  | [] => Err TypeError
  | octet :: rest =>
    let sign' := if signed then (if Z.testbit octet 6 then -1 else sign) else sign in
    let value' := if signed then Z.land octet 0x3F
                  else Z.lor (Z.shiftl value 7) (Z.land octet 0x7F) in
    if Z.testbit octet 7 then Ok (sign', value', rest)
    else parse_var_int_components rest false sign' value'
  end.

(** reader_binary.py:155-157 [_parse_var_int]. *)
Definition parse_var_int (buf : list Z) (signed : bool) : res (Z * list Z) :=
  let* (s, v, rest) := parse_var_int_components buf signed 1 0 in Ok (s * v, rest).

(** reader_binary.py:160-184 [_parse_signed_int_components]: consumes everything left. *)
Definition parse_signed_int_components (buf : list Z) : Z * Z :=
  match buf with
  | [] => (0, 0)
  | octet :: rest =>
    (if Z.testbit octet 7 then 1 else 0,
     fold_left (fun value o => Z.lor (Z.shiftl value 8) o) rest (Z.land octet 0x7F))
  end.

(** [struct.unpack('>Q' | '>I' | '>H', segment)]: big-endian unsigned, any width.
    ([struct.unpack] as used at reader_binary.py:624-647.) *)
Definition unpack_be (l : list Z) : Z := fold_left (fun a b => a * 256 + b) l 0.

(** reader_binary.py:616-621 [_rslice] on [rem <= len(data)]: [data[-rem : (-rem + size) or None]]. *)
Definition rslice (data : list Z) (rem size : Z) : list Z :=
  let start := - rem in
  let end_ := start + size in
  let n := zlen data in
  if 0 <=? end_ then zdrop (n + start) data
  else zslice data (n + start) (n + end_).

(** reader_binary.py:628-632, the [while length >= 8] loop of [parse_int]; returns the value and
    the remaining length.  [fuel] bounds the iterations; [length data] is always enough. *)
Fixpoint parse_int_loop (fuel : nat) (data : list Z) (value length : Z) : Z * Z :=
  match fuel with
  | O => (value, length)
  | S f =>
    if 8 <=? length
    then parse_int_loop f data
           (Z.lor (Z.shiftl value 64) (unpack_be (rslice data length 8))) (length - 8)
    else (value, length)
  end.

(** reader_binary.py:624-650 [_int_factory(sign, data)()]. *)
Definition parse_int (sign : Z) (data : list Z) : Z :=
  let '(value, len) := parse_int_loop (length data) data 0 (zlen data) in
  let '(value, len) :=
    if 4 <=? len
    then (Z.lor (Z.shiftl value 32) (unpack_be (rslice data len 4)), len - 4)
    else (value, len) in
  let '(value, len) :=
    if 2 <=? len
    then (Z.lor (Z.shiftl value 16) (unpack_be (rslice data len 2)), len - 2)
    else (value, len) in
  let value :=
    if len =? 1
    then Z.lor (Z.shiftl value 8)
               (match py_index data (- len) with Ok b => b | Err _ => 0 end)
    else value in
  sign * value.

(** reader_binary.py:207-213 [_parse_sid_iter], forced by [tuple(...)] at 518. *)
Fixpoint parse_sids_aux (fuel : nat) (data : list Z) : res (list Z) :=
  match fuel with
  | O => Ok []
  | S f =>
    match data with
    | [] => Ok []
    | _ => let* (sid, rest) := parse_var_int data false in
           let* l := parse_sids_aux f rest in Ok (sid :: l)
    end
  end.
(** reader_binary.py:207-213, with the fuel of the loop. *)
Definition parse_sids (data : list Z) : res (list Z) := parse_sids_aux (length data) data.

(** reader_binary.py:409-420, the arithmetic of [_var_uint_field_handler], one octet. *)
Definition varuint_step (value octet : Z) : Z :=
  Z.lor (Z.shiftl value 7) (Z.land octet 0x7F).
(** reader_binary.py:419-420. *)
Definition varuint_last (octet : Z) : bool := Z.testbit octet 7.
