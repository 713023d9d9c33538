(** Property theorems C01, C02: integer fields. *)
From Verif Require Import Base FieldsModel FieldsProofs.

(** C01.  Each writer appends octets (and reports their number) from which the reader recovers the
    integer; the encoding is one octet or could not be one octet shorter. *)
Theorem C01_uint_lossless : forall buf v, 0 <= v ->
  exists out, write_uint buf v = Ok (buf ++ out, zlen out) /\ octets out /\
    (forall sign, parse_int sign out = sign * v) /\
    (zlen out = 1 \/ 2 ^ (8 * (zlen out - 1)) <= v).
Proof. exact uint_lossless. Qed.
Print Assumptions C01_uint_lossless.

Theorem C01_varuint_lossless : forall buf v, 0 <= v ->
  exists out, write_varuint buf v = Ok (buf ++ out, zlen out) /\ octets out /\
    (forall rest, parse_var_int (out ++ rest) false = Ok (v, rest)) /\
    (zlen out = 1 \/ 2 ^ (7 * (zlen out - 1)) <= v).
Proof. exact varuint_lossless. Qed.
Print Assumptions C01_varuint_lossless.

(** The reader returns the sign bit and the magnitude separately. *)
Theorem C01_int_lossless : forall buf v,
  exists out, write_int buf v = Ok (buf ++ out, zlen out) /\ octets out /\
    parse_signed_int_components out = (if v <? 0 then 1 else 0, Z.abs v) /\
    (zlen out = 1 \/ 2 ^ (8 * (zlen out - 1) - 1) <= Z.abs v).
Proof. exact int_lossless. Qed.
Print Assumptions C01_int_lossless.

Theorem C01_varint_lossless : forall buf v,
  exists out, write_varint buf v = Ok (buf ++ out, zlen out) /\ octets out /\
    (forall rest, parse_var_int (out ++ rest) true = Ok (v, rest)) /\
    (zlen out = 1 \/ 2 ^ (7 * (zlen out - 1) - 1) <= Z.abs v).
Proof. exact varint_lossless. Qed.
Print Assumptions C01_varint_lossless.

Example C01_case :
  write_varint [7] (-8192) = Ok ([7; 0x40; 0x40; 0x80], 3) /\
  parse_var_int [0x40; 0x40; 0x80; 9] true = Ok (-8192, [9]).
Proof. split; vm_compute; reflexivity. Qed.

(** C02. *)
Theorem C02_cache_transparent : forall buf v,
  (0 <= v -> write_uint buf v = Ok (write_uint_uncached buf v) /\
             write_varuint buf v = Ok (write_varuint_uncached buf v)) /\
  write_int buf v = Ok (write_int_uncached buf v) /\
  write_varint buf v = Ok (write_varint_uncached buf v).
Proof. exact cache_transparent. Qed.
Print Assumptions C02_cache_transparent.

Example C02_cases :
  map (fun v => write_int [] v) [-33; -32; 31; 32] =
  map (fun v => Ok (write_int_uncached [] v)) [-33; -32; 31; 32].
Proof. vm_compute. reflexivity. Qed.

(** Outside the domain the cache is not transparent: an unsigned writer given a negative integer
    silently emits the octet of another number. *)
Theorem C02_negative_unsigned_refuted :
  write_varuint [] (-1) = Ok ([0xBF], 1) /\ parse_var_int [0xBF] false = Ok (63, []).
Proof. split; vm_compute; reflexivity. Qed.
