(** What the payload of a binary scalar denotes, from the Ion 1.0 specification: integers, floats, decimals,
    timestamps, symbol identifiers and UTF-8 text.  Written without the reader's or the writer's code; only
    the types of values, the grammar of VarUInts and the calendar come from elsewhere. *)
From Verif Require Import Base CoreModel CalendarFacts FloatProofs BinFormat.
Local Open Scope Z_scope.

(** * Integers *)
(** A magnitude in octets, most significant first, after what [acc] has gathered. *)
Fixpoint big_endian (acc : Z) (bs : list Z) : Z := match bs with [] => acc | b :: r => big_endian (acc * 256 + b) r end.
(** A VarInt: the first octet has the sign in bit 6 and six bits of magnitude, the others seven. *)
Inductive varint_code : list Z -> bool -> Z -> Prop :=
| varint_one (neg : bool) m : 0 <= m < 64 -> varint_code [128 + (if neg then 64 else 0) + m] neg m
| varint_more (neg : bool) m bs n : 0 <= m < 64 -> var_code m bs n -> varint_code ((if neg then 64 else 0) + m :: bs) neg n.
(** An Int: the sign in bit 7 of the first octet; no octets are zero. *)
Inductive int_code : list Z -> bool -> Z -> Prop :=
| int_empty : int_code [] false 0
| int_octets (neg : bool) m bs : 0 <= m < 128 -> octets bs -> int_code ((if neg then 128 else 0) + m :: bs) neg (big_endian m bs).
Definition signed (neg : bool) (m : Z) : Z := if neg then - m else m.

(** * Decimals: a VarInt exponent and an Int coefficient *)
Definition decimal_code (data : list Z) (d : dec) : Prop :=
  exists ec eneg em cc, data = ec ++ cc /\ varint_code ec eneg em /\ d_exp d = signed eneg em /\ int_code cc (d_neg d) (d_coef d).
(** Those the [decimal] module's default exponent range holds. *)
Definition in_exponent_range (d : dec) : Prop :=
  d_coef d = 0 \/ exists n, 1 <= n /\ 10 ^ (n - 1) <= d_coef d < 10 ^ n /\ -999999 <= d_exp d + n - 1 <= 999999.

(** * Floats *)
(** The double with the value of a single ([FloatProofs.ieee] gives the datum a bit pattern stands for); a NaN
    keeps its sign and fraction, and is quiet. *)
Definition widened (b32 b64 : Z) : Prop :=
  0 <= b64 < 2 ^ 64 /\ double b64 = in_double_units (single b32) /\
  (single b32 = NotANumber -> b64 / 2 ^ 63 = b32 / 2 ^ 31 /\
     b64 mod 2 ^ 52 = (if b32 mod 2 ^ 23 <? 2 ^ 22 then b32 mod 2 ^ 23 + 2 ^ 22 else b32 mod 2 ^ 23) * 2 ^ 29).
Definition float_code (data : list Z) (bits : Z) : Prop :=
  zlen data = 8 /\ bits = big_endian 0 data \/ zlen data = 4 /\ widened (big_endian 0 data) bits.

(** * Timestamps *)
(** A VarInt offset in minutes (minus zero: unknown), VarUInts for year, month, day, hour and minute, second
    in UTC, and a decimal fraction of the second. *)
Definition precision_of (count : nat) : option precision :=
  match count with
  | 1%nat => Some PYear | 2%nat => Some PMonth | 3%nat => Some PDay | 5%nat => Some PMinute | 6%nat => Some PSecond
  | _ => None
  end.
Record moment := mkmoment { m_offset : option Z; m_precision : precision; m_fields : list Z; m_fraction : option dec }.
Inductive moment_code : list Z -> moment -> Prop :=
| moment_of oc neg m cs ns fc p f :
    varint_code oc neg m -> Forall2 varuint_code cs ns -> precision_of (length ns) = Some p ->
    match f with None => fc = [] | Some f => p = PSecond /\ fc <> [] /\ decimal_code fc f end ->
    moment_code (oc ++ concat cs ++ fc) (mkmoment (if neg && (m =? 0) then None else Some (signed neg m)) p ns f).
Definition utc_fields (ns : list Z) (off : option Z) : dtime :=
  mkdt (nth 0 ns 1) (nth 1 ns 1) (nth 2 ns 1) (nth 3 ns 0) (nth 4 ns 0) (nth 5 ns 0) 0 off.
(** A fraction of zero to the second or coarser says nothing. *)
Definition fraction_given (f : option dec) : option dec :=
  match f with Some f => if (d_coef f =? 0) && (0 <=? d_exp f) then None else Some f | None => None end.
(** The Timestamp of a moment: fields in range before and after the offset is added, the same instant, the
    fraction in [0, 1) with at most 28 digits, and the microseconds that are in it. *)
Definition timestamp_of (m : moment) (t : ts) : Prop :=
  let off := match m_offset m with Some o => Some (o * 60) | None => None end in
  let seconds := match off with Some o => o | None => 0 end in
  -86400 < seconds < 86400 /\
  dt_ok (utc_fields (m_fields m) off) /\ dt_ok (ts_dt t) /\ dt_off (ts_dt t) = off /\ ts_prec t = Some (m_precision m) /\
  seconds_of (ts_dt t) - seconds = seconds_of (utc_fields (m_fields m) off) /\
  match fraction_given (m_fraction m) with
  | None => ts_frac t = mkdec false 0 0 /\ ts_fprec t = 0 /\ dt_micro (ts_dt t) = 0
  | Some f =>
    ts_frac t = f /\ ts_fprec t = Z.min (- d_exp f) 6 /\ dt_micro (ts_dt t) = d_coef f * 1000000 / 10 ^ (- d_exp f) /\
    0 <= d_coef f < 10 ^ 28 /\ -999999 <= d_exp f < 0 /\ (d_coef f = 0 \/ d_neg f = false /\ d_coef f < 10 ^ (- d_exp f))
  end.

(** Moments whose fraction the [decimal] module holds exactly. *)
Definition moment_fits (m : moment) : Prop :=
  match m_fraction m with None => True | Some f => in_exponent_range f /\ d_coef f < 10 ^ 28 /\ -999999 <= d_exp f end.

(** * Text: UTF-8 *)
Inductive utf8_char : list Z -> Z -> Prop :=
| utf8_1 c : 0 <= c < 0x80 -> utf8_char [c] c
| utf8_2 a b : 0 <= a < 32 -> 0 <= b < 64 -> 0x80 <= a * 64 + b -> utf8_char [0xC0 + a; 0x80 + b] (a * 64 + b)
| utf8_3 a b c : 0 <= a < 16 -> 0 <= b < 64 -> 0 <= c < 64 -> 0x800 <= a * 4096 + b * 64 + c -> ~ 0xD800 <= a * 4096 + b * 64 + c <= 0xDFFF ->
    utf8_char [0xE0 + a; 0x80 + b; 0x80 + c] (a * 4096 + b * 64 + c)
| utf8_4 a b c d : 0 <= a < 8 -> 0 <= b < 64 -> 0 <= c < 64 -> 0 <= d < 64 -> 0x10000 <= a * 262144 + b * 4096 + c * 64 + d <= 0x10FFFF ->
    utf8_char [0xF0 + a; 0x80 + b; 0x80 + c; 0x80 + d] (a * 262144 + b * 4096 + c * 64 + d).
Inductive utf8_text : list Z -> text -> Prop :=
| utf8_nil : utf8_text [] []
| utf8_cons bs c l s : utf8_char bs c -> utf8_text l s -> utf8_text (bs ++ l) (c :: s).

(** * Payloads *)
Inductive payload_denotes : thunk_kind -> list Z -> scalar -> Prop :=
| pd_int sign data : payload_denotes (KInt sign) data (VInt (sign * big_endian 0 data))
| pd_float data b : float_code data b -> payload_denotes KFloat data (VFloat b)
| pd_decimal data d : decimal_code data d -> in_exponent_range d -> payload_denotes KDecimal data (VDecimal d)
| pd_timestamp data m t : moment_code data m -> timestamp_of m t -> payload_denotes KTimestamp data (VTimestamp (TsStamp t))
| pd_symbol data : payload_denotes KSymbol data (VSymbol (mktok None (Some (big_endian 0 data)) None))
| pd_string data s : utf8_text data s -> payload_denotes KString data (VString s).

(** * Events *)
(** An event of the format with what its payload denotes for its value. *)
Definition clarified (e e' : event) : Prop :=
  exists v, match ev_value e with EvThunk k data => exists s, payload_denotes k data s /\ v = EvVal s | _ => v = ev_value e end /\
    e' = mkev (ev_type e) (ev_ion_type e) v (ev_field e) (ev_annot e) (ev_depth e).
