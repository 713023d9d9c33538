(** Values of the data model: text and UTF-8, decimals, timestamps, symbol tokens, events.
    Models /repo/amazon/ion/core.py and the Python library classes it relies on. *)
From Verif Require Import Base.

(** * Text *)

(** A Python 3 [str] is the list of its code points.
    (read and written at writer_binary_raw.py:204-214 and reader_binary.py:735-736.) *)
Definition text := list Z.

(** Code points that UTF-8 can carry: no surrogates. (writer_binary_raw.py:211, reader_binary.py:736.) *)
Definition is_scalar (c : Z) : bool :=
  ((0 <=? c) && (c <? 0xD800)) || ((0xE000 <=? c) && (c <=? 0x10FFFF)).

(** [chr(c).encode('utf-8')] (CPython); surrogates raise. (writer_binary_raw.py:211.) *)
Definition utf8_encode_cp (c : Z) : res (list Z) :=
  if negb (is_scalar c) then Err UnicodeEncodeError
  else if c <? 0x80 then Ok [c]
  else if c <? 0x800 then Ok [0xC0 + c / 64; 0x80 + c mod 64]
  else if c <? 0x10000 then
    Ok [0xE0 + c / 4096; 0x80 + (c / 64) mod 64; 0x80 + c mod 64]
  else Ok [0xF0 + c / 262144; 0x80 + (c / 4096) mod 64; 0x80 + (c / 64) mod 64; 0x80 + c mod 64].

(** [s.encode('utf-8')]. (writer_binary_raw.py:211.) *)
Fixpoint utf8_encode (s : text) : res (list Z) :=
  match s with
  | [] => Ok []
  | c :: r => let* a := utf8_encode_cp c in let* b := utf8_encode r in Ok (a ++ b)
  end.

(** A UTF-8 continuation octet (CPython; used by reader_binary.py:736). *)
Definition is_cont (b : Z) : bool := (0x80 <=? b) && (b <=? 0xBF).

(** One step of [bytes.decode('utf-8')], strict: the decoded code point and the rest. Overlong
    forms, surrogates and values above U+10FFFF are rejected, as in CPython. (reader_binary.py:736.) *)
Definition utf8_decode_cp (l : list Z) : res (Z * list Z) :=
  match l with
  | [] => Err UnicodeDecodeError
  | b0 :: r0 =>
    if b0 <? 0x80 then Ok (b0, r0)
    else if b0 <? 0xC2 then Err UnicodeDecodeError
    else match r0 with
    | [] => Err UnicodeDecodeError
    | b1 :: r1 =>
      if negb (is_cont b1) then Err UnicodeDecodeError
      else if b0 <? 0xE0 then Ok ((b0 - 0xC0) * 64 + (b1 - 0x80), r1)
      else match r1 with
      | [] => Err UnicodeDecodeError
      | b2 :: r2 =>
        if negb (is_cont b2) then Err UnicodeDecodeError
        else if b0 <? 0xF0 then
          let c := (b0 - 0xE0) * 4096 + (b1 - 0x80) * 64 + (b2 - 0x80) in
          if (c <? 0x800) || negb (is_scalar c) then Err UnicodeDecodeError else Ok (c, r2)
        else match r2 with
        | [] => Err UnicodeDecodeError
        | b3 :: r3 =>
          if negb (is_cont b3) then Err UnicodeDecodeError
          else
            let c := (b0 - 0xF0) * 262144 + (b1 - 0x80) * 4096 + (b2 - 0x80) * 64 + (b3 - 0x80) in
            if (c <? 0x10000) || negb (is_scalar c) then Err UnicodeDecodeError else Ok (c, r3)
        end
      end
    end
  end.

(** [data.decode('utf-8')]; [fuel] is the length of the data. (reader_binary.py:736.) *)
Fixpoint utf8_decode_aux (fuel : nat) (l : list Z) : res text :=
  match l with
  | [] => Ok []
  | _ => match fuel with
    | O => Err OutOfFuel
    | S f => let* (c, r) := utf8_decode_cp l in
             let* s := utf8_decode_aux f r in Ok (c :: s)
    end
  end.
(** [data.decode('utf-8')] at reader_binary.py:736. *)
Definition utf8_decode (l : list Z) : res text := utf8_decode_aux (length l) l.

(** * Decimals *)

(** A finite [decimal.Decimal]: sign bit, coefficient, exponent ([as_tuple()]).  NaNs and
    infinities are not modelled (Ion has no encoding for them). (core.py:24, 381.) *)
Record dec := mkdec { d_neg : bool; d_coef : Z; d_exp : Z }.

(** core.py:381 [DECIMAL_ZERO]. *)
Definition dec_zero : dec := mkdec false 0 0.

(** Number of decimal digits of a coefficient: [len(str(c))], 1 for zero.
    (reader_binary.py:201, writer_binary_raw.py:191; the recursion.) *)
Fixpoint ndigits_aux (fuel : nat) (c : Z) : Z :=
  match fuel with
  | O => 1
  | S f => if c <? 10 then 1 else 1 + ndigits_aux f (c / 10)
  end.
(** [len(str(c))] at reader_binary.py:201 and writer_binary_raw.py:191. *)
Definition ndigits (c : Z) : Z := ndigits_aux (S (Z.to_nat (Z.log2 c))) c.

(** Default context limits (decimal.DefaultContext): Emax = 999999, Emin = -999999, prec = 28,
    rounding = ROUND_HALF_EVEN, traps = InvalidOperation, DivisionByZero, Overflow.
    (used by reader_binary.py:198-202 and writer_binary_raw.py:188-192.) *)
Definition dec_Emax : Z := 999999.
(** Emin of the default context; used by reader_binary.py:198-202. *)
Definition dec_Emin : Z := -999999.
(** The precision of the default context; used by writer_binary_raw.py:173-180 and core.py:491-500. *)
Definition default_prec : Z := 28.

(** Division by [10^k], rounding half to even.
    (the rounding of the contexts at reader_binary.py:198 and writer_binary_raw.py:188.) *)
Definition round_half_even (c k : Z) : Z :=
  let p := 10 ^ k in
  let q := c / p in
  let r := c mod p in
  if (2 * r <? p) || ((2 * r =? p) && Z.even q) then q else q + 1.

(** [Decimal._fix(context)] with the default traps: finalisation of every arithmetic result.
    (decimal.py of CPython; used by reader_binary.py:202 and writer_binary_raw.py:175, 192.) *)
Definition dec_fix (prec : Z) (d : dec) : res dec :=
  let Etiny := dec_Emin - prec + 1 in
  let Etop := dec_Emax - prec + 1 in
  if d_coef d =? 0 then
    Ok (mkdec (d_neg d) 0 (Z.min (Z.max (d_exp d) Etiny) dec_Emax))
  else
    let exp_min0 := ndigits (d_coef d) + d_exp d - prec in
    if Etop <? exp_min0 then Err DecimalException
    else
      let exp_min := Z.max exp_min0 Etiny in
      if d_exp d <? exp_min then
        let c := round_half_even (d_coef d) (exp_min - d_exp d) in
        let '(c, e) := if 10 ^ prec <=? c then (c / 10, exp_min + 1) else (c, exp_min) in
        if Etop <? e then Err DecimalException else Ok (mkdec (d_neg d) c e)
      else Ok d.

(** [Decimal.scaleb(n, context)]. (reader_binary.py:202, writer_binary_raw.py:175, 192.) *)
Definition dec_scaleb (prec : Z) (d : dec) (n : Z) : res dec :=
  let lim := 2 * (dec_Emax + prec) in
  if (n <? - lim) || (lim <? n) then Err DecimalException
  else dec_fix prec (mkdec (d_neg d) (d_coef d) (d_exp d + n)).

(** [Decimal.to_integral_value()]. (writer_binary_raw.py:175, 192.) *)
Definition dec_to_integral (d : dec) : dec :=
  if 0 <=? d_exp d then d else mkdec (d_neg d) (round_half_even (d_coef d) (- d_exp d)) 0.

(** [int(d)]: truncation toward zero. (core.py:491-500, writer_binary_raw.py:175, 192.) *)
Definition dec_int (d : dec) : Z :=
  let m := if 0 <=? d_exp d then d_coef d * 10 ^ d_exp d else d_coef d / 10 ^ (- d_exp d) in
  if d_neg d then - m else m.

(** [d * n] for a Decimal and a non-negative int, default context. (core.py:491-500.) *)
Definition dec_mul_int (d : dec) (n : Z) : res dec :=
  dec_fix default_prec (mkdec (d_neg d) (d_coef d * n) (d_exp d)).

(** [0 <= d] and [d < 1]: comparisons are exact. (core.py:473-477.) *)
Definition dec_nonneg (d : dec) : bool := (d_coef d =? 0) || negb (d_neg d).
(** [d < 1] at core.py:473-477. *)
Definition dec_lt_one (d : dec) : bool :=
  (d_coef d =? 0) || d_neg d ||
  ((d_exp d <? 0) && (d_coef d <? 10 ^ (- d_exp d))).

(** * Dates *)

(** Proleptic Gregorian calendar (Python [datetime]). (used through core.py:521 and 540-561.) *)
Definition is_leap (y : Z) : bool :=
  (y mod 4 =? 0) && (negb (y mod 100 =? 0) || (y mod 400 =? 0)).
(** The length of a month (Python [datetime]; used through core.py:521). *)
Definition days_in_month (y m : Z) : Z :=
  if m =? 2 then (if is_leap y then 29 else 28)
  else if (m =? 4) || (m =? 6) || (m =? 9) || (m =? 11) then 30 else 31.

(** A [datetime]: naive or with a fixed offset.  [dt_off] is [utcoffset()] in seconds
    (sub-second offsets are not modelled). (core.py:394, the base class.) *)
Record dtime := mkdt {
  dt_year : Z; dt_month : Z; dt_day : Z;
  dt_hour : Z; dt_minute : Z; dt_second : Z; dt_micro : Z;
  dt_off : option Z
}.

(** The range of a C int (CPython [datetime.__new__], called at core.py:521). *)
Definition c_int_ok (z : Z) : bool := (-2147483648 <=? z) && (z <=? 2147483647).

(** [datetime(y, mo, d, h, mi, s, us, tz)]: C [int] conversion, then range checks. (core.py:521.) *)
Definition datetime_new (y mo d h mi s us : Z) (off : option Z) : res dtime :=
  if negb (c_int_ok y && c_int_ok mo && c_int_ok d && c_int_ok h && c_int_ok mi && c_int_ok s
           && c_int_ok us) then Err OverflowError
  else if negb ((1 <=? y) && (y <=? 9999)) then Err ValueError
  else if negb ((1 <=? mo) && (mo <=? 12)) then Err ValueError
  else if negb ((1 <=? d) && (d <=? days_in_month y mo)) then Err ValueError
  else if negb ((0 <=? h) && (h <=? 23)) then Err ValueError
  else if negb ((0 <=? mi) && (mi <=? 59)) then Err ValueError
  else if negb ((0 <=? s) && (s <=? 59)) then Err ValueError
  else if negb ((0 <=? us) && (us <=? 999999)) then Err ValueError
  else Ok (mkdt y mo d h mi s us off).

(** The day after / before a date (CPython [normalize_y_m_d], one day out of range). (through core.py:536-561.) *)
Definition next_day (y m d : Z) : Z * Z * Z :=
  if d =? days_in_month y m then (if m =? 12 then (y + 1, 1, 1) else (y, m + 1, 1))
  else (y, m, d + 1).
(** The day before (CPython; through core.py:536-561). *)
Definition prev_day (y m d : Z) : Z * Z * Z :=
  if d =? 1 then (if m =? 1 then (y - 1, 12, 31) else (y, m - 1, days_in_month y (m - 1)))
  else (y, m, d - 1).

(** [dt + timedelta(seconds=delta)] for |delta| < 86400 (every use in the code adds or subtracts a
    UTC offset, which Python bounds strictly by 24 hours).  Leaving the years 1..9999 raises
    OverflowError. (core.py:536-561, equivalence.py:186-198.) *)
Definition dt_shift (t : dtime) (delta : Z) : res dtime :=
  let s := dt_hour t * 3600 + dt_minute t * 60 + dt_second t + delta in
  let '(y, m, d) :=
    if s <? 0 then prev_day (dt_year t) (dt_month t) (dt_day t)
    else if 86400 <=? s then next_day (dt_year t) (dt_month t) (dt_day t)
    else (dt_year t, dt_month t, dt_day t) in
  let s := if s <? 0 then s + 86400 else if 86400 <=? s then s - 86400 else s in
  if (1 <=? y) && (y <=? 9999)
  then Ok (mkdt y m d (s / 3600) (s / 60 mod 60) (s mod 60) (dt_micro t) (dt_off t))
  else Err OverflowError.

(** core.py:314-326 [OffsetTZInfo.__init__] on a delta given in seconds. *)
Definition offset_tz (seconds : Z) : res Z :=
  if (seconds <=? - 86400) || (86400 <=? seconds) then Err ValueError else Ok seconds.

(** core.py:346-372 [TimestampPrecision]. *)
Inductive precision := PYear | PMonth | PDay | PMinute | PSecond.
(** core.py:346-352. *)
Definition prec_rank (p : precision) : Z :=
  match p with PYear => 0 | PMonth => 1 | PDay => 2 | PMinute => 3 | PSecond => 4 end.
(** core.py:354-372 [includes_month] to [includes_second]. *)
Definition includes (p q : precision) : bool := prec_rank q <=? prec_rank p.

(** core.py:394-561 [Timestamp]: a datetime with three more fields. *)
Record ts := mkts {
  ts_dt : dtime;
  ts_prec : option precision;
  ts_fprec : Z;
  ts_frac : dec
}.

(** core.py:440-526 [Timestamp.__new__]; [micro], [prec], [fprec] and [frac] are the optional
    keyword arguments ([None] and absent behave alike). *)
Definition timestamp_new (y mo d h mi s : Z) (micro : option Z) (off : option Z)
  (prec : option precision) (fprec : option Z) (frac : option dec) : res ts :=
  (* 463-470 *)
  let* _ := match fprec with
            | Some f => if (0 <=? f) && (f <=? 6) then Ok tt else Err ValueError
            | None => Ok tt end in
  (* 471-479 *)
  let* _ := match frac with
            | Some f => if dec_nonneg f && dec_lt_one f then Ok tt else Err ValueError
            | None => Ok tt end in
  (* 481-483 *)
  let* _ := match frac, fprec, micro with
            | Some _, None, None => Ok tt
            | Some _, _, _ => Err ValueError
            | _, _, _ => Ok tt end in
  (* 485-489 *)
  let* _ := match fprec, micro with
            | Some _, None => Err ValueError
            | Some f, Some us => if (f =? 0) && negb (us =? 0) then Err ValueError else Ok tt
            | _, _ => Ok tt end in
  let* (us, fp, fs) :=
    match frac with
    | Some f =>
      (* 491-500 *)
      let f := if (d_coef f =? 0) && (0 <? d_exp f) then dec_zero else f in
      let* m := dec_mul_int f 1000000 in
      Ok (dec_int m, Z.min (- d_exp f) 6, f)
    | None =>
      match micro with
      | Some us =>
        (* 501-513: exact only if the dropped digits are zero (Inexact becomes ValueError) *)
        let fp := match fprec with Some f => f | None => 6 end in
        if fp =? 0 then Ok (us, fp, dec_zero)
        else if us mod 10 ^ (6 - fp) =? 0
             then Ok (us, fp, mkdec (us <? 0) (Z.abs us / 10 ^ (6 - fp)) (- fp))
             else Err ValueError
      | None => Ok (0, 0, dec_zero)
      end
    end in
  let* t := datetime_new y mo d h mi s us off in
  Ok (mkts t prec fp fs).

(** What a timestamp expression can evaluate to: a [Timestamp] or a plain [datetime]. (core.py:536-561.) *)
Inductive tsvalue := TsStamp (t : ts) | TsPlain (t : dtime).

(** core.py:536-561 [Timestamp.adjust_from_utc_fields] with microsecond [None] and
    fractional_precision [None] (how both readers call it).  When [precision] is [None] the
    result of the addition is returned as it is: modelled as a plain datetime. *)
Definition adjust_from_utc_fields (y mo d h mi s : Z) (off : option Z)
  (prec : option precision) (frac : option dec) : res tsvalue :=
  let* raw := timestamp_new y mo d h mi s None off prec None frac in
  match off with
  | None | Some 0 => Ok (TsStamp raw)
  | Some o =>
    let* adj := dt_shift (ts_dt raw) o in
    match ts_prec raw with
    | None => Ok (TsPlain adj)
    | Some _ =>
      let* t := timestamp_new (dt_year adj) (dt_month adj) (dt_day adj)
                              (dt_hour adj) (dt_minute adj) (dt_second adj) None
                              off (ts_prec raw) None (Some (ts_frac raw)) in
      Ok (TsStamp t)
    end
  end.

(** core.py:564-595 [timestamp(...)]. *)
Definition timestamp_fn (y mo d h mi s : Z) (micro : option Z)
  (off_hours off_minutes : option Z) (prec : option precision) (fprec : option Z)
  (frac : option dec) : res ts :=
  let* d1 := match off_hours with
             | None => Ok None
             | Some oh => if (oh <? -23) || (23 <? oh) then Err ValueError else Ok (Some (oh * 3600))
             end in
  let* d2 := match off_minutes with
             | None => Ok d1
             | Some om => if (om <? -59) || (59 <? om) then Err ValueError
                          else Ok (Some (match d1 with None => om * 60 | Some x => x + om * 60 end))
             end in
  let* tz := match d2 with None => Ok None | Some x => let* o := offset_tz x in Ok (Some o) end in
  timestamp_new y mo d h mi s micro tz prec fprec frac.

(** * Symbol tokens *)

(** symbols.py:52-66 [ImportLocation]. *)
Record location := mkloc { loc_name : text; loc_pos : Z }.
(** symbols.py:69-89 [SymbolToken].  The constructor refuses (None, None). *)
Record token := mktok { tk_text : option text; tk_sid : option Z; tk_loc : option location }.

(** symbols.py:69-89 as built at reader_binary.py:207-213. *)
Definition sid_token (sid : Z) : token := mktok None (Some sid) None.
(** symbols.py:69-89 as built at reader_text.py:280-299. *)
Definition text_token (t : text) : token := mktok (Some t) None None.
(** symbols.py:98 *)
Definition symbol_zero : token := sid_token 0.

(** [==] on values which may be [None], for example equivalence.py:201-227. *)
Definition opt_eqb {A} (f : A -> A -> bool) (a b : option A) : bool :=
  match a, b with Some x, Some y => f x y | None, None => true | _, _ => false end.
(** symbols.py:52-66: [==] of two import locations. *)
Definition location_eqb (a b : location) : bool :=
  zlist_eqb (loc_name a) (loc_name b) && (loc_pos a =? loc_pos b).
(** symbols.py:69-89: [==] of two tokens, all three fields. *)
Definition token_eqb (a b : token) : bool :=
  opt_eqb zlist_eqb (tk_text a) (tk_text b) && opt_eqb Z.eqb (tk_sid a) (tk_sid b) &&
  opt_eqb location_eqb (tk_loc a) (tk_loc b).

(** * Events *)

(** core.py:33-66 [IonType]. *)
Inductive iontype :=
| TNull | TBool | TInt | TFloat | TDecimal | TTimestamp | TSymbol | TString
| TClob | TBlob | TList | TSexp | TStruct.
(** core.py:35-47: the numbers of the types. *)
Definition iontype_num (t : iontype) : Z :=
  match t with TNull => 0 | TBool => 1 | TInt => 2 | TFloat => 3 | TDecimal => 4 | TTimestamp => 5
  | TSymbol => 6 | TString => 7 | TClob => 8 | TBlob => 9 | TList => 10 | TSexp => 11 | TStruct => 12
  end.
(** core.py:35-47: [is] on types. *)
Definition iontype_eqb (a b : iontype) : bool := iontype_num a =? iontype_num b.
(** core.py:63-66 *)
Definition is_container (t : iontype) : bool := 10 <=? iontype_num t.

(** core.py:70-104 [IonEventType]. *)
Inductive evtype := EIncomplete | EStreamEnd | EVersionMarker | EScalar | EContainerStart | EContainerEnd.
(** core.py:70-104 [is_stream_signal]. *)
Definition is_stream_signal (t : evtype) : bool :=
  match t with EIncomplete | EStreamEnd => true | _ => false end.
(** core.py:70-104 [begins_value]. *)
Definition begins_value (t : evtype) : bool :=
  match t with EScalar | EContainerStart => true | _ => false end.

(** Scalar values.  [VFloat] holds the IEEE-754 binary64 bit pattern (0 <= bits < 2^64).
    (core.py:107-249, the field [value].) *)
Inductive scalar :=
| VBool (b : bool)
| VInt (z : Z)
| VFloat (bits : Z)
| VDecimal (d : dec)
| VTimestamp (t : tsvalue)
| VSymbol (t : token)
| VString (s : text)
| VBytes (b : list Z).

(** Deferred scalar parsing: which factory of reader_binary.py, and its data. *)
Inductive thunk_kind := KInt (sign : Z) | KFloat | KDecimal | KTimestamp | KSymbol | KString.

(** The [value] slot of an event. (core.py:107-249, 266-286.) *)
Inductive evalue :=
| EvNone
| EvVal (s : scalar)
| EvThunk (k : thunk_kind) (data : list Z)
| EvLazy (r : res scalar)          (* a thunk of the text reader: what calling it gives *)
| EvVersion (major minor : Z).

(** core.py:107-249 [IonEvent].  [depth] is [None] for stream signals. *)
Record event := mkev {
  ev_type : evtype;
  ev_ion_type : option iontype;
  ev_value : evalue;
  ev_field : option token;
  ev_annot : list token;
  ev_depth : option Z
}.

(** core.py:287-292, the structural singletons. *)
Definition stream_end_event : event := mkev EStreamEnd None EvNone None [] None.
(** core.py:289. *)
Definition incomplete_event : event := mkev EIncomplete None EvNone None [] None.
(** core.py:290-292. *)
Definition version_marker_event : event := mkev EVersionMarker None (EvVersion 1 0) None [] (Some 0).
