(** Decimal and hexadecimal numerals, [str(int)], [str(Decimal)], [repr(float)], [float(text)]:
    the Python built-ins the text writer and reader rest on.  Text is a list of code points. *)
From Verif Require Import Base CoreModel.
Local Open Scope Z_scope.

(** * Integers *)

(** The digits of [n >= 0] in base [b], most significant first.
    (writer_text.py:81-91, 221-224: str, %x of Python) *)
Fixpoint base_digits_aux (fuel : nat) (b n : Z) (acc : list Z) : list Z :=
  match fuel with
  | O => acc
  | S f => let acc := n mod b :: acc in if n <? b then acc else base_digits_aux f b (n / b) acc
  end.
(** writer_text.py:81-91, 221-224. *)
Definition base_digits (b n : Z) : list Z := base_digits_aux (S (Z.to_nat (Z.log2 n))) b n [].
(** reader_text.py:545-579: int of Python. *)
Definition base_value (b : Z) (l : list Z) : Z := fold_left (fun a d => a * b + d) l 0.

(** Digit characters: 0-9, then a-f. (writer_text.py:81-91, 221-224) *)
Definition digit_char (d : Z) : Z := if d <? 10 then 48 + d else 87 + d.
(** reader_text.py:545-579. *)
Definition digit_of (c : Z) : Z :=
  if (48 <=? c) && (c <=? 57) then c - 48
  else if (97 <=? c) && (c <=? 102) then c - 87
  else if (65 <=? c) && (c <=? 70) then c - 55
  else 0.

(** [str(n)] for [n >= 0], and for any int. (writer_text.py:81-91) *)
Definition nat_str (n : Z) : text := map digit_char (base_digits 10 n).
(** writer_text.py:89-91. *)
Definition int_str (n : Z) : text := if n <? 0 then 45 :: nat_str (- n) else nat_str n.

(** [int(s)], [int(s, 2)], [int(s, 16)] on digits the reader has checked; an optional minus sign and
    the radix prefix [0b]/[0x] are handled by [int_of]. (reader_text.py:545-579) *)
Definition digits_value (b : Z) (l : text) : Z := base_value b (map digit_of l).
(** writer_text.py:249. *)
Definition is_digit (c : Z) : bool := (48 <=? c) && (c <=? 57).

(** Zero padding to a width: [%02d], [%04x], ... (writer_text.py:150, 157-188, 221-224) *)
Definition pad (w : nat) (l : text) : text := repeat 48 (w - length l)%nat ++ l.
(** writer_text.py:157-172. *)
Definition two (n : Z) : text := pad 2 (nat_str n).

(** * Decimal: [str(Decimal)]

    The algorithm of the General Decimal Arithmetic specification ("to-scientific-string"),
    which [Decimal.__str__] implements. *)
(** writer_text.py:119: str of a Decimal. *)
Definition dec_digits (d : dec) : text := nat_str (d_coef d).
(** writer_text.py:119. *)
Definition signed_str (n : Z) : text := (if n <? 0 then 45 else 43) :: nat_str (Z.abs n).
(** writer_text.py:119. *)
Definition decimal_str (d : dec) : text :=
  let ds := dec_digits d in
  let leftdigits := d_exp d + zlen ds in
  let dotplace := if (d_exp d <=? 0) && (-6 <? leftdigits) then leftdigits else 1 in
  let '(intpart, fracpart) :=
    if dotplace <=? 0 then ([48], 46 :: repeat 48 (Z.to_nat (- dotplace)) ++ ds)
    else if zlen ds <=? dotplace then (ds ++ repeat 48 (Z.to_nat (dotplace - zlen ds)), [])
    else (ztake dotplace ds, 46 :: zdrop dotplace ds) in
  let expo := if leftdigits =? dotplace then [] else 69 :: signed_str (leftdigits - dotplace) in
  (if d_neg d then [45] else []) ++ intpart ++ fracpart ++ expo.

(** * Floats *)

(** [floor(log2(num/den))] for positive [num] and [den]. (reader_text.py:580: float of a text) *)
Definition flog2 (num den : Z) : Z :=
  let k := Z.log2 num - Z.log2 den in
  if num * 2 ^ Z.max 0 (- k) <? den * 2 ^ Z.max 0 k then k - 1 else k.
(** [num/den] rounded to the nearest integer, ties to even. (reader_text.py:580: float of a text) *)
Definition round_div (num den : Z) : Z :=
  let q := num / den in
  let r := num mod den in
  if (2 * r <? den) || ((2 * r =? den) && Z.even q) then q else q + 1.
(** writer_text.py:101. *)
Definition inf_bits : Z := 0x7FF0000000000000.
(** The bits of the double nearest to [num/den >= 0] (IEEE 754, ties to even).
    (reader_text.py:580: float of a text) *)
Definition nearest_bits (num den : Z) : Z :=
  if num =? 0 then 0
  else
    let q := Z.max (-1074) (flog2 num den - 52) in
    let m := round_div (num * 2 ^ Z.max 0 (- q)) (den * 2 ^ Z.max 0 q) in
    Z.min inf_bits ((q + 1074) * 2 ^ 52 + m).
(** The double nearest to [c * 10^e]. (reader_text.py:580; json_encoder.py:56-57: float of a text, of a Decimal) *)
Definition decimal_bits (neg : bool) (c e : Z) : Z :=
  (if neg then 2 ^ 63 else 0) + nearest_bits (c * 10 ^ Z.max 0 e) (10 ^ Z.max 0 (- e)).

(** A finite double is [m * 2^q]; both parts from the bits (sign removed). (writer_text.py:106: repr of a float) *)
Definition float_parts (bits : Z) : Z * Z :=
  let b := bits mod 2 ^ 63 in
  let ex := b / 2 ^ 52 in
  if ex =? 0 then (b, -1074) else (b mod 2 ^ 52 + 2 ^ 52, ex - 1075).
(** writer_text.py:102. *)
Definition float_neg (bits : Z) : bool := 2 ^ 63 <=? bits.
(** writer_text.py:99. *)
Definition float_is_nan (bits : Z) : bool := inf_bits <? bits mod 2 ^ 63.
(** writer_text.py:101. *)
Definition float_is_inf (bits : Z) : bool := bits mod 2 ^ 63 =? inf_bits.

(** [repr(float)]: the shortest decimal that reads back as the same double, the one nearest to it
    if there are several (Python's documented [repr]; CPython uses David Gay's dtoa, mode 0).
    Searched for here, with at most seventeen digits; the exact expansion is what is left if none
    is found (none of the doubles needs it). (writer_text.py:106) *)
Definition exact_decimal (bits : Z) : Z * Z :=
  let '(m, q) := float_parts bits in
  if 0 <=? q then (m * 2 ^ q, 0) else (m * 5 ^ (- q), q).
(** writer_text.py:106. *)
Fixpoint shortest (n : nat) (k : Z) (c e : Z) (goal : Z) : Z * Z :=
  (* the value is c * 10^e; k digits are dropped first, then one fewer each time *)
  match n with
  | O => (c, e)
  | S n' =>
    if k <=? 0 then (c, e)
    else
      let lo := c / 10 ^ k in
      let r := c mod 10 ^ k in
      let try x := nearest_bits (x * 10 ^ Z.max 0 (e + k)) (10 ^ Z.max 0 (- (e + k))) =? goal in
      let near_lo := (2 * r <? 10 ^ k) || ((2 * r =? 10 ^ k) && Z.even lo) in
      let '(first, second) := if near_lo then (lo, lo + 1) else (lo + 1, lo) in
      if try first then (first, e + k)
      else if try second then (second, e + k)
      else shortest n' (k - 1) c e goal
  end.
(** Trailing zeros removed (as dtoa does). (writer_text.py:106) *)
Fixpoint strip_zeros (fuel : nat) (c e : Z) : Z * Z :=
  match fuel with
  | O => (c, e)
  | S f => if (0 <? c) && (c mod 10 =? 0) then strip_zeros f (c / 10) (e + 1) else (c, e)
  end.
(** writer_text.py:106. *)
Definition float_digits (bits : Z) : Z * Z :=
  let '(c, e) := exact_decimal bits in
  if c =? 0 then (0, 0)
  else
    let '(c', e') := shortest 17 (ndigits c - 1) c e (bits mod 2 ^ 63) in
    strip_zeros (Z.to_nat (ndigits c')) c' e'.
(** CPython [PyOS_double_to_string(x, 'r', 0, Py_DTSF_ADD_DOT_0)]. (writer_text.py:106) *)
Definition float_repr (bits : Z) : text :=
  let '(c, e) := float_digits bits in
  let ds := nat_str c in
  let n := zlen ds in
  let decpt := n + e in
  (if float_neg bits then [45] else []) ++
  if c =? 0 then [48; 46; 48]
  else if (decpt <=? -4) || (16 <? decpt) then
    (* one digit before the point, an exponent of at least two digits *)
    ztake 1 ds ++ (if n =? 1 then [] else 46 :: zdrop 1 ds)
    ++ 101 :: (if decpt - 1 <? 0 then 45 else 43) :: two (Z.abs (decpt - 1))
  else if decpt <=? 0 then [48; 46] ++ repeat 48 (Z.to_nat (- decpt)) ++ ds
  else if n <=? decpt then ds ++ repeat 48 (Z.to_nat (decpt - n)) ++ [46; 48]
  else ztake decpt ds ++ 46 :: zdrop decpt ds.
