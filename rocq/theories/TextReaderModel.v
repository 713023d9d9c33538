(** Model of the text reader: /repo/amazon/ion/reader_text.py, with the trampoline and the blocking
    reader of /repo/amazon/ion/reader.py.

    Every co-routine of reader_text.py is a state machine whose state is a constructor of [hs]; the
    generator of a container is [tcore].  None of them looks at the input queue except to take its
    first character or to put one character back, so the machine below receives characters and says
    what to put back; the queue itself is a list (BufferModel, C21, is the queue's own model). *)
From Coq Require Import String.
From Verif Require Import Base CoreModel BinWriterModel BinReaderModel SymbolsModel TextNumbers TextWriterModel.
Local Open Scope Z_scope.

(** * Characters *)

(** What a handler is sent: an integer (or [CodePoint]) with its [is_escaped] flag, [gone] when its
    [char] is the empty string (an escaped newline, 1087-1093), or the end-of-file marker.
    (reader_text.py:36-37, 272-277) *)
Inductive ch := Ch (z : Z) (esc gone : bool) | Eof.
(** The marker [_EOF] is a [bytes] object: no comparison with a character succeeds. (reader.py:38-40) *)
Definition cz (c : ch) : Z := match c with Ch z _ _ => z | Eof => -1 end.
(** reader.py:134-136. *)
Definition is_eof (c : ch) : bool := match c with Eof => true | _ => false end.
(** reader_text.py:272-277. *)
Definition escaped (c : ch) : bool := match c with Ch _ e _ => e | Eof => false end.
(** reader.py:201-219. *)
Definition plain (z : Z) : ch := Ch z false false.

(** reader_text.py:88-90, the character classes. *)
Definition mem (c : Z) (l : list Z) : bool := existsb (Z.eqb c) l.
(** reader_text.py:88-90. *)
Definition chars (s : string) : list Z := txt s.
(** reader_text.py:97. *)
Definition c_ws_not_nl : list Z := [32; 9; 11; 12].
(** reader_text.py:98. *)
Definition c_ws : list Z := [32; 9; 11; 12; 10; 13].
(** reader_text.py:99. *)
Definition c_terminators : list Z := Eval compute in chars "{}[](),""' " ++ [9; 10; 13] ++ chars "/".
(** reader_text.py:100. *)
Definition c_symbol_end : list Z := Eval compute in c_ws ++ chars "/:".
(** reader_text.py:116. *)
Definition c_operators : list Z := Eval compute in chars "!#%&*+-./;<=>?@^`|~".
(** reader_text.py:117. *)
Definition c_escapes : list Z := Eval compute in chars "abtnfrv?0'""/\".
(** reader_text.py:98. *)
Definition is_ws (c : Z) : bool := mem c c_ws.
(** reader_text.py:118. *)
Definition is_newline (c : Z) : bool := (c =? 13) || (c =? 10).
(** reader_text.py:105. *)
Definition is_hex (c : Z) : bool := is_digit c || ((97 <=? c) && (c <=? 102)) || ((65 <=? c) && (c <=? 70)).
(** reader_text.py:113. *)
Definition is_base64 (c : Z) : bool := is_letter c || is_digit c || (c =? 43) || (c =? 47).
(** reader_text.py:114. *)
Definition ident_start (c : Z) : bool := is_letter c || (c =? 95).
(** reader_text.py:115. *)
Definition ident_char (c : Z) : bool := ident_start c || is_digit c || (c =? 36).
(** reader_text.py:116. *)
Definition is_op (c : Z) : bool := mem c c_operators.
(** reader_text.py:106. *)
Definition is_exp_d (c : Z) : bool := (c =? 68) || (c =? 100).
(** reader_text.py:107. *)
Definition is_exp_e (c : Z) : bool := (c =? 69) || (c =? 101).
(** reader_text.py:108. *)
Definition is_sign (c : Z) : bool := (c =? 43) || (c =? 45).
(** reader_text.py:177-178 [_ends_value] *)
Definition ends (c : ch) : bool := mem (cz c) c_terminators || is_eof c.

(** * Parsing the text of scalars: the thunks *)

(** reader_text.py:565-569. *)
Fixpoint span (p : Z -> bool) (l : text) : text * text :=
  match l with
  | c :: r => if p c then let '(a, b) := span p r in (c :: a, b) else ([], l)
  | [] => ([], [])
  end.
(** reader_text.py:565-573. *)
Definition strip_minus (l : text) : bool * text := match l with 45 :: r => (true, r) | _ => (false, l) end.
(** reader_text.py:565-573. *)
Definition signed (neg : bool) (n : Z) : Z := if neg then - n else n.
(** [int(value)], [int(value, 2)], [int(value, 16)] (565-573) on what the handlers let through.
    (reader_text.py:565-569, 577) *)
Definition parse_int10 (l : text) : Z := let '(n, r) := strip_minus l in signed n (digits_value 10 r).
(** reader_text.py:572-573, 578-579. *)
Definition parse_radix (b : Z) (l : text) : Z := let '(n, r) := strip_minus l in signed n (digits_value b (skipn 2 r)).
(** An exponent: an optional sign and digits. (reader_text.py:580-581) *)
Definition parse_exp (l : text) : Z :=
  match l with 45 :: r => - digits_value 10 r | 43 :: r => digits_value 10 r | _ => digits_value 10 l end.
(** A number as sign, coefficient, exponent: [-]digits[.digits][e[+-]digits]. (reader_text.py:580-581) *)
Definition parse_parts (l : text) : bool * Z * Z :=
  let '(n, r) := strip_minus l in
  let '(mant, ex) := span (fun c => negb (is_exp_e c)) r in
  let '(ip, fp) := span (fun c => negb (c =? 46)) mant in
  let frac := match fp with _ :: f => f | [] => [] end in
  (n, digits_value 10 (ip ++ frac), match ex with _ :: x => parse_exp x | [] => 0 end - zlen frac).
(** [Decimal(text)]: exact, within the limits of the C implementation (MAX_EMAX, and the smallest
    exponent MIN_EMIN - (MAX_PREC - 1)). (reader_text.py:581) *)
Definition decimal_of_text (l : text) : res dec :=
  let '(n, c, e) := parse_parts l in
  if (e <? -1999999999999999997) || (999999999999999999 <? e + ndigits c - 1) then Err DecimalException
  else Ok (mkdec n c e).
(** [float(text)]: the nearest double. (reader_text.py:580) *)
Definition float_of_text (l : text) : Z := let '(n, c, e) := parse_parts l in decimal_bits n c e.

(** [base64.b64decode] (binascii.a2b_base64, not strict): [pos] and [left] are the position in the
    current group of four and the bits left over; [pads] counts consecutive pad characters.  What
    remains of an unfinished group at the end is an error (binascii.Error, a ValueError). (reader_text.py:1651) *)
Definition b64_value (c : Z) : Z :=
  if (65 <=? c) && (c <=? 90) then c - 65
  else if (97 <=? c) && (c <=? 122) then c - 71
  else if is_digit c then c + 4
  else if c =? 43 then 62 else 63.
(** reader_text.py:1651. *)
Fixpoint b64_decode_from (l : list Z) (pos left pads : Z) : res (list Z) :=
  match l with
  | [] => if pos =? 0 then Ok [] else Err ValueError
  | c :: r =>
    if c =? 61 then
      if (2 <=? pos) && (4 <=? pos + (pads + 1)) then Ok []
      else b64_decode_from r pos left (if 2 <=? pos then pads + 1 else pads)
    else
      let v := b64_value c in
      if pos =? 0 then b64_decode_from r 1 v 0
      else if pos =? 1 then let* o := b64_decode_from r 2 (v mod 16) 0 in Ok (left * 4 + v / 16 :: o)
      else if pos =? 2 then let* o := b64_decode_from r 3 (v mod 4) 0 in Ok (left * 16 + v / 4 :: o)
      else let* o := b64_decode_from r 0 0 0 in Ok (left * 64 + v :: o)
  end.
(** reader_text.py:1651. *)
Definition b64_decode (l : list Z) : res (list Z) := b64_decode_from l 0 0 0.

(** reader_text.py:841-857 [_TimestampTokens]: nine components, indexed by [_TimestampState] (829-838). *)
Definition tstokens := list (option text).
(** reader_text.py:851-854. *)
Definition tok_set (l : tstokens) (i : Z) (v : text) : tstokens :=
  firstn (Z.to_nat i) l ++ Some v :: skipn (S (Z.to_nat i)) l.
(** reader_text.py:856-857. *)
Definition tok_get (l : tstokens) (i : Z) : option text := nth (Z.to_nat i) l None.

(** reader_text.py:870-935 [_parse_timestamp] *)
Definition parse_ts (l : tstokens) : res scalar :=
  let* (oh, om) :=
    match tok_get l 7 with
    | Some h =>
      match tok_get l 8 with
      | None => Err AssertionError
      | Some m =>
        let neg := mem 45 h in
        let oh := parse_int10 h in
        let om := parse_int10 m * (if neg then -1 else 1) in
        if neg && (oh =? 0) && (om =? 0) then Ok (None, None) else Ok (Some oh, Some om)
      end
    | None => match tok_get l 8 with None => Ok (None, None) | Some _ => Err AssertionError end
    end in
  let* y := match tok_get l 0 with None => Err AssertionError | Some y => Ok (parse_int10 y) end in
  let '(mo, p) := match tok_get l 1 with None => (1, PYear) | Some m => (parse_int10 m, PMonth) end in
  let '(d, p) := match tok_get l 2 with None => (1, p) | Some d => (parse_int10 d, PDay) end in
  let* (h, mi, p) :=
    match tok_get l 3 with
    | None => match tok_get l 4 with None => Ok (0, 0, p) | Some _ => Err AssertionError end
    | Some h => match tok_get l 4 with
                | None => Err AssertionError
                | Some m => Ok (parse_int10 h, parse_int10 m, PMinute) end
    end in
  let* (s, f, p) :=
    match tok_get l 5 with
    | None => Ok (0, None, p)
    | Some s =>
      let* f := match tok_get l 6 with
                | None => Ok None
                | Some f => let* x := dec_scaleb default_prec (mkdec false (digits_value 10 f) 0) (- zlen f) in Ok (Some x)
                end in
      Ok (parse_int10 s, f, PSecond)
    end in
  let* t := timestamp_fn y mo d h mi s None oh om (Some p) None f in
  Ok (VTimestamp (TsStamp t)).

(** * Contexts *)

(** A symbol in the making: a [CodePointArray], a [SymbolToken] or an [_IVMToken] (1425-1442).
    (reader_text.py:280-299, 1425-1442) *)
Inductive symv := SCodes (l : text) | STok (t : token) | SIvm (t : text).

(** reader_text.py:302-520 [_HandlerContext] of a child.  [k_codes]: the value is a [CodePointArray] rather than a
    [bytearray].  Container, queue, depth and whence are those of the enclosing container. *)
Record tctx := mkk {
  k_field : option token;
  k_annot : list token;
  k_codes : bool;
  k_val : list Z;
  k_type : option iontype;
  k_pend : option symv;
  k_quoted : bool;
  k_line : bool;
  k_self : bool;
  k_comp : bool
}.
(** reader_text.py:455-467 [derive_child_context] *)
Definition child_new : tctx := mkk None [] false [] None None false false false false.

(** reader_text.py:302-344. *)
Definition with_val (k : tctx) (v : list Z) : tctx :=
  mkk (k_field k) (k_annot k) (k_codes k) v (k_type k) (k_pend k) (k_quoted k) (k_line k) (k_self k) (k_comp k).
(** reader_text.py:302-344. *)
Definition push (k : tctx) (c : Z) : tctx := with_val k (k_val k ++ [c]).
(** reader_text.py:388-398 *)
Definition set_unicode (quoted : bool) (k : tctx) : res tctx :=
  if k_codes k then (if Bool.eqb (k_quoted k) quoted then Ok k else Err AssertionError)
  else Ok (mkk (k_field k) (k_annot k) true (k_val k) (k_type k) (k_pend k) quoted false (k_self k) (k_comp k)).
(** reader_text.py:400-404 *)
Definition set_quoted (b : bool) (k : tctx) : tctx :=
  mkk (k_field k) (k_annot k) (k_codes k) (k_val k) (k_type k) (k_pend k) b false (k_self k) (k_comp k).
(** reader_text.py:406-414 *)
Definition set_self (b : bool) (k : tctx) : tctx :=
  mkk (k_field k) (k_annot k) (k_codes k) (k_val k) (k_type k) (k_pend k) (k_quoted k) (k_line k) b (k_comp k).
(** reader_text.py:469-472 *)
Definition set_line (b : bool) (k : tctx) : tctx :=
  mkk (k_field k) (k_annot k) (k_codes k) (k_val k) (k_type k) (k_pend k) (k_quoted k) b (k_self k) (k_comp k).
(** reader_text.py:474-480 *)
Definition set_type (t : option iontype) (k : tctx) : tctx :=
  if opt_eqb iontype_eqb t (k_type k) then k
  else mkk (k_field k) (k_annot k) (k_codes k) (k_val k) t (k_pend k) (k_quoted k) false (k_self k) (k_comp k).
(** reader_text.py:506-516 *)
Definition set_pending (s : symv) (k : tctx) : tctx :=
  mkk (k_field k) (k_annot k) false [] (k_type k) (Some s) (k_quoted k) false (k_self k) (k_comp k).
(** reader_text.py:518-520. *)
Definition set_comp (k : tctx) : tctx :=
  mkk (k_field k) (k_annot k) (k_codes k) (k_val k) (k_type k) (k_pend k) (k_quoted k) (k_line k) (k_self k) true.
(** reader_text.py:443-453 *)
Definition set_empty_symbol (k : tctx) : tctx :=
  mkk None [] false [] None (Some (SCodes [])) (k_quoted k) false (k_self k) (k_comp k).

(** reader_text.py:280-299 [_as_symbol], for annotations and field names. *)
Definition as_token (s : symv) : token :=
  match s with SCodes l => text_token l | STok t => t | SIvm l => text_token l end.
(** reader_text.py:482-493 *)
Definition set_annotation (k : tctx) : res tctx :=
  match k_pend k with
  | None => Err AssertionError
  | Some s =>
    match k_val k with
    | _ :: _ => Err AssertionError
    | [] => Ok (mkk (k_field k) (k_annot k ++ [as_token s]) (k_codes k) [] None None false false false (k_comp k))
    end
  end.
(** reader_text.py:495-504 *)
Definition set_field_name (k : tctx) : res tctx :=
  match k_pend k with
  | None => Err AssertionError
  | Some s =>
    match k_val k with
    | _ :: _ => Err AssertionError
    | [] => Ok (mkk (Some (as_token s)) (k_annot k) (k_codes k) [] (k_type k) None false false false (k_comp k))
    end
  end.

(** What surrounds a handler: whether the data is [str] (else [bytes]), the type of the container
    ([None] at the top level) and the depth. (reader_text.py:421-441) *)
Record tenv := mkenv { e_unicode : bool; e_type : option iontype; e_depth : Z }.
(** reader_text.py:1216, 1395, 1451. *)
Definition in_sexp (v : tenv) : bool := opt_eqb iontype_eqb (e_type v) (Some TSexp).
(** reader_text.py:249-269 *)
Definition is_delimited (t : option iontype) : bool :=
  match t with Some TStruct => true | Some TList => true | _ => false end.

(** reader_text.py:346-363 [event_transition]; [symbol_event] when the type is SYMBOL. *)
Definition value_event (v : tenv) (k : tctx) (et : evtype) (t : option iontype) (x : evalue) : event :=
  mkev et t x (k_field k) (k_annot k) (Some (e_depth v)).
(** reader_text.py:1376-1387. *)
Definition symbol_event (v : tenv) (k : tctx) (s : symv) : res event :=
  match s with
  | SIvm l =>
    match k_annot k with
    | [] => if e_depth v =? 0
            then (if zlist_eqb l TEXT_ION_1_0 then Ok version_marker_event else Err IonException)
            else Err AssertionError
    | _ :: _ => Err AssertionError
    end
  | _ => Ok (value_event v k EScalar (Some TSymbol) (EvVal (VSymbol (as_token s))))
  end.
(** A thunk event of the context's type. (reader_text.py:346-363) *)
Definition thunk_event (v : tenv) (k : tctx) (r : res scalar) : event :=
  value_event v k EScalar (k_type k) (EvLazy r).

(** * Handlers *)

(** reader_text.py:654-804, the numeric components. *)
Inductive numkind := NDec | NFlt | NFrac | NWhole | NBin | NHex.
(** reader_text.py:938-1018: what the timestamp handler may see next. *)
Inductive tsnext := XDigits | XDigitsTerm | XTerm | XYearDelim | XTTerm | XColon | XOffColon | XOffDot | XDigitsOff.

(** The suspended handlers.  The return handler of a comment is [None] for the container.
    (reader_text.py:584-1805) *)
Inductive hs :=
| HNeg                                             (* 584-594 *)
| HZero                                            (* 597-612 *)
| HNum                                             (* 615-637 *)
| HSlash (ev : event)                              (* 640-651 *)
| HNumeric (n : numkind) (prev : Z)                (* 654-804 *)
| HTsZero                                          (* 807-826 *)
| HTs (prev st : Z) (nxt : tsnext) (toks : tstokens) (can : bool) (* 938-1018 *)
| HComm0 (w : option hs)                           (* 1021-1034 *)
| HLine (w : option hs)                            (* 1035-1048 *)
| HBlock (w : option hs) (star : bool)
| HSexpSlash (w : option hs) (ev : option event)   (* 1051-1068 *)
| HLong (quotes : Z) (in_data is_clob is_field : bool) (* 1097-1177 *)
| HLongQuote (ev : event)                          (* 1145-1160 *)
| HNull (seen : text)                              (* 1180-1207 *)
| HKwOp (c : Z)                                    (* 1210-1225 *)
| HKw (null nan tru fls : bool) (mi : nat) (is_field : bool) (* 1226-1291 *)
| HInf (neg : bool) (mi : nat)                     (* 1294-1358 *)
| HOper                                            (* 1361-1373 *)
| HUnqOp (c : Z)                                   (* 1390-1409 *)
| HUnq (prev : Z) (is_field : bool)                (* 1410-1422 *)
| HDollar (prev : Z) (ivm complete sid : bool) (mi : nat) (post is_field : bool) (* 1445-1498 *)
| HStr (is_clob is_field : bool)                   (* 1504-1584 *)
| HSym (is_field : bool)                           (* 1504-1553, 1587-1601 *)
| HSq1 (is_field : bool)                           (* 1604-1636 *)
| HSq2 (is_field : bool)
| HBrace                                           (* 1639-1644 *)
| HLob0 (quotes : Z)                               (* 1665-1689 *)
| HBlob (prev digits pads : Z)                     (* 1692-1765 *)
| HClob (prev : Z)                                 (* 1692-1732, 1768-1780 *)
| HCont (t : iontype).                             (* 1790-1805 *)

(** What a handler answers (Transition): an event, possibly composite (523-552: with the next
    handler, if any, and its context); another handler (or itself); back to the container.  The
    list holds what it put back on the queue ([queue.unread]). (reader_text.py:523-552, reader.py:303-308) *)
Inductive trans :=
| TEv (ev : event) (comp : option (option hs * tctx))
| TGo (h : hs)
| TBack.
(** reader_text.py:584-1805. *)
Definition answer : Type := trans * tctx * list Z.
(** reader_text.py:40-57. *)
Definition illegal {A} : res A := Err IonException.
(** reader_text.py:365-367. *)
Definition go (k : tctx) (h : hs) : res answer := Ok (TGo h, k, []).
(** reader_text.py:365-367. *)
Definition back (k : tctx) : res answer := Ok (TBack, k, []).
(** reader_text.py:346-363. *)
Definition emits (k : tctx) (ev : event) : res answer := Ok (TEv ev None, k, []).
(** reader_text.py:523-552 [_CompositeTransition]; the current context is marked. *)
Definition emits_then (k : tctx) (ev : event) (h : option hs) (k' : tctx) : res answer :=
  Ok (TEv ev (Some (h, k')), set_comp k, []).
(** reader.py:221-259 [unread]: of the end-of-file marker, [six.int2byte] or [chr] fails. *)
Definition unread (v : tenv) (c : ch) : res (list Z) :=
  match c with Ch z _ _ => Ok [z] | Eof => Err (if e_unicode v then TypeError else StructError) end.
(** reader_text.py:640-651, 1604-1622. *)
Definition putting_back (v : tenv) (c : ch) (r : res answer) : res answer :=
  let* u := unread v c in let* (t, k, _) := r in Ok (t, k, u).

(** ** Numbers *)

(** The text of a finished number, by its last component. (reader_text.py:576-581, 703-707) *)
Definition parse_component (n : numkind) (l : text) : res scalar :=
  match n with
  | NDec | NFrac => let* d := decimal_of_text l in Ok (VDecimal d)
  | NFlt => Ok (VFloat (float_of_text l))
  | NWhole => Ok (VInt (parse_int10 l))
  | NBin => Ok (VInt (parse_radix 2 l))
  | NHex => Ok (VInt (parse_radix 16 l))
  end.
(** reader_text.py:106-107, 735-736. *)
Definition exp_char (n : numkind) (c : Z) : bool :=
  match n with NDec => is_exp_d c | NFlt => is_exp_e c | _ => false end.
(** reader_text.py:102, 104, 803-804. *)
Definition radix_char (n : numkind) (c : Z) : bool :=
  match n with NBin => (c =? 66) || (c =? 98) | NHex => (c =? 88) || (c =? 120) | _ => false end.
(** reader_text.py:101, 103, 105. *)
Definition charset (n : numkind) (c : Z) : bool :=
  match n with NBin => (c =? 48) || (c =? 49) | NHex => is_hex c | _ => is_digit c end.
(** reader_text.py:711-804. *)
Definition illegal_at_end (n : numkind) (c : Z) : bool :=
  match n with
  | NDec | NFlt => exp_char n c || is_sign c
  | NBin | NHex => radix_char n c
  | _ => false
  end.
(** reader_text.py:694-702. *)
Definition before_underscore (n : numkind) (c : Z) : bool :=
  match n with NFrac | NWhole => c =? 46 | _ => illegal_at_end n c end.

(** reader_text.py:794-798: the start of a component. *)
Definition radix_start (k : tctx) : bool :=
  (zlist_eqb (k_val k) [48] || zlist_eqb (k_val k) [45; 48]) && opt_eqb iontype_eqb (k_type k) (Some TInt).
(** reader_text.py:654-690. *)
Definition start_numeric (n : numkind) (c : Z) (k : tctx) : res answer :=
  match n with
  | NDec => go (push (set_type (Some TDecimal) k) 101) (HNumeric n c)
  | NFlt => go (push (set_type (Some TFloat) k) c) (HNumeric n c)
  | NFrac => go (push (set_type (Some TDecimal) k) c) (HNumeric n c)
  | NWhole => go (if c =? 95 then k else push k c) (HNumeric n c)
  | NBin | NHex => if radix_start k then go (push k c) (HNumeric n c) else Err AssertionError
  end.

(** reader_text.py:938-958: the start of the timestamp handler, after the year. *)
Definition start_ts (c : Z) (k : tctx) : res answer :=
  let k := set_type (Some TTimestamp) k in
  if zlen (k_val k) =? 4 then
    go k (HTs c 0 (if c =? 84 then XDigitsTerm else XDigits)
            [Some (k_val k); None; None; None; None; None; None; None; None] (c =? 84))
  else illegal.

(** reader_text.py:640-651, 1021-1034 [_comment_handler]: the character after the slash. *)
Definition start_comment (c : ch) (w : option hs) (k : tctx) : res (hs * tctx) :=
  if cz c =? 47 then Ok (HLine w, set_line true k)
  else if cz c =? 42 then Ok (HBlock w false, if k_line k then set_line false k else k)
  else match c with Eof => Err TypeError | _ => Err IonException end.

(** A number is complete: its event, or a comment that must follow the slash. (reader_text.py:678-707) *)
Definition number_end (v : tenv) (c : ch) (k : tctx) (r : res scalar) : res answer :=
  let ev := thunk_event v k r in
  if cz c =? 47 then go k (HSlash ev) else emits k ev.

(** reader_text.py:773-782: the tables after a whole or fractional part. *)
Definition after_whole (c : Z) : option numkind :=
  if c =? 46 then Some NFrac else if is_exp_d c then Some NDec else if is_exp_e c then Some NFlt else None.
(** reader_text.py:762-770. *)
Definition after_frac (c : Z) : option numkind :=
  if is_exp_d c then Some NDec else if is_exp_e c then Some NFlt else None.

(** reader_text.py:678-707 *)
Definition send_numeric (v : tenv) (n : numkind) (prev : Z) (c : ch) (k : tctx) : res answer :=
  let z := cz c in
  if ends c then
    if (prev =? 95) || illegal_at_end n prev then illegal
    else number_end v c k (parse_component n (k_val k))
  else if z =? 95 then
    if (prev =? 95) || before_underscore n prev then illegal else go k (HNumeric n z)
  else if charset n z then go (push k z) (HNumeric n z)
  else match n with
       | NDec | NFlt => if is_sign z && exp_char n prev then go (push k z) (HNumeric n z) else illegal
       | NFrac => if prev =? 95 then illegal
                  else match after_frac z with Some n' => start_numeric n' z k | None => illegal end
       | NWhole => if prev =? 95 then illegal
                   else match after_whole z with Some n' => start_numeric n' z k | None => illegal end
       | NBin | NHex => illegal
       end.

(** reader_text.py:615-637 *)
Definition send_num (v : tenv) (c : ch) (k : tctx) : res answer :=
  let z := cz c in
  if ends c then number_end v c k (Ok (VInt (parse_int10 (k_val k))))
  else if is_digit z then go (push k z) HNum
  else if z =? 95 then start_numeric NWhole z k
  else match after_whole z with
       | Some n => start_numeric n z k
       | None => if (z =? 45) || (z =? 84) then start_ts z k else illegal
       end.
(** reader_text.py:597-606 *)
Definition start_zero (c : Z) (k : tctx) : res answer :=
  match k_val k with
  | [] | [45] => go (push (set_type (Some TInt) k) c) HZero
  | _ => Err AssertionError
  end.
(** reader_text.py:597-612. *)
Definition send_zero (v : tenv) (c : ch) (k : tctx) : res answer :=
  let z := cz c in
  if ends c then number_end v c k (Ok (VInt (parse_int10 (k_val k))))
  else match after_whole z with
       | Some n => start_numeric n z k
       | None =>
         if is_digit z then
           (* 807-816 *)
           let k := set_type (Some TTimestamp) k in
           match k_val k with
           | 45 :: _ => illegal
           | _ => go (push k z) HTsZero
           end
         else if radix_char NBin z then start_numeric NBin z k
         else if radix_char NHex z then start_numeric NHex z k
         else illegal
       end.
(** reader_text.py:807-826 *)
Definition send_ts_zero (c : ch) (k : tctx) : res answer :=
  let z := cz c in
  if (z =? 45) || (z =? 84) then start_ts z k
  else if is_digit z then go (push k z) HTsZero
  else illegal.

(** ** Timestamps (950-1019) *)
(** reader_text.py:99. *)
Definition is_term (c : Z) : bool := mem c c_terminators.
(** reader_text.py:111. *)
Definition is_off (c : Z) : bool := (c =? 90) || (c =? 43) || (c =? 45).
(** reader_text.py:938-1018. *)
Definition ts_allows (x : tsnext) (c : Z) : bool :=
  match x with
  | XDigits => is_digit c
  | XDigitsTerm => is_digit c || is_term c
  | XTerm => is_term c
  | XYearDelim => (c =? 45) || (c =? 84)
  | XTTerm => (c =? 84) || is_term c
  | XColon => c =? 58
  | XOffColon => is_off c || (c =? 58)
  | XOffDot => is_off c || (c =? 46)
  | XDigitsOff => is_digit c || is_off c
  end.
(** reader_text.py:109-111. *)
Definition is_ts_delim (c : Z) : bool := (c =? 45) || (c =? 58) || (c =? 43) || (c =? 46).
(** reader_text.py:851-854. *)
Definition tok_push (toks : tstokens) (st c : Z) : tstokens :=
  match tok_get toks st with Some l => tok_set toks st (l ++ [c]) | None => toks end.
(** reader_text.py:958-1018. *)
Definition send_ts (v : tenv) (prev st : Z) (nxt : tsnext) (toks : tstokens) (can : bool) (c : ch) (k : tctx)
  : res answer :=
  let z := cz c in
  let eof := can && is_eof c in
  if negb (ts_allows nxt z) && negb eof then illegal
  else if is_term z || eof then
    if negb can then illegal else number_end v c k (parse_ts toks)
  else if z =? 90 then
    go k (HTs z st XTerm (tok_set (tok_set toks 7 [48]) 8 [48]) true)
  else if z =? 84 then go k (HTs z st XDigitsTerm toks true)
  else if is_ts_delim z then go k (HTs z st XDigits toks false)
  else (* a digit *)
    if (prev =? 43) || ((1 <? st) && (prev =? 45)) then
      go k (HTs z 7 nxt (tok_set toks 7 ((if prev =? 45 then [45] else []) ++ [z])) false)
    else if is_ts_delim prev || (prev =? 84) then
      if 8 <=? st then Err KeyError
      else go k (HTs z (st + 1) (if st + 1 =? 6 then XDigitsOff else nxt) (tok_set toks (st + 1) [z]) false)
    else if is_digit prev then
      let toks' := tok_push toks st z in
      if st =? 1 then go k (HTs z st XYearDelim toks' false)
      else if st =? 2 then go k (HTs z st XTTerm toks' true)
      else if st =? 3 then go k (HTs z st XColon toks' false)
      else if st =? 4 then go k (HTs z st XOffColon toks' false)
      else if st =? 5 then go k (HTs z st XOffDot toks' false)
      else if st =? 6 then go k (HTs z st XDigitsOff toks' false)
      else if st =? 7 then go k (HTs z st XColon toks' false)
      else if st =? 8 then go k (HTs z st XTerm toks' true)
      else Err ValueError
    else Err ValueError.

(** ** Symbols, operators and keywords *)

(** reader_text.py:1361-1367 *)
Definition start_oper (c : Z) (k : tctx) : res (hs * tctx) :=
  if is_op c then let* k := set_unicode false k in Ok (HOper, push k c) else Err AssertionError.
(** reader_text.py:1361-1373. *)
Definition go_oper (c : Z) (k : tctx) : res answer := let* (h, k) := start_oper c k in go k h.

(** reader_text.py:1376-1387 [_symbol_token_end] *)
Definition symbol_end (v : tenv) (c : ch) (k : tctx) (is_field : bool) (s : symv) : res answer :=
  if is_field || mem (cz c) c_symbol_end || k_quoted k then
    back (set_quoted false (set_pending s (set_self (k_quoted k) k)))
  else let* ev := symbol_event v k s in emits k ev.

(** reader_text.py:1390-1411: the start of the handler of an unquoted symbol. *)
Definition start_unquoted (v : tenv) (c : ch) (k : tctx) (is_field : bool) : res (hs * tctx) :=
  let* k := set_unicode false k in
  let z := cz c in
  if negb (ident_char z) then
    if in_sexp v && is_op z then Ok (HUnqOp z, k) else illegal
  else Ok (HUnq z is_field, push k z).
(** reader_text.py:1390-1411. *)
Definition go_unquoted (v : tenv) (c : ch) (k : tctx) (is_field : bool) : res answer :=
  let* (h, k) := start_unquoted v c k is_field in go k h.

(** Where a symbol without quotes ends (reader_text.py:1413, 1466). *)
Definition breaks (v : tenv) (prev : Z) (c : ch) : bool :=
  is_ws prev || ends c || (cz c =? 58) || (in_sexp v && is_op (cz c)).
(** reader_text.py:1390-1422 *)
Definition send_unquoted (v : tenv) (prev : Z) (is_field : bool) (c : ch) (k : tctx) : res answer :=
  let z := cz c in
  if is_ws z then go k (HUnq z is_field)
  else if breaks v prev c then symbol_end v c k is_field (SCodes (k_val k))
  else if negb (ident_char z) then illegal
  else go (push k z) (HUnq z is_field).

(** reader_text.py:166 *)
Definition t_ivm_prefix : text := Eval compute in chars "$ion_".
(** reader_text.py:1445-1463. *)
Definition start_dollar (v : tenv) (k : tctx) (is_field : bool) : res (hs * tctx) :=
  let* k := set_unicode false k in
  let k := push (set_type (Some TSymbol) k) 36 in
  Ok (HDollar 36 ((e_depth v =? 0) && negb is_field && match k_annot k with [] => true | _ => false end)
        false true 1 false is_field, k).
(** reader_text.py:1445-1498 *)
Definition send_dollar (v : tenv) (prev : Z) (ivm complete sid : bool) (mi : nat) (post is_field : bool)
  (c : ch) (k : tctx) : res answer :=
  let z := cz c in
  if is_ws z then
    go k (HDollar z (if (mi <? 5)%nat then false else ivm) complete sid mi post is_field)
  else if breaks v prev c then
    match k_val k with
    | [_] => symbol_end v c k is_field (SCodes (k_val k))
    | _ =>
      if sid then
        if ivm then Err AssertionError
        else symbol_end v c k is_field (STok (sid_token (digits_value 10 (tl (k_val k)))))
      else if complete then symbol_end v c k is_field (SIvm (k_val k))
      else symbol_end v c k is_field (SCodes (k_val k))
    end
  else
    let sid := sid && is_digit z in
    let '(ivm', complete', post') :=
      if ivm then
        if (mi =? 5)%nat then
          if is_digit z then (true, complete || post, post)
          else if (z =? 95) && negb post then (true, complete, true)
          else (false, false, post)
        else (z =? nth mi t_ivm_prefix 0, complete, post)
      else (false, complete, post) in
    if ivm' then go (push k z) (HDollar z ivm' complete' sid (if (mi <? 5)%nat then S mi else mi) post' is_field)
    else if negb sid then go_unquoted v c k is_field
    else go (push k z) (HDollar z ivm' complete' sid mi post' is_field).

(** reader_text.py:197-246: the names of the typed nulls (a prefix tree in the source). *)
Definition typed_nulls : list (text * iontype) := Eval compute in
  [(chars "null", TNull); (chars "bool", TBool); (chars "int", TInt); (chars "float", TFloat);
   (chars "decimal", TDecimal); (chars "timestamp", TTimestamp); (chars "symbol", TSymbol);
   (chars "string", TString); (chars "clob", TClob); (chars "blob", TBlob); (chars "list", TList);
   (chars "sexp", TSexp); (chars "struct", TStruct)]%string.
(** reader_text.py:1180-1207. *)
Fixpoint prefixb (a b : text) : bool :=
  match a, b with [], _ => true | x :: a', y :: b' => (x =? y) && prefixb a' b' | _, [] => false end.
(** reader_text.py:1180-1207 *)
Definition send_null (v : tenv) (seen : text) (c : ch) (k : tctx) : res answer :=
  match find (fun p => zlist_eqb (fst p) seen) typed_nulls with
  | Some (_, t) =>
    if ends c || (in_sexp v && is_op (cz c)) then emits k (value_event v k EScalar (Some t) EvNone) else illegal
  | None =>
    if existsb (fun p => prefixb (seen ++ [cz c]) (fst p)) typed_nulls then go k (HNull (seen ++ [cz c])) else illegal
  end.

(** reader_text.py:1210-1234 *)
Definition start_kw (v : tenv) (c : Z) (k : tctx) (is_field : bool) : res answer :=
  if negb (ident_start c) then
    if in_sexp v && is_op c then go k (HKwOp c) else illegal
  else
    match k_val k with
    | _ :: _ => Err AssertionError
    | [] =>
      let* k := set_unicode false k in
      let k := push (set_type (Some TSymbol) k) c in
      go k (HKw (c =? 110) (c =? 110) (c =? 116) (c =? 102) 0 is_field)
    end.
(** reader_text.py:1236-1258 [check_keyword]: still possible, and the transition if the keyword is complete.
    [dot] is [check_null_dot] (1272-1280). *)
Definition check_keyword (v : tenv) (seq : text) (t : iontype) (x : evalue) (dot : bool) (mi : nat) (is_field : bool)
  (c : ch) (k : tctx) : res (bool * option answer) :=
  if (mi <? List.length seq)%nat then Ok (cz c =? nth mi seq 0, None)
  else if dot && (cz c =? 46) then
    if is_field then illegal else Ok (true, Some (TGo (HNull []), k, []))
  else if ends c then
    if is_field then illegal else Ok (true, Some (TEv (value_event v k EScalar (Some t) x) None, k, []))
  else if cz c =? 58 then illegal
  else if in_sexp v && is_op (cz c) then Ok (true, Some (TEv (value_event v k EScalar (Some t) x) None, k, []))
  else Ok (false, None).
(** reader_text.py:159-164, 1271-1276. *)
Definition t_ull : text := Eval compute in chars "ull".
(** reader_text.py:164. *)
Definition t_an : text := Eval compute in chars "an".
(** reader_text.py:162. *)
Definition t_rue : text := Eval compute in chars "rue".
(** reader_text.py:163. *)
Definition t_alse : text := Eval compute in chars "alse".
(** reader_text.py:174. *)
Definition nan_bits : Z := 0x7FF8000000000000.
(** reader_text.py:173. *)
Definition ninf_bits : Z := 0xFFF0000000000000.
(** reader_text.py:1259-1291 *)
Definition send_kw (v : tenv) (null nan tru fls : bool) (mi : nat) (is_field : bool) (c : ch) (k : tctx) : res answer :=
  let* (null', t1) := if null then check_keyword v t_ull TNull EvNone true mi is_field c k else Ok (false, None) in
  let* (nan', tru', fls', t2) :=
    if nan then let* (b, t) := check_keyword v t_an TFloat (EvVal (VFloat nan_bits)) false mi is_field c k in
                Ok (b, tru, fls, t)
    else if tru then let* (b, t) := check_keyword v t_rue TBool (EvVal (VBool true)) false mi is_field c k in
                     Ok (nan, b, fls, t)
    else if fls then let* (b, t) := check_keyword v t_alse TBool (EvVal (VBool false)) false mi is_field c k in
                     Ok (nan, tru, b, t)
    else Ok (nan, tru, fls, t1) in
  if null' || nan' || tru' || fls' then
    match t2 with
    | Some a => Ok a
    | None => go (push k (cz c)) (HKw null' nan' tru' fls' (S mi) is_field)
    end
  else if mem (cz c) c_symbol_end then back (set_pending (SCodes (k_val k)) k)
  else if ends c || (in_sexp v && is_op (cz c)) then
    let* ev := symbol_event v k (SCodes (k_val k)) in emits k ev
  else go_unquoted v c k is_field.

(** reader_text.py:165 *)
Definition t_inf : text := Eval compute in chars "inf".
(** reader_text.py:1294-1358. *)
Definition send_inf (v : tenv) (neg : bool) (mi : nat) (c : ch) (k : tctx) : res answer :=
  let k := set_type (Some TFloat) k in
  let z := cz c in
  if (mi =? 3)%nat && (ends c || (in_sexp v && is_op z)) then
    emits k (value_event v k EScalar (Some TFloat) (EvVal (VFloat (if neg then ninf_bits else inf_bits))))
  else if (mi <? 3)%nat && (z =? nth mi t_inf 0) then go k (HInf neg (S mi))
  else
    let* k := set_unicode false k in
    if negb (in_sexp v) then illegal
    else
      let* ev := symbol_event v k (SCodes (k_val k)) in
      match mi with
      | O => if is_op z then go_oper z k else emits k ev
      | _ => let* (h, k') := start_unquoted v c (with_val child_new (firstn mi t_inf)) false in
             emits_then k ev (Some h) k'
      end.

(** ** Quoted text *)

(** reader_text.py:1087-1093 *)
Definition gone (c : ch) : bool := match c with Ch z e g => is_newline z && e && g | Eof => false end.
(** reader_text.py:1078-1084 [_validate_quoted_text] *)
Definition valid_quoted (allowed : list Z) (clob : bool) (c : ch) : bool :=
  mem (cz c) allowed || escaped c || ((0x20 <=? cz c) && (cz c <=? if clob then 0x7f else 0x10ffff)).
(** Appending a code point to the text: the pending symbol of a quoted field name, or the value.
    (reader_text.py:1529-1531, reader.py:60-112) *)
Definition text_push (is_field : bool) (k : tctx) (l : list Z) : tctx :=
  if is_field then
    match k_pend k with
    | Some (SCodes t) =>
      mkk (k_field k) (k_annot k) (k_codes k) (k_val k) (k_type k) (Some (SCodes (t ++ l))) (k_quoted k) (k_line k)
        (k_self k) (k_comp k)
    | _ => k
    end
  else with_val k (k_val k ++ l).

(** reader_text.py:1101, 1532 *)
Definition is_clob (k : tctx) : bool := opt_eqb iontype_eqb (k_type k) (Some TClob).
(** reader_text.py:1097-1117. *)
Definition start_long (k : tctx) (is_field : bool) : res answer :=
  let clob := is_clob k in
  if clob && is_field then Err AssertionError
  else
    let k := if negb clob && negb is_field then set_type (Some TString) k else k in
    match k_val k with
    | _ :: _ => Err AssertionError
    | [] =>
      let* k := set_unicode true k in
      go (if is_field then set_pending (SCodes []) k else k) (HLong 0 true clob is_field)
    end.

(** reader_text.py:1525-1584: the start of a short string and of a quoted symbol. *)
Definition start_string (k : tctx) (is_field : bool) : res answer :=
  let clob := is_clob k in
  let* k := set_unicode true k in
  if clob && is_field then Err AssertionError
  else
    let k := if negb clob && negb is_field then set_type (Some TString) k else k in
    match is_field, k_val k with
    | true, _ :: _ => Err AssertionError
    | _, _ => go (if is_field then set_pending (SCodes []) k else k) (HStr clob is_field)
    end.
(** reader_text.py:1587-1601. *)
Definition start_quoted_symbol (c : ch) (k : tctx) (is_field : bool) : res (hs * tctx) :=
  if (cz c =? 39) && negb (escaped c) then Err AssertionError
  else
    let clob := is_clob k in
    let* k := set_unicode true k in
    if clob then Err AssertionError
    else if negb (valid_quoted c_ws_not_nl false c) then illegal
    else Ok (HSym is_field, if gone c then k else push k (cz c)).

(** reader_text.py:1735-1765: the blob's digits; 1826-1841: the end of a clob. *)
Definition start_blob (c : ch) (k : tctx) : res answer :=
  let z := cz c in
  if (z =? 125) || is_ws z then go k (HBlob z 0 0)
  else if is_base64 z then go (push k z) (HBlob z 1 0)
  else if z =? 61 then go (push k z) (HBlob z 0 1)
  else illegal.
(** reader_text.py:1768-1780. *)
Definition start_clob_end (c : ch) (k : tctx) : res answer :=
  let z := cz c in
  if (z =? 125) || is_ws z then go k (HClob z)
  else if k_self k && (z =? 34) then go k (HClob z)
  else illegal.

(** reader_text.py:1097-1177 *)
Definition text_value (k : tctx) : evalue := EvVal (VString (k_val k)).
(** reader_text.py:1118-1177. *)
Definition send_long (v : tenv) (quotes : Z) (in_data clob is_field : bool) (c : ch) (k : tctx) : res answer :=
  let k := set_self false k in
  let z := cz c in
  let again := HLong 0 false clob is_field in
  let ev := value_event v k EScalar (k_type k) (text_value k) in
  if (z =? 39) && negb (escaped c) then
    if quotes + 1 =? 3 then go (set_quoted (negb in_data) k) (HLong 0 (negb in_data) clob is_field)
    else go k (HLong (quotes + 1) in_data clob is_field)
  else if in_data then
    if negb (valid_quoted c_ws clob c) then illegal
    else
      let k := text_push is_field k (repeat 39 (Z.to_nat quotes)) in
      go (if gone c then k else text_push is_field k [z]) (HLong 0 true clob is_field)
  else if 0 <? quotes then
    if is_field || clob then illegal
    else if is_delimited (e_type v) then illegal
    else if quotes =? 1 then
      if is_eof c then illegal
      else putting_back v c (go (set_quoted true k) (HLongQuote ev))
    else let k' := set_empty_symbol k in emits_then k' ev None (set_comp k')
  else if is_ws z then go k again
  else if clob then start_clob_end c k
  else if z =? 47 then
    if in_sexp v then go k (HSexpSlash (Some again) (Some ev)) else go k (HComm0 (Some again))
  else if is_field then if z =? 58 then back k else illegal
  else emits k ev.

(** reader_text.py:1525-1584 *)
Definition send_string (v : tenv) (clob is_field : bool) (c : ch) (k : tctx) : res answer :=
  let z := cz c in
  if (z =? 34) && negb (escaped c) then
    if negb clob && negb is_field then
      let k := set_self true k in emits k (value_event v k EScalar (k_type k) (text_value k))
    else
      let k := set_self true (set_quoted false k) in
      if is_field then back k else start_clob_end c k
  else if negb (valid_quoted c_ws_not_nl clob c) then illegal
  else go (if gone c then k else text_push is_field k [z]) (HStr clob is_field).
(** reader_text.py:1504-1553, 1587-1601. *)
Definition send_quoted_symbol (v : tenv) (is_field : bool) (c : ch) (k : tctx) : res answer :=
  let z := cz c in
  if (z =? 39) && negb (escaped c) then symbol_end v c k is_field (SCodes (k_val k))
  else if negb (valid_quoted c_ws_not_nl (is_clob k) c) then illegal
  else go (if gone c then k else push k z) (HSym is_field).

(** reader_text.py:1604-1636 *)
Definition send_quote1 (is_field : bool) (c : ch) (k : tctx) : res answer :=
  if (cz c =? 39) && negb (escaped c) then go (set_type (Some TSymbol) k) (HSq2 is_field)
  else let* k := set_unicode true k in
       let* (h, k) := start_quoted_symbol c k is_field in go k h.
(** reader_text.py:1604-1631. *)
Definition send_quote2 (is_field : bool) (c : ch) (k : tctx) : res answer :=
  let* k := set_unicode true k in
  if (cz c =? 39) && negb (escaped c) then start_long k is_field
  else back (set_pending (SCodes []) (set_type (Some TSymbol) k)).

(** ** Lobs *)

(** reader_text.py:1665-1689 *)
Definition send_lob0 (quotes : Z) (c : ch) (k : tctx) : res answer :=
  let z := cz c in
  if is_ws z then if 0 <? quotes then illegal else go k (HLob0 quotes)
  else if z =? 34 then
    if 0 <? quotes then illegal
    else let* k := set_unicode true (set_type (Some TClob) k) in start_string k false
  else if z =? 39 then
    let* k := if quotes =? 0 then set_unicode true (set_type (Some TClob) k) else Ok k in
    if quotes + 1 =? 3 then start_long k false else go k (HLob0 (quotes + 1))
  else start_blob c k.
(** reader_text.py:1654-1662 [_parse_lob] *)
Definition parse_blob (k : tctx) : res scalar :=
  if k_codes k then Err TypeError else let* b := b64_decode (k_val k) in Ok (VBytes b).
(** reader_text.py:1654-1662. *)
Definition parse_clob (k : tctx) : res scalar :=
  if forallb (fun c => c <? 256) (k_val k) then Ok (VBytes (k_val k)) else Err ValueError.
(** reader_text.py:1692-1765 *)
Definition send_blob (v : tenv) (prev digits pads : Z) (c : ch) (k : tctx) : res answer :=
  let z := cz c in
  if is_ws z then if prev =? 125 then illegal else go k (HBlob z digits pads)
  else if z =? 125 then
    if prev =? 125 then
      if (3 <? pads) || negb ((digits + pads) mod 4 =? 0) then illegal
      else let k := set_self true k in emits k (value_event v k EScalar (Some TBlob) (EvLazy (parse_blob k)))
    else go k (HBlob z digits pads)
  else if is_base64 z then
    if (prev =? 125) || (prev =? 61) then illegal else go (push k z) (HBlob z (digits + 1) pads)
  else if z =? 61 then
    if prev =? 125 then illegal else go (push k z) (HBlob z digits (pads + 1))
  else illegal.
(** reader_text.py:1692-1732, 1768-1780. *)
Definition send_clob (v : tenv) (prev : Z) (c : ch) (k : tctx) : res answer :=
  let z := cz c in
  if is_ws z then if prev =? 125 then illegal else go k (HClob z)
  else if z =? 125 then
    if prev =? 125 then
      let k := set_self true k in emits k (value_event v k EScalar (Some TClob) (EvLazy (parse_clob k)))
    else go k (HClob z)
  else illegal.

(** ** [handler.send((c, handler))] *)
(** reader_text.py:1021-1048. *)
Definition comment_done (w : option hs) (k : tctx) : res answer :=
  match w with None => back (set_self true k) | Some h => go (set_self true k) h end.
(** reader_text.py:584-1805. *)
Definition send (v : tenv) (h : hs) (c : ch) (k : tctx) : res answer :=
  let z := cz c in
  match h with
  | HNeg =>
    if z =? 48 then start_zero z k
    else if is_digit z then start_numeric NWhole z k
    else putting_back v c (go k (HInf true 0))
  | HZero => send_zero v c k
  | HNum => send_num v c k
  | HSlash ev => let* (h', k') := start_comment c None child_new in emits_then k ev (Some h') k'
  | HNumeric n prev => send_numeric v n prev c k
  | HTsZero => send_ts_zero c k
  | HTs prev st nxt toks can => send_ts v prev st nxt toks can c k
  | HComm0 w => let* (h', k') := start_comment c w k in go k' h'
  | HLine w => if is_newline z || is_eof c then comment_done w k else go k h
  | HBlock w star => if star && (z =? 47) then comment_done w k else go k (HBlock w (z =? 42))
  | HSexpSlash w ev =>
    putting_back v c
      (if (z =? 42) || (z =? 47) then go k (HComm0 w)
       else match ev with
            | Some ev => let* (h', k') := start_oper 47 child_new in emits_then k ev (Some h') k'
            | None => go_oper 47 k
            end)
  | HLong quotes in_data clob is_field => send_long v quotes in_data clob is_field c k
  | HLongQuote ev => let* (h', k') := start_quoted_symbol c child_new false in emits_then k ev (Some h') k'
  | HNull seen => send_null v seen c k
  | HKwOp op => putting_back v c (go_oper op k)
  | HKw a b t f mi is_field => send_kw v a b t f mi is_field c k
  | HInf neg mi => send_inf v neg mi c k
  | HOper => if is_op z then go (push k z) HOper
             else let* ev := symbol_event v k (SCodes (k_val k)) in emits k ev
  | HUnqOp op =>
    putting_back v c
      (match k_val k with
       | [] => Err AssertionError
       | _ => let* ev := symbol_event v k (SCodes (k_val k)) in
              let* (h', k') := start_oper op child_new in emits_then k ev (Some h') k'
       end)
  | HUnq prev is_field => send_unquoted v prev is_field c k
  | HDollar prev ivm complete sid mi post is_field => send_dollar v prev ivm complete sid mi post is_field c k
  | HStr clob is_field => send_string v clob is_field c k
  | HSym is_field => send_quoted_symbol v is_field c k
  | HSq1 is_field => send_quote1 is_field c k
  | HSq2 is_field => send_quote2 is_field c k
  | HBrace => if z =? 123 then go k (HLob0 0) else putting_back v c (go k (HCont TStruct))
  | HLob0 quotes => send_lob0 quotes c k
  | HBlob prev digits pads => send_blob v prev digits pads c k
  | HClob prev => send_clob v prev c k
  | HCont t => emits k (value_event v k EContainerStart (Some t) EvNone)
  end.

(** reader_text.py:1880-1890: the tables of the characters that start a field name and a value.  [TBack] and events
    never come out of a start; the answer is always [TGo]. *)
Definition start_field (v : tenv) (c : Z) (k : tctx) : res answer :=
  if c =? 39 then go k (HSq1 true)
  else if c =? 34 then start_string k true
  else if c =? 36 then let* (h, k) := start_dollar v k true in go k h
  else if ident_start c then start_kw v c k true
  else illegal.
(** reader_text.py:1892-1908. *)
Definition start_value (v : tenv) (c : Z) (k : tctx) : res answer :=
  if c =? 45 then
    match k_val k with [] => go (push (set_type (Some TInt) k) c) HNeg | _ => Err AssertionError end
  else if c =? 43 then go (push k 43) (HInf false 0)
  else if c =? 48 then start_zero c k
  else if c =? 123 then go k HBrace
  else if c =? 40 then go k (HCont TSexp)
  else if c =? 91 then go k (HCont TList)
  else if c =? 39 then go k (HSq1 false)
  else if c =? 34 then start_string k false
  else if c =? 36 then let* (h, k) := start_dollar v k false in go k h
  else if is_digit c then go (push (set_type (Some TInt) k) c) HNum
  else start_kw v c k false.

(** * Code points (2171-2255 [_next_code_point_handler]) *)

(** [CStart esc low]: about to read; [esc] is the escape sequence so far, [low] that a low surrogate
    must follow.  [CHigh h]: a high surrogate was read.  [CEsc esc low num]: inside an escape sequence
    of [num] characters.  [CReturn e]: after a carriage return, escaped or not. (reader_text.py:2171-2180) *)
Inductive cps :=
| CStart (esc : text) (low : bool)
| CHigh (h : Z)
| CEsc (esc : text) (low : bool) (num : Z)
| CReturn (escd : bool).
(** reader_text.py:2171-2255. *)
Inductive cpres := CMore (s : cps) (back : list Z) | CDone (c : ch) (back : list Z).

(** util.py:199-219. *)
Definition is_low (c : Z) : bool := (0xDC00 <=? c) && (c <=? 0xDFFF).
(** util.py:199-219. *)
Definition is_high (c : Z) : bool := (0xD800 <=? c) && (c <=? 0xDBFF).
(** util.py:222-290. *)
Definition combine_surrogates (h l : Z) : Z := 0x10000 + Z.shiftl (h - 0xD800) 10 + (l - 0xDC00).

(** [escape_sequence.decode('unicode-escape')] on the sequences that get here: the code points.
    (reader_text.py:117, 2205-2209) *)
Definition simple_escape (c : Z) : Z :=
  if c =? 97 then 7 else if c =? 98 then 8 else if c =? 116 then 9 else if c =? 110 then 10
  else if c =? 102 then 12 else if c =? 114 then 13 else if c =? 118 then 11 else if c =? 48 then 0 else c.
(** reader_text.py:2217-2223. *)
Definition hex_value (l : text) : Z := digits_value 16 l.
(** reader_text.py:2224-2236. *)
Definition decode_escape (esc : text) : res (list Z) :=
  match esc with
  | [c] => Ok [c]
  | [_; c] => Ok [simple_escape c]
  | _ :: 120 :: ds => Ok [hex_value ds]
  | _ :: 85 :: ds => if hex_value ds <=? 0x10FFFF then Ok [hex_value ds] else Err UnicodeDecodeError
  | _ :: _ :: ds =>
    if zlen esc =? 6 then Ok [hex_value ds]
    else Ok [hex_value (firstn 4 ds); hex_value (skipn 6 ds)]
  | _ => Err ValueError
  end.
(** reader_text.py:2222-2236: a complete escape sequence. *)
Definition escape_done (esc : text) (low : bool) : res cpres :=
  let* cs := decode_escape esc in
  match cs with
  | [] => Err StopIteration
  | h :: r =>
    if is_low h then Err ValueError
    else if is_high h then
      match r with
      | [] => Ok (CMore (CStart esc true) [])
      | l :: _ => if is_low l then Ok (CDone (Ch (combine_surrogates h l) true false) []) else Err ValueError
      end
    else Ok (CDone (Ch h true false) [])
  end.
(** One character.  [uni]: unicode escapes are allowed (not in a clob).  Simplification: a raw high
    surrogate after the escape of a high surrogate is an IonException here; the source raises
    ValueError instead when a character that is not a low surrogate is already in the queue.
    (reader_text.py:2180-2255) *)
Definition cp_step (uni : bool) (s : cps) (z : Z) : res cpres :=
  match s with
  | CStart esc low =>
    if is_low z then Err ValueError
    else if is_high z then if low then illegal else Ok (CMore (CHigh z) [])
    else if z =? 92 then Ok (CMore (CEsc (esc ++ [92]) low 0) [])
    else if low then illegal
    else if z =? 13 then Ok (CMore (CReturn false) [])
    else Ok (CDone (plain z) [])
  | CHigh h => if is_low z then Ok (CDone (plain (combine_surrogates h z)) []) else Err ValueError
  | CEsc esc low num =>
    if last esc 0 =? 92 then
      if (z =? 117) && uni then Ok (CMore (CEsc (esc ++ [z]) false (if low then 12 else 6)) [])
      else if low then illegal
      else if z =? 120 then Ok (CMore (CEsc (esc ++ [z]) low 4) [])
      else if (z =? 85) && uni then Ok (CMore (CEsc (esc ++ [z]) low 10) [])
      else if mem z c_escapes then escape_done ((if (z =? 47) || (z =? 63) then [] else esc) ++ [z]) low
      else if z =? 13 then Ok (CMore (CReturn true) [])
      else if z =? 10 then Ok (CDone (Ch 10 true true) [])
      else illegal
    else if negb (is_hex z) then illegal
    else
      let esc := esc ++ [z] in
      if zlen esc =? num then escape_done esc low else Ok (CMore (CEsc esc low num) [])
  | CReturn e =>
    Ok (CDone (Ch 10 e e) (if z =? 10 then [] else [z]))
  end.

(** * The container handler (1948-2137) *)

(** Where the generator is.  [PTop c]: at the head of its loop, with the character [c] or none.
    [PRead k complete flush]: about to take a character from the queue, or to ask for data
    ([read_data_event], 1814-1843) if there is none.  [PWait]: data was asked for. *)
Inductive kont :=
| KTop                     (* the character is the next one for the head of the loop *)
| KColon                   (* 2023-2032: after a colon that is not a field name's *)
| KTok (h : hs)            (* 2066-2069: for the handler *)
| KCode (s : cps) (h : hs). (* 2062-2064: a code point for the handler *)
(** reader_text.py:1920-2137. *)
Inductive tpc :=
| PTop (c : option ch)
| PRead (k : kont) (complete flush : bool)
| PWait (k : kont) (complete flush : bool).

(** The innermost container: its type, the containers around it (type and [is_field_name]; the depth
    is their number), and the generator's local variables. (reader_text.py:1920-1929) *)
Record tcore := mkt {
  t_type : option iontype;
  t_stack : list (option iontype * bool);
  t_child : option tctx;
  t_field : bool;
  t_delim : bool;
  t_complete : bool;
  t_flush : bool;
  t_pc : tpc
}.
(** reader_text.py:421-441. *)
Definition t_depth (s : tcore) : Z := zlen (t_stack s).
(** reader_text.py:421-441. *)
Definition env_of (uni : bool) (s : tcore) : tenv := mkenv uni (t_type s) (t_depth s).
(** reader_text.py:1928. *)
Definition at_top (s : tcore) : bool := match t_stack s with [] => true | _ => false end.
(** reader_text.py:1920-2137. *)
Definition with_pc (s : tcore) (p : tpc) : tcore :=
  mkt (t_type s) (t_stack s) (t_child s) (t_field s) (t_delim s) (t_complete s) (t_flush s) p.
(** reader_text.py:1925. *)
Definition with_child (s : tcore) (k : option tctx) : tcore :=
  mkt (t_type s) (t_stack s) k (t_field s) (t_delim s) (t_complete s) (t_flush s) (t_pc s).
(** reader_text.py:1927. *)
Definition with_delim (s : tcore) (b : bool) : tcore :=
  mkt (t_type s) (t_stack s) (t_child s) (t_field s) b (t_complete s) (t_flush s) (t_pc s).
(** reader_text.py:1928-1929. *)
Definition with_flags (s : tcore) (complete flush : bool) : tcore :=
  mkt (t_type s) (t_stack s) (t_child s) (t_field s) (t_delim s) complete flush (t_pc s).
(** reader_text.py:1923-1929: a container's generator; [c] is its first character, if one was read already. *)
Definition open_container (t : iontype) (stack : list (option iontype * bool)) (c : option ch) : tcore :=
  mkt (Some t) stack None (iontype_eqb t TStruct) false false false (PTop c).

(** reader_text.py:249-269 *)
Definition end_char (t : option iontype) : option Z :=
  match t with Some TStruct => Some 125 | Some TList => Some 93 | Some TSexp => Some 41 | _ => None end.
(** reader_text.py:1969. *)
Definition is_end (t : option iontype) (c : ch) : bool :=
  match end_char t with Some z => cz c =? z | None => false end.
(** reader_text.py:1969. *)
Definition is_delim (t : option iontype) (c : ch) : bool := is_delimited t && (cz c =? 44).

(** reader_text.py:1947-1948, the local functions *)
Definition decorated (k : option tctx) : bool :=
  match k with
  | Some k => match k_annot k with _ :: _ => true | [] => match k_field k with Some _ => true | None => false end end
  | None => false
  end.
(** reader_text.py:1931-1932. *)
Definition pending (k : option tctx) : option symv := match k with Some k => k_pend k | None => None end.
(** core.py:49-51. *)
Definition is_numeric (t : iontype) : bool := (2 <=? iontype_num t) && (iontype_num t <=? 5).
(** core.py:53-56. *)
Definition is_text (t : iontype) : bool := match t with TSymbol | TString => true | _ => false end.
(** reader_text.py:1950-1965. *)
Definition can_flush (s : tcore) (k : tctx) : bool :=
  at_top s &&
  (match k_type k with Some t => is_numeric t || (is_text t && negb (t_field s)) | None => false end
   || (k_line k && negb (decorated (Some k)))).
(** reader_text.py:1934-1945 *)
Definition pending_value (v : tenv) (s : tcore) : res (option event) :=
  match t_child s with
  | Some k =>
    match k_pend k with
    | None => Ok None
    | Some p =>
      match k_val k with
      | _ :: _ => Err AssertionError
      | [] =>
        match t_type s, k_field k with
        | Some TStruct, None => illegal
        | _, _ => let* ev := symbol_event v k p in Ok (Some ev)
        end
      end
    end
  | None => Ok None
  end.
(** reader_text.py:2051-2068: how the next character of the token is read. *)
Definition token_pc (s : tcore) (h : hs) (quoted_start : bool) (k : tctx) : tpc :=
  if k_quoted k || quoted_start then PRead (KCode (CStart [] false) h) false false
  else PRead (KTok h) false (t_flush s).

(** The end of a symbol that turned out to be a value: 2037-2041, 1970-1974. (reader_text.py) *)
Definition after_symbol (s : tcore) (c : option ch) : tcore :=
  with_pc (with_delim (with_child s None) (is_delimited (t_type s))) (PTop c).

(** reader_text.py:2086-2088: the handler answered with an event; [c] is the character it was sent. *)
Definition is_container_start (ev : event) : bool :=
  match ev_ion_type ev, ev_type ev with
  | Some t, EScalar => false
  | Some t, _ => is_container t
  | None, _ => false
  end.
(** reader_text.py:2070-2107. *)
Definition after_event (s : tcore) (k : tctx) (ev : event) (comp : option (option hs * tctx)) (c : option ch)
  : res tcore :=
  let* (next, child, self) :=
    if k_comp k then
      match comp with
      | Some (h, k') => Ok (h, Some k', false)
      | None => Err AttributeError
      end
    else Ok (None, None, k_self k) in
  if is_container_start ev then
    match next, ev_ion_type ev with
    | None, Some t => Ok (open_container t ((t_type s, t_field s) :: t_stack s) c)
    | _, _ => Err AssertionError
    end
  else
    let s := with_flags (with_delim (with_child s child) (is_delimited (t_type s))) (at_top s) false in
    if self then Ok (with_pc s (PRead KTop (at_top s) false))
    else match next, child with
         | Some h, Some k' =>
           let s := with_flags s (at_top s) (can_flush s k') in
           Ok (with_pc s (token_pc s h false k'))
         | _, _ => Ok (with_pc s (PTop c))
         end.

(** reader_text.py:2108-2129: back in the container, or on with the token. *)
Definition after_back (s : tcore) (k : tctx) (c : ch) : tcore :=
  let k := set_type None k in
  let s := with_flags (with_child s (Some k)) false (can_flush s k) in
  let break := with_pc s (PTop (Some c)) in
  if t_field s then
    if (cz c =? 58) || negb (k_self k) then break else with_pc s (PRead KTop false (t_flush s))
  else match k_pend k with
       | Some _ =>
         let s := with_flags s false (at_top s) in
         if negb (k_self k) || k_line k then with_pc s (PTop (Some c)) else with_pc s (PRead KTop false (at_top s))
       | None =>
         let complete := k_self k && (at_top s && negb (decorated (Some k))) in
         let s := with_flags s complete (t_flush s) in
         with_pc s (PRead KTop complete (t_flush s))
       end.

(** A handler's answer to the character [c]. (reader_text.py:2069-2132) *)
Definition handled (s : tcore) (c : ch) (a : answer) : res (tcore * option event * list Z) :=
  let '(t, k, u) := a in
  match t with
  | TEv ev comp => let* s' := after_event s k ev comp (Some c) in Ok (s', Some ev, u)
  | TBack => Ok (after_back s k c, None, u)
  | TGo h =>
    let s := with_flags (with_child s (Some k)) (t_complete s) (can_flush s k) in
    Ok (with_pc s (token_pc s h false k), None, u)
  end.

(** reader_text.py:1967-2068: the head of the loop. *)
Definition top (uni : bool) (s : tcore) (oc : option ch) : res (tcore * option event) :=
  let v := env_of uni s in
  let read := Ok (with_pc s (PRead KTop (t_complete s) (t_flush s)), None) in
  match oc with
  | None => read
  | Some c =>
    let z := cz c in
    if is_end (t_type s) c || is_delim (t_type s) c || is_eof c then
      let* p := pending_value v s in
      match p with
      | Some ev => Ok (after_symbol s oc, Some ev)
      | None =>
        if is_end (t_type s) c then
          if negb (t_delim s) && decorated (t_child s) then illegal
          else
            match t_stack s with
            | (pt, pf) :: below =>
              (* 1981-1984; the enclosing generator continues at 2095-2107 *)
              let outer := match below with [] => true | _ => false end in
              Ok (mkt pt below None pf (is_delimited pt) outer false (PRead KTop outer false),
                  Some (mkev EContainerEnd (t_type s) EvNone None [] (Some (t_depth s - 1))))
            | [] => Err ValueError
            end
        else if is_delim (t_type s) c then
          if negb (t_delim s) then illegal
          else Ok (mkt (t_type s) (t_stack s) (t_child s) (match t_type s with Some TStruct => true | _ => false end)
                     false (t_complete s) (t_flush s) (PTop None), None)
        else Ok (with_pc s (PRead KTop true false), None)
      end
    else if is_ws z then read
    else
      let s := with_flags s (t_complete s) false in
      if z =? 47 then
        let k := match t_child s with Some k => k | None => child_new end in
        let* h :=
          match t_type s with
          | Some TSexp => let* p := pending_value v s in Ok (HSexpSlash None p)
          | _ => Ok (HComm0 None)
          end in
        let s := with_child s (Some k) in
        Ok (with_pc s (token_pc s h false k), None)
      else if t_delim s then illegal
      else match pending (t_child s), t_child s with
           | Some p, Some k =>
             if z =? 58 then
               if t_field s then
                 let* k := set_field_name k in
                 Ok (mkt (t_type s) (t_stack s) (Some k) false (t_delim s) (t_complete s) (t_flush s) (PTop None), None)
               else Ok (with_pc s (PRead KColon false false), None)
             else if t_field s then
               match p with SCodes _ => illegal | _ => Err TypeError end
             else
               let* ev := symbol_event v k p in Ok (after_symbol s oc, Some ev)
           | _, _ =>
             let k := if decorated (t_child s) then match t_child s with Some k => k | None => child_new end else child_new in
             let* (t, k, _) := if t_field s then start_field v z k else start_value v z k in
             match t with
             | TGo h =>
               let s := with_flags (with_child s (Some k)) (t_complete s) (negb (t_field s)) in
               if (z =? 91) || (z =? 40) then
                 (* 2057-2059: no character is read for these *)
                 let* (t, k, _) := send v h Eof k in
                 match t with
                 | TEv ev comp => let* s' := after_event s k ev comp None in Ok (s', Some ev)
                 | _ => Err TypeError
                 end
               else Ok (with_pc s (token_pc s h ((z =? 34) || (z =? 39)) k), None)
             | _ => Err TypeError
             end
           end
  end.

(** A character taken from the queue (or the end-of-file marker), for the reading point [k].
    (reader_text.py:1814-1843, 2180-2255) *)
Definition take (uni : bool) (s : tcore) (k : kont) (c : ch) : res (tcore * option event * list Z) :=
  match k with
  | KTop => Ok (with_pc s (PTop (Some c)), None, [])
  | KColon =>
    if cz c =? 58 then
      match t_child s with
      | Some x => let* x := set_annotation x in Ok (with_pc (with_child s (Some x)) (PTop None), None, [])
      | None => Err AttributeError
      end
    else illegal
  | KTok h =>
    match t_child s with
    | Some x => let* a := send (env_of uni s) h c x in handled s c a
    | None => Err AttributeError
    end
  | KCode cs h =>
    match t_child s with
    | Some x =>
      let* r := cp_step (negb (is_clob x)) cs (cz c) in
      match r with
      | CMore cs' u => Ok (with_pc s (PRead (KCode cs' h) false false), None, u)
      | CDone c' u =>
        let* a := send (env_of uni s) h c' x in
        let* (s', ev, u') := handled s c' a in Ok (s', ev, u' ++ u)
      end
    | None => Err AttributeError
    end
  end.

(** * The trampolines *)

(** The whole reader: the innermost generator, the queue, and the local variables of
    [_skip_trampoline] (2140-2168): the depth it remembers, and whether it is skipping.
    (reader_text.py:2140-2146) *)
Record tr := mktr { tr_core : tcore; tr_q : list Z; tr_skip_depth : Z; tr_skipping : bool }.
(** reader_text.py:2258-2337 [reader] *)
Definition core_new : tcore := mkt None [] None false false true false (PTop None).
(** reader_text.py:2258-2337. *)
Definition tr_new : tr := mktr core_new [] 0 false.

(** One step of the delegate: [data_event] is [d]. (reader_text.py:1843) *)
Definition signal (complete : bool) : event := if complete then stream_end_event else incomplete_event.
(** reader_text.py:2147-2150. *)
Definition delegate (uni : bool) (s : tcore) (q : list Z) (d : option devent) : res (tcore * list Z * option event) :=
  match t_pc s with
  | PTop c => let* (s', ev) := top uni s c in Ok (s', q, ev)
  | PRead k complete flush =>
    match q with
    | z :: q' => let* (s', ev, u) := take uni s k (plain z) in Ok (s', u ++ q', ev)
    | [] => Ok (with_pc s (PWait k complete flush), [], Some (signal complete))
    end
  | PWait k complete flush =>
    match d with
    | Some (DData (x :: l)) => Ok (with_pc s (PRead k complete flush), q ++ x :: l, None)
    | Some DNext =>
      if flush then let* (s', ev, u) := take uni s k Eof in Ok (s', u ++ q, ev) else illegal
    | _ => Ok (s, q, Some (signal complete))
    end
  end.

(** reader_text.py:2140-2165 [_skip_trampoline], one resumption.  When it skips and the delegate answers STREAM_END
    the loop 2155-2162 calls the delegate again at once, and it answers the same for ever
    ([skip_never_ends] in TextReaderFacts): the model stops with [OutOfFuel]. *)
Definition skip_step (uni : bool) (r : tr) (d : option devent) : res (tr * option event) :=
  let skipping := tr_skipping r || match d with Some DSkip => true | _ => false end in
  let* (s, q, ev) := delegate uni (tr_core r) (tr_q r) d in
  if skipping then
    match ev with
    | None => Ok (mktr s q (tr_skip_depth r) true, None)
    | Some e =>
      match ev_type e with
      | EIncomplete => Ok (mktr s q (tr_skip_depth r) true, Some e)
      | EStreamEnd => Err OutOfFuel
      | EContainerEnd =>
        match ev_depth e with
        | Some n => if n <=? tr_skip_depth r then Ok (mktr s q (tr_skip_depth r) false, Some e)
                    else Ok (mktr s q (tr_skip_depth r) true, None)
        | None => Err TypeError
        end
      | _ => Ok (mktr s q (tr_skip_depth r) true, None)
      end
    end
  else
    let depth := match ev with
                 | Some e => match ev_type e, ev_depth e with
                             | EContainerStart, Some n | EContainerEnd, Some n => n
                             | _, _ => tr_skip_depth r
                             end
                 | None => tr_skip_depth r
                 end in
    Ok (mktr s q depth false, ev).

(** reader.py:311-369 [reader_trampoline]: until an event is produced.  The budget suffices
    ([TextReaderFacts]). *)
Fixpoint run (fuel : nat) (uni : bool) (r : tr) (d : option devent) : res (tr * event) :=
  match fuel with
  | O => Err OutOfFuel
  | S f =>
    match skip_step uni r d with
    | Err e => Err e
    | Ok (r', Some ev) => Ok (r', ev)
    | Ok (r', None) => run f uni r' None
    end
  end.
(** artefact of the model: enough steps for the loop at reader.py:350-369. *)
Definition steps_fuel (r : tr) (d : option devent) : nat :=
  let n := match d with Some (DData l) => List.length l | _ => O end in
  (16 * (List.length (tr_q r) + n) + 100)%nat.

(** reader.py:336-369, with [allow_flush = True]: NEXT may follow INCOMPLETE. *)
Inductive treader := TFresh (r : tr) | TAt (r : tr) (last : event) | TDead.
(** reader_text.py:2258-2337. *)
Definition text_reader_new : treader := TFresh tr_new.
(** reader.py:355-369. *)
Definition text_protocol_check (last : event) (d : devent) : res unit :=
  let* _ :=
    if is_stream_signal (ev_type last)
    then match d, ev_type last with
         | DData _, _ => Ok tt
         | DNext, EIncomplete => Ok tt
         | _, _ => Err TypeError
         end
    else match d with DData _ => Err TypeError | _ => Ok tt end in
  let* _ := match d with DData [] => Err ValueError | _ => Ok tt end in
  match ev_depth last, ev_type last, d with
  | Some 0, EContainerStart, _ => Ok tt
  | Some 0, _, DSkip => Err TypeError
  | _, _, _ => Ok tt
  end.
(** [reader.send(d)] (reader.py:336-369) *)
Definition text_send (uni : bool) (t : treader) (d : devent) : res event * treader :=
  let go r := match run (steps_fuel r (Some d)) uni r (Some d) with
              | Ok (r', ev) => (Ok ev, TAt r' ev)
              | Err e => (Err e, TDead)
              end in
  match t with
  | TDead => (Err StopIteration, TDead)
  | TFresh r => match d with DNext => go r | _ => (Err TypeError, TDead) end
  | TAt r last => match text_protocol_check last d with Err e => (Err e, TDead) | Ok _ => go r end
  end.

(** reader.py:375-398 [blocking_reader].  At the end of the source STREAM_END ends the session and
    INCOMPLETE is answered with NEXT, again and again: the model gives up after [flushes] times
    ([OutOfFuel]; then the reader answers INCOMPLETE for ever, see TextReaderFacts). *)
Fixpoint text_drain (flushes : nat) (uni : bool) (t : treader) (ev : event) : res event * treader :=
  if is_stream_signal (ev_type ev)
  then match ev_type ev with
       | EIncomplete =>
         match flushes with
         | O => (Err OutOfFuel, t)
         | S n => match text_send uni t DNext with
                  | (Ok ev', t') => text_drain n uni t' ev'
                  | (Err e, t') => (Err e, t')
                  end
         end
       | _ => (Ok stream_end_event, t)
       end
  else (Ok ev, t).
(** artefact of the model: how often reader.py:375-398 may send NEXT at the end. *)
Definition flushes : nat := 3.
(** reader.py:375-398. *)
Fixpoint text_feed (uni : bool) (t : treader) (ev : event) (chunks : list (list Z))
  : res event * treader * list (list Z) :=
  if is_stream_signal (ev_type ev)
  then match chunks with
       | [] => let '(x, t') := text_drain flushes uni t ev in (x, t', [])
       | c :: cs =>
         match text_send uni t (DData c) with
         | (Ok ev', t') => text_feed uni t' ev' cs
         | (Err e, t') => (Err e, t', cs)
         end
       end
  else (Ok ev, t, chunks).
(** reader.py:375-398. *)
Definition text_next (uni : bool) (t : treader) (chunks : list (list Z)) (req : devent)
  : res event * treader * list (list Z) :=
  match text_send uni t req with
  | (Ok ev, t') => text_feed uni t' ev chunks
  | (Err e, t') => (Err e, t', chunks)
  end.
(** A session of requests, as [BinReaderModel.session]. (reader.py:375-398) *)
Fixpoint text_session (uni : bool) (t : treader) (chunks : list (list Z)) (reqs : list devent) : list event * stop :=
  match reqs with
  | [] => ([], SMore)
  | q :: qs =>
    match text_next uni t chunks q with
    | (Ok ev, t', cs) =>
      match ev_type ev with
      | EStreamEnd => ([], SEnd)
      | _ => let '(evs, st) := text_session uni t' cs qs in (ev :: evs, st)
      end
    | (Err e, _, _) => ([], SExc e)
    end
  end.
