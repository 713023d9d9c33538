(** Model of the text writer: /repo/amazon/ion/writer_text.py, and [unicode_iter] of
    /repo/amazon/ion/util.py. *)
From Coq Require Import String.
From Verif Require Import Base CoreModel BinWriterModel SymbolsModel ManagedModel TextNumbers.
Local Open Scope Z_scope.

(** * unicode_iter *)

(** util.py:199-219 [unicode_iter] and 244-292 [_next_code_point] over a [str] (code points, lone
    surrogates included): all code points, or the exception that ends the iteration. *)
Fixpoint unicode_iter (s : text) : res (list Z) :=
  match s with
  | [] => Ok []
  | c :: r =>
    if (0xDC00 <=? c) && (c <=? 0xDFFF) then Err ValueError
    else if (0xD800 <=? c) && (c <=? 0xDBFF) then
      match r with
      | [] => Err ValueError                       (* line 224-225: None, no more data *)
      | l :: r' =>
        if (l <? 0xDC00) || (0xDFFF <? l) then Err ValueError
        else let* cs := unicode_iter r' in
             Ok (0x10000 + Z.shiftl (c - 0xD800) 10 + (l - 0xDC00) :: cs)
      end
    else let* cs := unicode_iter r in Ok (c :: cs)
  end.

(** * Scalars *)

(** writer_text.py:46-60 [_NULL_TYPE_NAMES], indexed by the Ion type. *)
Definition null_names : list text := Eval compute in
  [txt "null"; txt "null.bool"; txt "null.int"; txt "null.float"; txt "null.decimal"; txt "null.timestamp";
   txt "null.symbol"; txt "null.string"; txt "null.clob"; txt "null.blob"; txt "null.list"; txt "null.sexp";
   txt "null.struct"]%string.
(** writer_text.py:307; writer.py:69-75. *)
Definition null_text (t : iontype) : list Z := nth (Z.to_nat (iontype_num t)) null_names [].

(** writer_text.py:65. *)
Definition t_true : text := Eval compute in txt "true".
(** writer_text.py:67. *)
Definition t_false : text := Eval compute in txt "false".
(** writer_text.py:250. *)
Definition t_null : text := Eval compute in txt "null".
(** writer_text.py:100. *)
Definition t_nan : text := Eval compute in txt "nan".
(** writer_text.py:103. *)
Definition t_pinf : text := Eval compute in txt "+inf".
(** writer_text.py:105. *)
Definition t_ninf : text := Eval compute in txt "-inf".
(** writer_text.py:81-91: str of a bool. *)
Definition t_True : text := Eval compute in txt "True".
(** writer_text.py:81-91: str of a bool. *)
Definition t_False : text := Eval compute in txt "False".

(** Truth of a value (writer_text.py:67): only bool and int values are documented; the other kinds
    follow Python's rules ([Decimal] and [float] zero, empty text and bytes are false). *)
Definition truthy (v : scalar) : bool :=
  match v with
  | VBool b => b
  | VInt n => negb (n =? 0)
  | VFloat b => negb (b mod 2 ^ 63 =? 0)
  | VDecimal d => negb (d_coef d =? 0)
  | VTimestamp _ => true
  | VSymbol _ => true
  | VString s => match s with [] => false | _ => true end
  | VBytes s => match s with [] => false | _ => true end
  end.

(** writer_text.py:94-109 [_float_str]: [re.search('[eE]')] decides whether [e0] is appended. *)
Definition has_exponent (t : text) : bool := existsb (fun c => (c =? 101) || (c =? 69)) t.
(** writer_text.py:98-109. *)
Definition float_str (bits : Z) : text :=
  if float_is_nan bits then t_nan
  else if float_is_inf bits then (if float_neg bits then t_ninf else t_pinf)
  else let t := float_repr bits in
       if has_exponent t then t else t ++ [101; 48].

(** writer_text.py:118-123 [_decimal_str]. *)
Definition decimal_text (d : dec) : text :=
  let t := decimal_str d in
  let t' := map (fun c => if (c =? 101) || (c =? 69) then 100 else c) t in
  if zlist_eqb t t' && negb (existsb (fun c => c =? 46) t) then t' ++ [100; 48] else t'.

(** writer_text.py:132-140 [_bytes_utc_offset]; [strftime('%z')] is [+HHMM], with [SS] appended when
    the offset has seconds. *)
Definition offset_text (off : option Z) : text :=
  match off with
  | None => [45; 48; 48; 58; 48; 48]
  | Some o =>
    if o =? 0 then [90]
    else let a := Z.abs o in
         (if o <? 0 then 45 else 43) :: two (a / 3600) ++ 58 :: two (a mod 3600 / 60)
         ++ (if a mod 60 =? 0 then [] else two (a mod 60))
  end.

(** writer_text.py:143-189 [_bytes_datetime].  The four-digit year is [strftime('%Y')] from 1900 on
    and padded by hand before. *)
Definition year_text (y : Z) : text := pad 4 (nat_str y).
(** writer_text.py:176-185. *)
Definition fraction_text (f : dec) : text :=
  if (d_coef f =? 0) && (0 <=? d_exp f) then []
  else let ds := nat_str (d_coef f) in
       46 :: repeat 48 (Z.to_nat (- d_exp f - zlen ds)) ++ ds.
(** writer_text.py:143-189. *)
Definition datetime_text (v : tsvalue) : res text :=
  let '(d, p, f) := match v with
                    | TsStamp t => (ts_dt t, ts_prec t, Some (ts_frac t))
                    | TsPlain d => (d, Some PSecond, None)
                    end in
  match p with
  | None => Err AttributeError
  | Some p =>
    let year := year_text (dt_year d) in
    if negb (includes p PMonth) then Ok (year ++ [84])
    else let month := year ++ 45 :: two (dt_month d) in
    if negb (includes p PDay) then Ok (month ++ [84])
    else let day := month ++ 45 :: two (dt_day d) ++ [84] in
    if negb (includes p PMinute) then Ok day
    else let minute := day ++ two (dt_hour d) ++ 58 :: two (dt_minute d) in
    if negb (includes p PSecond) then Ok (minute ++ offset_text (dt_off d))
    else let second := minute ++ 58 :: two (dt_second d) in
    let frac := match f with
                | Some f => fraction_text f
                | None => 46 :: pad 6 (nat_str (dt_micro d))
                end in
    Ok (second ++ frac ++ offset_text (dt_off d))
  end.

(** * Quoted text *)

(** writer_text.py:216-224 [_escape]. *)
Definition hex_str (w : nat) (n : Z) : text := pad w (map digit_char (base_digits 16 n)).
(** writer_text.py:216-224. *)
Definition escape (c : Z) : list Z :=
  if c =? 10 then [92; 110]
  else if c =? 13 then [92; 114]
  else if c =? 9 then [92; 116]
  else if c <=? 0xFF then 92 :: 120 :: hex_str 2 c
  else if c <=? 0xFFFF then 92 :: 117 :: hex_str 4 c
  else 92 :: 85 :: hex_str 8 c.
(** writer_text.py:203-204 *)
Definition is_printable_ascii (c : Z) : bool := (0x20 <=? c) && (c <=? 0x7E).
(** writer_text.py:233-240: one code point; [quote] is [None] when nothing is quoted. *)
Definition text_octets (quote : option Z) (c : Z) : list Z :=
  if opt_eqb Z.eqb (Some c) quote then [92; c]
  else if c =? 92 then [92; 92]
  else if is_printable_ascii c then [c]
  else escape c.
(** writer_text.py:231, 241. *)
Definition quote_octets (quote : option Z) : list Z := match quote with Some q => [q] | None => [] end.
(** writer_text.py:227-243 [_bytes_text] *)
Definition bytes_text (cps : list Z) (quote : option Z) (prefix suffix : list Z) : list Z :=
  prefix ++ quote_octets quote ++ flat_map (text_octets quote) cps ++ quote_octets quote ++ suffix.

(** writer_text.py:249-253 [_symbol_needs_quotes] *)
Definition is_letter (c : Z) : bool := ((65 <=? c) && (c <=? 90)) || ((97 <=? c) && (c <=? 122)).
(** writer_text.py:249. *)
Definition identifier_start (c : Z) : bool := is_letter c || (c =? 36) || (c =? 95).
(** writer_text.py:249. *)
Definition identifier_part (c : Z) : bool := identifier_start c || is_digit c.
(** writer_text.py:249. *)
Definition is_identifier (t : text) : bool :=
  match t with c :: r => identifier_start c && forallb identifier_part r | [] => false end.
(** writer_text.py:252-253. *)
Definition symbol_needs_quotes (t : text) : bool :=
  existsb (zlist_eqb t) [t_nan; t_null; t_false; t_true] || negb (is_identifier t).

(** writer_text.py:255-265 [_serialize_symbol_value]: of a token, or of a [str]. *)
Definition symbol_text (t : text) (suffix : list Z) : res (list Z) :=
  let* cps := unicode_iter t in
  Ok (bytes_text cps (if symbol_needs_quotes t then Some 39 else None) [] suffix).
(** writer_text.py:255-265. *)
Definition symbol_octets (a : symarg) (suffix : list Z) : res (list Z) :=
  match a with
  | AText t => symbol_text t suffix
  | ATok k =>
    match tk_text k with
    | Some t => symbol_text t suffix
    | None => match tk_sid k with
              | Some sid => Ok (36 :: int_str sid ++ suffix)
              | None => Err TypeError               (* ['$%d' % None] *)
              end
    end
  end.

(** [base64.b64encode] (writer_text.py:290) *)
Definition b64_char (n : Z) : Z :=
  if n <? 26 then 65 + n else if n <? 52 then 71 + n else if n <? 62 then n - 4
  else if n =? 62 then 43 else 47.
(** writer_text.py:290. *)
Fixpoint b64_encode (l : list Z) : list Z :=
  match l with
  | a :: b :: c :: r =>
    b64_char (a / 4) :: b64_char (a mod 4 * 16 + b / 16) :: b64_char (b mod 16 * 4 + c / 64)
    :: b64_char (c mod 64) :: b64_encode r
  | [a; b] => [b64_char (a / 4); b64_char (a mod 4 * 16 + b / 16); b64_char (b mod 16 * 4); 61]
  | [a] => [b64_char (a / 4); b64_char (a mod 4 * 16); 61; 61]
  | [] => []
  end.

(** writer_text.py:63-91, 268-307 with writer.py:69-75 [serialize_scalar]. *)
Definition text_scalar (t : option iontype) (v : option scalar) : res (list Z) :=
  match v with
  | None => match t with Some t => Ok (null_text t) | None => Err TypeError end
  | Some v =>
    match t with
    | None => Err AttributeError
    | Some t =>
      match t with
      | TNull => Err TypeError
      | TBool => Ok (if truthy v then t_true else t_false)
      | TInt => match v with
                | VInt n => Ok (int_str n)
                | VBool b => Ok (if b then t_True else t_False)   (* bool is an int: [str(True)] *)
                | _ => Err TypeError end
      | TFloat => match v with VFloat b => Ok (float_str b) | _ => Err TypeError end
      | TDecimal => match v with VDecimal d => Ok (decimal_text d) | _ => Err TypeError end
      | TTimestamp => match v with VTimestamp x => datetime_text x | _ => Err TypeError end
      | TSymbol => match v with
                   | VSymbol k => symbol_octets (ATok k) []
                   | VString s => symbol_octets (AText s) []
                   | _ => Err TypeError end
      | TString => match v with
                   | VString s => let* cps := unicode_iter s in Ok (bytes_text cps (Some 34) [] [])
                   | _ => Err TypeError end
      | TClob => match v with
                 | VBytes b => Ok (bytes_text b (Some 34) [123; 123] [125; 125])
                 | VString [] => Ok (bytes_text [] (Some 34) [123; 123] [125; 125])
                 | _ => Err TypeError end
      | TBlob => match v with
                 | VBytes b => Ok ([123; 123] ++ b64_encode b ++ [125; 125])
                 | _ => Err TypeError end
      | TList | TSexp | TStruct => Err TypeError
      end
    end
  end.

(** * The writer co-routine *)

(** writer_text.py:339-358: the container tables. *)
Definition container_open (t : iontype) : list Z :=
  match t with TStruct => [123] | TList => [91] | _ => [40] end.
(** writer_text.py:344-348. *)
Definition container_close (t : iontype) : list Z :=
  match t with TStruct => [125] | TList => [93] | _ => [41] end.
(** writer_text.py:349-358. *)
Definition container_delimiter (pretty : bool) (t : iontype) : list Z :=
  match t with TStruct | TList => [44] | _ => if pretty then [] else [32] end.

(** One [_raw_writer_coroutine] (writer_text.py:372-436): the container it writes ([None] at the top
    level) and [has_written_values].  The stack's length is [depth + 1]; it is never empty.
    (writer_text.py:366-374) *)
Record tframe := mktf { tf_type : option iontype; tf_has : bool }.
(** writer_text.py:366-374: the co-routines that wait for one another. *)
Definition tstate := list tframe.
(** writer_text.py:366-374. *)
Definition t_init : tstate := [mktf None false].

(** What one event makes the writer yield: HAS_PENDING chunks, then an exception or the last event
    and the state it leaves. (writer_text.py:385) *)
Definition nonempty_chunk (l : list Z) : list (list Z) := match l with [] => [] | _ => [l] end.
(** writer_text.py:386, 398. *)
Definition chunk_of (r : res (list Z)) : list (list Z) * res unit :=
  match r with Ok b => ([b], Ok tt) | Err e => ([], Err e) end.
(** writer_text.py:403-406. *)
Fixpoint annotation_chunks (l : list symarg) : list (list Z) * res unit :=
  match l with
  | [] => ([], Ok tt)
  | a :: l' =>
    match symbol_octets a [58; 58] with
    | Ok b => let '(cs, r) := annotation_chunks l' in (b :: cs, r)
    | Err e => ([], Err e)
    end
  end.
(** writer_text.py:392: bytes times an int. *)
Fixpoint times (n : nat) (l : list Z) : list Z := match n with O => [] | S n' => l ++ times n' l end.

(** writer_text.py:377-392: what separates the value from what comes before; [k] is the depth. *)
Definition separators (indent : option (list Z)) (k : nat) (f : tframe) (et : evtype) : list (list Z) :=
  let pretty := match indent with Some _ => true | None => false end in
  let ends := match et with EContainerEnd => true | _ => false end in
  let stream_end := match et with EStreamEnd => true | _ => false end in
  (if tf_has f && negb ends
   then nonempty_chunk (match tf_type f with
                        | None => if pretty then [] else [32]
                        | Some t => container_delimiter pretty t end)
   else [])
  ++ match indent with
     | Some i =>
       if (tf_has f || match tf_type f with Some _ => true | None => false end) && negb stream_end
       then [10] :: (let d := (k - (if ends then 1 else 0))%nat in
                     match d with O => [] | S _ => [times d i] end)
       else []
     | None => []
     end.

(** writer_text.py:394-401: the field name. *)
Definition field_chunks (indent : option (list Z)) (f : tframe) (e : uevent) : list (list Z) * res unit :=
  match tf_type f with
  | Some TStruct =>
    if begins_value (ue_type e) then
      match ue_field e with
      | None => ([], Err TypeError)
      | Some a => match symbol_octets a [58] with
                  | Err x => ([], Err x)
                  | Ok b => (b :: match indent with Some _ => [[32]] | None => [] end, Ok tt)
                  end
      end
    else ([], Ok tt)
  | _ => ([], Ok tt)
  end.

(** writer_text.py:408-432: the event itself, by the co-routine for [f] with the others below it. *)
Definition text_core (fs : tstate) (e : uevent) : res (tstate * wevent) :=
  match fs with
  | [] => Err TypeError
  | f :: below =>
    let here := mktf (tf_type f) true :: below in
    match ue_type e with
    | EContainerStart =>
      match ue_ion_type e with
      | None => Err AttributeError
      | Some t => if is_container t then Ok (mktf (Some t) false :: here, NeedsInput (container_open t)) else Err TypeError
      end
    | EScalar =>
      let* v := ev_force (ue_value e) in
      let* d := text_scalar (ue_ion_type e) v in
      match below with
      | [] => Ok (here, Complete d)
      | _ => Ok (here, NeedsInput d)
      end
    | EStreamEnd => match below with [] => Ok (here, Complete []) | _ => Err TypeError end
    | EVersionMarker => match below with [] => Ok (here, Complete TEXT_ION_1_0) | _ => Err TypeError end
    | EContainerEnd =>
      match below, tf_type f with
      | [], _ => Err TypeError
      | _ :: rest, Some t =>
        Ok (below, match rest with [] => Complete (container_close t) | _ => NeedsInput (container_close t) end)
      | _, None => Err TypeError
      end
    | EIncomplete => Err TypeError
    end
  end.

(** writer_text.py:373-432: one event. *)
Definition text_write (indent : option (list Z)) (fs : tstate) (e : uevent)
  : list (list Z) * res (tstate * wevent) :=
  match fs with
  | [] => ([], Err TypeError)
  | f :: below =>
    let seps := separators indent (length below) f (ue_type e) in
    let '(names, r1) := field_chunks indent f e in
    match r1 with
    | Err x => (seps ++ names, Err x)
    | Ok _ =>
      let '(ans, r2) := if begins_value (ue_type e) then annotation_chunks (ue_annot e) else ([], Ok tt) in
      match r2 with
      | Err x => (seps ++ names ++ ans, Err x)
      | Ok _ => (seps ++ names ++ ans, text_core fs e)
      end
    end
  end.

(** writer_text.py:437-453 [raw_writer]: the indentation must be white space by Python's [\s]
    (which includes more than Ion's white space), and [six.b] encodes it as Latin-1. *)
Definition python_space (c : Z) : bool :=
  ((9 <=? c) && (c <=? 13)) || ((28 <=? c) && (c <=? 32)) || (c =? 0x85) || (c =? 0xA0)
  || (c =? 0x1680) || ((0x2000 <=? c) && (c <=? 0x200A)) || (c =? 0x2028) || (c =? 0x2029)
  || (c =? 0x202F) || (c =? 0x205F) || (c =? 0x3000).
(** writer_text.py:447-451. *)
Definition text_indent (indent : option text) : res (option (list Z)) :=
  match indent with
  | None => Ok None
  | Some i =>
    if negb (forallb python_space i) then Err ValueError
    else if forallb (fun c => c <? 256) i then Ok (Some i) else Err UnicodeEncodeError
  end.

(** Feeding events one after another through [blocking_writer] (writer.py:139-152): everything
    written to the output, in order. *)
Fixpoint text_write_all (indent : option (list Z)) (fs : tstate) (es : list uevent) : res (tstate * list Z) :=
  match es with
  | [] => Ok (fs, [])
  | e :: es' =>
    let '(cs, r) := text_write indent fs e in
    let* (fs', w) := r in
    let* (fs'', out) := text_write_all indent fs' es' in
    Ok (fs'', concat cs ++ wdata w ++ out)
  end.
