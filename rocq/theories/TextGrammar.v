(** The Ion text format, as a grammar: what a text says, event by event.  Nothing here refers to the
    text reader or the text writer.  A text is a list of code points (or of octets); every relation
    over the rest of a text reads [l evs rest]: from [l] the events [evs], and then [rest].

    Left out (DESIGN.md, C63, gives the reader's behaviour on each): comments between a field name's
    colon or the two colons of an annotation and what they belong to; VT and FF directly after a number
    or a keyword; a comment after ['']; a quote after a long string; operators with a slash;
    unterminated line comments after an annotated symbol, a long string or ['']. *)
From Coq Require Import String.
From Verif Require Import Base CoreModel SymbolsModel TextRoundTripSpec.
Local Open Scope Z_scope.

(** * White space and comments *)
Inductive gap : text -> Prop :=
| gap_none : gap []
| gap_blank c g : blank c -> gap g -> gap (c :: g)
| gap_line b n g : Forall (fun c => c <> 10 /\ c <> 13) b -> n = 10 \/ n = 13 -> gap g -> gap (txt "//" ++ b ++ n :: g)
| gap_block b g : (forall u v, b <> u ++ txt "*/" ++ v) -> gap g -> gap (txt "/*" ++ b ++ txt "*/" ++ g).
(** A line comment that the end of the text ends. *)
Definition open_comment (o : text) : Prop := exists b, o = txt "//" ++ b /\ Forall (fun c => c <> 10 /\ c <> 13) b.
(** Nothing to skip: no white space and no comment. *)
Definition settled (l : text) : Prop := match l with [] => True | c :: _ => ~ blank c /\ c <> 47 end.

(** * Numbers *)
Definition digit_value (c : Z) : Z := if c <=? 57 then c - 48 else if c <=? 70 then c - 55 else c - 87.
Definition number (base : Z) (ds : text) : Z := fold_left (fun a d => a * base + digit_value d) ds 0.
(** Digits, with single underscores between them: the text and the digits alone. *)
Inductive digit_run (is_digit : Z -> Prop) : text -> text -> Prop :=
| run_one d : is_digit d -> digit_run is_digit [d] [d]
| run_more d l ds : is_digit d -> digit_run is_digit l ds -> digit_run is_digit (d :: l) (d :: ds)
| run_under d l ds : is_digit d -> digit_run is_digit l ds -> digit_run is_digit (d :: 95 :: l) (d :: ds).
Definition hexadecimal (c : Z) : Prop := digit c \/ 97 <= c <= 102 \/ 65 <= c <= 70.
Definition binary (c : Z) : Prop := c = 48 \/ c = 49.
(** The whole part of a number: no leading zeros. *)
Definition whole_text (w ds : text) : Prop := w = [48] /\ ds = [48] \/ digit_run digit w ds /\ hd 0 w <> 48.
Definition minus (neg : bool) : text := if neg then [45] else [].
Definition sign (neg : bool) (n : Z) : Z := if neg then - n else n.
Inductive int_text : text -> Z -> Prop :=
| int_ten neg w ds : whole_text w ds -> int_text (minus neg ++ w) (sign neg (number 10 ds))
| int_hex neg x w ds : x = 120 \/ x = 88 -> digit_run hexadecimal w ds -> int_text (minus neg ++ 48 :: x :: w) (sign neg (number 16 ds))
| int_bin neg x w ds : x = 98 \/ x = 66 -> digit_run binary w ds -> int_text (minus neg ++ 48 :: x :: w) (sign neg (number 2 ds)).
(** The part after the whole part: a point and digits, or a point, or nothing; the digits. *)
Inductive fraction_text : text -> text -> Prop :=
| fraction_none : fraction_text [] []
| fraction_point : fraction_text [46] []
| fraction_digits w ds : digit_run digit w ds -> fraction_text (46 :: w) ds.
(** The exponent after its letter. *)
Inductive exponent_text : text -> Z -> Prop :=
| exponent_of s ds : s = [] \/ s = [43] \/ s = [45] -> ds <> [] -> Forall digit ds ->
    exponent_text (s ++ ds) (sign (match s with [45] => true | _ => false end) (number 10 ds)).
Inductive dec_text : text -> dec -> Prop :=
| decimal_point neg w ds fr fds : whole_text w ds -> fraction_text fr fds -> fr <> [] ->
    dec_text (minus neg ++ w ++ fr) (mkdec neg (number 10 (ds ++ fds)) (- zlen fds))
| decimal_exp neg w ds fr fds x e n : whole_text w ds -> fraction_text fr fds -> x = 100 \/ x = 68 -> exponent_text e n ->
    dec_text (minus neg ++ w ++ fr ++ x :: e) (mkdec neg (number 10 (ds ++ fds)) (n - zlen fds)).
(** The size of a double without its sign, in units of [2^-1074]; infinity counts as the next one after
    the greatest finite double, as in IEEE 754's rounding to nearest. *)
Definition infinity : Z := 0x7FF0000000000000.
Definition double_size (b : Z) : Z := if b <? 2 ^ 52 then b else (b mod 2 ^ 52 + 2 ^ 52) * 2 ^ (b / 2 ^ 52 - 1).
(** [b] is the double nearest to [num / den], the even one of two. *)
Definition nearest_double (num den b : Z) : Prop :=
  0 <= b <= infinity /\
  forall c, 0 <= c <= infinity -> c <> b ->
    let err x := Z.abs (num * 2 ^ 1074 - den * double_size x) in
    err b < err c \/ err b = err c /\ Z.even b = true.
Inductive float_text : text -> Z -> Prop :=
| float_exp neg w ds fr fds x e n c10 b : whole_text w ds -> fraction_text fr fds -> x = 101 \/ x = 69 -> exponent_text e n ->
    c10 = n - zlen fds -> nearest_double (number 10 (ds ++ fds) * 10 ^ Z.max 0 c10) (10 ^ Z.max 0 (- c10)) b ->
    float_text (minus neg ++ w ++ fr ++ x :: e) (if neg then b + 2 ^ 63 else b).

(** * Timestamps *)

(** Exactly [n] digits. *)
Definition figures (n : nat) (w : text) (v : Z) : Prop := List.length w = n /\ Forall digit w /\ v = number 10 w.
(** [None]: the offset is unknown. *)
Inductive offset_text : text -> option Z -> Prop :=
| offset_zulu : offset_text [90] (Some 0)
| offset_unknown : offset_text (txt "-00:00") None
| offset_of s hh h mm m : s = 43 \/ s = 45 -> figures 2 hh h -> figures 2 mm m -> m < 60 -> ~ (s = 45 /\ h = 0 /\ m = 0) ->
    offset_text (s :: hh ++ 58 :: mm) (Some (if s =? 45 then - (h * 60 + m) * 60 else (h * 60 + m) * 60)).
(** The text has the fields of the timestamp, as many as its precision says. *)
Inductive stamp_fields : text -> ts -> Prop :=
| stamp_year y t : ts_prec t = Some PYear -> figures 4 y (dt_year (ts_dt t)) -> stamp_fields (y ++ [84]) t
| stamp_month y m t : ts_prec t = Some PMonth -> figures 4 y (dt_year (ts_dt t)) -> figures 2 m (dt_month (ts_dt t)) -> stamp_fields (y ++ 45 :: m ++ [84]) t
| stamp_day y m d e t : ts_prec t = Some PDay -> figures 4 y (dt_year (ts_dt t)) -> figures 2 m (dt_month (ts_dt t)) -> figures 2 d (dt_day (ts_dt t)) ->
    e = [] \/ e = [84] -> stamp_fields (y ++ 45 :: m ++ 45 :: d ++ e) t
| stamp_minute y m d hh mm o t : ts_prec t = Some PMinute -> figures 4 y (dt_year (ts_dt t)) -> figures 2 m (dt_month (ts_dt t)) -> figures 2 d (dt_day (ts_dt t)) ->
    figures 2 hh (dt_hour (ts_dt t)) -> figures 2 mm (dt_minute (ts_dt t)) -> offset_text o (dt_off (ts_dt t)) ->
    stamp_fields (y ++ 45 :: m ++ 45 :: d ++ 84 :: hh ++ 58 :: mm ++ o) t
| stamp_second y m d hh mm ss fr o t : ts_prec t = Some PSecond -> figures 4 y (dt_year (ts_dt t)) -> figures 2 m (dt_month (ts_dt t)) -> figures 2 d (dt_day (ts_dt t)) ->
    figures 2 hh (dt_hour (ts_dt t)) -> figures 2 mm (dt_minute (ts_dt t)) -> figures 2 ss (dt_second (ts_dt t)) -> offset_text o (dt_off (ts_dt t)) ->
    fr = [] /\ ts_frac t = mkdec false 0 0 \/
      (exists ds, fr = 46 :: ds /\ ds <> [] /\ Forall digit ds /\ ts_frac t = mkdec false (number 10 ds) (- zlen ds)) ->
    stamp_fields (y ++ 45 :: m ++ 45 :: d ++ 84 :: hh ++ 58 :: mm ++ 58 :: ss ++ fr ++ o) t.
Definition stamp_text (w : text) (t : ts) : Prop := timestamp_fits t /\ stamp_fields w t.

(** * Quoted text *)
Definition escape_value (c v : Z) : Prop :=
  In (c, v) [(97, 7); (98, 8); (116, 9); (110, 10); (102, 12); (114, 13); (118, 11); (48, 0); (63, 63); (39, 39); (34, 34); (47, 47); (92, 92)].
(** One item of quoted text, and the code points it stands for; [raw]: what may stand for itself,
    [wide]: whether the text is Unicode (not a clob). *)
Inductive item (raw : Z -> Prop) (wide : bool) : text -> text -> Prop :=
| item_raw c : raw c -> scalar_value c -> c <> 92 -> c <> 13 -> item raw wide [c] [c]
| item_return : raw 13 -> item raw wide [13] [10]
| item_crlf : raw 13 -> item raw wide [13; 10] [10]
| item_escape c v : escape_value c v -> item raw wide [92; c] [v]
| item_newline : item raw wide [92; 10] []
| item_escaped_return : item raw wide [92; 13] []
| item_escaped_crlf : item raw wide [92; 13; 10] []
| item_hex2 h v : List.length h = 2%nat -> hex_number h v -> item raw wide (92 :: 120 :: h) [v]
| item_hex4 h v : wide = true -> List.length h = 4%nat -> hex_number h v -> scalar_value v -> item raw wide (92 :: 117 :: h) [v]
| item_hex8 h v : wide = true -> List.length h = 8%nat -> hex_number h v -> scalar_value v -> item raw wide (92 :: 85 :: h) [v]
| item_pair h1 v1 h2 v2 : wide = true -> List.length h1 = 4%nat -> hex_number h1 v1 -> 0xD800 <= v1 <= 0xDBFF ->
    List.length h2 = 4%nat -> hex_number h2 v2 -> 0xDC00 <= v2 <= 0xDFFF ->
    item raw wide (92 :: 117 :: h1 ++ 92 :: 117 :: h2) [0x10000 + (v1 - 0xD800) * 0x400 + (v2 - 0xDC00)].
(** A carriage return and the line feed after it are one item.  In a long string one or two quotes
    may stand before an item. *)
Inductive body (long : bool) (raw : Z -> Prop) (wide : bool) : text -> text -> Prop :=
| body_nil : body long raw wide [] []
| body_item q w s l t : q = [] \/ long = true /\ (q = [39] \/ q = [39; 39]) -> item raw wide w s ->
    (last w 0 = 13 -> hd 0 l <> 10) -> body long raw wide l t -> body long raw wide (q ++ w ++ l) (q ++ s ++ t).
Definition short_raw (quote c : Z) : Prop := c <> quote /\ (32 <= c \/ c = 9 \/ c = 11 \/ c = 12).
Definition long_raw (c : Z) : Prop := c <> 39 /\ (32 <= c \/ blank c).
Definition string_body (w s : text) : Prop := body false (short_raw 34) true w s.
Definition symbol_body (w s : text) : Prop := body false (short_raw 39) true w s.
Definition long_body (w s : text) : Prop := body true long_raw true w s.
Definition clob_body (w s : text) : Prop := body false (fun c => short_raw 34 c /\ c <= 127) false w s.
Definition long_clob_body (w s : text) : Prop := body true (fun c => long_raw c /\ c <= 127) false w s.
(** Segments between triple quotes, with [between] between two of them; not what may_follow the last. *)
Inductive segments (seg : text -> text -> Prop) (between : text -> Prop) : text -> text -> Prop :=
| segments_one w s : seg w s -> segments seg between (txt "'''" ++ w ++ txt "'''") s
| segments_more w s g l t : seg w s -> between g -> segments seg between l t ->
    segments seg between (txt "'''" ++ w ++ txt "'''" ++ g ++ l) (s ++ t).
Definition blanks (g : text) : Prop := Forall blank g.

(** * Blobs *)
Definition sextet (c v : Z) : Prop :=
  65 <= c <= 90 /\ v = c - 65 \/ 97 <= c <= 122 /\ v = c - 71 \/ 48 <= c <= 57 /\ v = c + 4 \/ c = 43 /\ v = 62 \/ c = 47 /\ v = 63.
Definition octet (a : Z) : Prop := 0 <= a <= 255.
Inductive base64 : text -> list Z -> Prop :=
| base64_none : base64 [] []
| base64_one c1 c2 v1 v2 a : sextet c1 v1 -> sextet c2 v2 -> octet a -> v1 * 64 + v2 = a * 16 -> base64 [c1; c2; 61; 61] [a]
| base64_two c1 c2 c3 v1 v2 v3 a b : sextet c1 v1 -> sextet c2 v2 -> sextet c3 v3 -> octet a -> octet b ->
    (v1 * 64 + v2) * 64 + v3 = (a * 256 + b) * 4 -> base64 [c1; c2; c3; 61] [a; b]
| base64_three c1 c2 c3 c4 v1 v2 v3 v4 a b c l r : sextet c1 v1 -> sextet c2 v2 -> sextet c3 v3 -> sextet c4 v4 -> octet a -> octet b -> octet c ->
    ((v1 * 64 + v2) * 64 + v3) * 64 + v4 = (a * 256 + b) * 256 + c -> base64 l r -> base64 (c1 :: c2 :: c3 :: c4 :: l) (a :: b :: c :: r).
(** The same with white space between the characters. *)
Inductive loose : text -> text -> Prop :=
| loose_end ws : blanks ws -> loose ws []
| loose_char ws c l t : blanks ws -> loose l t -> loose (ws ++ c :: l) (c :: t).

(** * Names: annotations, field names, symbols *)
Definition text_symbol (t : text) : token := mktok (Some t) None None.
Inductive plain_name : text -> token -> Prop :=
| name_bare t : bare_symbol t -> ~ like_sid t -> plain_name t (text_symbol t)
| name_sid ds : ds <> [] -> Forall digit ds -> plain_name (36 :: ds) (mktok None (Some (number 10 ds)) None).
Inductive name_text : text -> token -> Prop :=
| name_plain w k : plain_name w k -> name_text w k
| name_quoted w s : symbol_body w s -> name_text (39 :: w ++ [39]) (text_symbol s).
(** After the name [''] only white space. *)
Definition name_gap (w g : text) : Prop := gap g /\ (w = txt "''" -> blanks g).
Inductive annots : text -> list token -> Prop :=
| annots_none : annots [] []
| annots_one w k g b l an : name_text w k -> name_gap w g -> blanks b -> annots l an -> annots (w ++ g ++ txt "::" ++ b ++ l) (k :: an).
(** A field name with its colon. *)
Inductive field_text : text -> token -> Prop :=
| field_name w k g b : name_text w k -> name_gap w g -> blanks b -> field_text (w ++ g ++ 58 :: b) k
| field_string w s g b : string_body w s -> gap g -> blanks b -> field_text (34 :: w ++ 34 :: g ++ 58 :: b) (text_symbol s)
| field_long w s g b : segments long_body gap w s -> gap g -> blanks b -> field_text (w ++ g ++ 58 :: b) (text_symbol s).

(** * Scalars *)
Inductive where_ := Outside | InList | InSexp | InStruct.
Definition operator (c : Z) : Prop := In c (txt "!#%&*+-.;<=>?@^`|~").
(** What a token asks of what comes after it. *)
Inductive ending := free | after_quoted | after_number | after_word | after_null | after_name | after_empty | after_long | after_operator (w : text).
Definition shuts (c : Z) : Prop := In c (txt "{}[](),""'").
Definition may_follow (at_ : where_) (e : ending) (g rest : text) : Prop :=
  match e with
  | free | after_quoted => True
  | after_number => match g, rest with c :: _, _ => c <> 11 /\ c <> 12 | [], c :: _ => shuts c | [], [] => True end
  | after_word => match g, rest with c :: _, _ => c <> 11 /\ c <> 12 | [], c :: _ => shuts c \/ at_ = InSexp /\ operator c | [], [] => True end
  | after_null => match g, rest with c :: _, _ => c <> 11 /\ c <> 12 | [], c :: _ => shuts c \/ at_ = InSexp /\ operator c /\ c <> 46 | [], [] => True end
  | after_name => match g, rest with _ :: _, _ => True | [], c :: _ => shuts c \/ at_ = InSexp /\ operator c | [], [] => True end
  | after_empty => blanks g /\ match g, rest with [], 39 :: _ => False | _, _ => True end
  | after_long => hd 0 rest <> 39
  | after_operator w => match g ++ rest with
                        | c :: _ => ~ operator c /\ c <> 47 /\ (w = [43] \/ w = [45] -> c <> 105) /\ (w = [45] -> ~ digit c)
                        | [] => True
                        end
  end.
Definition null_names : list (string * iontype) :=
  [("null", TNull); ("bool", TBool); ("int", TInt); ("float", TFloat); ("decimal", TDecimal); ("timestamp", TTimestamp); ("symbol", TSymbol);
   ("string", TString); ("clob", TClob); ("blob", TBlob); ("list", TList); ("sexp", TSexp); ("struct", TStruct)]%string.
Inductive scalar_text (at_ : where_) : text -> iontype -> option scalar -> ending -> Prop :=
| text_null : scalar_text at_ (txt "null") TNull None after_null
| text_typed_null n t : In (n, t) null_names -> scalar_text at_ (txt "null." ++ txt n) t None after_word
| text_true : scalar_text at_ (txt "true") TBool (Some (VBool true)) after_word
| text_false : scalar_text at_ (txt "false") TBool (Some (VBool false)) after_word
| text_nan : scalar_text at_ (txt "nan") TFloat (Some (VFloat 0x7FF8000000000000)) after_word
| text_inf : scalar_text at_ (txt "+inf") TFloat (Some (VFloat 0x7FF0000000000000)) after_word
| text_minus_inf : scalar_text at_ (txt "-inf") TFloat (Some (VFloat 0xFFF0000000000000)) after_word
| text_int w n : int_text w n -> scalar_text at_ w TInt (Some (VInt n)) after_number
| text_decimal w d : dec_text w d -> decimal_fits d -> scalar_text at_ w TDecimal (Some (VDecimal d)) after_number
| text_float w b : float_text w b -> scalar_text at_ w TFloat (Some (VFloat b)) after_number
| text_stamp w t : stamp_text w t -> scalar_text at_ w TTimestamp (Some (VTimestamp (TsStamp t))) after_number
| text_plain_name w k : plain_name w k -> scalar_text at_ w TSymbol (Some (VSymbol k)) after_name
| text_quoted_name w s : symbol_body w s -> scalar_text at_ (39 :: w ++ [39]) TSymbol (Some (VSymbol (text_symbol s))) (match w with [] => after_empty | _ => after_quoted end)
| text_operator w : at_ = InSexp -> w <> [] -> Forall operator w -> scalar_text at_ w TSymbol (Some (VSymbol (text_symbol w))) (after_operator w)
| text_string w s : string_body w s -> scalar_text at_ (34 :: w ++ [34]) TString (Some (VString s)) free
| text_long w s : segments long_body gap w s -> scalar_text at_ w TString (Some (VString s)) after_long
| text_clob g1 w s g2 : blanks g1 -> clob_body w s -> blanks g2 -> scalar_text at_ (txt "{{" ++ g1 ++ 34 :: w ++ 34 :: g2 ++ txt "}}") TClob (Some (VBytes s)) free
| text_long_clob g1 w s g2 : blanks g1 -> segments long_clob_body blanks w s -> blanks g2 ->
    scalar_text at_ (txt "{{" ++ g1 ++ w ++ g2 ++ txt "}}") TClob (Some (VBytes s)) free
| text_blob w e b : base64 e b -> loose w e -> scalar_text at_ (txt "{{" ++ w ++ txt "}}") TBlob (Some (VBytes b)) free.

(** * Values *)
Definition scalar_ev (t : iontype) (v : option scalar) (f : option token) (an : list token) (d : Z) : event :=
  mkev EScalar (Some t) (match v with Some v => EvVal v | None => EvNone end) f an (Some d).
Definition start_ev (t : iontype) (f : option token) (an : list token) (d : Z) : event := mkev EContainerStart (Some t) EvNone f an (Some d).
Definition end_ev (t : iontype) (d : Z) : event := mkev EContainerEnd (Some t) EvNone None [] (Some d).
Definition marker_ev : event := mkev EVersionMarker None (EvVersion 1 0) None [] (Some 0).
(** White space and comments after a value, up to [rest]; at the end of the text the last comment may
    be open, except after [held] values. *)
Inductive trailing (at_ : where_) (held : Prop) (rest : text) : text -> Prop :=
| trailing_gap g : gap g -> settled rest -> trailing at_ held rest g
| trailing_open g o : at_ = Outside -> ~ held -> rest = [] -> gap g -> open_comment o -> trailing at_ held rest (g ++ o).
Definition held (e : ending) (an : list token) : Prop := match e with after_empty | after_long => True | after_name | after_quoted => an <> [] | _ => False end.
(** [read_value at_ d f l evs rest]: a value with its annotations and what trails it. *)
Inductive read_value : where_ -> Z -> option token -> text -> list event -> text -> Prop :=
| value_scalar at_ d f a an w t v e g rest : annots a an -> scalar_text at_ w t v e -> may_follow at_ e g rest -> trailing at_ (held e an) rest g ->
    ~ (at_ = Outside /\ an = [] /\ like_ivm w) ->
    read_value at_ d f (a ++ w ++ g ++ rest) [scalar_ev t v f an d] rest
| value_list at_ d f a an g1 l evs g rest : annots a an -> gap g1 -> read_items (d + 1) l evs (g ++ rest) -> trailing at_ False rest g ->
    read_value at_ d f (a ++ 91 :: g1 ++ l) (start_ev TList f an d :: evs ++ [end_ev TList d]) rest
| value_sexp at_ d f a an g1 l evs g rest : annots a an -> gap g1 -> read_terms (d + 1) l evs (g ++ rest) -> trailing at_ False rest g ->
    read_value at_ d f (a ++ 40 :: g1 ++ l) (start_ev TSexp f an d :: evs ++ [end_ev TSexp d]) rest
| value_struct at_ d f a an g1 l evs g rest : annots a an -> gap g1 -> read_fields (d + 1) l evs (g ++ rest) -> trailing at_ False rest g ->
    read_value at_ d f (a ++ 123 :: g1 ++ l) (start_ev TStruct f an d :: evs ++ [end_ev TStruct d]) rest
with read_items : Z -> text -> list event -> text -> Prop :=
| items_end d rest : read_items d (93 :: rest) [] rest
| items_last d l evs rest : read_value InList d None l evs (93 :: rest) -> read_items d l evs rest
| items_more d l evs g l' evs' rest : read_value InList d None l evs (44 :: g ++ l') -> gap g -> read_items d l' evs' rest -> read_items d l (evs ++ evs') rest
with read_terms : Z -> text -> list event -> text -> Prop :=
| terms_end d rest : read_terms d (41 :: rest) [] rest
| terms_more d l evs l' evs' rest : read_value InSexp d None l evs l' -> read_terms d l' evs' rest -> read_terms d l (evs ++ evs') rest
with read_fields : Z -> text -> list event -> text -> Prop :=
| fields_end d rest : read_fields d (125 :: rest) [] rest
| fields_last d n k l evs rest : field_text n k -> read_value InStruct d (Some k) l evs (125 :: rest) -> read_fields d (n ++ l) evs rest
| fields_more d n k l evs g l' evs' rest : field_text n k -> read_value InStruct d (Some k) l evs (44 :: g ++ l') -> gap g ->
    read_fields d l' evs' rest -> read_fields d (n ++ l) (evs ++ evs') rest.
(** A whole text, after its leading gap. *)
Inductive read_stream : text -> list event -> Prop :=
| stream_end : read_stream [] []
| stream_value l evs rest evs' : read_value Outside 0 None l evs rest -> read_stream rest evs' -> read_stream l (evs ++ evs')
| stream_marker g rest evs : may_follow Outside after_name g rest -> trailing Outside False rest g -> read_stream rest evs ->
    read_stream (txt "$ion_1_0" ++ g ++ rest) (marker_ev :: evs).
Inductive document : text -> list event -> Prop :=
| document_of g l evs : gap g -> read_stream l evs -> document (g ++ l) evs
| document_open g o : gap g -> open_comment o -> document (g ++ o) [].
(** What the reader may return for an event: the event, or the event with its value as a thunk that yields
    the value when it is asked for. *)
Definition answers (spec e : event) : Prop :=
  e = spec \/ exists v, ev_value spec = EvVal v /\ e = mkev (ev_type spec) (ev_ion_type spec) (EvLazy (Ok v)) (ev_field spec) (ev_annot spec) (ev_depth spec).
