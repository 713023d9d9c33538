(** What the text format carries, and when what was read is what was written.  Nothing here refers to
    the text writer or the text reader. *)
From Coq Require Import String.
From Verif Require Import Base CoreModel TimestampFacts BinWriterModel ManagedModel Props_TextWriter.
Local Open Scope Z_scope.

(** * Names: field names, annotations, symbol values *)

(** The text of a name; [None] for a symbol identifier without text. *)
Definition text_of (a : symarg) : option text := match a with AText t => Some t | ATok k => tk_text k end.
Definition sid_of (a : symarg) : option Z := match a with AText _ => None | ATok k => tk_sid k end.
Definition digit (c : Z) : Prop := 48 <= c <= 57.
(** [$10]: written without quotes, so it denotes symbol identifier 10 (DESIGN.md, finding 28). *)
Definition like_sid (t : text) : Prop := exists ds, t = 36 :: ds /\ ds <> [] /\ Forall digit ds.
(** [$ion_1_0]: alone at the top level it denotes a version marker. *)
Definition like_ivm (t : text) : Prop :=
  exists a b, t = [36; 105; 111; 110; 95] ++ a ++ 95 :: b /\ Forall digit a /\ Forall digit b /\ b <> [].
Definition scalar_value (c : Z) : Prop := 0 <= c <= 0x10FFFF /\ ~ 0xD800 <= c <= 0xDFFF.
Definition name_fits (a : symarg) : Prop :=
  match text_of a with
  | Some t => Forall scalar_value t /\ ~ like_sid t
  | None => exists n, sid_of a = Some n /\ 0 <= n
  end.
Definition same_symbol (a : symarg) (k : token) : Prop :=
  match text_of a with
  | Some t => k = mktok (Some t) None None
  | None => exists n, sid_of a = Some n /\ k = mktok None (Some n) None
  end.

(** * Values *)

(** Every value of Python's [decimal]: digits, and an exponent within its limits. *)
Definition decimal_fits (d : dec) : Prop :=
  0 <= d_coef d /\ -1999999999999999997 <= d_exp d /\ d_exp d + ndigits (d_coef d) - 1 <= 999999999999999999.
(** A [datetime] as a timestamp: to the second, with six digits of fraction. *)
Definition datetime_as (d : dtime) : ts := mkts d (Some PSecond) 6 (mkdec false (dt_micro d) (-6)).
(** A timestamp with a precision, the fields beyond it at their defaults, an offset in whole minutes
    and only from minute precision on, and a fraction that is what the constructor makes of it. *)
Definition timestamp_fits (t : ts) : Prop :=
  ts_canonical t /\
  match dt_off (ts_dt t) with None => True | Some o => o mod 60 = 0 /\ -86400 < o < 86400 end /\
  match ts_prec t with
  | None => False
  | Some PYear => dt_month (ts_dt t) = 1 /\ dt_day (ts_dt t) = 1
  | Some PMonth => dt_day (ts_dt t) = 1
  | Some _ => True
  end /\
  match ts_prec t with
  | Some (PYear | PMonth | PDay) => dt_hour (ts_dt t) = 0 /\ dt_minute (ts_dt t) = 0 /\ dt_off (ts_dt t) = None
  | _ => True
  end /\
  (ts_prec t <> Some PSecond -> dt_second (ts_dt t) = 0 /\ ts_frac t = mkdec false 0 0) /\
  0 <= d_coef (ts_frac t) /\ ndigits (d_coef (ts_frac t)) <= 28 /\ -999999 <= d_exp (ts_frac t) /\ d_neg (ts_frac t) = false.

Definition scalar_fits (t : iontype) (v : scalar) : Prop :=
  match t, v with
  | TBool, VBool _ => True
  | TInt, VInt _ => True
  | TFloat, VFloat b => 0 <= b < 2 ^ 64
  | TDecimal, VDecimal d => decimal_fits d
  | TTimestamp, VTimestamp (TsStamp x) => timestamp_fits x
  | TTimestamp, VTimestamp (TsPlain d) => timestamp_fits (datetime_as d)
  | TSymbol, VSymbol k => name_fits (ATok k)
  | TSymbol, VString s => name_fits (AText s)
  | TString, VString s => Forall scalar_value s
  | (TClob | TBlob), VBytes b => octets b
  | _, _ => False
  end.
(** An IEEE double that is not a number: all ones in the exponent, and a fraction. *)
Definition not_a_number (b : Z) : Prop := exists s f, b = s * 2 ^ 63 + 2047 * 2 ^ 52 + f /\ (s = 0 \/ s = 1) /\ 0 < f < 2 ^ 52.
(** Every such double reads back as the quiet one, [float('nan')]. *)
Inductive same_scalar : iontype -> scalar -> scalar -> Prop :=
| same_as_is t v : In t [TBool; TInt; TDecimal; TString; TClob; TBlob] -> same_scalar t v v
| same_float b : ~ not_a_number b -> same_scalar TFloat (VFloat b) (VFloat b)
| same_nan b : not_a_number b -> same_scalar TFloat (VFloat b) (VFloat 0x7FF8000000000000)
| same_stamp x : same_scalar TTimestamp (VTimestamp (TsStamp x)) (VTimestamp (TsStamp x))
| same_datetime d : same_scalar TTimestamp (VTimestamp (TsPlain d)) (VTimestamp (TsStamp (datetime_as d)))
| same_token k j : same_symbol (ATok k) j -> same_scalar TSymbol (VSymbol k) (VSymbol j)
| same_name s j : same_symbol (AText s) j -> same_scalar TSymbol (VString s) (VSymbol j).

(** * Events *)
Definition in_a_struct (open : list iontype) : Prop := exists o, open = TStruct :: o.
(** A lone symbol that spells a version marker. *)
Definition spells_ivm (e : uevent) : Prop :=
  ue_ion_type e = Some TSymbol /\ ue_annot e = [] /\
  exists v t, ev_force (ue_value e) = Ok (Some v) /\ (v = VString t \/ exists k, v = VSymbol k /\ tk_text k = Some t) /\ like_ivm t.
Definition event_fits (open : list iontype) (e : uevent) : Prop :=
  begins_value (ue_type e) = true ->
  (in_a_struct open -> exists a, ue_field e = Some a /\ name_fits a) /\
  Forall name_fits (ue_annot e) /\
  (ue_type e = EScalar -> exists t v, ue_ion_type e = Some t /\ ev_force (ue_value e) = Ok v /\
     match v with Some v => scalar_fits t v | None => True end /\ (open = [] -> ~ spells_ivm e)).
(** A well-nested stream of such events, all containers closed at the end. *)
Fixpoint carried (open : list iontype) (es : list uevent) : Prop :=
  match es with
  | [] => open = []
  | e :: es' => event_fits open e /\ match nests open e with Some o => carried o es' | None => False end
  end.

(** The field name is part of the stream only inside a struct. *)
Inductive same_field (open : list iontype) (e : uevent) : option token -> Prop :=
| field_in a k : in_a_struct open -> ue_field e = Some a -> same_symbol a k -> same_field open e (Some k)
| field_out : ~ in_a_struct open -> same_field open e None.
Inductive same_value (t : iontype) (x : evalue) : evalue -> Prop :=
| same_null y : ev_force x = Ok None -> ev_force y = Ok None -> same_value t x y
| same_some v w y : ev_force x = Ok (Some v) -> ev_force y = Ok (Some w) -> same_scalar t v w -> same_value t x y.
(** What is read, event by event: type, Ion type, value, field name, annotations and depth. *)
Inductive same_events : list iontype -> list uevent -> list event -> Prop :=
| read_done : same_events [] [] []
| read_marker e es evs : ue_type e = EVersionMarker -> same_events [] es evs ->
    same_events [] (e :: es) (mkev EVersionMarker None (EvVersion 1 0) None [] (Some 0) :: evs)
| read_stop e es evs : ue_type e = EStreamEnd -> same_events [] es evs -> same_events [] (e :: es) evs
| read_scalar open e t y f an es evs : ue_type e = EScalar -> ue_ion_type e = Some t ->
    same_value t (ue_value e) y -> same_field open e f -> Forall2 same_symbol (ue_annot e) an -> same_events open es evs ->
    same_events open (e :: es) (mkev EScalar (Some t) y f an (Some (zlen open)) :: evs)
| read_open open e t f an es evs : ue_type e = EContainerStart -> ue_ion_type e = Some t -> In t [TList; TSexp; TStruct] ->
    same_field open e f -> Forall2 same_symbol (ue_annot e) an -> same_events (t :: open) es evs ->
    same_events open (e :: es) (mkev EContainerStart (Some t) EvNone f an (Some (zlen open)) :: evs)
| read_close open e t es evs : ue_type e = EContainerEnd -> same_events open es evs ->
    same_events (t :: open) (e :: es) (mkev EContainerEnd (Some t) EvNone None [] (Some (zlen open)) :: evs).

(** Ion's white space. *)
Definition blank (c : Z) : Prop := In c [32; 9; 10; 11; 12; 13].
Definition blank_indent (indent : option (list Z)) : Prop := match indent with Some i => Forall blank i | None => True end.
(** The same tokens with white space, possibly none, before each of them and after the last. *)
Inductive spaced : list (list Z) -> list Z -> Prop :=
| spaced_end ws : Forall blank ws -> spaced [] ws
| spaced_token ws tok toks out : Forall blank ws -> spaced toks out -> spaced (tok :: toks) (ws ++ tok ++ out).

(** * Quoted text *)
Definition hex_digit (c v : Z) : Prop := 48 <= c <= 57 /\ v = c - 48 \/ 97 <= c <= 102 /\ v = c - 87 \/ 65 <= c <= 70 /\ v = c - 55.
Inductive hex_number : list Z -> Z -> Prop :=
| hex_none : hex_number [] 0
| hex_more l n c v : hex_number l n -> hex_digit c v -> hex_number (l ++ [c]) (16 * n + v).
Definition printable (c : Z) : Prop := 32 <= c <= 126.
(** The code points that printable ASCII text between two [quote]s stands for. *)
Inductive denotes (quote : Z) : list Z -> list Z -> Prop :=
| denotes_nothing : denotes quote [] []
| denotes_itself c l s : printable c -> c <> quote -> c <> 92 -> denotes quote l s -> denotes quote (c :: l) (c :: s)
| denotes_quoted c l s : c = quote \/ c = 92 -> denotes quote l s -> denotes quote (92 :: c :: l) (c :: s)
| denotes_newline l s : denotes quote l s -> denotes quote (92 :: 110 :: l) (10 :: s)
| denotes_return l s : denotes quote l s -> denotes quote (92 :: 114 :: l) (13 :: s)
| denotes_tab l s : denotes quote l s -> denotes quote (92 :: 116 :: l) (9 :: s)
| denotes_hex2 h c l s : List.length h = 2%nat -> hex_number h c -> denotes quote l s -> denotes quote (92 :: 120 :: h ++ l) (c :: s)
| denotes_hex4 h c l s : List.length h = 4%nat -> hex_number h c -> denotes quote l s -> denotes quote (92 :: 117 :: h ++ l) (c :: s)
| denotes_hex8 h c l s : List.length h = 8%nat -> hex_number h c -> denotes quote l s -> denotes quote (92 :: 85 :: h ++ l) (c :: s).

(** An unquoted symbol: a letter, dollar sign or underscore, then those and digits, but no keyword. *)
Definition name_start (c : Z) : Prop := 65 <= c <= 90 \/ 97 <= c <= 122 \/ c = 36 \/ c = 95.
Definition bare_symbol (t : text) : Prop :=
  (exists c r, t = c :: r /\ name_start c /\ Forall (fun c => name_start c \/ digit c) r) /\
  ~ In t [[110; 117; 108; 108]; [116; 114; 117; 101]; [102; 97; 108; 115; 101]; [110; 97; 110]].
