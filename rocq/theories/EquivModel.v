(** Model of [ion_equals] (/repo/amazon/ion/equivalence.py). *)
From Verif Require Import Base CoreModel CalendarFacts SymbolsModel ManagedModel MultimapModel SimpleionModel.
Local Open Scope Z_scope.

(** * Views: the [isinstance] tests *)

(** [isinstance(x, _IonNature)]: [ion_type] and [ion_annotations].
    (equivalence.py:71-72: isinstance of _IonNature; simple_types.py:52-54: its attributes) *)
Definition nature (v : pyval) : option (iontype * list symarg) :=
  match v with
  | PNull t an => Some (t, an)
  | PIon t an _ => Some (t, an)
  | PSeq sexp an _ => Some (if sexp then TSexp else TList, an)
  | PStruct an _ => Some (TStruct, an)
  | _ => None
  end.
(** equivalence.py:81-109: the classes that the comparisons tell apart; simple_types.py:147-187. *)
Definition scalar_of (v : pyval) : option scalar := match v with PPlain s => Some s | PIon _ _ s => Some s | _ => None end.
(** [isinstance(x, (dict, Multimap))]; the flag: a Multimap. (equivalence.py:131-132, 146) *)
Definition struct_view (v : pyval) : option (bool * multimap (option text) pyval) :=
  match v with
  | PDict l => Some (false, map (fun p => (fst p, [snd p])) l)
  | PStruct _ m => Some (true, m)
  | _ => None
  end.
(** [isinstance(x, (six.text_type, SymbolToken))] (equivalence.py:202-203) *)
Definition symbol_view (v : pyval) : option symarg :=
  match scalar_of v with Some (VSymbol t) => Some (ATok t) | Some (VString x) => Some (AText x) | _ => None end.
(** equivalence.py:102, 163-164. *)
Definition datetime_view (v : pyval) : option tsvalue := match scalar_of v with Some (VTimestamp x) => Some x | _ => None end.
(** equivalence.py:106, 231-232. *)
Definition decimal_view (v : pyval) : option dec := match scalar_of v with Some (VDecimal d) => Some d | _ => None end.
(** equivalence.py:108, 247-248. *)
Definition float_view (v : pyval) : option Z := match scalar_of v with Some (VFloat x) => Some x | _ => None end.

(** * Scalars *)

(** equivalence.py:201-227 [_symbols_eq], the second operand a text or token. *)
Definition symbols_eq (a b : symarg) : res bool :=
  let a_text := match a with ATok t => tk_text t | AText x => Some x end in
  let b_text := match b with ATok t => tk_text t | AText x => Some x end in
  if opt_eqb zlist_eqb a_text b_text then
    match a_text with
    | Some _ => Ok true
    | None =>
      let a_loc := match a with ATok t => tk_loc t | AText _ => None end in
      let b_loc := match b with ATok t => tk_loc t | AText _ => None end in
      match a_loc, b_loc with
      | Some _, None | None, Some _ => Ok false
      | _, _ =>
        let differ := match a_loc, b_loc with
                      | Some x, Some y => negb (zlist_eqb (loc_name x) (loc_name y)) || negb (loc_pos x =? loc_pos y)
                      | _, _ => false end in
        if differ then Ok false
        else match (match a with ATok t => tk_sid t | AText _ => None end), (match b with ATok t => tk_sid t | AText _ => None end) with
             | Some x, Some y => Ok (Bool.eqb (x =? 0) (y =? 0))
             | _, _ => Err ValueError
             end
      end
    end
  else Ok false.

(** Numeric value of a decimal, in units of 10^m. (equivalence.py:239: compare_total of the decimal module) *)
Definition dec_units (d : dec) (m : Z) : Z := (if d_neg d then - d_coef d else d_coef d) * 10 ^ (d_exp d - m).
(** Python [Decimal.__eq__]: exact numeric comparison. (equivalence.py:176, 239: of the decimal module) *)
Definition dec_num_eq (a b : dec) : bool :=
  let m := Z.min (d_exp a) (d_exp b) in dec_units a m =? dec_units b m.
(** [compare_total(...) == 0] of finite decimals: sign, then number, then exponent. (equivalence.py:239) *)
Definition dec_total_eq (a b : dec) : bool := Bool.eqb (d_neg a) (d_neg b) && dec_num_eq a b && (d_exp a =? d_exp b).
(** equivalence.py:230-239 [_decimals_eq] *)
Definition decimals_eq (a b : dec) : bool :=
  if (d_coef a =? 0) && (d_coef b =? 0) && xorb (d_neg a) (d_neg b) then false else dec_total_eq a b.

(** Binary64 bit patterns: zeros, NaNs, and Python [float.__eq__]. (equivalence.py:250) *)
Definition float_zero (x : Z) : bool := x mod 2 ^ 63 =? 0.
(** equivalence.py:254. *)
Definition float_nan (x : Z) : bool := 2047 * 2 ^ 52 <? x mod 2 ^ 63.
(** equivalence.py:254. *)
Definition float_num_eq (a b : Z) : bool :=
  negb (float_nan a) && negb (float_nan b) && ((a =? b) || (float_zero a && float_zero b)).
(** equivalence.py:242-243 *)
Definition float_negative_zero (x : Z) : bool := x =? 2 ^ 63.
(** equivalence.py:246-254 [_floats_eq] *)
Definition floats_eq (a b : Z) : bool :=
  if float_zero a && float_zero b then negb (xorb (float_negative_zero a) (float_negative_zero b))
  else float_num_eq a b || (float_nan a && float_nan b).

(** equivalence.py:175; core.py:346-352. *)
Definition prec_eqb (a b : precision) : bool := prec_rank a =? prec_rank b.
(** equivalence.py:162-164: every timestamp is a datetime. *)
Definition ts_datetime (x : tsvalue) : dtime := match x with TsStamp t => ts_dt t | TsPlain d => d end.
(** Fields of two datetimes of the same offset. (equivalence.py:183: equality of the datetime module) *)
Definition datetime_fields_eq (a b : dtime) : bool :=
  (dt_year a =? dt_year b) && (dt_month a =? dt_month b) && (dt_day a =? dt_day b) &&
  (dt_hour a =? dt_hour b) && (dt_minute a =? dt_minute b) && (dt_second a =? dt_second b) && (dt_micro a =? dt_micro b).
(** equivalence.py:179; core.py:379. *)
Definition full_micro (t : ts) : bool := opt_eqb prec_eqb (ts_prec t) (Some PSecond) && (ts_fprec t =? 6).
(** equivalence.py:161-183 [_timestamps_eq] *)
Definition timestamps_eq (a b : tsvalue) : bool :=
  if negb (opt_eqb Z.eqb (dt_off (ts_datetime a)) (dt_off (ts_datetime b))) then false
  else
    let go := match a, b with
              | TsStamp x, TsStamp y =>
                opt_eqb prec_eqb (ts_prec x) (ts_prec y) && (ts_fprec x =? ts_fprec y) && dec_num_eq (ts_frac x) (ts_frac y)
              | TsStamp x, TsPlain _ => full_micro x
              | TsPlain _, TsStamp y => full_micro y
              | TsPlain _, TsPlain _ => true
              end in
    if go then datetime_fields_eq (ts_datetime a) (ts_datetime b) else false.
(** equivalence.py:186-198 [_timestamp_instants_eq]; Python compares datetimes with offsets by instant. *)
Definition instant (d : dtime) : Z := (seconds_of d - match dt_off d with Some o => o | None => 0 end) * 1000000 + dt_micro d.
(** equivalence.py:186-198. *)
Definition instants_eq (a b : tsvalue) : bool := instant (ts_datetime a) =? instant (ts_datetime b).

(** Python [==] of an int (or bool) and another number: exact. (equivalence.py:94, 110) *)
Definition int_eq_num (n : Z) (s : scalar) : bool :=
  match s with
  | VBool b => n =? (if b then 1 else 0)
  | VInt z => n =? z
  | VDecimal d => dec_num_eq (mkdec (n <? 0) (Z.abs n) 0) d
  | VFloat x =>
    (* value = m * 2^e *)
    let ex := x / 2 ^ 52 mod 2048 in
    let fr := x mod 2 ^ 52 in
    if ex =? 2047 then false
    else
      let m := if ex =? 0 then fr else fr + 2 ^ 52 in
      let e := (if ex =? 0 then 1 else ex) - 1075 in
      let m := if x / 2 ^ 63 =? 1 then - m else m in
      if e <? 0 then n * 2 ^ (- e) =? m else n =? m * 2 ^ e
  | _ => false
  end.

Section EQUALS.
(** [timestamps_instants_only]; and Python's [==] of two tuples (elementwise, by identity or [==]). *)
Variable instants_only : bool.
Variable tuple_eq : list pyval -> list pyval -> bool.

(** equivalence.py:94, 110: Python [a == b] where [a] is None, a bool, int, str, bytes or tuple (with or without Ion
    nature).  Anything not listed is unequal. *)
Definition python_eq (a b : pyval) : bool :=
  match a, b with
  | PNone, PNone => true
  | PTuple x, PTuple y => tuple_eq x y
  | _, _ =>
    match scalar_of a, scalar_of b with
    | Some (VBool x), Some s => int_eq_num (if x then 1 else 0) s
    | Some (VInt x), Some s => int_eq_num x s
    | Some (VString x), Some (VString y) => zlist_eqb x y
    | Some (VBytes x), Some (VBytes y) => zlist_eqb x y
    | _, _ => false
    end
  end.

(** equivalence.py:117-127 [_sequences_eq], [b] a list or tuple. *)
Fixpoint elements_eq {A} (f : A -> A -> res bool) (a b : list A) : res bool :=
  match a, b with
  | [], [] => Ok true
  | x :: a, y :: b => let* e := f x y in if e then elements_eq f a b else Ok false
  | _, _ => Ok false
  end.
(** equivalence.py:117-127. *)
Definition sequences_eq {A} (f : A -> A -> res bool) (a b : list A) : res bool :=
  if zlen a =? zlen b then elements_eq f a b else Ok false.

(** equivalence.py:152. *)
Fixpoint some_eq (f : pyval -> pyval -> res bool) (x : pyval) (l : list pyval) : res bool :=
  match l with [] => Ok false | y :: l => let* e := f x y in if e then Ok true else some_eq f x l end.
(** equivalence.py:151-153. *)
Fixpoint all_some_eq (f : pyval -> pyval -> res bool) (l r : list pyval) : res bool :=
  match l with [] => Ok true | x :: l => let* e := some_eq f x r in if e then all_some_eq f l r else Ok false end.
(** equivalence.py:138-156: one round of [_structs_eq]. *)
Fixpoint fields_eq (f : pyval -> pyval -> res bool) (multi : bool) (a b : multimap (option text) pyval) (keys : list (option text)) : res bool :=
  match keys with
  | [] => Ok true
  | k :: keys =>
    match dict_get name_eqb b k with
    | None => Ok false
    | Some _ =>
      let* e := if multi then
                  let* va := mm_get_all name_eqb a k in
                  let* vb := mm_get_all name_eqb b k in
                  if zlen va =? zlen vb then all_some_eq f va vb else Ok false
                else
                  let* x := mm_getitem name_eqb a k in
                  let* y := mm_getitem name_eqb b k in
                  f x y in
      if e then fields_eq f multi a b keys else Ok false
    end
  end.
(** equivalence.py:130-158 [_structs_eq] *)
Definition structs_eq (f : pyval -> pyval -> res bool) (a b : bool * multimap (option text) pyval) : res bool :=
  let multi := fst a && fst b in
  if mm_len (snd a) =? mm_len (snd b) then
    let* e := fields_eq f multi (snd a) (snd b) (mm_keys (snd a)) in
    if e then fields_eq f multi (snd b) (snd a) (mm_keys (snd b)) else Ok false
  else Ok false.

(** A comparison function that refuses an operand of another kind.
    (equivalence.py:119-120, 132-133, 164-165, 203-204, 232-233, 248-249) *)
Definition among {A} (f : A -> A -> res bool) (a : A) (b : option A) : res bool :=
  match b with Some y => f a y | None => Ok false end.
(** equivalence.py:183, 198, 239, 254: these comparisons cannot fail. *)
Definition pure {A} (f : A -> A -> bool) (a b : A) : res bool := Ok (f a b).
(** equivalence.py:55-65. *)
Definition stamp_eq : tsvalue -> tsvalue -> bool := if instants_only then instants_eq else timestamps_eq.

(** equivalence.py:79-94: [a] has Ion nature. *)
Definition nature_eq (f : pyval -> pyval -> res bool) (a b : pyval) : res bool :=
  match a with
  | PSeq _ _ l => among (sequences_eq f) l (py_elements b)
  | PStruct _ m => among (structs_eq f) (true, m) (struct_view b)
  | PNull t _ => Ok (match b with PNull _ _ => true | PNone => iontype_eqb t TNull | _ => false end)
  | PIon t _ s =>
    match s with
    | VTimestamp x => among (pure stamp_eq) x (datetime_view b)
    | VSymbol x => among symbols_eq (ATok x) (symbol_view b)
    | VString x => match t with TSymbol => among symbols_eq (AText x) (symbol_view b) | _ => Ok (python_eq a b) end
    | VDecimal d => among (pure decimals_eq) d (decimal_view b)
    | VFloat x => among (pure floats_eq) x (float_view b)
    | _ => Ok (python_eq a b)
    end
  | _ => Ok (python_eq a b)
  end.
(** equivalence.py:97-109: one round of the second loop; None: go on. *)
Definition plain_eq (f : pyval -> pyval -> res bool) (a b : pyval) : option (res bool) :=
  match a with
  | PList l => Some (among (sequences_eq f) l (py_elements b))
  | PDict l => Some (match struct_view a with Some x => among (structs_eq f) x (struct_view b) | None => Ok false end)
  | PPlain (VTimestamp x) => Some (among (pure stamp_eq) x (datetime_view b))
  | PPlain (VSymbol x) => Some (among symbols_eq (ATok x) (symbol_view b))
  | PPlain (VDecimal d) => Some (among (pure decimals_eq) d (decimal_view b))
  | PPlain (VFloat x) => Some (among (pure floats_eq) x (float_view b))
  | _ => None
  end.

(** equivalence.py:68-110 [_ion_equals].  The first loop leaves the operands swapped, so the second starts with the
    second operand. *)
Definition equals_step (f : pyval -> pyval -> res bool) (a b : pyval) : res bool :=
  match nature a, nature b with
  | Some (t, an), Some (t', an') =>
    let* e := if iontype_eqb t t' then sequences_eq symbols_eq an an' else Ok false in
    if e then nature_eq f a b else Ok false
  | Some (_, an), None => match an with [] => nature_eq f a b | _ => Ok false end
  | None, Some (_, an) => match an with [] => nature_eq f b a | _ => Ok false end
  | None, None =>
    match plain_eq f b a with
    | Some r => r
    | None => match plain_eq f a b with Some r => r | None => Ok (python_eq a b) end
    end
  end.
(** equivalence.py:60-65, 68-110; the recursion is bounded by the fuel. *)
Fixpoint equals_fuel (fuel : nat) (a b : pyval) : res bool :=
  match fuel with O => Err OutOfFuel | S n => equals_step (equals_fuel n) a b end.

(** The recursion of [_ion_equals] ends: every call is on elements of both operands, which are nested
    less deep ([nesting]; a token is a tuple, its location one inside it). (equivalence.py:68-110) *)
Fixpoint nesting (v : pyval) : nat :=
  match v with
  | PNone | PNull _ _ => 1
  | PPlain (VSymbol _) | PIon _ _ (VSymbol _) => 3
  | PPlain _ | PIon _ _ _ => 1
  | PList l | PTuple l | PSeq _ _ l => S (list_max (map nesting l))
  | PDict l => S (list_max (map (fun p => nesting (snd p)) l))
  | PStruct _ m => S (list_max (map (fun p => list_max (map nesting (snd p))) m))
  end.
(** equivalence.py:35-57 [ion_equals] *)
Definition ion_equals (a b : pyval) : res bool := equals_fuel (nesting a + nesting b) a b.
End EQUALS.
