(** Model of the comparison of events, /repo/amazon/ion/core.py:127-173 ([IonEvent.__eq__]). *)
From Verif Require Import Base CoreModel CalendarFacts BinWriterModel SymbolsModel ManagedModel SimpleionModel EquivModel.
Local Open Scope Z_scope.

(** What the attribute [value] of an event is: None, a scalar, the pair of a version marker.  Simplified:
    other Python objects are not values of events here. (core.py:107-126) *)
Inductive attribute := Nothing | Holds (s : scalar) | Version (major minor : Z).
(** core.py:282-285: the attribute of a thunk event is the result of its thunk. *)
Definition attribute_of (v : evalue) : res attribute :=
  match v with
  | EvNone => Ok Nothing
  | EvVal s => Ok (Holds s)
  | EvThunk k d => let* s := eval_thunk k d in Ok (Holds s)
  | EvLazy r => let* s := r in Ok (Holds s)
  | EvVersion a b => Ok (Version a b)
  end.

(** A finite number is [m * 2^p * 10^q]; none for infinities, NaN and what is not a number.
    (core.py:142: equality of the numbers of Python) *)
Definition quantity (s : scalar) : option (Z * Z * Z) :=
  match s with
  | VBool b => Some (if b then 1 else 0, 0, 0)
  | VInt z => Some (z, 0, 0)
  | VDecimal d => Some (if d_neg d then - d_coef d else d_coef d, 0, d_exp d)
  | VFloat x =>
    let ex := x / 2 ^ 52 mod 2048 in
    let fr := x mod 2 ^ 52 in
    if ex =? 2047 then None
    else let m := if ex =? 0 then fr else fr + 2 ^ 52 in
         Some (if x / 2 ^ 63 =? 1 then - m else m, (if ex =? 0 then 1 else ex) - 1075, 0)
  | _ => None
  end.
(** Python compares numbers of different classes exactly. (core.py:142) *)
Definition quantity_eq (a b : Z * Z * Z) : bool :=
  match a, b with
  | (m, p, q), (m', p', q') =>
    m * 2 ^ (p - Z.min p p') * 10 ^ (q - Z.min q q') =? m' * 2 ^ (p' - Z.min p p') * 10 ^ (q' - Z.min q q')
  end.
(** Python [datetime.__eq__]: datetimes with offsets by instant, without by fields; never one of each.
    (core.py:142: of the datetime module) *)
Definition datetimes_eq (a b : dtime) : bool :=
  match dt_off a, dt_off b with
  | None, None => datetime_fields_eq a b
  | Some _, Some _ => instant a =? instant b
  | _, _ => false
  end.
(** Python [==] of two scalars; a token is a tuple, so it equals tokens only. (core.py:142) *)
Definition scalar_eq (a b : scalar) : bool :=
  match a, b with
  | VString x, VString y => zlist_eqb x y
  | VBytes x, VBytes y => zlist_eqb x y
  | VSymbol x, VSymbol y => token_eqb x y
  | VTimestamp x, VTimestamp y => datetimes_eq (ts_datetime x) (ts_datetime y)
  | VFloat x, VFloat y => float_num_eq x y
  | _, _ => match quantity a, quantity b with Some x, Some y => quantity_eq x y | _, _ => false end
  end.
(** core.py:142. *)
Definition attribute_eq (a b : attribute) : bool :=
  match a, b with
  | Nothing, Nothing => true
  | Holds x, Holds y => scalar_eq x y
  | Version x y, Version x' y' => (x =? x') && (y =? y')
  | _, _ => false
  end.

(** core.py:148-149: [getattr(value, 'precision', None)] *)
Definition precision_attribute (v : attribute) : option precision :=
  match v with Holds (VTimestamp (TsStamp t)) => ts_prec t | _ => None end.
(** core.py:146, 155. *)
Definition is_stamp (v : attribute) : bool := match v with Holds (VTimestamp (TsStamp _)) => true | _ => false end.
(** core.py:132-163: the values. *)
Definition values_eq (a b : attribute) : bool :=
  match a with
  | Holds (VFloat x) =>
    match b with
    | Holds (VFloat y) => float_num_eq x y || (float_nan x && float_nan y)
    | _ => false
    end
  | _ =>
    if negb (attribute_eq a b) then false
    else
      let p := precision_attribute a in
      let q := precision_attribute b in
      if (is_stamp a || is_stamp b) && negb (opt_eqb prec_eqb p q) &&
         negb (match p, q with None, Some PSecond | Some PSecond, None => true | _, _ => false end)
      then false
      else
        let fractions := match a, b with
                         | Holds (VTimestamp (TsStamp x)), Holds (VTimestamp (TsStamp y)) => dec_num_eq (ts_frac x) (ts_frac y)
                         | _, _ => true end in
        if negb fractions then false
        else match a, b with
             | Holds (VTimestamp x), Holds (VTimestamp y) => opt_eqb Z.eqb (dt_off (ts_datetime x)) (dt_off (ts_datetime y))
             | _, _ => true
             end
  end.

(** core.py:165; 70-89. *)
Definition evtype_eqb (a b : evtype) : bool :=
  match a, b with
  | EIncomplete, EIncomplete | EStreamEnd, EStreamEnd | EVersionMarker, EVersionMarker | EScalar, EScalar
  | EContainerStart, EContainerStart | EContainerEnd, EContainerEnd => true
  | _, _ => false
  end.
(** [==] of field names and annotations: a str never equals a tuple.
    (core.py:167-168; symbols.py: SymbolToken.__eq__ is that of a named tuple) *)
Definition symarg_eqb (a b : symarg) : bool :=
  match a, b with ATok x, ATok y => token_eqb x y | AText x, AText y => zlist_eqb x y | _, _ => false end.
(** core.py:168. *)
Fixpoint symargs_eqb (a b : list symarg) : bool :=
  match a, b with [], [] => true | x :: a, y :: b => symarg_eqb x y && symargs_eqb a b | _, _ => false end.

(** core.py:128-169 [IonEvent.__eq__]; [other] an event.  Annotations are tuples in both. *)
Definition event_eq (a b : uevent) : res bool :=
  let* x := attribute_of (ue_value a) in
  let* y := attribute_of (ue_value b) in
  if negb (values_eq x y) then Ok false
  else Ok (evtype_eqb (ue_type a) (ue_type b) && opt_eqb iontype_eqb (ue_ion_type a) (ue_ion_type b) &&
           opt_eqb symarg_eqb (ue_field a) (ue_field b) && symargs_eqb (ue_annot a) (ue_annot b) &&
           opt_eqb Z.eqb (ue_depth a) (ue_depth b)).

(** [a != b]: IonEvent defines no [__ne__], so Python uses [tuple.__ne__]: the first component that is not
    the same object and not equal decides.  [same]: the value slots hold the same object.  The slot of a
    thunk event holds the thunk, which equals only itself.
    (core.py:107-126, 270-280: tuple.__ne__ compares the slots) *)
Definition slot_eq (same : bool) (a b : evalue) : bool :=
  same || match a, b with
          | EvNone, EvNone => true
          | EvVal x, EvVal y => scalar_eq x y
          | EvVersion x y, EvVersion x' y' => (x =? x') && (y =? y')
          | _, _ => false
          end.
(** core.py:107-109: IonEvent is a named tuple. *)
Definition event_ne (same : bool) (a b : uevent) : bool :=
  negb (evtype_eqb (ue_type a) (ue_type b) && opt_eqb iontype_eqb (ue_ion_type a) (ue_ion_type b) &&
        slot_eq same (ue_value a) (ue_value b) &&
        opt_eqb symarg_eqb (ue_field a) (ue_field b) && symargs_eqb (ue_annot a) (ue_annot b) &&
        opt_eqb Z.eqb (ue_depth a) (ue_depth b)).
