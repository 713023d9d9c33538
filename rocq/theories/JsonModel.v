(** Model of /repo/amazon/ion/json_encoder.py: down-conversion of Ion values to JSON. *)
From Verif Require Import Base CoreModel BinReaderModel SymbolsModel ManagedModel MultimapModel SimpleionModel TextNumbers TextWriterModel.
Local Open Scope Z_scope.

(** What [default] returns: objects the json module writes by itself.  A dict keeps the order of its
    insertions; a key may be None. (json_encoder.py:41-69: what default may return) *)
Inductive json :=
| JNull
| JBool (b : bool)
| JInt (n : Z)
| JFloat (bits : Z)
| JString (s : text)
| JList (l : list json)
| JDict (l : list (option text * json)).

(** [str(datetime)], that is [isoformat(' ')]: the microseconds only if there are any, the offset in
    hours and minutes, and seconds if there are any.
    (json_encoder.py:59-60: str of a datetime; core.py:321-335: its offset) *)
Definition iso_offset (off : option Z) : text :=
  match off with
  | None => []
  | Some o => let a := Z.abs o in
              (if o <? 0 then 45 else 43) :: two (a / 3600) ++ 58 :: two (a mod 3600 / 60)
              ++ (if a mod 60 =? 0 then [] else 58 :: two (a mod 60))
  end.
(** json_encoder.py:59-60. *)
Definition datetime_str (d : dtime) : text :=
  pad 4 (nat_str (dt_year d)) ++ 45 :: two (dt_month d) ++ 45 :: two (dt_day d) ++
  32 :: two (dt_hour d) ++ 58 :: two (dt_minute d) ++ 58 :: two (dt_second d) ++
  (if dt_micro d =? 0 then [] else 46 :: pad 6 (nat_str (dt_micro d))) ++ iso_offset (dt_off d).

(** json_encoder.py:41-69 [default].  The tests of class and [ion_type] in the order of the source; a
    class is told by the kind of scalar it holds (IonPyBool is IonPyInt).  The last branch calls the
    base class, which is outside this repository: modelled as TypeError, as json.JSONEncoder does.
    Lines 60-61: [float(Decimal)] rounds to the nearest double.  64-66: "inf" or "nan" in [str(o)]
    holds just for the infinities and NaNs. *)
Definition json_scalar (t : iontype) (s : scalar) : res json :=
  match s, t with
  | VBool b, TBool => Ok (JBool b)
  | VInt n, TBool => Ok (JBool (n =? 1))
  | VInt n, TInt => Ok (JInt n)
  | VBool b, TInt => Ok (JInt (if b then 1 else 0))
  | VBytes b, TBlob => Ok (JString (b64_encode b))
  | VBytes b, TClob => Ok (JString b)
  | VDecimal d, TDecimal => Ok (JFloat (decimal_bits (d_neg d) (d_coef d) (d_exp d)))
  | VSymbol k, TSymbol => Ok (match tk_text k with Some x => JString x | None => JNull end)
  | VTimestamp v, TTimestamp => Ok (JString (datetime_str match v with TsStamp x => ts_dt x | TsPlain d => d end))
  | VString x, TString => Ok (JString x)
  | VFloat b, TFloat => if float_is_inf b || float_is_nan b then Ok JNull else Ok (JFloat b)
  | _, _ => Err TypeError
  end.
(** json_encoder.py:41-69. *)
Fixpoint to_json (v : pyval) : res json :=
  match v with
  | PNull _ _ => Ok JNull
  | PIon t _ s => json_scalar t s
  | PSeq _ _ l =>
    (* 48-49: [list(map(self.default, o))] *)
    let* js := (fix all (l : list pyval) : res (list json) :=
                  match l with [] => Ok [] | x :: r => let* j := to_json x in let* js := all r in Ok (j :: js) end) l in
    Ok (JList js)
  | PStruct _ m =>
    (* 50-51: [{key: self.default(o[key]) for key in o.keys()}]; [o[key]] is the last of the key's values *)
    let* js := (fix all (m : list (option text * list pyval)) : res (list (option text * json)) :=
                  match m with
                  | [] => Ok []
                  | (k, vs) :: r =>
                    let* j := (fix newest (vs : list pyval) : res json :=
                                 match vs with
                                 | [] => Err IndexError
                                 | [x] => to_json x
                                 | _ :: vs' => newest vs'
                                 end) vs in
                    let* js := all r in Ok ((k, j) :: js)
                  end) m in
    Ok (JDict js)
  | _ => Err TypeError
  end.
