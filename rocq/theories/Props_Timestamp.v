(** Property theorems C39, C40, C41: timestamps. *)
From Verif Require Import Base CoreModel ScalarFacts CalendarFacts TimestampFacts TimestampProofs.

(** C39.  Whatever arguments are accepted, the stored fields agree with each other: the date fields
    are those given and in range, the fraction lies in [0,1), the fractional precision is the
    number of its digits cut at 6, and the microsecond is the fraction times 10^6 truncated
    (fractions of up to 28 digits; beyond that see [C39_many_digits_refuted]). *)
Theorem C39_normalised_partial : forall y mo d h mi s micro off prec fprec frac t,
  timestamp_new y mo d h mi s micro off prec fprec frac = Ok t ->
  dt_ok (ts_dt t) /\
  (dt_year (ts_dt t), dt_month (ts_dt t), dt_day (ts_dt t), dt_hour (ts_dt t), dt_minute (ts_dt t),
   dt_second (ts_dt t), dt_off (ts_dt t), ts_prec t) = (y, mo, d, h, mi, s, off, prec) /\
  dec_nonneg (ts_frac t) = true /\ dec_lt_one (ts_frac t) = true /\
  ts_fprec t = Z.min (- d_exp (ts_frac t)) 6 /\
  (0 <= d_coef (ts_frac t) -> ndigits (d_coef (ts_frac t)) <= 28 -> -999999 <= d_exp (ts_frac t) ->
   dt_micro (ts_dt t) = micros_of (ts_frac t)).
Proof. exact ctor_normalises. Qed.
Print Assumptions C39_normalised_partial.

(** Inconsistent arguments raise ValueError. *)
Theorem C39_inconsistent_rejected : forall y mo d h mi s micro off prec fprec frac,
  ~ args_consistent micro fprec frac ->
  timestamp_new y mo d h mi s micro off prec fprec frac = Err ValueError.
Proof. exact ctor_rejects. Qed.
Print Assumptions C39_inconsistent_rejected.

(** Consistent arguments are accepted. *)
Theorem C39_consistent_accepted : forall y mo d h mi s micro off prec fprec frac,
  args_consistent micro fprec frac ->
  (match frac with
   | Some f => 0 <= d_coef f /\ ndigits (d_coef f) <= 28 /\ -999999 <= d_exp f
   | None => True end) ->
  (match micro with Some us => 0 <= us <= 999999 | None => True end) ->
  dt_ok (mkdt y mo d h mi s 0 off) ->
  exists t, timestamp_new y mo d h mi s micro off prec fprec frac = Ok t.
Proof. exact ctor_accepts. Qed.
Print Assumptions C39_consistent_accepted.

(** Construction is idempotent: rebuilding from the stored fields gives the same timestamp. *)
Theorem C39_idempotent : forall y mo d h mi s micro off prec fprec frac t,
  timestamp_new y mo d h mi s micro off prec fprec frac = Ok t -> ts_rebuild t = Ok t.
Proof. exact timestamp_new_canonical. Qed.
Print Assumptions C39_idempotent.

Example C39_case :
  timestamp_new 2016 2 29 23 59 59 None (Some (-3600)) (Some PSecond) None (Some (mkdec false 1234567 (-8)))
  = Ok (mkts (mkdt 2016 2 29 23 59 59 12345 (Some (-3600))) (Some PSecond) 6 (mkdec false 1234567 (-8))) /\
  timestamp_new 2016 2 29 23 59 59 (Some 120) None (Some PSecond) (Some 3) None = Err ValueError /\
  timestamp_new 2016 2 29 23 59 59 (Some 120000) None (Some PSecond) (Some 2) None
  = Ok (mkts (mkdt 2016 2 29 23 59 59 120000 None) (Some PSecond) 2 (mkdec false 12 (-2))).
Proof. repeat split; vm_compute; reflexivity. Qed.

(** A valid fraction of thirty nines is below one, yet it is refused: the product with 10^6 is
    rounded to 28 digits and becomes 1000000 microseconds (core.py:500-502). *)
Theorem C39_many_digits_refuted :
  let f := mkdec false (10 ^ 30 - 1) (-30) in
  dec_nonneg f = true /\ dec_lt_one f = true /\
  timestamp_new 2000 1 1 0 0 0 None None (Some PSecond) None (Some f) = Err ValueError.
Proof. repeat split; vm_compute; reflexivity. Qed.

(** C40.  [seconds_of] counts seconds on the time line from an independent day count; the local
    fields minus the offset denote the instant of the UTC fields given. *)
Theorem C40_utc_adjust_preserves_instant : forall y mo d h mi s off prec frac t,
  match off with None => True | Some o => -86400 < o < 86400 end ->
  adjust_from_utc_fields y mo d h mi s off (Some prec) frac = Ok t ->
  exists ts, t = TsStamp ts /\ dt_ok (ts_dt ts) /\ dt_off (ts_dt ts) = off /\ ts_prec ts = Some prec /\
    seconds_of (ts_dt ts) - (match off with Some o => o | None => 0 end) = seconds_of (mkdt y mo d h mi s 0 off).
Proof. exact utc_adjust_instant. Qed.
Print Assumptions C40_utc_adjust_preserves_instant.

(** The day count advances by one from each calendar day to the next, leap years included. *)
Theorem C40_day_count : forall y m d, date_ok y m d ->
  let '(y', m', d') := next_day y m d in
  day_number y' m' d' = day_number y m d + 1 /\ date_ok y' m' d' /\ y <= y' <= y + 1.
Proof. exact next_day_number. Qed.
Print Assumptions C40_day_count.

Example C40_case :
  adjust_from_utc_fields 2016 2 28 23 30 0 (Some 3600) (Some PMinute) None =
  Ok (TsStamp (mkts (mkdt 2016 2 29 0 30 0 0 (Some 3600)) (Some PMinute) 0 dec_zero)) /\
  adjust_from_utc_fields 1999 12 31 23 30 0 (Some 5400) (Some PMinute) None =
  Ok (TsStamp (mkts (mkdt 2000 1 1 1 0 0 0 (Some 5400)) (Some PMinute) 0 dec_zero)).
Proof. split; vm_compute; reflexivity. Qed.

(** The calendar's edge: an instant of year 9999 whose local time is in year 10000 escapes as
    OverflowError. *)
Theorem C40_edge_refuted :
  adjust_from_utc_fields 9999 12 31 23 30 0 (Some 3600) (Some PMinute) None = Err OverflowError.
Proof. vm_compute. reflexivity. Qed.

(** C41. *)
Theorem C41_offset_range : forall sec, (exists o, offset_tz sec = Ok o) <-> -86400 < sec < 86400.
Proof. exact offset_tz_exact. Qed.
Print Assumptions C41_offset_range.

Theorem C41_bad_offsets_rejected : forall y mo d h mi s micro oh om prec fprec frac,
  ~ offset_args_ok oh om -> timestamp_fn y mo d h mi s micro oh om prec fprec frac = Err ValueError.
Proof. exact offsets_rejected. Qed.
Print Assumptions C41_bad_offsets_rejected.

Theorem C41_good_offsets_accepted : forall y mo d h mi s micro oh om prec fprec frac,
  offset_args_ok oh om ->
  timestamp_fn y mo d h mi s micro oh om prec fprec frac =
  timestamp_new y mo d h mi s micro
    (match oh, om with
     | None, None => None
     | _, _ => Some (60 * (60 * match oh with Some x => x | None => 0 end +
                           match om with Some x => x | None => 0 end))
     end) prec fprec frac.
Proof. exact offsets_accepted. Qed.
Print Assumptions C41_good_offsets_accepted.

Example C41_case : offset_args_ok (Some (-23)) (Some (-59)) /\ ~ offset_args_ok (Some 24) None.
Proof. unfold offset_args_ok; lia. Qed.
