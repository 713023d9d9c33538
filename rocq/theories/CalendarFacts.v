(** Calendar arithmetic: an independent day count, and the correctness of [dt_shift]. *)
From Verif Require Import Base BaseFacts CoreModel.

(** * Specification: the proleptic Gregorian day number, built from the definition of the calendar
    (days of all earlier years, of the earlier months of the year, and of the month). *)
Definition days_before_year (y : Z) : Z :=
  365 * (y - 1) + (y - 1) / 4 - (y - 1) / 100 + (y - 1) / 400.
Fixpoint days_before_month (y : Z) (m : nat) : Z :=
  match m with
  | O => 0
  | S k => match k with O => 0 | _ => days_before_month y k + days_in_month y (Z.of_nat k) end
  end.
Definition day_number (y m d : Z) : Z :=
  days_before_year y + days_before_month y (Z.to_nat m) + d.
(** Seconds on the time line (no leap seconds). *)
Definition seconds_of (t : dtime) : Z :=
  day_number (dt_year t) (dt_month t) (dt_day t) * 86400 +
  dt_hour t * 3600 + dt_minute t * 60 + dt_second t.

(** A year of the calendar has 365 days, 366 in leap years. *)
Ltac Zify.zify_post_hook ::= Z.div_mod_to_equations.
Lemma year_length y : days_before_year (y + 1) = days_before_year y + (if is_leap y then 366 else 365).
Proof.
  unfold days_before_year, is_leap. replace (y + 1 - 1) with y by lia.
  destruct (y mod 4 =? 0) eqn:A, (y mod 100 =? 0) eqn:B, (y mod 400 =? 0) eqn:C; cbn [andb orb negb]; lia.
Qed.
Ltac Zify.zify_post_hook ::= idtac.

Definition date_ok (y m d : Z) : Prop := 1 <= m <= 12 /\ 1 <= d <= days_in_month y m.

Lemma month_cases (P : Z -> Prop) :
  P 1 -> P 2 -> P 3 -> P 4 -> P 5 -> P 6 -> P 7 -> P 8 -> P 9 -> P 10 -> P 11 -> P 12 ->
  forall m, 1 <= m <= 12 -> P m.
Proof.
  intros. assert (m = 1 \/ m = 2 \/ m = 3 \/ m = 4 \/ m = 5 \/ m = 6 \/ m = 7 \/ m = 8 \/ m = 9 \/
                  m = 10 \/ m = 11 \/ m = 12) as D by lia.
  repeat (destruct D as [D|D]; [subst; assumption|]). subst; assumption.
Qed.

Lemma days_in_month_pos y m : 28 <= days_in_month y m <= 31.
Proof.
  unfold days_in_month. destruct (m =? 2); [destruct (is_leap y); lia|].
  destruct ((m =? 4) || (m =? 6) || (m =? 9) || (m =? 11)); lia.
Qed.

Lemma days_in_year y :
  days_before_month y 12 + days_in_month y 12 = if is_leap y then 366 else 365.
Proof. cbn. unfold days_in_month. cbn. destruct (is_leap y); reflexivity. Qed.

Lemma days_before_month_succ y m : 1 <= m ->
  days_before_month y (Z.to_nat (m + 1)) = days_before_month y (Z.to_nat m) + days_in_month y m.
Proof.
  intros H. rewrite Z2Nat.inj_add by lia. change (Z.to_nat 1) with 1%nat. rewrite Nat.add_1_r.
  cbn [days_before_month]. destruct (Z.to_nat m) eqn:E; [lia|].
  rewrite <- E, Z2Nat.id by lia. reflexivity.
Qed.

Lemma next_day_number y m d : date_ok y m d ->
  let '(y', m', d') := next_day y m d in
  day_number y' m' d' = day_number y m d + 1 /\ date_ok y' m' d' /\ y <= y' <= y + 1.
Proof.
  intros [Hm Hd]. unfold next_day. destruct (d =? days_in_month y m) eqn:E.
  - destruct (m =? 12) eqn:M.
    + assert (m = 12) as -> by lia. split; [|split; [|lia]].
      * unfold day_number. rewrite year_length.
        pose proof (days_in_year y). change (Z.to_nat 12) with 12%nat.
        change (days_before_month (y + 1) (Z.to_nat 1)) with 0. lia.
      * split; [lia|]. pose proof (days_in_month_pos (y + 1) 1). lia.
    + split; [|split; [|lia]].
      * unfold day_number. rewrite days_before_month_succ by lia. lia.
      * split; [lia|]. pose proof (days_in_month_pos y (m + 1)). lia.
  - unfold day_number. split; [lia|]. split; [|lia]. split; lia.
Qed.

Lemma prev_day_number y m d : date_ok y m d ->
  let '(y', m', d') := prev_day y m d in
  day_number y' m' d' = day_number y m d - 1 /\ date_ok y' m' d' /\ y - 1 <= y' <= y.
Proof.
  intros [Hm Hd]. unfold prev_day. destruct (d =? 1) eqn:E.
  - destruct (m =? 1) eqn:M.
    + assert (m = 1) as -> by lia. split; [|split; [|lia]].
      * unfold day_number. pose proof (year_length (y - 1)) as L.
        replace (y - 1 + 1) with y in L by lia. rewrite L.
        pose proof (days_in_year (y - 1)) as D. change (Z.to_nat 12) with 12%nat.
        change (days_in_month (y - 1) 12) with 31 in D.
        change (days_before_month y (Z.to_nat 1)) with 0. lia.
      * split; [lia|]. change (days_in_month (y - 1) 12) with 31. lia.
    + split; [|split; [|lia]].
      * unfold day_number. pose proof (days_before_month_succ y (m - 1) ltac:(lia)) as S.
        replace (m - 1 + 1) with m in S by lia. rewrite S. lia.
      * split; [lia|]. pose proof (days_in_month_pos y (m - 1)). lia.
  - unfold day_number. split; [lia|]. split; [|lia]. split; lia.
Qed.

Lemma next_prev y m d : date_ok y m d ->
  let '(y', m', d') := next_day y m d in prev_day y' m' d' = (y, m, d).
Proof.
  intros [Hm Hd]. unfold next_day. destruct (d =? days_in_month y m) eqn:E.
  - destruct (m =? 12) eqn:M; unfold prev_day; cbn [Z.eqb Pos.eqb].
    + assert (m = 12) as -> by lia. change (days_in_month y 12) with 31 in *.
      f_equal; [f_equal|]; lia.
    + replace (m + 1 =? 1) with false by lia. replace (m + 1 - 1) with m by lia.
      f_equal. lia.
  - unfold prev_day. replace (d + 1 =? 1) with false by lia. f_equal. lia.
Qed.

Lemma prev_next y m d : date_ok y m d ->
  let '(y', m', d') := prev_day y m d in next_day y' m' d' = (y, m, d).
Proof.
  intros [Hm Hd]. unfold prev_day. destruct (d =? 1) eqn:E.
  - destruct (m =? 1) eqn:M; unfold next_day.
    + change (days_in_month (y - 1) 12) with 31. cbn [Z.eqb Pos.eqb].
      f_equal; [f_equal|]; lia.
    + rewrite Z.eqb_refl. replace (m - 1 =? 12) with false by lia.
      f_equal; [f_equal|]; lia.
  - unfold next_day. replace (d - 1 =? days_in_month y m) with false by lia. f_equal. lia.
Qed.

(** * Datetimes *)

(** The field ranges of a Python [datetime]. *)
Definition dt_ok (t : dtime) : Prop :=
  1 <= dt_year t <= 9999 /\ date_ok (dt_year t) (dt_month t) (dt_day t) /\
  0 <= dt_hour t <= 23 /\ 0 <= dt_minute t <= 59 /\ 0 <= dt_second t <= 59 /\
  0 <= dt_micro t <= 999999.

Lemma datetime_new_ok y mo d h mi s us off :
  dt_ok (mkdt y mo d h mi s us off) -> datetime_new y mo d h mi s us off = Ok (mkdt y mo d h mi s us off).
Proof.
  intros (A & [B1 B2] & C & D & E & F); cbn in *. unfold datetime_new, c_int_ok.
  pose proof (days_in_month_pos y mo).
  replace (negb _) with false by lia.
  replace (negb ((1 <=? y) && (y <=? 9999))) with false by lia.
  replace (negb ((1 <=? mo) && (mo <=? 12))) with false by lia.
  replace (negb ((1 <=? d) && (d <=? days_in_month y mo))) with false by lia.
  replace (negb ((0 <=? h) && (h <=? 23))) with false by lia.
  replace (negb ((0 <=? mi) && (mi <=? 59))) with false by lia.
  replace (negb ((0 <=? s) && (s <=? 59))) with false by lia.
  replace (negb ((0 <=? us) && (us <=? 999999))) with false by lia.
  reflexivity.
Qed.

Lemma datetime_new_inv y mo d h mi s us off t :
  datetime_new y mo d h mi s us off = Ok t -> t = mkdt y mo d h mi s us off /\ dt_ok t.
Proof.
  unfold datetime_new.
  destruct (negb _); [discriminate|].
  destruct (negb ((1 <=? y) && _)) eqn:A; [discriminate|].
  destruct (negb ((1 <=? mo) && _)) eqn:B; [discriminate|].
  destruct (negb ((1 <=? d) && _)) eqn:C; [discriminate|].
  destruct (negb ((0 <=? h) && _)) eqn:D; [discriminate|].
  destruct (negb ((0 <=? mi) && _)) eqn:E; [discriminate|].
  destruct (negb ((0 <=? s) && _)) eqn:F; [discriminate|].
  destruct (negb ((0 <=? us) && _)) eqn:G; [discriminate|].
  intros H. injection H as <-. split; [reflexivity|].
  unfold dt_ok, date_ok; cbn. lia.
Qed.

(** [dt_shift] moves the instant by [delta] seconds and keeps the fields in range; it fails only
    when the result leaves the years 1..9999. *)
Ltac Zify.zify_post_hook ::= Z.div_mod_to_equations.
Lemma dt_shift_spec t delta : dt_ok t -> -86400 < delta < 86400 ->
  match dt_shift t delta with
  | Ok t' => dt_ok t' /\ seconds_of t' = seconds_of t + delta /\ dt_micro t' = dt_micro t /\
             dt_off t' = dt_off t
  | Err e => e = OverflowError
  end.
Proof.
  intros (A & B & C & D & E & F) Hd. unfold dt_shift. cbv zeta.
  set (s := dt_hour t * 3600 + dt_minute t * 60 + dt_second t + delta).
  destruct (s <? 0) eqn:S1.
  - pose proof (prev_day_number _ _ _ B) as P.
    destruct (prev_day (dt_year t) (dt_month t) (dt_day t)) as [[y m] d].
    destruct P as (P1 & P2 & P3).
    destruct ((1 <=? y) && (y <=? 9999)) eqn:Y; [|reflexivity].
    unfold dt_ok, seconds_of; cbn [dt_year dt_month dt_day dt_hour dt_minute dt_second dt_micro dt_off].
    split; [|split; [|split; reflexivity]].
    + split; [lia|]. split; [exact P2|]. unfold s in *. lia.
    + rewrite P1. unfold s in *. lia.
  - destruct (86400 <=? s) eqn:S2.
    + pose proof (next_day_number _ _ _ B) as P.
      destruct (next_day (dt_year t) (dt_month t) (dt_day t)) as [[y m] d].
      destruct P as (P1 & P2 & P3).
      destruct ((1 <=? y) && (y <=? 9999)) eqn:Y; [|reflexivity].
      unfold dt_ok, seconds_of; cbn [dt_year dt_month dt_day dt_hour dt_minute dt_second dt_micro dt_off].
      split; [|split; [|split; reflexivity]].
      * split; [lia|]. split; [exact P2|]. unfold s in *. lia.
      * rewrite P1. unfold s in *. lia.
    + replace ((1 <=? dt_year t) && (dt_year t <=? 9999)) with true by lia.
      unfold dt_ok, seconds_of; cbn [dt_year dt_month dt_day dt_hour dt_minute dt_second dt_micro dt_off].
      split; [|split; [|split; reflexivity]].
      * split; [lia|]. split; [exact B|]. unfold s in *. lia.
      * unfold s in *. lia.
Qed.

Lemma dt_shift_inverse t delta t' : dt_ok t -> -86400 < delta < 86400 ->
  dt_shift t delta = Ok t' -> dt_shift t' (- delta) = Ok t.
Proof.
  intros (A & B & C & D & E & F) Hd. unfold dt_shift. cbv zeta.
  destruct t as [ty tm td th tmi ts tus toff]. cbn [dt_year dt_month dt_day dt_hour dt_minute dt_second dt_micro dt_off] in *.
  remember (th * 3600 + tmi * 60 + ts + delta) as s eqn:Es.
  destruct (s <? 0) eqn:S1.
  - pose proof (prev_next _ _ _ B) as P.
    destruct (prev_day ty tm td) as [[y m] d].
    destruct ((1 <=? y) && (y <=? 9999)) eqn:Y; [|discriminate].
    intros H; injection H as <-.
    cbn [dt_year dt_month dt_day dt_hour dt_minute dt_second dt_micro dt_off].
    remember ((s + 86400) / 3600 * 3600 + (s + 86400) / 60 mod 60 * 60 + (s + 86400) mod 60 + - delta) as s2 eqn:Es2.
    assert (s2 = s + 86400 - delta) as E2 by lia.
    replace (s2 <? 0) with false by lia. replace (86400 <=? s2) with true by lia.
    rewrite P. replace ((1 <=? ty) && (ty <=? 9999)) with true by lia.
    assert (s2 - 86400 = th * 3600 + tmi * 60 + ts) as -> by lia.
    f_equal. f_equal; lia.
  - destruct (86400 <=? s) eqn:S2.
    + pose proof (next_prev _ _ _ B) as P.
      destruct (next_day ty tm td) as [[y m] d].
      destruct ((1 <=? y) && (y <=? 9999)) eqn:Y; [|discriminate].
      intros H; injection H as <-.
      cbn [dt_year dt_month dt_day dt_hour dt_minute dt_second dt_micro dt_off].
      remember ((s - 86400) / 3600 * 3600 + (s - 86400) / 60 mod 60 * 60 + (s - 86400) mod 60 + - delta) as s2 eqn:Es2.
      assert (s2 = s - 86400 - delta) as E2 by lia.
      replace (s2 <? 0) with true by lia.
      rewrite P. replace ((1 <=? ty) && (ty <=? 9999)) with true by lia.
      assert (s2 + 86400 = th * 3600 + tmi * 60 + ts) as -> by lia.
      f_equal. f_equal; lia.
    + replace ((1 <=? ty) && (ty <=? 9999)) with true by lia.
      intros H; injection H as <-.
      cbn [dt_year dt_month dt_day dt_hour dt_minute dt_second dt_micro dt_off].
      remember (s / 3600 * 3600 + s / 60 mod 60 * 60 + s mod 60 + - delta) as s2 eqn:Es2.
      assert (s2 = s - delta) as E2 by lia.
      replace (s2 <? 0) with false by lia. replace (86400 <=? s2) with false by lia.
      replace ((1 <=? ty) && (ty <=? 9999)) with true by lia.
      assert (s2 = th * 3600 + tmi * 60 + ts) as -> by lia.
      f_equal. f_equal; lia.
Qed.

Lemma dt_shift_0 t : dt_ok t -> dt_shift t 0 = Ok t.
Proof.
  intros H. pose proof (dt_shift_spec t 0 H ltac:(lia)) as S.
  destruct H as (A & B & C & D & E & F). unfold dt_shift in *. cbv zeta in *.
  destruct t as [ty tm td th tmi ts tus toff]. cbn [dt_year dt_month dt_day dt_hour dt_minute dt_second dt_micro dt_off] in *.
  replace (th * 3600 + tmi * 60 + ts + 0 <? 0) with false by lia.
  replace (86400 <=? th * 3600 + tmi * 60 + ts + 0) with false by lia.
  replace ((1 <=? ty) && (ty <=? 9999)) with true by lia.
  f_equal. f_equal; lia.
Qed.

Lemma dt_shift_second t delta t' : dt_ok t -> delta mod 60 = 0 -> dt_shift t delta = Ok t' ->
  dt_second t' = dt_second t.
Proof.
  intros (A & B & C & D & E & F) Hd. unfold dt_shift. cbv zeta.
  destruct (if _ <? 0 then prev_day (dt_year t) (dt_month t) (dt_day t) else _) as [[y m] d].
  destruct ((1 <=? y) && (y <=? 9999)); [|discriminate].
  intros H. injection H as <-. cbn [dt_second].
  destruct (dt_hour t * 3600 + dt_minute t * 60 + dt_second t + delta <? 0); [lia|].
  destruct (86400 <=? dt_hour t * 3600 + dt_minute t * 60 + dt_second t + delta); lia.
Qed.
Ltac Zify.zify_post_hook ::= idtac.
