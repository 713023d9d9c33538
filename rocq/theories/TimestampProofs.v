(** Proofs of the statements C39, C40, C41. *)
From Verif Require Import Base BaseFacts CoreModel ScalarFacts CalendarFacts TimestampFacts.

(** The number of microseconds in a fraction [coef * 10^exp], truncated. *)
Definition micros_of (f : dec) : Z := d_coef f * 1000000 / 10 ^ (- d_exp f).

Lemma ndigits_le c n : 0 < c -> 0 <= n -> c < 10 ^ n -> ndigits c <= n.
Proof.
  intros H Hn L. destruct (ndigits_spec c ltac:(lia)) as (N1 & N2 & N3).
  destruct (Z_le_gt_dec (ndigits c) n) as [|G]; [assumption|exfalso].
  assert (10 ^ n <= 10 ^ (ndigits c - 1)) by (apply Z.pow_le_mono_r; lia). lia.
Qed.

Lemma ndigits_unique c n : 0 < c -> 1 <= n -> 10 ^ (n - 1) <= c < 10 ^ n -> ndigits c = n.
Proof.
  intros H Hn [L U]. pose proof (ndigits_le c n H ltac:(lia) U).
  destruct (ndigits_spec c ltac:(lia)) as (N1 & N2 & N3).
  destruct (Z_le_gt_dec n (ndigits c)) as [|G]; [lia|exfalso].
  assert (10 ^ ndigits c <= 10 ^ (n - 1)) by (apply Z.pow_le_mono_r; lia). lia.
Qed.

Lemma dec_mul_micros f : frac_valid f = true -> frac_norm f = f -> 0 <= d_coef f ->
  ndigits (d_coef f) <= 28 -> -999999 <= d_exp f ->
  exists m, dec_mul_int f 1000000 = Ok m /\ dec_int m = micros_of f.
Proof.
  intros V N C D E. destruct (frac_exp_bound f V N C) as [B1 B2].
  destruct f as [s c e]; unfold dec_mul_int, micros_of; cbn [d_neg d_coef d_exp] in *.
  destruct (Z.eq_dec c 0) as [->|Nz].
  - rewrite Z.mul_0_l, Zdiv_0_l. eexists. split; [reflexivity|].
    unfold dec_int; cbn [d_neg d_coef d_exp].
    destruct (0 <=? _); rewrite ?Zdiv_0_l, ?Z.mul_0_l; destruct s; reflexivity.
  - destruct (B2 ltac:(lia)) as (-> & B3 & B4).
    destruct (ndigits_spec c C) as (N1 & N2 & N3). specialize (N3 ltac:(lia)).
    assert (ND : ndigits (c * 1000000) = ndigits c + 6).
    { apply ndigits_unique; [lia|lia|].
      replace (ndigits c + 6 - 1) with (ndigits c - 1 + 6) by lia.
      rewrite !Z.pow_add_r by lia. change (10 ^ 6) with 1000000. lia. }
    destruct (Z_le_gt_dec (ndigits c + 6) 28) as [L|G].
    + eexists. split.
      * apply dec_fix_exact; cbn [d_neg d_coef d_exp]; unfold default_prec, dec_Emax, dec_Emin; lia.
      * unfold dec_int; cbn [d_neg d_coef d_exp]. replace (0 <=? e) with false by lia. reflexivity.
    + (* exact rounding: only the zeros of the factor are dropped *)
      unfold dec_fix; cbv zeta; cbn [d_neg d_coef d_exp]. rewrite ND.
      replace (c * 1000000 =? 0) with false by lia.
      assert (Hd : 10 ^ (ndigits c - 1) < 10 ^ (- e)) by lia.
      apply Z.pow_lt_mono_r_iff in Hd; [|lia|lia].
      replace (dec_Emax - default_prec + 1 <? ndigits c + 6 + e - default_prec) with false
        by (unfold dec_Emax, default_prec; lia).
      rewrite Z.max_l by (unfold dec_Emin, default_prec; lia).
      set (k := ndigits c + 6 - 28).
      assert (K : 1 <= k <= 6) by lia.
      replace (ndigits c + 6 + e - default_prec) with (e + k) by (unfold default_prec; lia).
      replace (e <? e + k) with true by lia.
      replace (e + k - e) with k by lia.
      assert (P : 10 ^ k * 10 ^ (6 - k) = 1000000)
        by (rewrite <- Z.pow_add_r by lia; replace (k + (6 - k)) with 6 by lia; reflexivity).
      assert (P1 : 0 < 10 ^ k) by (apply Z.pow_pos_nonneg; lia).
      assert (P2 : 0 < 10 ^ (6 - k)) by (apply Z.pow_pos_nonneg; lia).
      assert (RH : round_half_even (c * 1000000) k = c * 10 ^ (6 - k)).
      { unfold round_half_even. cbv zeta. rewrite <- P.
        replace (c * (10 ^ k * 10 ^ (6 - k))) with (c * 10 ^ (6 - k) * 10 ^ k) by ring.
        rewrite Z.div_mul, Z.mod_mul by lia. replace (2 * 0 <? 10 ^ k) with true by lia. reflexivity. }
      rewrite RH.
      assert (B : c * 10 ^ (6 - k) < 10 ^ 28).
      { replace 28 with (ndigits c + (6 - k)) by lia. rewrite Z.pow_add_r by lia. nia. }
      replace (10 ^ default_prec <=? c * 10 ^ (6 - k)) with false
        by (unfold default_prec; lia).
      replace (dec_Emax - default_prec + 1 <? e + k) with false by (unfold dec_Emax, default_prec; lia).
      eexists. split; [reflexivity|].
      unfold dec_int; cbn [d_neg d_coef d_exp].
      destruct (0 <=? e + k) eqn:S.
      * (* all 28 digits left of the point: impossible for a fraction below one *)
        assert (ndigits c <= - e) by lia. lia.
      * rewrite <- P. replace (- e) with (k + - (e + k)) by lia.
        rewrite (Z.pow_add_r 10 k) by lia.
        assert (0 < 10 ^ (- (e + k))) by (apply Z.pow_pos_nonneg; lia).
        replace (c * (10 ^ k * 10 ^ (6 - k))) with (10 ^ k * (c * 10 ^ (6 - k))) by ring.
        rewrite Z.div_mul_cancel_l by lia. reflexivity.
Qed.

(** C39: what a constructed timestamp looks like. *)
Lemma ctor_normalises y mo d h mi s micro off prec fprec frac t :
  timestamp_new y mo d h mi s micro off prec fprec frac = Ok t ->
  dt_ok (ts_dt t) /\
  (dt_year (ts_dt t), dt_month (ts_dt t), dt_day (ts_dt t), dt_hour (ts_dt t), dt_minute (ts_dt t),
   dt_second (ts_dt t), dt_off (ts_dt t), ts_prec t) = (y, mo, d, h, mi, s, off, prec) /\
  dec_nonneg (ts_frac t) = true /\ dec_lt_one (ts_frac t) = true /\
  ts_fprec t = Z.min (- d_exp (ts_frac t)) 6 /\
  (0 <= d_coef (ts_frac t) -> ndigits (d_coef (ts_frac t)) <= 28 -> -999999 <= d_exp (ts_frac t) ->
   dt_micro (ts_dt t) = micros_of (ts_frac t)).
Proof.
  intros H. pose proof (timestamp_new_canonical _ _ _ _ _ _ _ _ _ _ _ _ H) as K.
  destruct (canonical_inv t K) as (Hok & V & N & F & m & M1 & M2).
  split; [exact Hok|]. split.
  { unfold timestamp_new in H.
    repeat match type of H with bind _ _ = Ok _ => apply bind_ok in H as (? & _ & H) end.
    repeat match goal with x : (_ * _)%type |- _ => destruct x end.
    apply bind_ok in H as (dt & Hd & H). apply datetime_new_inv in Hd as [-> _].
    injection H as <-. reflexivity. }
  unfold frac_valid in V. apply andb_prop in V as V'. destruct V' as [V1 V2].
  split; [exact V1|]. split; [exact V2|]. split; [exact F|].
  intros C D E. destruct (dec_mul_micros (ts_frac t) V N C D E) as (m' & M3 & M4). congruence.
Qed.

(** C39: the argument combinations the constructor must refuse. *)
Definition args_consistent (micro : option Z) (fprec : option Z) (frac : option dec) : Prop :=
  match frac, fprec, micro with
  | Some f, None, None => dec_nonneg f = true /\ dec_lt_one f = true
  | Some _, _, _ => False
  | None, Some fp, Some us => 0 <= fp <= 6 /\ (if fp =? 0 then us = 0 else us mod 10 ^ (6 - fp) = 0)
  | None, Some _, None => False
  | None, None, _ => True
  end.

Lemma ctor_rejects y mo d h mi s micro off prec fprec frac :
  ~ args_consistent micro fprec frac ->
  timestamp_new y mo d h mi s micro off prec fprec frac = Err ValueError.
Proof.
  intros H. unfold timestamp_new, args_consistent in *.
  destruct fprec as [fp|].
  - destruct ((0 <=? fp) && (fp <=? 6)) eqn:B; [|reflexivity]. cbn [bind].
    destruct frac as [f|].
    + destruct (dec_nonneg f && dec_lt_one f); reflexivity.
    + cbn [bind]. destruct micro as [us|]; [|reflexivity].
      destruct (fp =? 0) eqn:F0; cbn [andb].
      * destruct (us =? 0) eqn:U; [|reflexivity]. exfalso; apply H. lia.
      * cbn [bind]. cbv zeta. rewrite ?F0. destruct (us mod 10 ^ (6 - fp) =? 0) eqn:U; [|reflexivity].
        exfalso; apply H. lia.
  - cbn [bind]. destruct frac as [f|]; [|tauto].
    destruct (dec_nonneg f && dec_lt_one f) eqn:V; [|reflexivity]. cbn [bind].
    destruct micro as [us|]; [reflexivity|]. exfalso. apply H. apply andb_prop in V. exact V.
Qed.

Lemma ctor_accepts y mo d h mi s micro off prec fprec frac :
  args_consistent micro fprec frac ->
  (match frac with Some f => 0 <= d_coef f /\ ndigits (d_coef f) <= 28 /\ -999999 <= d_exp f | None => True end) ->
  (match micro with Some us => 0 <= us <= 999999 | None => True end) ->
  dt_ok (mkdt y mo d h mi s 0 off) ->
  exists t, timestamp_new y mo d h mi s micro off prec fprec frac = Ok t.
Proof.
  intros A F M (D1 & D2 & D3 & D4 & D5 & _). cbn [dt_year dt_month dt_day dt_hour dt_minute dt_second] in *.
  assert (DT : forall us, 0 <= us <= 999999 -> datetime_new y mo d h mi s us off = Ok (mkdt y mo d h mi s us off)).
  { intros us Hu. apply datetime_new_ok. unfold dt_ok; cbn. auto 10. }
  unfold args_consistent in A. destruct frac as [f|].
  - destruct fprec; [contradiction|]. destruct micro; [contradiction|].
    rewrite timestamp_new_frac. unfold frac_valid. destruct A as [A1 A2]. rewrite A1, A2. cbn [andb].
    destruct F as (F1 & F2 & F3).
    assert (V : frac_valid f = true) by (unfold frac_valid; rewrite A1, A2; reflexivity).
    assert (C : 0 <= d_coef (frac_norm f) /\ ndigits (d_coef (frac_norm f)) <= 28 /\ -999999 <= d_exp (frac_norm f)).
    { unfold frac_norm. destruct ((d_coef f =? 0) && (0 <? d_exp f)); [|auto]. cbn. split; [lia|].
      change (ndigits 0) with 1. lia. }
    destruct C as (C1 & C2 & C3).
    pose proof (frac_norm_valid f V) as V2. pose proof (frac_norm_idem f) as N2.
    destruct (dec_mul_micros (frac_norm f) V2 N2 C1 C2 C3) as (m & -> & Hm).
    cbn [bind]. rewrite DT; [cbn [bind]; eauto|].
    rewrite Hm. unfold micros_of. destruct (frac_exp_bound _ V2 N2 C1) as [B1 B2].
    assert (P : 0 < 10 ^ (- d_exp (frac_norm f))) by (apply Z.pow_pos_nonneg; lia).
    split; [apply Z.div_pos; lia|].
    destruct (Z.eq_dec (d_coef (frac_norm f)) 0) as [->|Nz].
    + rewrite Zdiv_0_l. lia.
    + destruct (B2 ltac:(lia)) as (_ & _ & B4).
      assert (d_coef (frac_norm f) * 1000000 / 10 ^ (- d_exp (frac_norm f)) < 1000000); [|lia].
      apply Z.div_lt_upper_bound; lia.
  - unfold timestamp_new. destruct fprec as [fp|].
    + destruct micro as [us|]; [|contradiction]. destruct A as [A1 A2].
      replace ((0 <=? fp) && (fp <=? 6)) with true by lia. cbn [bind].
      destruct (fp =? 0) eqn:F0.
      * subst us. cbn [Z.eqb negb andb bind]. rewrite DT by lia. cbn [bind]. eauto.
      * cbn [andb bind]. cbv zeta. rewrite ?F0. replace (us mod 10 ^ (6 - fp) =? 0) with true by lia. cbn [bind].
        rewrite DT by lia. cbn [bind]. eauto.
    + cbn [bind]. destruct micro as [us|].
      * cbv zeta. change (6 =? 0) with false. cbv iota. change (10 ^ (6 - 6)) with 1. rewrite Z.mod_1_r.
        cbn [Z.eqb bind]. rewrite DT by lia. cbn [bind]. eauto.
      * cbn [bind]. rewrite DT by lia. cbn [bind]. eauto.
Qed.

(** C40. *)
Lemma utc_adjust_instant y mo d h mi s off prec frac t :
  match off with None => True | Some o => -86400 < o < 86400 end ->
  adjust_from_utc_fields y mo d h mi s off (Some prec) frac = Ok t ->
  exists ts, t = TsStamp ts /\ dt_ok (ts_dt ts) /\ dt_off (ts_dt ts) = off /\ ts_prec ts = Some prec /\
    seconds_of (ts_dt ts) - (match off with Some o => o | None => 0 end) = seconds_of (mkdt y mo d h mi s 0 off).
Proof.
  intros Hb H. unfold adjust_from_utc_fields in H.
  apply bind_ok in H as (raw & Hr & H).
  destruct (ctor_normalises _ _ _ _ _ _ _ _ _ _ _ _ Hr) as (Hok & Hf & _).
  injection Hf as F1 F2 F3 F4 F5 F6 F7 F8.
  assert (Sr : seconds_of (ts_dt raw) = seconds_of (mkdt y mo d h mi s 0 off)).
  { unfold seconds_of; cbn [dt_year dt_month dt_day dt_hour dt_minute dt_second]. congruence. }
  assert (G : (off = None \/ off = Some 0) -> TsStamp raw = t ->
              exists ts, t = TsStamp ts /\ dt_ok (ts_dt ts) /\ dt_off (ts_dt ts) = off /\ ts_prec ts = Some prec /\
              seconds_of (ts_dt ts) - (match off with Some o => o | None => 0 end) = seconds_of (mkdt y mo d h mi s 0 off)).
  { intros Z0 <-. exists raw. split; [reflexivity|]. split; [exact Hok|]. split; [exact F7|].
    split; [exact F8|]. rewrite Sr. destruct Z0 as [-> | ->]; lia. }
  assert (K : forall o, off = Some o ->
     (let* adj := dt_shift (ts_dt raw) o in
       match ts_prec raw with
       | None => Ok (TsPlain adj)
       | Some _ =>
           let* t0 := timestamp_new (dt_year adj) (dt_month adj) (dt_day adj)
                 (dt_hour adj) (dt_minute adj) (dt_second adj) None off (ts_prec raw) None (Some (ts_frac raw)) in
           Ok (TsStamp t0)
       end) = Ok t ->
     exists ts, t = TsStamp ts /\ dt_ok (ts_dt ts) /\ dt_off (ts_dt ts) = off /\ ts_prec ts = Some prec /\
              seconds_of (ts_dt ts) - (match off with Some o => o | None => 0 end) = seconds_of (mkdt y mo d h mi s 0 off)).
  { intros o -> H1. apply bind_ok in H1 as (adj & Ha & H1). rewrite F8 in H1.
    apply bind_ok in H1 as (t0 & Ht & H1). injection H1 as <-.
    pose proof (dt_shift_spec (ts_dt raw) o Hok Hb) as S. rewrite Ha in S. destruct S as (S1 & S2 & _).
    destruct (ctor_normalises _ _ _ _ _ _ _ _ _ _ _ _ Ht) as (Hok2 & Hf2 & _).
    injection Hf2 as G1 G2 G3 G4 G5 G6 G7 G8.
    exists t0. split; [reflexivity|]. split; [exact Hok2|]. split; [exact G7|]. split; [exact G8|].
    assert (seconds_of (ts_dt t0) = seconds_of adj) as -> by (unfold seconds_of; congruence). lia. }
  destruct off as [o|].
  - destruct o as [|o|o].
    + apply G; [right; reflexivity|congruence].
    + apply (K _ eq_refl H).
    + apply (K _ eq_refl H).
  - apply G; [left; reflexivity|congruence].
Qed.

(** C41. *)
Definition offset_args_ok (oh om : option Z) : Prop :=
  match oh with Some h => -23 <= h <= 23 | None => True end /\
  match om with Some m => -59 <= m <= 59 | None => True end.

Lemma offset_tz_exact sec : (exists o, offset_tz sec = Ok o) <-> -86400 < sec < 86400.
Proof.
  unfold offset_tz. destruct ((sec <=? -86400) || (86400 <=? sec)) eqn:E; split.
  - intros [o H]; discriminate.
  - lia.
  - lia.
  - eauto.
Qed.

Lemma offsets_rejected y mo d h mi s micro oh om prec fprec frac :
  ~ offset_args_ok oh om ->
  timestamp_fn y mo d h mi s micro oh om prec fprec frac = Err ValueError.
Proof.
  intros H. unfold offset_args_ok, timestamp_fn in *.
  destruct oh as [x|]; [destruct ((x <? -23) || (23 <? x)) eqn:A; [reflexivity|]|]; cbn [bind];
  (destruct om as [z|]; [destruct ((z <? -59) || (59 <? z)) eqn:B; [reflexivity|]|]); cbn [bind];
  exfalso; apply H; split; try exact I; lia.
Qed.

Lemma offsets_accepted y mo d h mi s micro oh om prec fprec frac :
  offset_args_ok oh om ->
  timestamp_fn y mo d h mi s micro oh om prec fprec frac =
  timestamp_new y mo d h mi s micro
    (match oh, om with
     | None, None => None
     | _, _ => Some (60 * (60 * match oh with Some x => x | None => 0 end +
                           match om with Some x => x | None => 0 end))
     end) prec fprec frac.
Proof.
  intros [H1 H2]. unfold timestamp_fn.
  destruct oh as [x|]; [replace ((x <? -23) || (23 <? x)) with false by lia|]; cbn [bind];
  (destruct om as [z|]; [replace ((z <? -59) || (59 <? z)) with false by lia|]); cbn [bind];
  try reflexivity; unfold offset_tz;
  match goal with |- context [(?u <=? -86400) || (86400 <=? ?u)] =>
    replace ((u <=? -86400) || (86400 <=? u)) with false by lia end; cbn [bind];
  do 2 f_equal; lia.
Qed.
