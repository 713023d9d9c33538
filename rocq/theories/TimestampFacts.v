(** Timestamps: constructor normalisation, binary round-trip. *)
From Verif Require Import Base BaseFacts FieldsModel FieldsFacts FieldsProofs CoreModel
  BinWriterModel ScalarFacts CalendarFacts.

(** * The constructor *)

(** core.py:494-503: what the constructor derives from explicit fractional seconds. *)
Definition frac_norm (f : dec) : dec := if (d_coef f =? 0) && (0 <? d_exp f) then dec_zero else f.

Lemma frac_norm_idem f : frac_norm (frac_norm f) = frac_norm f.
Proof. unfold frac_norm. destruct ((d_coef f =? 0) && (0 <? d_exp f)) eqn:E; [reflexivity|rewrite E; reflexivity]. Qed.

Definition frac_valid (f : dec) : bool := dec_nonneg f && dec_lt_one f.
Lemma frac_norm_valid f : frac_valid f = true -> frac_valid (frac_norm f) = true.
Proof. unfold frac_norm. destruct (_ && _); [reflexivity|auto]. Qed.

Lemma timestamp_new_frac y mo d h mi s off prec f :
  timestamp_new y mo d h mi s None off prec None (Some f) =
  if frac_valid f then
    let* m := dec_mul_int (frac_norm f) 1000000 in
    let* t := datetime_new y mo d h mi s (dec_int m) off in
    Ok (mkts t prec (Z.min (- d_exp (frac_norm f)) 6) (frac_norm f))
  else Err ValueError.
Proof.
  unfold timestamp_new, frac_valid. cbn [bind].
  destruct (dec_nonneg f && dec_lt_one f); [|reflexivity]. cbn [bind].
  fold (frac_norm f). destruct (dec_mul_int (frac_norm f) 1000000); reflexivity.
Qed.

Lemma timestamp_new_nofrac y mo d h mi s off prec :
  timestamp_new y mo d h mi s None off prec None None =
  timestamp_new y mo d h mi s None off prec None (Some dec_zero).
Proof. reflexivity. Qed.

(** A timestamp is canonical when rebuilding it from its own fields gives it back. *)
Definition ts_rebuild (t : ts) : res ts :=
  timestamp_new (dt_year (ts_dt t)) (dt_month (ts_dt t)) (dt_day (ts_dt t)) (dt_hour (ts_dt t))
    (dt_minute (ts_dt t)) (dt_second (ts_dt t)) None (dt_off (ts_dt t)) (ts_prec t) None (Some (ts_frac t)).
Definition ts_canonical (t : ts) : Prop := ts_rebuild t = Ok t.

Ltac Zify.zify_post_hook ::= Z.div_mod_to_equations.
Lemma pow10_cases (P : Z -> Z -> Prop) :
  P 1 100000 -> P 2 10000 -> P 3 1000 -> P 4 100 -> P 5 10 -> P 6 1 ->
  forall fp, 1 <= fp <= 6 -> P fp (10 ^ (6 - fp)).
Proof.
  intros. assert (fp = 1 \/ fp = 2 \/ fp = 3 \/ fp = 4 \/ fp = 5 \/ fp = 6) as D by lia.
  repeat (destruct D as [->|D]; [assumption|]). subst; assumption.
Qed.

(** The microsecond path (core.py:504-516): the fraction denotes the same number. *)
Lemma micro_frac us fp : 0 <= us <= 999999 -> 1 <= fp <= 6 -> us mod 10 ^ (6 - fp) = 0 ->
  let f := mkdec (us <? 0) (Z.abs us / 10 ^ (6 - fp)) (- fp) in
  frac_valid f = true /\ frac_norm f = f /\
  exists m, dec_mul_int f 1000000 = Ok m /\ dec_int m = us.
Proof.
  intros Hu Hf Hm f.
  assert (Hp : 10 ^ fp * 10 ^ (6 - fp) = 1000000)
    by (rewrite <- Z.pow_add_r by lia; replace (fp + (6 - fp)) with 6 by lia; reflexivity).
  assert (P1 : 0 < 10 ^ fp) by (apply Z.pow_pos_nonneg; lia).
  assert (P2 : 0 < 10 ^ (6 - fp)) by (apply Z.pow_pos_nonneg; lia).
  assert (Hus : us = 10 ^ (6 - fp) * (us / 10 ^ (6 - fp)))
    by (rewrite (Z.div_mod us (10 ^ (6 - fp))) at 1 by lia; rewrite Hm; lia).
  unfold f. rewrite Z.abs_eq by lia. replace (us <? 0) with false by lia.
  set (c := us / 10 ^ (6 - fp)) in *.
  assert (C0 : 0 <= c) by (unfold c; apply Z.div_pos; lia).
  assert (C1 : c < 10 ^ fp) by nia.
  split; [|split].
  - unfold frac_valid, dec_nonneg, dec_lt_one; cbn [d_neg d_coef d_exp].
    rewrite Z.opp_involutive. replace (- fp <? 0) with true by lia.
    replace (c <? 10 ^ fp) with true by lia. cbn. rewrite orb_true_r, orb_true_r. reflexivity.
  - unfold frac_norm; cbn [d_coef d_exp]. replace (0 <? - fp) with false by lia.
    rewrite andb_false_r. reflexivity.
  - unfold dec_mul_int; cbn [d_neg d_coef d_exp].
    destruct (Z.eq_dec c 0) as [E0|N0].
    + rewrite E0. eexists. split; [reflexivity|]. unfold dec_int; cbn [d_neg d_coef d_exp].
      destruct (0 <=? _); [lia|]. rewrite Zdiv_0_l. rewrite Hus, E0. lia.
    + eexists. split.
      * apply dec_fix_exact; cbn [d_neg d_coef d_exp]; unfold default_prec, dec_Emax, dec_Emin; try lia.
        -- destruct (ndigits_spec (c * 1000000) ltac:(lia)) as (N1 & N2 & N3).
           assert (ndigits (c * 1000000) <= 12); [|lia].
           destruct (Z_le_gt_dec (ndigits (c * 1000000)) 12) as [L|G]; [exact L|].
           exfalso. specialize (N3 ltac:(lia)).
           assert (10 ^ 12 <= 10 ^ (ndigits (c * 1000000) - 1)) by (apply Z.pow_le_mono_r; lia).
           assert (c < 10 ^ 6) by (eapply Z.lt_le_trans; [exact C1|apply Z.pow_le_mono_r; lia]).
           change (10 ^ 12) with 1000000000000 in *. change (10 ^ 6) with 1000000 in *. lia.
        -- destruct (ndigits_spec (c * 1000000) ltac:(lia)) as (N1 & N2 & N3).
           assert (ndigits (c * 1000000) <= 12); [|lia].
           destruct (Z_le_gt_dec (ndigits (c * 1000000)) 12) as [L|G]; [exact L|].
           exfalso. specialize (N3 ltac:(lia)).
           assert (10 ^ 12 <= 10 ^ (ndigits (c * 1000000) - 1)) by (apply Z.pow_le_mono_r; lia).
           assert (c < 10 ^ 6) by (eapply Z.lt_le_trans; [exact C1|apply Z.pow_le_mono_r; lia]).
           change (10 ^ 12) with 1000000000000 in *. change (10 ^ 6) with 1000000 in *. lia.
      * unfold dec_int; cbn [d_neg d_coef d_exp].
        replace (0 <=? - fp) with false by lia. rewrite Z.opp_involutive.
        symmetry. apply Z.div_unique_exact; [lia|]. rewrite <- Hp. rewrite Hus at 1. ring.
Qed.
Ltac Zify.zify_post_hook ::= idtac.

(** Every constructed timestamp is canonical. *)
Lemma timestamp_new_canonical y mo d h mi s micro off prec fprec frac t :
  timestamp_new y mo d h mi s micro off prec fprec frac = Ok t -> ts_canonical t.
Proof.
  unfold ts_canonical, ts_rebuild. rewrite timestamp_new_frac.
  destruct frac as [f|].
  - (* explicit fractional seconds *)
    destruct fprec as [fp|]; [|destruct micro as [us|]].
    + unfold timestamp_new.
      destruct ((0 <=? fp) && (fp <=? 6)); cbn [bind]; [|discriminate].
      destruct (dec_nonneg f && dec_lt_one f); cbn [bind]; discriminate.
    + unfold timestamp_new. cbn [bind].
      destruct (dec_nonneg f && dec_lt_one f); cbn [bind]; discriminate.
    + rewrite timestamp_new_frac.
      destruct (frac_valid f) eqn:V; [|discriminate]. intros H.
      apply bind_ok in H as (m & Hm & H). apply bind_ok in H as (dt & Hd & H).
      injection H as <-. cbn [ts_dt ts_frac ts_prec].
      rewrite (frac_norm_valid f V), frac_norm_idem, Hm. cbn [bind].
      apply datetime_new_inv in Hd as Hd'. destruct Hd' as [-> _].
      cbn [dt_year dt_month dt_day dt_hour dt_minute dt_second dt_off].
      rewrite Hd. reflexivity.
  - intros H. unfold timestamp_new in H.
    apply bind_ok in H as (u1 & H1 & H). apply bind_ok in H as (u2 & H2 & H).
    apply bind_ok in H as (u3 & H3 & H). apply bind_ok in H as (u4 & H4 & H).
    destruct micro as [us|].
    + apply bind_ok in H as ([[us' fp] fs] & H5 & H). apply bind_ok in H as (dt & Hd & H).
      injection H as <-. cbn [ts_dt ts_frac ts_prec].
      apply datetime_new_inv in Hd as Hd'. destruct Hd' as [-> Hok].
      cbn [dt_year dt_month dt_day dt_hour dt_minute dt_second dt_off].
      assert (Hus' : 0 <= us' <= 999999) by (destruct Hok as (_ & _ & _ & _ & _ & K); exact K).
      set (fp0 := match fprec with Some f => f | None => 6 end) in *.
      assert (Hfp : 0 <= fp0 <= 6) by (unfold fp0; destruct fprec; [destruct ((0 <=? z) && (z <=? 6)) eqn:B; [lia|discriminate]|lia]).
      cbv zeta in H5.
      destruct (fp0 =? 0) eqn:F0.
      * injection H5 as <- <- <-.
        assert (us = 0) as ->.
        { unfold fp0 in *. destruct fprec as [f|]; [|discriminate].
          assert (f = 0) as -> by lia. cbn [Z.eqb andb] in H4.
          destruct (us =? 0) eqn:U; [lia|discriminate]. }
        change (frac_valid dec_zero) with true. change (frac_norm dec_zero) with dec_zero.
        cbv iota. change (dec_mul_int dec_zero 1000000) with (Ok dec_zero). cbn [bind].
        change (dec_int dec_zero) with 0. rewrite Hd. cbn [bind].
        assert (fp0 = 0) as -> by lia. reflexivity.
      * destruct (us mod 10 ^ (6 - fp0) =? 0) eqn:M; [|discriminate].
        assert (E1 : us' = us) by congruence. assert (E2 : fp = fp0) by congruence.
        assert (E3 : fs = mkdec (us <? 0) (Z.abs us / 10 ^ (6 - fp0)) (- fp0)) by congruence.
        subst us' fp fs. clear H5.
        destruct (micro_frac us fp0 Hus' ltac:(lia) ltac:(lia)) as (V & N & m & Hm & Hi).
        rewrite V, N, Hm. cbn [bind]. rewrite Hi, Hd. cbn [bind d_exp].
        f_equal. f_equal. lia.
    + apply bind_ok in H as ([[us' fp] fs] & H5 & H). apply bind_ok in H as (dt & Hd & H).
      injection H as <-. injection H5 as <- <- <-. cbn [ts_dt ts_frac ts_prec].
      apply datetime_new_inv in Hd as Hd'. destruct Hd' as [-> Hok].
      cbn [dt_year dt_month dt_day dt_hour dt_minute dt_second dt_off].
      change (frac_valid dec_zero) with true. change (frac_norm dec_zero) with dec_zero.
      cbv iota. change (dec_mul_int dec_zero 1000000) with (Ok dec_zero). cbn [bind].
      change (dec_int dec_zero) with 0. rewrite Hd. reflexivity.
Qed.

(** What canonical means, field by field. *)
Lemma canonical_inv t : ts_canonical t ->
  dt_ok (ts_dt t) /\ frac_valid (ts_frac t) = true /\ frac_norm (ts_frac t) = ts_frac t /\
  ts_fprec t = Z.min (- d_exp (ts_frac t)) 6 /\
  exists m, dec_mul_int (ts_frac t) 1000000 = Ok m /\ dt_micro (ts_dt t) = dec_int m.
Proof.
  unfold ts_canonical, ts_rebuild. rewrite timestamp_new_frac.
  destruct (frac_valid (ts_frac t)) eqn:V; [|discriminate]. intros H.
  apply bind_ok in H as (m & Hm & H). apply bind_ok in H as (dt & Hd & H).
  injection H as H.
  apply datetime_new_inv in Hd as [Ed Hok].
  assert (E1 : dt = ts_dt t) by (rewrite <- H; reflexivity).
  assert (E2 : frac_norm (ts_frac t) = ts_frac t) by (rewrite <- H at 2; reflexivity).
  assert (E3 : ts_fprec t = Z.min (- d_exp (frac_norm (ts_frac t))) 6) by (rewrite <- H at 1; reflexivity).
  rewrite E2 in *. split; [rewrite <- E1; exact Hok|]. split; [reflexivity|]. split; [reflexivity|].
  split; [exact E3|]. exists m. split; [exact Hm|]. rewrite <- E1, Ed. reflexivity.
Qed.

(** Rebuilding with other calendar fields. *)
Lemma rebuild_at t dt : ts_canonical t -> dt_ok dt -> dt_micro dt = dt_micro (ts_dt t) ->
  timestamp_new (dt_year dt) (dt_month dt) (dt_day dt) (dt_hour dt) (dt_minute dt) (dt_second dt)
    None (dt_off dt) (ts_prec t) None (Some (ts_frac t)) = Ok (mkts dt (ts_prec t) (ts_fprec t) (ts_frac t)).
Proof.
  intros H Hd Hm. destruct (canonical_inv t H) as (_ & V & N & F & m & M1 & M2).
  rewrite timestamp_new_frac, V, N, M1. cbn [bind].
  destruct dt as [y mo d h mi s us off]; cbn in *. rewrite <- M2, <- Hm.
  rewrite datetime_new_ok by exact Hd. cbn [bind]. rewrite F. reflexivity.
Qed.

(** * Binary form *)

Definition eff_prec (t : ts) : precision := match ts_prec t with Some p => p | None => PSecond end.

(** Timestamps the binary encoding can carry exactly (the restrictions are the documented findings):
    offset in whole minutes, UTC fields representable, no offset below minute precision, fields
    beyond the precision at their defaults, at most 28 fraction digits, no negative-zero second. *)
Definition ts_portable (t : ts) : Prop :=
  ts_canonical t /\
  (match dt_off (ts_dt t) with
   | None => True
   | Some o => o mod 60 = 0 /\ -86400 < o < 86400 /\
               (exists u, dt_shift (ts_dt t) (- o) = Ok u) /\
               (includes (eff_prec t) PMinute = false -> o = 0)
   end) /\
  (includes (eff_prec t) PMonth = false -> dt_month (ts_dt t) = 1) /\
  (includes (eff_prec t) PDay = false -> dt_day (ts_dt t) = 1) /\
  (includes (eff_prec t) PMinute = false -> dt_hour (ts_dt t) = 0 /\ dt_minute (ts_dt t) = 0) /\
  (includes (eff_prec t) PSecond = false -> dt_second (ts_dt t) = 0 /\ ts_frac t = dec_zero) /\
  0 <= d_coef (ts_frac t) /\ ndigits (d_coef (ts_frac t)) <= 28 /\ -999999 <= d_exp (ts_frac t) /\
  (d_coef (ts_frac t) = 0 -> d_exp (ts_frac t) = 0 -> d_neg (ts_frac t) = false).

(** The octets of the fraction. *)
Definition frac_octets (f : dec) : list Z :=
  if (d_coef f =? 0) && (0 <=? d_exp f) then []
  else dec_payload (d_exp f) (if d_neg f then - d_coef f else d_coef f) (d_neg f).

Lemma frac_exp_bound f : frac_valid f = true -> frac_norm f = f -> 0 <= d_coef f ->
  d_exp f <= 0 /\ (0 < d_coef f -> d_neg f = false /\ d_exp f < 0 /\ d_coef f < 10 ^ (- d_exp f)).
Proof.
  intros V N C. unfold frac_valid, dec_nonneg, dec_lt_one in V. unfold frac_norm in N.
  destruct (d_coef f =? 0) eqn:Z0; cbn [orb andb] in *.
  - destruct (0 <? d_exp f) eqn:P; [|lia]. rewrite <- N in P. cbn in P. lia.
  - destruct (d_neg f); cbn [negb andb orb] in V; [discriminate|].
    apply andb_prop in V as [V1 V2]. split; [lia|]. intros _. split; [reflexivity|]. lia.
Qed.

Lemma write_frac_spec buf f : frac_valid f = true -> frac_norm f = f ->
  0 <= d_coef f -> ndigits (d_coef f) <= 28 -> -999999 <= d_exp f ->
  write_fractional_seconds buf f = Ok (buf ++ frac_octets f, zlen (frac_octets f)).
Proof.
  intros V N C D E. destruct (frac_exp_bound f V N C) as [B1 B2].
  unfold write_fractional_seconds, frac_octets.
  assert (S : exists sc, dec_scaleb default_prec f (- d_exp f) = Ok sc /\
              dec_int (dec_to_integral sc) = if d_neg f then - d_coef f else d_coef f).
  { destruct f as [s c e]; cbn [d_neg d_coef d_exp] in *. unfold dec_scaleb; cbn [d_neg d_coef d_exp].
    replace (e + - e) with 0 by lia.
    replace ((- e <? - (2 * (dec_Emax + default_prec))) || (2 * (dec_Emax + default_prec) <? - e)) with false
      by (unfold dec_Emax, default_prec; lia).
    destruct (Z.eq_dec c 0) as [->|Nz].
    - eexists. split; [reflexivity|]. cbn. destruct s; reflexivity.
    - eexists. split.
      + apply dec_fix_exact; cbn [d_neg d_coef d_exp]; unfold default_prec, dec_Emax, dec_Emin; lia.
      + rewrite dec_to_integral_0 by reflexivity. apply dec_int_0. }
  destruct S as (sc & S1 & S2). rewrite S1. cbn [bind]. rewrite S2.
  replace ((if d_neg f then - d_coef f else d_coef f) =? 0) with (d_coef f =? 0)
    by (destruct (d_neg f); lia).
  destruct ((d_coef f =? 0) && (0 <=? d_exp f)).
  - rewrite app_nil_r. reflexivity.
  - apply write_decimal_value_spec.
Qed.

Lemma frac_octets_octets f : octets (frac_octets f).
Proof. unfold frac_octets. destruct (_ && _); [constructor|apply dec_payload_octets]. Qed.

(** The octets of the offset. *)
Definition off_octets (o : option Z) : list Z :=
  match o with None => [0xC0] | Some o => varint_octets (o / 60) end.

Definition ts_payload (t : ts) (u : dtime) : list Z :=
  off_octets (dt_off (ts_dt t)) ++ varuint_octets (dt_year u) ++
  (if includes (eff_prec t) PMonth then varuint_octets (dt_month u) else []) ++
  (if includes (eff_prec t) PDay then varuint_octets (dt_day u) else []) ++
  (if includes (eff_prec t) PMinute then varuint_octets (dt_hour u) ++ varuint_octets (dt_minute u) else []) ++
  (if includes (eff_prec t) PSecond then varuint_octets (dt_second u) ++ frac_octets (ts_frac t) else []).

Definition utc_of (t : dtime) : res dtime :=
  match dt_off t with None => Ok t | Some o => dt_shift t (- o) end.

(** ** Length headers *)
Definition length_octets (tid len : Z) : list Z :=
  if len <? 14 then [tid + len] else (tid + 14) :: varuint_octets len.

Definition tid_ok (tid : Z) : Prop := 0 <= tid < 256 /\ tid mod 16 = 0.

Lemma lor_tid tid n : tid mod 16 = 0 -> 0 <= n < 16 -> Z.lor tid n = tid + n.
Proof.
  intros H Hn. pose proof (Z.div_mod tid 16 ltac:(lia)) as D. rewrite H, Z.add_0_r in D.
  rewrite D, Z.mul_comm. apply (lor_disjoint_shift 4 (tid / 16) n); [lia|]. change (2 ^ 4) with 16. lia.
Qed.

Lemma write_length_spec buf len tid : 0 <= len -> tid mod 16 = 0 ->
  write_length buf len tid = Ok (buf ++ length_octets tid len).
Proof.
  intros H T. unfold write_length, length_octets. destruct (len <? 14) eqn:C.
  - rewrite lor_tid by lia. reflexivity.
  - rewrite lor_tid by lia. rewrite write_varuint_spec by lia. cbn [bind].
    rewrite <- app_assoc. reflexivity.
Qed.

Lemma length_octets_octets tid len : tid_ok tid -> 0 <= len -> octets (length_octets tid len).
Proof.
  intros [H1 H2] L. unfold length_octets. pose proof (Z.div_mod tid 16 ltac:(lia)).
  assert (tid / 16 < 16) by (apply Z.div_lt_upper_bound; lia).
  destruct (len <? 14) eqn:C.
  - constructor; [unfold is_octet; lia|constructor].
  - constructor; [unfold is_octet; lia|apply varuint_octets_octets].
Qed.

Lemma serialize_timestamp_spec t : ts_portable t ->
  exists u, utc_of (ts_dt t) = Ok u /\ dt_ok u /\
    serialize_timestamp (TsStamp t) =
    Ok (length_octets 0x60 (zlen (ts_payload t u)) ++ ts_payload t u).
Proof.
  intros (Hcan & Hoff & Hmo & Hda & Hmi & Hse & Hc & Hn & He & Hz).
  destruct (canonical_inv t Hcan) as (Hok & V & N & _).
  assert (U : exists u, utc_of (ts_dt t) = Ok u /\ dt_ok u).
  { unfold utc_of. destruct (dt_off (ts_dt t)) as [o|]; [|eauto].
    destruct Hoff as (_ & B & [u Hu] & _). exists u. split; [exact Hu|].
    pose proof (dt_shift_spec (ts_dt t) (- o) Hok ltac:(lia)) as S. rewrite Hu in S. tauto. }
  destruct U as (u & Hu & Huok). exists u. split; [exact Hu|]. split; [exact Huok|].
  destruct Huok as (Y & [M D] & H & Mi & S & _).
  unfold serialize_timestamp. fold (eff_prec t).
  assert (O : exists n, (match dt_off (ts_dt t) with
              | None => Ok (ts_dt t, [0xC0], 1)
              | Some offset =>
                let* dt' := dt_shift (ts_dt t) (- offset) in
                let* (b, n) := write_varint [] (offset / 60) in Ok (dt', b, n)
              end) = Ok (u, off_octets (dt_off (ts_dt t)), n) /\ n = zlen (off_octets (dt_off (ts_dt t)))).
  { unfold utc_of in Hu. destruct (dt_off (ts_dt t)) as [o|].
    - rewrite Hu. cbn [bind]. rewrite write_varint_spec. cbn [bind app]. eauto.
    - injection Hu as ->. eexists. split; reflexivity. }
  destruct O as (n & -> & ->). cbn [bind].
  rewrite write_varuint_spec by lia. cbn [bind].
  unfold ts_payload.
  destruct (eff_prec t); cbn [includes prec_rank Z.leb Z.compare Pos.compare Pos.compare_cont];
    repeat (rewrite write_varuint_spec by lia; cbn [bind]);
    rewrite ?write_frac_spec by auto; cbn [bind];
    rewrite ?app_nil_r;
    (rewrite write_length_spec; [|repeat match goal with |- context [zlen ?l] => 
       lazymatch goal with H : 0 <= zlen l |- _ => fail | _ => pose proof (zlen_nonneg l) end end; lia|reflexivity]);
    cbn [bind app];
    f_equal; f_equal;
    try (rewrite ?zlen_app, ?Z.add_assoc; f_equal; rewrite ?Z.add_assoc; reflexivity);
    rewrite <- ?app_assoc; reflexivity.
Qed.

(** ** Reading back *)

Lemma parse_var_int_varuint v rest : 0 <= v ->
  parse_var_int (varuint_octets v ++ rest) false = Ok (v, rest).
Proof.
  intros H. unfold parse_var_int. rewrite parse_varuint by auto. cbn [bind]. do 2 f_equal. lia.
Qed.

Lemma varuint_nonempty v rest : 0 <= v -> varuint_octets v ++ rest <> [].
Proof.
  intros H E. apply (f_equal zlen) in E. rewrite zlen_app in E.
  pose proof (octets_len_pos_varuint v H). pose proof (zlen_nonneg rest). change (zlen []) with 0 in E. lia.
Qed.

Lemma match_nonempty {A B} (l : list A) (x y : B) : l <> [] -> match l with [] => x | _ => y end = y.
Proof. destruct l; [contradiction|reflexivity]. Qed.

(** The time zone component. *)
Lemma parse_off o rest : (match o with None => True | Some o => o mod 60 = 0 /\ -86400 < o < 86400 end) ->
  exists sg mag, parse_var_int_components (off_octets o ++ rest) true 1 0 = Ok (sg, mag, rest) /\
  (let off_value := sg * mag in
   if (sg =? -1) && (off_value =? 0) then Ok None
   else if 999999999 <? Z.abs (off_value / 1440) then Err OverflowError
        else let* x := offset_tz (off_value * 60) in Ok (Some x)) = Ok o.
Proof.
  intros H. destruct o as [o|]; cbn [off_octets].
  - destruct H as [H1 H2]. rewrite parse_varint.
    assert (E : o = 60 * (o / 60)) by (pose proof (Z.div_mod o 60 ltac:(lia)); lia).
    set (v := o / 60) in *.
    eexists _, _. split; [reflexivity|]. cbv zeta.
    replace ((if v <? 0 then -1 else 1) * Z.abs v) with v by (destruct (v <? 0) eqn:G; lia).
    replace ((((if v <? 0 then -1 else 1) =? -1) && (v =? 0))) with false by (destruct (v <? 0) eqn:G; lia).
    replace (999999999 <? Z.abs (v / 1440)) with false.
    2: { symmetry. apply Z.ltb_ge. pose proof (Z.div_le_upper_bound v 1440 1 ltac:(lia) ltac:(lia)).
         pose proof (Z.div_le_lower_bound v 1440 (-1) ltac:(lia) ltac:(lia)). lia. }
    unfold offset_tz. replace ((v * 60 <=? -86400) || (86400 <=? v * 60)) with false by lia.
    cbn [bind]. do 2 f_equal. lia.
  - eexists _, _. split; reflexivity.
Qed.

Lemma frac_parse f : frac_valid f = true -> frac_norm f = f ->
  0 <= d_coef f -> ndigits (d_coef f) <= 28 -> -999999 <= d_exp f ->
  (d_coef f = 0 -> d_exp f = 0 -> d_neg f = false) ->
  exists o, (match frac_octets f with
   | [] => Ok None
   | _ => let* f := parse_decimal (frac_octets f) in
          if (d_coef f =? 0) && (-1 <? d_exp f) then Ok None else Ok (Some f)
   end) = Ok o /\ (o = Some f \/ o = None /\ f = dec_zero).
Proof.
  intros V N C D E Z0. destruct (frac_exp_bound f V N C) as [B1 B2].
  unfold frac_octets. destruct ((d_coef f =? 0) && (0 <=? d_exp f)) eqn:G.
  - exists None. split; [reflexivity|]. right. split; [reflexivity|].
    destruct f as [s c e]; cbn [d_neg d_coef d_exp] in *. 
    assert (c = 0) by lia. assert (e = 0) by lia. rewrite (Z0 ltac:(lia) ltac:(lia)). subst. reflexivity.
  - exists (Some f).
    rewrite match_nonempty by (intros X; apply (f_equal zlen) in X;
      pose proof (dec_payload_len (d_exp f) (if d_neg f then - d_coef f else d_coef f) (d_neg f)); change (zlen []) with 0 in X; lia).
    rewrite parse_payload; [|lia|].
    + cbn [bind]. replace (-1 <? d_exp f) with (0 <=? d_exp f) by lia. rewrite G. auto.
    + intros Hp. destruct (B2 Hp) as (_ & B3 & B4).
      destruct (ndigits_spec (d_coef f) C) as (N1 & N2 & N3). lia.
Qed.

Definition with_prec (t : ts) : ts := mkts (ts_dt t) (Some (eff_prec t)) (ts_fprec t) (ts_frac t).

Lemma adjust_back t u p fr : ts_canonical t ->
  (match dt_off (ts_dt t) with None => True | Some o => -86400 < o < 86400 end) ->
  utc_of (ts_dt t) = Ok u -> dt_ok u ->
  (fr = Some (ts_frac t) \/ fr = None /\ ts_frac t = dec_zero) ->
  adjust_from_utc_fields (dt_year u) (dt_month u) (dt_day u) (dt_hour u) (dt_minute u) (dt_second u)
    (dt_off (ts_dt t)) (Some p) fr = Ok (TsStamp (mkts (ts_dt t) (Some p) (ts_fprec t) (ts_frac t))).
Proof.
  intros Hcan Hb Hu Huok Hfr.
  set (tp := mkts (ts_dt t) (Some p) (ts_fprec t) (ts_frac t)).
  assert (Hcp : ts_canonical tp).
  { unfold ts_canonical, ts_rebuild in *. cbn [tp ts_dt ts_prec ts_frac]. rewrite timestamp_new_frac in *.
    destruct (frac_valid (ts_frac t)); [|discriminate].
    destruct (dec_mul_int (frac_norm (ts_frac t)) 1000000); cbn [bind] in *; [|discriminate].
    match type of Hcan with context [bind ?x _] => destruct x end; cbn [bind] in *; [|discriminate].
    unfold tp. apply (f_equal (fun r => match r with Ok x => (ts_dt x, ts_fprec x, ts_frac x) | Err _ => (ts_dt t, 0, dec_zero) end)) in Hcan.
    cbn [ts_dt ts_fprec ts_frac] in Hcan. injection Hcan as E1 E2 E3. congruence. }
  destruct (canonical_inv t Hcan) as (Hok & _).
  unfold adjust_from_utc_fields.
  assert (Hm : dt_micro u = dt_micro (ts_dt t) /\ dt_off u = dt_off (ts_dt t)).
  { unfold utc_of in Hu. destruct (dt_off (ts_dt t)) as [o|] eqn:O; [|injection Hu as <-; auto].
    pose proof (dt_shift_spec (ts_dt t) (- o) Hok ltac:(lia)) as S. rewrite Hu in S.
    destruct S as (_ & _ & S1 & S2). rewrite S2, O. auto. }
  destruct Hm as [Hm1 Hm2].
  pose proof (rebuild_at tp u Hcp Huok Hm1) as R. cbn [tp ts_prec ts_frac ts_fprec] in R.
  rewrite Hm2 in R.
  assert (R' : timestamp_new (dt_year u) (dt_month u) (dt_day u) (dt_hour u) (dt_minute u) (dt_second u)
                 None (dt_off (ts_dt t)) (Some p) None fr = Ok (mkts u (Some p) (ts_fprec t) (ts_frac t))).
  { destruct Hfr as [-> | [-> Z0]]; [exact R|]. rewrite timestamp_new_nofrac, <- Z0. exact R. }
  rewrite R'. cbn [bind ts_dt ts_prec ts_frac].
  unfold utc_of in Hu. destruct (dt_off (ts_dt t)) as [o|] eqn:O.
  - destruct (Z.eq_dec o 0) as [->|No].
    + change (- 0) with 0 in Hu. rewrite dt_shift_0 in Hu by exact Hok.
      injection Hu as <-. reflexivity.
    + assert (I : dt_shift u o = Ok (ts_dt t)).
      { apply (dt_shift_inverse _ _ _ Hok) in Hu; [|lia]. rewrite Z.opp_involutive in Hu. exact Hu. }
      rewrite I. cbn [bind].
      assert (B : timestamp_new (dt_year (ts_dt t)) (dt_month (ts_dt t)) (dt_day (ts_dt t)) (dt_hour (ts_dt t))
                (dt_minute (ts_dt t)) (dt_second (ts_dt t)) None (Some o) (Some p) None
                (Some (ts_frac t)) = Ok tp).
      { pose proof (rebuild_at tp (ts_dt t) Hcp Hok eq_refl) as B. cbn [tp ts_prec ts_frac ts_fprec] in B.
        rewrite O in B. exact B. }
      rewrite B. cbn [bind]. destruct o; [contradiction| |]; reflexivity.
  - injection Hu as <-. reflexivity.
Qed.

Lemma parse_timestamp_payload t u : ts_portable t -> utc_of (ts_dt t) = Ok u -> dt_ok u ->
  parse_timestamp (ts_payload t u) = Ok (TsStamp (with_prec t)).
Proof.
  intros (Hcan & Hoff & Hmo & Hda & Hmi & Hse & Hc & Hn & He & Hz) Hu Huok.
  destruct (canonical_inv t Hcan) as (Hok & V & N & _).
  pose proof Huok as (Y & [M D] & H & Mi & S & _).
  unfold parse_timestamp, ts_payload.
  set (body := varuint_octets (dt_year u) ++ _).
  assert (Ho : match dt_off (ts_dt t) with None => True | Some o => o mod 60 = 0 /\ -86400 < o < 86400 end)
    by (destruct (dt_off (ts_dt t)); tauto).
  destruct (parse_off (dt_off (ts_dt t)) body Ho) as (sg & mag & P1 & P2).
  rewrite P1. cbn [bind]. cbv zeta in P2. rewrite P2. cbn [bind]. unfold body. clear P1 P2 body.
  rewrite parse_var_int_varuint by lia. cbn [bind].
  assert (Hb : match dt_off (ts_dt t) with None => True | Some o => -86400 < o < 86400 end)
    by (destruct (dt_off (ts_dt t)); tauto).
  (* below minute precision the UTC fields are the local fields *)
  assert (Same : includes (eff_prec t) PMinute = false -> u = ts_dt t).
  { intros I. unfold utc_of in Hu. destruct (dt_off (ts_dt t)) as [o|]; [|congruence].
    destruct Hoff as (_ & _ & _ & Z0). rewrite (Z0 I) in Hu. change (- 0) with 0 in Hu.
    rewrite dt_shift_0 in Hu by exact Hok. congruence. }
  assert (Sec : dt_second u = dt_second (ts_dt t)).
  { unfold utc_of in Hu. destruct (dt_off (ts_dt t)) as [o|]; [|congruence].
    eapply dt_shift_second; [exact Hok| |exact Hu]. destruct Hoff as (O1 & _).
    rewrite Z.mod_opp_l_z; lia. }
  pose proof (adjust_back t u (eff_prec t) None Hcan Hb Hu Huok) as A0.
  destruct (frac_parse (ts_frac t) V N Hc Hn He Hz) as (fr & Ffr & Hfr).
  pose proof (adjust_back t u (eff_prec t) fr Hcan Hb Hu Huok Hfr) as A1.
  unfold with_prec.
  destruct (eff_prec t) eqn:P; cbn [includes prec_rank Z.leb Z.compare Pos.compare Pos.compare_cont] in *;
    rewrite ?app_nil_r.
  - (* year *)
    rewrite (Same eq_refl) in *. cbn [app bind]. rewrite (Hmo eq_refl), (Hda eq_refl), (proj1 (Hmi eq_refl)),
      (proj2 (Hmi eq_refl)), (proj1 (Hse eq_refl)) in A0. apply A0. right. split; [reflexivity|apply Hse; reflexivity].
  - rewrite (Same eq_refl) in *. cbn [app].
    rewrite match_nonempty by (rewrite <- (app_nil_r (varuint_octets _)); apply varuint_nonempty; lia).
    rewrite <- (app_nil_r (varuint_octets _)), parse_var_int_varuint by lia. cbn [bind].
    rewrite (Hda eq_refl), (proj1 (Hmi eq_refl)),
      (proj2 (Hmi eq_refl)), (proj1 (Hse eq_refl)) in A0. apply A0. right. split; [reflexivity|apply Hse; reflexivity].
  - rewrite (Same eq_refl) in *. cbn [app].
    rewrite match_nonempty by (apply varuint_nonempty; lia).
    rewrite parse_var_int_varuint by lia. cbn [bind].
    rewrite match_nonempty by (rewrite <- (app_nil_r (varuint_octets _)); apply varuint_nonempty; lia).
    rewrite <- (app_nil_r (varuint_octets _)), parse_var_int_varuint by lia. cbn [bind].
    rewrite (proj1 (Hmi eq_refl)),
      (proj2 (Hmi eq_refl)), (proj1 (Hse eq_refl)) in A0. apply A0. right. split; [reflexivity|apply Hse; reflexivity].
  - cbn [app].
    rewrite match_nonempty by (apply varuint_nonempty; lia).
    rewrite parse_var_int_varuint by lia. cbn [bind].
    rewrite match_nonempty by (apply varuint_nonempty; lia).
    rewrite parse_var_int_varuint by lia. cbn [bind].
    rewrite match_nonempty by (apply varuint_nonempty; lia).
    rewrite parse_var_int_varuint by lia. cbn [bind].
    rewrite <- (app_nil_r (varuint_octets _)), parse_var_int_varuint by lia. cbn [bind].
    rewrite Sec, (proj1 (Hse eq_refl)) in A0. apply A0. right. split; [reflexivity|apply Hse; reflexivity].
  - rewrite <- app_assoc.
    rewrite match_nonempty by (apply varuint_nonempty; lia).
    rewrite parse_var_int_varuint by lia. cbn [bind].
    rewrite match_nonempty by (apply varuint_nonempty; lia).
    rewrite parse_var_int_varuint by lia. cbn [bind].
    rewrite match_nonempty by (apply varuint_nonempty; lia).
    rewrite parse_var_int_varuint by lia. cbn [bind].
    rewrite parse_var_int_varuint by lia. cbn [bind].
    rewrite match_nonempty by (apply varuint_nonempty; lia).
    rewrite parse_var_int_varuint by lia. cbn [bind].
    rewrite Ffr. cbn [bind]. exact A1.
Qed.

Lemma ts_payload_octets t u : octets (ts_payload t u).
Proof.
  unfold ts_payload. repeat (apply octets_app; split); try apply varuint_octets_octets.
  - unfold off_octets. destruct (dt_off (ts_dt t)); [apply varint_octets_octets|].
    constructor; [unfold is_octet; lia|constructor].
  - destruct (includes _ _); [apply varuint_octets_octets|constructor].
  - destruct (includes _ _); [apply varuint_octets_octets|constructor].
  - destruct (includes _ _); [apply octets_app; split; apply varuint_octets_octets|constructor].
  - destruct (includes _ _); [apply octets_app; split; [apply varuint_octets_octets|apply frac_octets_octets]|constructor].
Qed.

Lemma ts_payload_len t u : 1 <= zlen (ts_payload t u).
Proof.
  unfold ts_payload. rewrite zlen_app.
  assert (1 <= zlen (off_octets (dt_off (ts_dt t)))).
  { unfold off_octets. destruct (dt_off (ts_dt t)); [apply octets_len_pos_varint|reflexivity || (unfold zlen; cbn; lia)]. }
  match goal with |- context [_ + zlen ?l] => pose proof (zlen_nonneg l) end. lia.
Qed.
