(** Floats: exact widening of binary32 patterns, stated with integer values. *)
From Verif Require Import Base BaseFacts CoreModel BinWriterModel.

(** IEEE-754 meaning of a bit pattern, as an independent specification.
    A finite binary32 is an integer multiple of 2^-149, a finite binary64 one of 2^-1074; the
    signed integer multiple and the sign bit determine the datum (signed zeros included). *)
Inductive datum := Finite (negative : bool) (units : Z) | Infinite (negative : bool) | NotANumber.
Definition ieee (ebits mbits : Z) (b : Z) : datum :=
  let neg := Z.odd (b / 2 ^ (ebits + mbits)) in
  let e := (b / 2 ^ mbits) mod 2 ^ ebits in
  let m := b mod 2 ^ mbits in
  if e =? 2 ^ ebits - 1 then (if m =? 0 then Infinite neg else NotANumber)
  else if e =? 0 then Finite neg m
  else Finite neg ((2 ^ mbits + m) * 2 ^ (e - 1)).
Definition single (b : Z) : datum := ieee 8 23 b.
Definition double (b : Z) : datum := ieee 11 52 b.
(** The same datum in the finer unit of binary64: 2^-149 = 2^925 * 2^-1074. *)
Definition in_double_units (d : datum) : datum :=
  match d with Finite n u => Finite n (u * 2 ^ 925) | _ => d end.

Lemma fields64 s e m : (s = 0 \/ s = 1) -> 0 <= e < 2 ^ 11 -> 0 <= m < 2 ^ 52 ->
  let b := s * 2 ^ 63 + (e * 2 ^ 52 + m) in
  Z.odd (b / 2 ^ 63) = (s =? 1) /\ (b / 2 ^ 52) mod 2 ^ 11 = e /\ b mod 2 ^ 52 = m /\ 0 <= b < 2 ^ 64.
Proof.
  intros S E M b.
  assert (D : b / 2 ^ 52 = s * 2 ^ 11 + e).
  { symmetry. apply Z.div_unique with m; [left; exact M|]. unfold b. lia. }
  assert (D2 : b / 2 ^ 63 = s).
  { symmetry. apply Z.div_unique with (e * 2 ^ 52 + m); [left; lia|]. unfold b. lia. }
  split; [rewrite D2; destruct S; subst; reflexivity|]. split.
  - rewrite D. symmetry. apply Z.mod_unique with s; [left; exact E|lia].
  - split; [symmetry; apply Z.mod_unique with (s * 2 ^ 11 + e); [left; exact M|unfold b; lia]|]. unfold b. lia.
Qed.

Lemma lor_quiet m : 0 < m < 2 ^ 23 -> 0 < Z.lor (m * 2 ^ 29) (2 ^ 51) < 2 ^ 52.
Proof.
  intros M. split.
  - assert (0 <= Z.lor (m * 2 ^ 29) (2 ^ 51)) by (apply Z.lor_nonneg; lia).
    assert (Z.lor (m * 2 ^ 29) (2 ^ 51) <> 0); [|lia]. intros Q. apply Z.lor_eq_0_iff in Q. lia.
  - apply Z.log2_lt_pow2; [|rewrite Z.log2_lor by lia].
    + assert (0 <= Z.lor (m * 2 ^ 29) (2 ^ 51)) by (apply Z.lor_nonneg; lia).
      assert (Z.lor (m * 2 ^ 29) (2 ^ 51) <> 0); [|lia]. intros Q. apply Z.lor_eq_0_iff in Q. lia.
    + rewrite Z.log2_pow2 by lia. assert (Z.log2 (m * 2 ^ 29) < 52); [|lia]. apply Z.log2_lt_pow2; lia.
Qed.

Theorem widening_exact b : 0 <= b < 2 ^ 32 ->
  0 <= float32_to_64 b < 2 ^ 64 /\ double (float32_to_64 b) = in_double_units (single b).
Proof.
  intros B. unfold single, ieee, float32_to_64.
  set (s := b / 2 ^ 31). set (e := (b / 2 ^ 23) mod 2 ^ 8). set (m := b mod 2 ^ 23).
  change (b / 2 ^ (8 + 23)) with s. change ((b / 2 ^ 23) mod 256) with e.
  assert (S : s = 0 \/ s = 1).
  { assert (0 <= s) by (apply Z.div_pos; lia). assert (s < 2) by (apply Z.div_lt_upper_bound; lia). lia. }
  assert (E : 0 <= e < 256) by (apply Z.mod_pos_bound; lia).
  assert (M : 0 <= m < 2 ^ 23) by (apply Z.mod_pos_bound; lia).
  change (2 ^ 8 - 1) with 255.
  assert (OD : Z.odd s = (s =? 1)) by (destruct S as [-> | ->]; reflexivity).
  destruct (e =? 255) eqn:E1; [|destruct (e =? 0) eqn:E2; [destruct (m =? 0) eqn:M0|]].
  - destruct (m =? 0) eqn:M0.
    + destruct (fields64 s 2047 0 S ltac:(lia) ltac:(lia)) as (A & B1 & C & R). cbn zeta in *.
      split; [exact R|]. unfold double, ieee. change (11 + 52) with 63. rewrite A, B1, C, OD. reflexivity.
    + destruct (fields64 s 2047 (Z.lor (m * 2 ^ 29) (2 ^ 51)) S ltac:(lia) ltac:(pose proof (lor_quiet m); lia)) as (A & B1 & C & R).
      cbn zeta in *. split; [exact R|]. unfold double, ieee. change (11 + 52) with 63. rewrite A, B1, C.
      pose proof (lor_quiet m). replace (_ =? 0) with false by lia. reflexivity.
  - destruct (fields64 s 0 0 S ltac:(lia) ltac:(lia)) as (A & B1 & C & R). cbn zeta in *.
    change (0 * 2 ^ 52 + 0) with 0 in *. split; [exact R|]. unfold double, ieee. change (11 + 52) with 63. rewrite A, B1, C, OD.
    apply Z.eqb_eq in M0. rewrite M0. reflexivity.
  - cbn zeta. set (k := Z.log2 m).
    assert (MP : 0 < m) by lia. pose proof (Z.log2_spec m MP) as [K1 K2]. fold k in K1, K2.
    assert (K0 : 0 <= k) by apply Z.log2_nonneg.
    assert (K3 : k < 23) by (apply Z.log2_lt_pow2; lia).
    assert (P2 : 2 ^ 52 = 2 ^ k * 2 ^ (52 - k)) by (rewrite <- Z.pow_add_r by lia; f_equal; lia).
    assert (Q : 0 < 2 ^ (52 - k)) by (apply Z.pow_pos_nonneg; lia).
    rewrite Z.pow_succ_r in K2 by exact K0.
    destruct (fields64 s (k - 149 + 1023) ((m - 2 ^ k) * 2 ^ (52 - k)) S ltac:(lia)
       ltac:(rewrite P2; split; [apply Z.mul_nonneg_nonneg; lia|apply Z.mul_lt_mono_pos_r; lia])) as (A & B1 & C & R).
    cbn zeta in *. split; [exact R|]. unfold double, ieee. change (11 + 52) with 63. rewrite A, B1, C, OD.
    replace (k - 149 + 1023 =? 2 ^ 11 - 1) with false by lia. replace (k - 149 + 1023 =? 0) with false by lia.
    cbn [in_double_units]. f_equal. rewrite P2.
    replace (2 ^ k * 2 ^ (52 - k) + (m - 2 ^ k) * 2 ^ (52 - k)) with (m * 2 ^ (52 - k)) by ring.
    rewrite <- Z.mul_assoc, <- Z.pow_add_r by lia. do 2 f_equal. lia.
  - destruct (fields64 s (e - 127 + 1023) (m * 2 ^ 29) S ltac:(lia) ltac:(lia)) as (A & B1 & C & R).
    cbn zeta in *. split; [exact R|]. unfold double, ieee. change (11 + 52) with 63. rewrite A, B1, C, OD.
    replace (e - 127 + 1023 =? 2 ^ 11 - 1) with false by lia. replace (e - 127 + 1023 =? 0) with false by lia.
    cbn [in_double_units]. f_equal.
    replace (2 ^ 52 + m * 2 ^ 29) with ((2 ^ 23 + m) * 2 ^ 29) by lia.
    rewrite <- !Z.mul_assoc, <- !Z.pow_add_r by lia. do 2 f_equal. lia.
Qed.
