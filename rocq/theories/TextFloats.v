(** Floats: the text of [repr] reads back as the same double. *)
From Verif Require Import Base BaseFacts CoreModel ScalarFacts BinReaderModel TextNumbers TextNumbersFacts TextWriterModel TextReaderModel TextWalk TextTokens TextNumberTokens TextNumberValues.
Local Open Scope Z_scope.

(** * The nearest double depends on the ratio only *)
Definition above (t num den : Z) : Prop := den * 2 ^ Z.max 0 t <= num * 2 ^ Z.max 0 (- t).
Lemma above_shift t num den s : 0 <= s -> 0 <= t + s -> above t num den <-> den * 2 ^ (t + s) <= num * 2 ^ s.
Proof.
  intros S T. unfold above. destruct (Z.le_ge_cases 0 t) as [P|P].
  - rewrite Z.max_r by lia. replace (Z.max 0 (- t)) with 0 by lia. rewrite (Z.pow_add_r 2 t s) by lia. change (2 ^ 0) with 1.
    assert (H : 0 < 2 ^ s) by (apply Z.pow_pos_nonneg; lia). rewrite Z.mul_1_r, Z.mul_assoc. apply Z.mul_le_mono_pos_r. exact H.
  - replace (Z.max 0 t) with 0 by lia. rewrite Z.max_r by lia. replace (2 ^ s) with (2 ^ (- t) * 2 ^ (t + s)) by (rewrite <- Z.pow_add_r by lia; f_equal; lia).
    change (2 ^ 0) with 1. assert (H : 0 < 2 ^ (t + s)) by (apply Z.pow_pos_nonneg; lia). rewrite Z.mul_1_r, Z.mul_assoc. apply Z.mul_le_mono_pos_r. exact H.
Qed.
Lemma above_mono t u num den : 0 < den -> t <= u -> above u num den -> above t num den.
Proof.
  intros D L H. set (s := Z.abs t + Z.abs u). apply (above_shift u num den s) in H; [|lia|lia]. apply (above_shift t num den s); [lia|lia|].
  assert (2 ^ (t + s) <= 2 ^ (u + s)) by (apply Z.pow_le_mono_r; lia). nia.
Qed.
Lemma above_scale t num den k : 0 < k -> above t (num * k) (den * k) <-> above t num den.
Proof.
  intros K. unfold above. replace (den * k * 2 ^ Z.max 0 t) with (den * 2 ^ Z.max 0 t * k) by ring. replace (num * k * 2 ^ Z.max 0 (- t)) with (num * 2 ^ Z.max 0 (- t) * k) by ring.
  symmetry. apply Z.mul_le_mono_pos_r. exact K.
Qed.
Lemma flog2_spec num den : 0 < num -> 0 < den -> above (flog2 num den) num den /\ ~ above (flog2 num den + 1) num den.
Proof.
  intros N D. unfold flog2. set (a := Z.log2 num). set (b := Z.log2 den).
  assert (A : 2 ^ a <= num < 2 ^ (a + 1)) by (replace (a + 1) with (Z.succ a) by lia; apply Z.log2_spec; exact N).
  assert (B : 2 ^ b <= den < 2 ^ (b + 1)) by (replace (b + 1) with (Z.succ b) by lia; apply Z.log2_spec; exact D).
  assert (A0 : 0 <= a) by apply Z.log2_nonneg. assert (B0 : 0 <= b) by apply Z.log2_nonneg. cbv zeta.
  destruct (num * 2 ^ Z.max 0 (- (a - b)) <? den * 2 ^ Z.max 0 (a - b)) eqn:C.
  - split.
    + apply (above_shift _ num den (b + 1)); [lia|lia|]. replace (a - b - 1 + (b + 1)) with a by lia. assert (0 < 2 ^ a) by (apply Z.pow_pos_nonneg; lia). nia.
    + replace (a - b - 1 + 1) with (a - b) by lia. unfold above. lia.
  - split; [unfold above; lia|].
    intros H. apply (above_shift _ num den b) in H; [|lia|lia]. replace (a - b + 1 + b) with (a + 1) in H by lia.
    assert (0 < 2 ^ b) by (apply Z.pow_pos_nonneg; lia). nia.
Qed.
Lemma flog2_unique num den t : 0 < num -> 0 < den -> above t num den -> ~ above (t + 1) num den -> flog2 num den = t.
Proof.
  intros N D H1 H2. destruct (flog2_spec num den N D) as (G1 & G2).
  destruct (Z.lt_trichotomy (flog2 num den) t) as [L|[L|L]]; [exfalso|exact L|exfalso].
  - apply G2. apply (above_mono _ t); [exact D|lia|exact H1].
  - apply H2. apply (above_mono _ (flog2 num den)); [exact D|lia|exact G1].
Qed.
Lemma flog2_scale num den k : 0 < num -> 0 < den -> 0 < k -> flog2 (num * k) (den * k) = flog2 num den.
Proof.
  intros N D K. destruct (flog2_spec num den N D) as (G1 & G2). apply flog2_unique; [nia|nia|now apply above_scale|].
  intros H. apply G2. apply (above_scale _ num den k K). exact H.
Qed.
Lemma round_div_scale num den k : 0 < den -> 0 < k -> round_div (num * k) (den * k) = round_div num den.
Proof.
  intros D K. unfold round_div. rewrite Z.div_mul_cancel_r by lia. rewrite Zmult_mod_distr_r.
  pose proof (Z.mod_pos_bound num den D).
  replace (2 * (num mod den * k) <? den * k) with (2 * (num mod den) <? den) by nia.
  replace (2 * (num mod den * k) =? den * k) with (2 * (num mod den) =? den); [reflexivity|].
  destruct (2 * (num mod den) =? den) eqn:E; destruct (2 * (num mod den * k) =? den * k) eqn:F; try reflexivity; nia.
Qed.
Lemma nearest_scale num den k : 0 <= num -> 0 < den -> 0 < k -> nearest_bits (num * k) (den * k) = nearest_bits num den.
Proof.
  intros N D K. unfold nearest_bits. destruct (num =? 0) eqn:Z0; [replace (num * k =? 0) with true by nia; reflexivity|].
  replace (num * k =? 0) with false by nia. rewrite flog2_scale by lia. cbv zeta. set (q := Z.max (-1074) (flog2 num den - 52)).
  assert (P1 : 0 < 2 ^ Z.max 0 (- q)) by (apply Z.pow_pos_nonneg; lia). assert (P2 : 0 < 2 ^ Z.max 0 q) by (apply Z.pow_pos_nonneg; lia).
  replace (num * k * 2 ^ Z.max 0 (- q)) with (num * 2 ^ Z.max 0 (- q) * k) by ring. replace (den * k * 2 ^ Z.max 0 q) with (den * 2 ^ Z.max 0 q * k) by ring.
  rewrite round_div_scale by nia. reflexivity.
Qed.
Lemma nearest_ratio n1 d1 n2 d2 : 0 <= n1 -> 0 < d1 -> 0 <= n2 -> 0 < d2 -> n1 * d2 = n2 * d1 -> nearest_bits n1 d1 = nearest_bits n2 d2.
Proof.
  intros N1 D1 N2 D2 E. rewrite <- (nearest_scale n1 d1 d2), <- (nearest_scale n2 d2 d1) by lia. rewrite E. f_equal. ring.
Qed.

(** The double nearest to [c * 10^e]. *)
Definition nearest10 (c e : Z) : Z := nearest_bits (c * 10 ^ Z.max 0 e) (10 ^ Z.max 0 (- e)).
Definition same10 (c e c' e' : Z) : Prop := exists s, 0 <= e + s /\ 0 <= e' + s /\ c * 10 ^ (e + s) = c' * 10 ^ (e' + s).
Lemma pow10_pos n : 0 <= n -> 0 < 10 ^ n. Proof. intros H. apply Z.pow_pos_nonneg; lia. Qed.
Lemma nearest_same10 c e c' e' : 0 <= c -> 0 <= c' -> same10 c e c' e' -> nearest10 c e = nearest10 c' e'.
Proof.
  intros C C' (s & S1 & S2 & E). unfold nearest10. pose proof (pow10_pos (Z.max 0 e)). pose proof (pow10_pos (Z.max 0 e')). pose proof (pow10_pos (Z.max 0 (- e))). pose proof (pow10_pos (Z.max 0 (- e'))).
  apply nearest_ratio; try lia; try nia.
  assert (P : 10 ^ Z.max 0 e * 10 ^ Z.max 0 (- e') * 10 ^ Z.abs s = 10 ^ (e + s) * 10 ^ (Z.max 0 (- e) + Z.max 0 (- e') - s + Z.abs s)).
  { rewrite <- !Z.pow_add_r by lia. f_equal. lia. }
  assert (P' : 10 ^ Z.max 0 e' * 10 ^ Z.max 0 (- e) * 10 ^ Z.abs s = 10 ^ (e' + s) * 10 ^ (Z.max 0 (- e) + Z.max 0 (- e') - s + Z.abs s)).
  { rewrite <- !Z.pow_add_r by lia. f_equal. lia. }
  pose proof (pow10_pos (Z.abs s) ltac:(lia)). apply (Z.mul_reg_r _ _ (10 ^ Z.abs s)); [lia|].
  replace (c * 10 ^ Z.max 0 e * 10 ^ Z.max 0 (- e') * 10 ^ Z.abs s) with (c * (10 ^ Z.max 0 e * 10 ^ Z.max 0 (- e') * 10 ^ Z.abs s)) by ring.
  replace (c' * 10 ^ Z.max 0 e' * 10 ^ Z.max 0 (- e) * 10 ^ Z.abs s) with (c' * (10 ^ Z.max 0 e' * 10 ^ Z.max 0 (- e) * 10 ^ Z.abs s)) by ring.
  rewrite P, P', !Z.mul_assoc, E. reflexivity.
Qed.

(** * The exact expansion *)
Definition finite_bits (b : Z) : Prop := 0 <= b < inf_bits.
Lemma inf_is : inf_bits = 2047 * 2 ^ 52. Proof. reflexivity. Qed.
Lemma round_div_exact m den : 0 < den -> round_div (m * den) den = m.
Proof. intros D. unfold round_div. rewrite Z.div_mul, Z.mod_mul by lia. replace (2 * 0 <? den) with true by lia. reflexivity. Qed.
(** [m * 2^q] as a ratio. *)
Lemma nearest_exact b m q : finite_bits b -> 0 < b -> float_parts b = (m, q) ->
  nearest_bits (m * 2 ^ Z.max 0 q) (2 ^ Z.max 0 (- q)) = b.
Proof.
  intros F P E. unfold float_parts in E. unfold finite_bits in F. rewrite inf_is in F. rewrite (Z.mod_small b (2 ^ 63)) in E by lia. cbv zeta in E.
  assert (DM : b = 2 ^ 52 * (b / 2 ^ 52) + b mod 2 ^ 52) by (apply Z.div_mod; lia). pose proof (Z.mod_pos_bound b (2 ^ 52) ltac:(lia)) as MB.
  assert (PQ : 0 < 2 ^ Z.max 0 q) by (apply Z.pow_pos_nonneg; lia). assert (PN : 0 < 2 ^ Z.max 0 (- q)) by (apply Z.pow_pos_nonneg; lia).
  assert (MQ : 0 < m /\ -1074 <= q /\ (q + 1074) * 2 ^ 52 + m = b /\ m < 2 ^ 53 /\ (2 ^ 52 <= m \/ q = -1074)).
  { destruct (b / 2 ^ 52 =? 0) eqn:Z0; injection E as <- <-; [nia|]. assert (0 <= b / 2 ^ 52) by (apply Z.div_pos; lia). nia. }
  destruct MQ as (M0 & Q0 & VB & M1 & M2).
  unfold nearest_bits. replace (m * 2 ^ Z.max 0 q =? 0) with false by nia.
  assert (TOP : ~ above (q + 53) (m * 2 ^ Z.max 0 q) (2 ^ Z.max 0 (- q))).
  { intros H. apply (above_shift _ _ _ (Z.max 0 (- q))) in H; [|lia|lia]. 
    replace (2 ^ Z.max 0 (- q) * 2 ^ (q + 53 + Z.max 0 (- q))) with (2 ^ 53 * (2 ^ Z.max 0 q * 2 ^ Z.max 0 (- q))) in H by (rewrite <- !Z.pow_add_r by lia; f_equal; lia).
    assert (0 < 2 ^ Z.max 0 q * 2 ^ Z.max 0 (- q)) by nia. rewrite <- Z.mul_assoc in H. nia. }
  assert (FL : flog2 (m * 2 ^ Z.max 0 q) (2 ^ Z.max 0 (- q)) <= q + 52 /\ (2 ^ 52 <= m -> flog2 (m * 2 ^ Z.max 0 q) (2 ^ Z.max 0 (- q)) = q + 52)).
  { destruct (flog2_spec (m * 2 ^ Z.max 0 q) (2 ^ Z.max 0 (- q)) ltac:(nia) PN) as (G1 & G2). split.
    - destruct (Z.le_gt_cases (flog2 (m * 2 ^ Z.max 0 q) (2 ^ Z.max 0 (- q))) (q + 52)) as [L|L]; [exact L|]. elim TOP.
      apply (above_mono _ (flog2 (m * 2 ^ Z.max 0 q) (2 ^ Z.max 0 (- q)))); [exact PN|lia|exact G1].
    - intros M. apply flog2_unique; [nia|exact PN| |replace (q + 52 + 1) with (q + 53) by lia; exact TOP].
      apply (above_shift _ _ _ (Z.max 0 (- q))); [lia|lia|].
      replace (2 ^ Z.max 0 (- q) * 2 ^ (q + 52 + Z.max 0 (- q))) with (2 ^ 52 * (2 ^ Z.max 0 q * 2 ^ Z.max 0 (- q))) by (rewrite <- !Z.pow_add_r by lia; f_equal; lia).
      rewrite <- Z.mul_assoc. assert (0 < 2 ^ Z.max 0 q * 2 ^ Z.max 0 (- q)) by nia. nia. }
  assert (QQ : Z.max (-1074) (flog2 (m * 2 ^ Z.max 0 q) (2 ^ Z.max 0 (- q)) - 52) = q).
  { destruct M2 as [M2| ->]; [rewrite (proj2 FL M2); lia|]. lia. }
  cbv zeta. rewrite QQ.
  replace (m * 2 ^ Z.max 0 q * 2 ^ Z.max 0 (- q)) with (m * (2 ^ Z.max 0 (- q) * 2 ^ Z.max 0 q)) by ring.
  rewrite round_div_exact by nia. rewrite VB. rewrite inf_is. lia.
Qed.
Lemma exact_decimal_nearest b : finite_bits b -> 0 < b -> let '(c, e) := exact_decimal b in 0 < c /\ nearest10 c e = b.
Proof.
  intros F P. unfold exact_decimal. destruct (float_parts b) as [m q] eqn:E.
  assert (M : 0 < m).
  { unfold float_parts in E. cbv zeta in E. unfold finite_bits in F. rewrite inf_is in F. rewrite (Z.mod_small b (2 ^ 63)) in E by lia.
    destruct (b / 2 ^ 52 =? 0); injection E as <- <-; [lia|]. pose proof (Z.mod_pos_bound b (2 ^ 52)). lia. }
  pose proof (nearest_exact b m q F P E) as N. destruct (0 <=? q) eqn:Q.
  - assert (0 < 2 ^ q) by (apply Z.pow_pos_nonneg; lia). split; [nia|]. unfold nearest10. replace (Z.max 0 q) with q in N by lia. replace (Z.max 0 (- q)) with 0 in N by lia. 
    change (Z.max 0 0) with 0. change (Z.max 0 (- 0)) with 0. change (10 ^ 0) with 1. rewrite Z.mul_1_r. exact N.
  - assert (0 < 5 ^ (- q)) by (apply Z.pow_pos_nonneg; lia). split; [nia|]. unfold nearest10. replace (Z.max 0 q) with 0 in * by lia. replace (Z.max 0 (- q)) with (- q) in * by lia.
    change (10 ^ 0) with 1. change (2 ^ 0) with 1 in N. rewrite Z.mul_1_r in *. rewrite <- N.
    change 10 with (2 * 5). rewrite Z.pow_mul_l. apply nearest_scale; [lia|apply Z.pow_pos_nonneg; lia|lia].
Qed.

(** * The digits found *)
Lemma shortest_ok goal : 0 < goal -> forall n k c e, 0 < c -> nearest10 c e = goal ->
  let '(c', e') := shortest n k c e goal in 0 < c' /\ nearest10 c' e' = goal.
Proof.
  intros G. induction n as [|n IH]; intros k c e C N; cbn [shortest]; [auto|].
  destruct (k <=? 0) eqn:K; [auto|]. cbv zeta.
  set (lo := c / 10 ^ k). assert (LO : 0 <= lo) by (apply Z.div_pos; [lia|apply pow10_pos; lia]).
  assert (T : forall x, 0 <= x -> (nearest_bits (x * 10 ^ Z.max 0 (e + k)) (10 ^ Z.max 0 (- (e + k))) =? goal) = true -> 0 < x /\ nearest10 x (e + k) = goal).
  { intros x X H. apply Z.eqb_eq in H. split; [|exact H]. destruct (Z.eq_dec x 0) as [->|]; [|lia].
    unfold nearest_bits in H. cbn [Z.mul Z.eqb] in H. lia. }
  destruct (if (2 * (c mod 10 ^ k) <? 10 ^ k) || ((2 * (c mod 10 ^ k) =? 10 ^ k) && Z.even lo) then (lo, lo + 1) else (lo + 1, lo)) as [a b] eqn:AB.
  assert (AB0 : 0 <= a /\ 0 <= b).
  { destruct ((2 * (c mod 10 ^ k) <? 10 ^ k) || ((2 * (c mod 10 ^ k) =? 10 ^ k) && Z.even lo)); injection AB as <- <-; lia. }
  destruct (nearest_bits (a * 10 ^ Z.max 0 (e + k)) (10 ^ Z.max 0 (- (e + k))) =? goal) eqn:TA; [apply T; [lia|exact TA]|].
  destruct (nearest_bits (b * 10 ^ Z.max 0 (e + k)) (10 ^ Z.max 0 (- (e + k))) =? goal) eqn:TB; [apply T; [lia|exact TB]|].
  apply IH; assumption.
Qed.
Lemma strip_zeros_ok goal : forall n c e, 0 < c -> nearest10 c e = goal ->
  let '(c', e') := strip_zeros n c e in 0 < c' /\ nearest10 c' e' = goal.
Proof.
  induction n as [|n IH]; intros c e C N; cbn [strip_zeros]; [auto|].
  destruct ((0 <? c) && (c mod 10 =? 0)) eqn:Z; [|auto]. pose proof (Z.div_mod c 10 ltac:(lia)) as DM.
  apply IH; [lia|]. rewrite <- N. symmetry. apply nearest_same10; [lia|lia|].
  exists (Z.abs e). split; [lia|]. split; [lia|]. replace (e + 1 + Z.abs e) with (Z.succ (e + Z.abs e)) by lia. rewrite Z.pow_succ_r by lia.
  assert (EQ : c = c / 10 * 10) by lia. rewrite EQ at 1. ring.
Qed.
Lemma exact_decimal_mod bits : 0 <= bits -> exact_decimal bits = exact_decimal (bits mod 2 ^ 63).
Proof. intros H. unfold exact_decimal, float_parts. rewrite Z.mod_mod by lia. reflexivity. Qed.
Lemma float_digits_ok bits : 0 <= bits -> finite_bits (bits mod 2 ^ 63) ->
  let '(c, e) := float_digits bits in 0 <= c /\ nearest10 c e = bits mod 2 ^ 63.
Proof.
  intros B F. unfold float_digits. rewrite exact_decimal_mod by exact B. set (b := bits mod 2 ^ 63) in *.
  destruct (Z.eq_dec b 0) as [E|E].
  - rewrite E. cbn. split; [lia|reflexivity].
  - pose proof (exact_decimal_nearest b F ltac:(unfold finite_bits in F; lia)) as X. destruct (exact_decimal b) as [c e]. destruct X as (C & N).
    replace (c =? 0) with false by lia.
    pose proof (shortest_ok b ltac:(unfold finite_bits in F; lia) 17 (ndigits c - 1) c e C N) as S. destruct (shortest 17 (ndigits c - 1) c e b) as [c' e'].
    destruct S as (C' & N'). pose proof (strip_zeros_ok b (Z.to_nat (ndigits c')) c' e' C' N') as R. destruct (strip_zeros (Z.to_nat (ndigits c')) c' e') as [c2 e2]. destruct R; split; [lia|assumption].
Qed.

(** * The text *)
Lemma same10_refl c e : same10 c e c e.
Proof. exists (Z.abs e). lia. Qed.
Lemma two_exp n : exp_part ((if n <? 0 then 45 else 43) :: two (Z.abs n)) /\ parse_exp ((if n <? 0 then 45 else 43) :: two (Z.abs n)) = n.
Proof.
  assert (V : digits_value 10 (two (Z.abs n)) = Z.abs n) by (unfold two; rewrite pad_value; apply nat_str_value; lia). split.
  - exists [if n <? 0 then 45 else 43], (two (Z.abs n)). split; [reflexivity|]. split; [destruct (n <? 0); auto|]. split; [apply pad_chars, nat_str_chars; lia|].
    unfold two, pad. pose proof (nat_str_nonempty (Z.abs n) ltac:(lia)) as NE. intros E. apply app_eq_nil in E. exact (NE (proj2 E)).
  - destruct (n <? 0) eqn:L; cbn [parse_exp]; rewrite V; lia.
Qed.
Lemma float_shape bits c e : float_digits bits = (c, e) -> 0 <= c -> exists ip fr, whole_part ip /\ frac_ok fr /\
  (float_repr bits = sign_of (float_neg bits) ++ ip ++ fr /\ same10 (digits_value 10 (ip ++ frac_digits fr)) (- zlen (frac_digits fr)) c e \/
   exists x, float_repr bits = sign_of (float_neg bits) ++ ip ++ fr ++ 101 :: x /\ exp_part x /\
     same10 (digits_value 10 (ip ++ frac_digits fr)) (parse_exp x - zlen (frac_digits fr)) c e).
Proof.
  intros FD H. unfold float_repr. rewrite FD. cbv zeta. set (ds := nat_str c).
  assert (V : digits_value 10 ds = c) by (apply nat_str_value; exact H).
  assert (W : whole_part ds) by (apply nat_str_whole; exact H). assert (D : Forall dec_char ds) by (apply nat_str_chars; exact H).
  assert (HD : 0 < c -> exists z r, ds = z :: r /\ 49 <= z <= 57 /\ Forall dec_char r) by (intros P; exact (nat_str_head c P)). clearbody ds.
  assert (L : 1 <= zlen ds). { destruct W as [E|(z & r & E & _)]; rewrite E; [cbn; lia|]. rewrite zlen_cons. pose proof (zlen_nonneg r). lia. }
  change (if float_neg bits then [45] else []) with (sign_of (float_neg bits)).
  destruct (c =? 0) eqn:C0.
  { exists [48], [46; 48]. split; [left; reflexivity|]. split; [right; eexists; split; [reflexivity|repeat constructor; lia]|]. left. split; [reflexivity|].
    assert (C1 : c = 0) by lia. exists (Z.abs e + 1). cbn [frac_digits]. change (zlen [48]) with 1. split; [lia|]. split; [lia|]. rewrite C1. reflexivity. }
  destruct ((zlen ds + e <=? -4) || (16 <? zlen ds + e)) eqn:B.
  { (* scientific *)
    assert (SPLIT : ztake 1 ds ++ zdrop 1 ds = ds) by (unfold ztake, zdrop; apply firstn_skipn).
    assert (Z1 : zlen (zdrop 1 ds) = zlen ds - 1) by (unfold zlen, zdrop in *; rewrite skipn_length; lia).
    exists (ztake 1 ds), (if zlen ds =? 1 then [] else 46 :: zdrop 1 ds).
    split. { destruct W as [E|(z & r & E & C & R)]; rewrite E; [left; reflexivity|]. right. exists z, []. repeat split; auto; lia. }
    split. { destruct (zlen ds =? 1); [left; reflexivity|]. right. eexists. split; [reflexivity|]. rewrite <- SPLIT in D. apply Forall_app in D. apply D. }
    right. exists ((if zlen ds + e - 1 <? 0 then 45 else 43) :: two (Z.abs (zlen ds + e - 1))). destruct (two_exp (zlen ds + e - 1)) as (X & PE).
    split; [reflexivity|]. split; [exact X|]. rewrite PE.
    assert (FR : frac_digits (if zlen ds =? 1 then [] else 46 :: zdrop 1 ds) = zdrop 1 ds).
    { destruct (zlen ds =? 1) eqn:E1; [|reflexivity]. destruct (zdrop 1 ds) as [|y l]; [reflexivity|]. rewrite zlen_cons in Z1. pose proof (zlen_nonneg l). lia. }
    rewrite FR, SPLIT, V, Z1. replace (zlen ds + e - 1 - (zlen ds - 1)) with e by lia. apply same10_refl. }
  destruct (zlen ds + e <=? 0) eqn:B1.
  { exists [48], (46 :: repeat 48 (Z.to_nat (- (zlen ds + e))) ++ ds). split; [left; reflexivity|].
    split; [right; eexists; split; [reflexivity|apply Forall_app; split; [apply repeat_zero_dec|exact D]]|]. left. split; [reflexivity|]. cbn [frac_digits].
    change ([48] ++ repeat 48 (Z.to_nat (- (zlen ds + e))) ++ ds) with (repeat 48 (S (Z.to_nat (- (zlen ds + e)))) ++ ds). rewrite digits_value_zeros, V.
    replace (- zlen (repeat 48 (Z.to_nat (- (zlen ds + e))) ++ ds)) with e; [apply same10_refl|]. unfold zlen in *. rewrite app_length, repeat_length. lia. }
  destruct (zlen ds <=? zlen ds + e) eqn:B2.
  { exists (ds ++ repeat 48 (Z.to_nat (zlen ds + e - zlen ds))), [46; 48].
    split. { right. assert (P : 0 < c) by lia. destruct (HD P) as (z & r & E & C & R). rewrite E.
      exists z, (r ++ repeat 48 (Z.to_nat (zlen (z :: r) + e - zlen (z :: r)))). split; [reflexivity|]. split; [exact C|]. apply Forall_app. split; [exact R|apply repeat_zero_dec]. }
    split; [right; eexists; split; [reflexivity|repeat constructor; lia]|]. left. split; [rewrite <- app_assoc; reflexivity|]. cbn [frac_digits]. change (zlen [48]) with 1.
    rewrite <- app_assoc. change [48] with (repeat 48 1). rewrite <- repeat_app, digits_value_zeros_r, V. exists 1. split; [lia|]. split; [lia|].
    change (- (1) + 1) with 0. rewrite Z.mul_1_r. f_equal. f_equal. lia. }
  assert (SPLIT : ztake (zlen ds + e) ds ++ zdrop (zlen ds + e) ds = ds) by (unfold ztake, zdrop; apply firstn_skipn).
  exists (ztake (zlen ds + e) ds), (46 :: zdrop (zlen ds + e) ds).
  split. { right. assert (P : 0 < c) by lia. destruct (HD P) as (z & r & E & C & R). set (dp := zlen ds + e) in *. rewrite E. unfold ztake.
    destruct (Z.to_nat dp) as [|n] eqn:N; [lia|]. exists z, (firstn n r). split; [reflexivity|]. split; [exact C|].
    rewrite <- (firstn_skipn n r) in R. apply Forall_app in R. apply R. }
  split; [right; eexists; split; [reflexivity|]; rewrite <- SPLIT in D; apply Forall_app in D; apply D|].
  left. split; [reflexivity|]. cbn [frac_digits]. rewrite SPLIT, V.
  replace (- zlen (zdrop (zlen ds + e) ds)) with e; [apply same10_refl|]. unfold zlen, zdrop in *. rewrite skipn_length. lia.
Qed.

Lemma no_exponent l : Forall (fun c => c <> 101 /\ c <> 69) l -> has_exponent l = false.
Proof. unfold has_exponent. induction 1 as [|x l Hx H IH]; [reflexivity|]. cbn [existsb]. rewrite IH. lia. Qed.
Lemma dec_no_exponent l : Forall dec_char l -> Forall (fun c => c <> 101 /\ c <> 69) l.
Proof. intros H. eapply Forall_impl; [|exact H]. intros c Hc. chars. Qed.

Definition finite_float (bits : Z) : Prop := 0 <= bits < 2 ^ 64 /\ float_is_nan bits = false /\ float_is_inf bits = false.
Theorem finite_float_reads bits : finite_float bits -> reads (float_str bits) TFloat (EvLazy (Ok (VFloat bits))).
Proof.
  intros (B & NN & NI). apply plain_reads.
  assert (F : finite_bits (bits mod 2 ^ 63)).
  { pose proof (Z.mod_pos_bound bits (2 ^ 63) ltac:(lia)). unfold finite_bits, float_is_nan, float_is_inf in *. lia. }
  unfold float_str. rewrite NN, NI. cbv zeta. pose proof (float_digits_ok bits (proj1 B) F) as FD. destruct (float_digits bits) as [c e] eqn:E. destruct FD as (C & N).
  destruct (float_shape bits c e E C) as (ip & fr & W & FR & SH).
  assert (OK : forall c' e', 0 <= c' -> same10 c' e' c e -> decimal_bits (float_neg bits) c' e' = bits).
  { intros c' e' C' S. unfold decimal_bits. fold (nearest10 c' e'). rewrite (nearest_same10 c' e' c e C' C S), N. unfold float_neg.
    destruct (2 ^ 63 <=? bits) eqn:L.
    - rewrite (Z.mod_eq bits (2 ^ 63)) by lia. assert (bits / 2 ^ 63 = 1) by (symmetry; apply (Z.div_unique_pos bits (2 ^ 63) 1 (bits - 2 ^ 63)); lia). lia.
    - rewrite Z.mod_small by lia. lia. }
  assert (DP : 0 <= digits_value 10 (ip ++ frac_digits fr)).
  { apply digits_value_bound. apply Forall_app. split; [apply whole_digits, W|]. destruct FR as [->|(r & -> & D)]; [constructor|exact D]. }
  destruct SH as [(T & S)|(x & T & X & S)].
  - rewrite no_exponent.
    2:{ rewrite T. apply Forall_app. split; [unfold sign_of; destruct (float_neg bits); repeat constructor; lia|]. apply Forall_app. split; [apply dec_no_exponent, whole_digits, W|].
        destruct FR as [->|(r & -> & D)]; constructor; [lia|]. now apply dec_no_exponent. }
    rewrite T. rewrite <- !app_assoc.
    replace (Ok (VFloat bits)) with (parse_component NFlt (sign_of (float_neg bits) ++ ip ++ fr ++ 101 :: [48])).
    + apply (exp_token (sign_of (float_neg bits)) ip fr NFlt 101 [48]); auto using sign_of_part. exists [], [48]. repeat split; auto; [repeat constructor; lia|discriminate].
    + cbn [parse_component]. unfold float_of_text. rewrite parse_parts_exp by auto using sign_of_part. rewrite sign_of_back. do 2 f_equal.
      apply OK; [exact DP|exact S].
  - replace (has_exponent (float_repr bits)) with true.
    2:{ symmetry. rewrite T. unfold has_exponent. apply existsb_exists. exists 101. split; [|reflexivity]. rewrite !in_app_iff. right. right. right. now left. }
    rewrite T.
    replace (Ok (VFloat bits)) with (parse_component NFlt (sign_of (float_neg bits) ++ ip ++ fr ++ 101 :: x)).
    + apply (exp_token (sign_of (float_neg bits)) ip fr NFlt 101 x); auto using sign_of_part.
    + cbn [parse_component]. unfold float_of_text. rewrite parse_parts_exp by auto using sign_of_part. rewrite sign_of_back. do 2 f_equal.
      apply OK; [exact DP|exact S].
Qed.
