(** The reader's conversion of decimal text to a double is the IEEE 754 nearest double. *)
From Verif Require Import Base BaseFacts CoreModel TextNumbers TextFloats TextRoundTripSpec TextGrammar.
Local Open Scope Z_scope.

Lemma size_step b : 0 <= b -> double_size b < double_size (b + 1).
Proof.
  intros B. unfold double_size. pose proof (Z.div_mod b (2 ^ 52) ltac:(lia)) as DM. pose proof (Z.mod_pos_bound b (2 ^ 52) ltac:(lia)) as MB.
  assert (E0 : 0 <= b / 2 ^ 52) by (apply Z.div_pos; lia). set (E := b / 2 ^ 52) in *. set (r := b mod 2 ^ 52) in *. clearbody E r.
  destruct (Z.eq_dec r (2 ^ 52 - 1)) as [L|L].
  - assert (D1 : (b + 1) / 2 ^ 52 = E + 1) by (symmetry; apply (Z.div_unique _ _ _ 0); lia).
    assert (M1 : (b + 1) mod 2 ^ 52 = 0) by (symmetry; apply (Z.mod_unique _ _ (E + 1) 0); lia). rewrite D1, M1.
    replace (b + 1 <? 2 ^ 52) with false by lia. destruct (b <? 2 ^ 52) eqn:C.
    + replace E with 0 in * by nia. change (2 ^ (0 + 1 - 1)) with 1. lia.
    + assert (1 <= E) by nia. replace (E + 1 - 1) with (Z.succ (E - 1)) by lia. rewrite Z.pow_succ_r by lia. assert (0 < 2 ^ (E - 1)) by (apply Z.pow_pos_nonneg; lia). nia.
  - assert (D1 : (b + 1) / 2 ^ 52 = E) by (symmetry; apply (Z.div_unique _ _ _ (r + 1)); lia).
    assert (M1 : (b + 1) mod 2 ^ 52 = r + 1) by (symmetry; apply (Z.mod_unique _ _ E (r + 1)); lia). rewrite D1, M1.
    destruct (b <? 2 ^ 52) eqn:C.
    + replace (b + 1 <? 2 ^ 52) with true by nia. lia.
    + replace (b + 1 <? 2 ^ 52) with false by lia. assert (1 <= E) by nia. assert (0 < 2 ^ (E - 1)) by (apply Z.pow_pos_nonneg; lia). nia.
Qed.
Lemma size_mono a b : 0 <= a < b -> double_size a < double_size b.
Proof.
  intros (A & L). replace b with (a + 1 + (b - a - 1)) by lia. assert (P : 0 <= b - a - 1) by lia. revert P. generalize (b - a - 1).
  apply natlike_ind; [rewrite Z.add_0_r; now apply size_step|]. intros n N IH. replace (a + 1 + Z.succ n) with (a + 1 + n + 1) by lia.
  pose proof (size_step (a + 1 + n) ltac:(lia)). lia.
Qed.
Lemma size_at q m : 0 <= q -> 0 <= m <= 2 ^ 53 -> 2 ^ 52 <= m \/ q = 0 -> double_size (q * 2 ^ 52 + m) = m * 2 ^ q.
Proof.
  intros Q M C. unfold double_size. destruct (Z.ltb_spec m (2 ^ 52)) as [L|L].
  - assert (q = 0) by lia. subst q. replace (0 * 2 ^ 52 + m <? 2 ^ 52) with true by lia. change (2 ^ 0) with 1. lia.
  - replace (q * 2 ^ 52 + m <? 2 ^ 52) with false by lia. destruct (Z.eq_dec m (2 ^ 53)) as [->|N].
    + assert (D1 : (q * 2 ^ 52 + 2 ^ 53) / 2 ^ 52 = q + 2) by (symmetry; apply (Z.div_unique _ _ _ 0); lia).
      assert (M1 : (q * 2 ^ 52 + 2 ^ 53) mod 2 ^ 52 = 0) by (symmetry; apply (Z.mod_unique _ _ (q + 2) 0); lia). rewrite D1, M1.
      replace (q + 2 - 1) with (Z.succ q) by lia. rewrite Z.pow_succ_r by lia. lia.
    + assert (D1 : (q * 2 ^ 52 + m) / 2 ^ 52 = q + 1) by (symmetry; apply (Z.div_unique _ _ _ (m - 2 ^ 52)); lia).
      assert (M1 : (q * 2 ^ 52 + m) mod 2 ^ 52 = m - 2 ^ 52) by (symmetry; apply (Z.mod_unique _ _ (q + 1) (m - 2 ^ 52)); lia). rewrite D1, M1.
      replace (q + 1 - 1) with q by lia. lia.
Qed.
Lemma size_bounds q m : 0 <= q -> 0 <= m <= 2 ^ 53 -> 2 ^ 52 <= m \/ q = 0 ->
  (forall c, q * 2 ^ 52 + m < c -> m * 2 ^ q + 2 ^ q <= double_size c) /\
  (forall c, 0 <= c < q * 2 ^ 52 + m -> 2 ^ 52 < m \/ q = 0 -> double_size c + 2 ^ q <= m * 2 ^ q).
Proof.
  intros Q M C. assert (P : 0 < 2 ^ q) by (apply Z.pow_pos_nonneg; lia). split; intros c H.
  - assert (S1 : m * 2 ^ q + 2 ^ q <= double_size (q * 2 ^ 52 + m + 1)).
    { destruct (Z.eq_dec m (2 ^ 53)) as [->|N].
      - replace (q * 2 ^ 52 + 2 ^ 53 + 1) with ((q + 1) * 2 ^ 52 + (2 ^ 52 + 1)) by lia. rewrite size_at by lia. replace (q + 1) with (Z.succ q) by lia. rewrite Z.pow_succ_r by lia. lia.
      - replace (q * 2 ^ 52 + m + 1) with (q * 2 ^ 52 + (m + 1)) by lia. rewrite size_at by lia. lia. }
    destruct (Z.eq_dec c (q * 2 ^ 52 + m + 1)) as [->|N]; [exact S1|]. pose proof (size_mono (q * 2 ^ 52 + m + 1) c ltac:(lia)). lia.
  - intros C2. assert (S1 : double_size (q * 2 ^ 52 + (m - 1)) = (m - 1) * 2 ^ q) by (apply size_at; lia).
    destruct (Z.eq_dec c (q * 2 ^ 52 + (m - 1))) as [->|N]; [lia|]. pose proof (size_mono c (q * 2 ^ 52 + (m - 1)) ltac:(lia)). lia.
Qed.
Lemma round_div_spec num den : 0 < den -> 2 * Z.abs (num - den * round_div num den) <= den /\ (2 * Z.abs (num - den * round_div num den) = den -> Z.even (round_div num den) = true).
Proof.
  intros D. unfold round_div. pose proof (Z.div_mod num den ltac:(lia)) as DM. pose proof (Z.mod_pos_bound num den D) as MB.
  set (q := num / den) in *. set (r := num mod den) in *. clearbody q r. cbv zeta.
  destruct ((2 * r <? den) || ((2 * r =? den) && Z.even q)) eqn:C.
  - replace (num - den * q) with r by lia. split; [destruct (Z.even q); lia|]. intros E. replace (2 * r <? den) with false in C by lia. destruct (Z.even q); [reflexivity|]. rewrite andb_false_r in C. discriminate C.
  - replace (num - den * (q + 1)) with (r - den) by lia. split; [lia|]. intros E. assert (2 * r = den) by lia. rewrite Z.add_1_r, Z.even_succ.
    replace (2 * r <? den) with false in C by lia. replace (2 * r =? den) with true in C by lia. cbn [orb andb] in C. rewrite <- Z.negb_even, C. reflexivity.
Qed.
Lemma round_div_ratio n1 d1 n2 d2 : 0 < d1 -> 0 < d2 -> n1 * d2 = n2 * d1 -> round_div n1 d1 = round_div n2 d2.
Proof. intros D1 D2 E. rewrite <- (round_div_scale n1 d1 d2), <- (round_div_scale n2 d2 d1) by lia. rewrite E. f_equal. ring. Qed.

(** Before the cut at infinity. *)
Definition wide_bits (num den : Z) : Z :=
  let q := Z.max (-1074) (flog2 num den - 52) in (q + 1074) * 2 ^ 52 + round_div (num * 2 ^ Z.max 0 (- q)) (den * 2 ^ Z.max 0 q).
Lemma wide_nearest num den : 0 < num -> 0 < den -> 0 <= wide_bits num den /\
  forall c, 0 <= c -> c <> wide_bits num den -> let err x := Z.abs (num * 2 ^ 1074 - den * double_size x) in
    err (wide_bits num den) < err c \/ err (wide_bits num den) = err c /\ Z.even (wide_bits num den) = true.
Proof.
  intros N D. unfold wide_bits. destruct (flog2_spec num den N D) as (LO & HI). set (f := flog2 num den) in *. clearbody f.
  set (q := Z.max (-1074) (f - 52)). assert (Q : -1074 <= q) by lia. assert (FQ : f <= q + 52 /\ (q = -1074 \/ q = f - 52)) by lia. clearbody q. cbv zeta.
  set (Q' := q + 1074). assert (Q0 : 0 <= Q') by lia.
  assert (P1 : 0 < 2 ^ Z.max 0 (- q)) by (apply Z.pow_pos_nonneg; lia). assert (P2 : 0 < 2 ^ Z.max 0 q) by (apply Z.pow_pos_nonneg; lia).
  assert (PU : 0 < 2 ^ Q') by (apply Z.pow_pos_nonneg; lia).
  assert (ER : round_div (num * 2 ^ Z.max 0 (- q)) (den * 2 ^ Z.max 0 q) = round_div (num * 2 ^ 1074) (den * 2 ^ Q')).
  { apply round_div_ratio; [nia|nia|]. replace (num * 2 ^ Z.max 0 (- q) * (den * 2 ^ Q')) with (num * den * (2 ^ Z.max 0 (- q) * 2 ^ Q')) by ring.
    replace (num * 2 ^ 1074 * (den * 2 ^ Z.max 0 q)) with (num * den * (2 ^ 1074 * 2 ^ Z.max 0 q)) by ring. rewrite <- !Z.pow_add_r by lia. do 2 f_equal. lia. }
  rewrite ER. clear ER. set (X := num * 2 ^ 1074) in *. assert (X0 : 0 < X) by (unfold X; assert (0 < 2 ^ 1074) by (apply Z.pow_pos_nonneg; lia); nia).
  destruct (round_div_spec X (den * 2 ^ Q') ltac:(nia)) as (RB & RE). set (m := round_div X (den * 2 ^ Q')) in *.
  assert (UP : X < den * 2 ^ Q' * 2 ^ 53).
  { assert (NA : ~ above (q + 53) num den) by (intros A; apply HI; apply (above_mono _ (q + 53)); [exact D|lia|exact A]).
    rewrite (above_shift (q + 53) num den 1074) in NA by lia. replace (q + 53 + 1074) with (Q' + 53) in NA by lia. rewrite Z.pow_add_r in NA by lia. rewrite <- Z.mul_assoc. fold X in NA. lia. }
  assert (DN : q = f - 52 -> den * 2 ^ Q' * 2 ^ 52 <= X).
  { intros E. replace f with (q + 52) in LO by lia. rewrite (above_shift (q + 52) num den 1074) in LO by lia. replace (q + 52 + 1074) with (Q' + 52) in LO by lia. rewrite Z.pow_add_r in LO by lia. rewrite <- Z.mul_assoc. exact LO. }
  clearbody X m. set (U := 2 ^ Q') in *. assert (DU : 0 < den * U) by nia. set (V := den * U) in *.
  assert (M0 : 0 <= m <= 2 ^ 53) by nia.
  assert (M1 : 2 ^ 52 <= m \/ Q' = 0). { destruct FQ as (_ & [E|E]); [right; lia|left]. specialize (DN E). nia. }
  assert (M2 : 2 ^ 52 < m \/ Q' = 0 \/ den * (m * U) <= X).
  { destruct M1 as [M1|M1]; [|auto]. destruct (Z.eq_dec m (2 ^ 52)) as [E|E]; [|left; lia]. destruct FQ as (_ & [E1|E1]); [right; left; lia|]. right. right. specialize (DN E1). rewrite E. replace (den * (2 ^ 52 * U)) with (V * 2 ^ 52) by (unfold V; ring). exact DN. }
  pose proof (size_at Q' m Q0 M0 M1) as SZ. destruct (size_bounds Q' m Q0 M0 M1) as (GU & GD). fold U in SZ, GU, GD.
  set (b := Q' * 2 ^ 52 + m) in *. assert (EV : Z.even b = Z.even m).
  { unfold b. rewrite Z.even_add, Z.even_mul. change (Z.even (2 ^ 52)) with true. rewrite orb_true_r. destruct (Z.even m); reflexivity. }
  split; [unfold b; lia|]. intros c C NE. rewrite SZ, EV. replace (V * m) with (den * (m * U)) in RB, RE by (unfold V; ring).
  assert (CC : b < c \/ c < b) by lia. destruct CC as [CC|CC].
  - specialize (GU c CC). assert (G : den * (m * U) + V <= den * double_size c) by (unfold V; nia).
    destruct (Z.eq_dec (2 * Z.abs (X - den * (m * U))) V) as [E|E]; [specialize (RE E)|]; lia.
  - destruct M2 as [M2|[M2|M2]].
    1, 2: (assert (G : double_size c + U <= m * U) by (apply GD; [lia|auto]); assert (G1 : den * double_size c + V <= den * (m * U)) by (unfold V; nia);
      destruct (Z.eq_dec (2 * Z.abs (X - den * (m * U))) V) as [E|E]; [specialize (RE E)|]; lia).
    left. pose proof (size_mono c b ltac:(lia)) as L. rewrite SZ in L. assert (den * double_size c < den * (m * U)) by nia. lia.
Qed.
Lemma nearest_bits_nearest num den : 0 <= num -> 0 < den -> nearest_double num den (nearest_bits num den).
Proof.
  intros N D. unfold nearest_bits. destruct (Z.eqb_spec num 0) as [->|NZ].
  - split; [unfold infinity; lia|]. intros c C NE. left. pose proof (size_mono 0 c ltac:(lia)) as L. change (double_size 0) with 0 in *. nia.
  - change (nearest_double num den (Z.min inf_bits (wide_bits num den))).
    destruct (wide_nearest num den ltac:(lia) D) as (W0 & W). set (w := wide_bits num den) in *. clearbody w. change inf_bits with infinity.
    assert (I0 : 0 < infinity) by (unfold infinity; lia). unfold nearest_double. set (X := num * 2 ^ 1074) in *. clearbody X.
    destruct (Z.le_gt_cases w infinity) as [L|L].
    + rewrite Z.min_r by exact L. split; [lia|]. intros c C NE. apply W; lia.
    + rewrite Z.min_l by lia. split; [lia|]. intros c C NE. left. pose proof (W infinity ltac:(lia) ltac:(lia)) as WI. cbv zeta in WI.
      pose proof (size_mono infinity w ltac:(lia)) as L1. pose proof (size_mono c infinity ltac:(lia)) as L2.
      assert (den * double_size infinity < den * double_size w) by nia. assert (den * double_size c < den * double_size infinity) by nia. lia.
Qed.
Theorem nearest_unique num den b b' : 0 < den -> nearest_double num den b -> nearest_double num den b' -> b = b'.
Proof.
  intros D (B & H) (B' & H'). destruct (Z.eq_dec b b') as [E|NE]; [exact E|exfalso].
  pose proof (H b' B' ltac:(lia)) as A1. pose proof (H' b B ltac:(lia)) as A2. cbv zeta in *. set (X := num * 2 ^ 1074) in *. clearbody X.
  assert (EV : Z.even b = true /\ Z.even b' = true /\ Z.abs (X - den * double_size b) = Z.abs (X - den * double_size b')) by lia.
  destruct EV as (E1 & E2 & EE).
  assert (K : forall x y, 0 <= x < y -> y <= infinity -> Z.even x = true -> Z.even y = true -> Z.abs (X - den * double_size x) = Z.abs (X - den * double_size y) ->
    (forall c, 0 <= c <= infinity -> c <> x -> Z.abs (X - den * double_size x) <= Z.abs (X - den * double_size c)) -> False).
  { intros x y L LE X1 Y1 Q A. assert (L2 : x + 1 < y). { destruct (Z.eq_dec y (x + 1)) as [->|]; [|lia]. rewrite Z.add_1_r, Z.even_succ, <- Z.negb_even, X1 in Y1. discriminate Y1. }
    specialize (A (x + 1) ltac:(lia) ltac:(lia)). pose proof (size_mono x (x + 1) ltac:(lia)). pose proof (size_mono (x + 1) y ltac:(lia)).
    assert (den * double_size x < den * double_size (x + 1)) by nia. assert (den * double_size (x + 1) < den * double_size y) by nia. lia. }
  destruct (Z.lt_total b b') as [L|[L|L]]; [|lia|].
  - apply (K b b'); try lia. intros c C NC. specialize (H c C NC). lia.
  - apply (K b' b); try lia. intros c C NC. specialize (H' c C NC). lia.
Qed.
Theorem nearest_is num den b : 0 <= num -> 0 < den -> nearest_double num den b -> nearest_bits num den = b.
Proof. intros N D H. apply (nearest_unique num den); [exact D|now apply nearest_bits_nearest|exact H]. Qed.
