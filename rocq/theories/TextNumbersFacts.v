(** Facts about numerals: digits, padding, [str(int)]. *)
From Verif Require Import Base BaseFacts CoreModel ScalarFacts TextNumbers.
Local Open Scope Z_scope.

Lemma base_value_from b l : forall a, fold_left (fun a d => a * b + d) l a = a * b ^ zlen l + base_value b l.
Proof.
  unfold base_value. induction l as [|x l IH]; intros a; cbn [fold_left].
  - change (zlen (@nil Z)) with 0. lia.
  - rewrite IH, (IH (0 * b + x)), zlen_cons. pose proof (zlen_nonneg l). replace (1 + zlen l) with (Z.succ (zlen l)) by lia. rewrite Z.pow_succ_r by lia. ring.
Qed.
Lemma base_value_app b l1 l2 : base_value b (l1 ++ l2) = base_value b l1 * b ^ zlen l2 + base_value b l2.
Proof. unfold base_value at 1. rewrite fold_left_app. apply base_value_from. Qed.
Lemma base_value_cons b x l : base_value b (x :: l) = x * b ^ zlen l + base_value b l.
Proof. unfold base_value at 1. cbn [fold_left]. rewrite base_value_from. reflexivity. Qed.
Lemma base_value_zeros b n l : base_value b (repeat 0 n ++ l) = base_value b l.
Proof. induction n as [|n IH]; [reflexivity|]. cbn [repeat app]. rewrite base_value_cons, IH. lia. Qed.
Lemma base_value_bound b l : 0 < b -> Forall (fun d => 0 <= d < b) l -> 0 <= base_value b l < b ^ zlen l.
Proof.
  intros B. induction 1 as [|x l Hx H IH]; [unfold base_value; cbn; lia|].
  rewrite base_value_cons, zlen_cons. pose proof (zlen_nonneg l). replace (1 + zlen l) with (Z.succ (zlen l)) by lia.
  rewrite Z.pow_succ_r by lia. nia.
Qed.

Lemma base_digits_aux_spec b : 2 <= b -> forall fuel n acc, 0 <= n < b ^ Z.of_nat fuel -> (0 < fuel)%nat ->
  exists l, base_digits_aux fuel b n acc = l ++ acc /\ base_value b l = n /\ Forall (fun d => 0 <= d < b) l /\ l <> [] /\
    (0 < n -> exists d r, l = d :: r /\ 0 < d) /\ (n < b -> l = [n]).
Proof.
  intros B. induction fuel as [|f IH]; intros n acc H F; [lia|]. cbn [base_digits_aux].
  assert (M : 0 <= n mod b < b) by (apply Z.mod_pos_bound; lia).
  destruct (n <? b) eqn:L.
  - exists [n]. rewrite Z.mod_small by lia. split; [reflexivity|]. split; [unfold base_value; cbn; lia|]. split; [constructor; [lia|constructor]|].
    split; [discriminate|]. split; [intros P; eauto|reflexivity].
  - rewrite Nat2Z.inj_succ, Z.pow_succ_r in H by lia.
    assert (D : 0 <= n / b < b ^ Z.of_nat f).
    { split; [apply Z.div_pos; lia|]. apply Z.div_lt_upper_bound; lia. }
    destruct f as [|f]; [cbn in H; nia|].
    destruct (IH (n / b) (n mod b :: acc) D ltac:(lia)) as (l & E & V & FO & NE & HD & _).
    exists (l ++ [n mod b]). rewrite E, <- app_assoc. split; [reflexivity|]. split.
    + rewrite base_value_app, V. change (zlen [n mod b]) with 1. unfold base_value. cbn [fold_left]. pose proof (Z.div_mod n b). lia.
    + split; [apply Forall_app; split; [exact FO|constructor; [exact M|constructor]]|]. split; [destruct l; discriminate|]. split; [|lia].
      intros P. assert (0 < n / b) by (apply Z.div_str_pos; lia). destruct (HD H0) as (d & r & -> & Hd). exists d, (r ++ [n mod b]). auto.
Qed.
Lemma log2_fuel b n : 2 <= b -> 0 <= n -> n < b ^ Z.of_nat (S (Z.to_nat (Z.log2 n))).
Proof.
  intros B H. rewrite Nat2Z.inj_succ, Z2Nat.id by apply Z.log2_nonneg.
  destruct (Z.eq_dec n 0) as [->|N]; [change (0 < b ^ Z.succ 0); rewrite Z.pow_succ_r, Z.pow_0_r by lia; lia|].
  pose proof (Z.log2_spec n ltac:(lia)). pose proof (Z.log2_nonneg n). apply Z.lt_le_trans with (2 ^ Z.succ (Z.log2 n)); [lia|].
  apply Z.pow_le_mono_l. lia.
Qed.
Lemma base_digits_spec b n : 2 <= b -> 0 <= n ->
  base_value b (base_digits b n) = n /\ Forall (fun d => 0 <= d < b) (base_digits b n) /\ base_digits b n <> [] /\
  (0 < n -> exists d r, base_digits b n = d :: r /\ 0 < d) /\ (n < b -> base_digits b n = [n]).
Proof.
  intros B H. unfold base_digits.
  destruct (base_digits_aux_spec b B (S (Z.to_nat (Z.log2 n))) n [] (conj H (log2_fuel b n B H)) ltac:(lia)) as (l & E & R).
  rewrite E, app_nil_r. exact R.
Qed.
(** As few digits as possible. *)
Lemma base_digits_len b n w : 2 <= b -> 0 <= n < b ^ Z.of_nat w -> (0 < w)%nat -> (length (base_digits b n) <= w)%nat.
Proof.
  intros B H W. destruct (base_digits_spec b n B (proj1 H)) as (V & F & NE & HD & SM).
  destruct (Z.eq_dec n 0) as [->|N]; [rewrite SM by lia; cbn; lia|].
  destruct (HD ltac:(lia)) as (d & r & E & Hd). rewrite E in *. rewrite base_value_cons in V.
  assert (R : 0 <= base_value b r) by (apply (base_value_bound b r); [lia|now inversion F]).
  destruct (le_lt_dec (length (d :: r)) w) as [L|L]; [exact L|exfalso]. cbn [length] in L.
  assert (b ^ Z.of_nat w <= b ^ zlen r) by (apply Z.pow_le_mono_r; unfold zlen; lia). nia.
Qed.

(** * Digit characters *)
Definition dec_char (c : Z) : Prop := 48 <= c <= 57.
Definition hex_lower (c : Z) : Prop := 48 <= c <= 57 \/ 97 <= c <= 102.
Lemma digit_of_char d : 0 <= d < 16 -> digit_of (digit_char d) = d.
Proof. intros H. unfold digit_of, digit_char. destruct (d <? 10) eqn:E; repeat match goal with |- context [if ?b then _ else _] => destruct b eqn:? end; lia. Qed.
Lemma digit_char_hex d : 0 <= d < 16 -> hex_lower (digit_char d).
Proof. intros H. unfold digit_char, hex_lower. destruct (d <? 10) eqn:?; lia. Qed.
Lemma digit_char_dec d : 0 <= d < 10 -> dec_char (digit_char d).
Proof. intros H. unfold digit_char, dec_char. destruct (d <? 10) eqn:?; lia. Qed.
Lemma is_digit_dec c : is_digit c = true <-> dec_char c.
Proof. unfold is_digit, dec_char. lia. Qed.
Lemma digits_of_chars b l : 2 <= b <= 16 -> Forall (fun d => 0 <= d < b) l -> map digit_of (map digit_char l) = l.
Proof. intros B. induction 1 as [|x l Hx H IH]; [reflexivity|]. cbn [map]. rewrite IH, digit_of_char by lia. reflexivity. Qed.

Lemma digits_value_app b l1 l2 : digits_value b (l1 ++ l2) = digits_value b l1 * b ^ zlen l2 + digits_value b l2.
Proof. unfold digits_value. rewrite map_app, base_value_app. unfold zlen. now rewrite map_length. Qed.
Lemma digits_value_zeros b n l : digits_value b (repeat 48 n ++ l) = digits_value b l.
Proof.
  unfold digits_value. rewrite map_app. replace (map digit_of (repeat 48 n)) with (repeat 0 n); [apply base_value_zeros|].
  induction n as [|n IH]; [reflexivity|]. cbn [repeat map]. rewrite <- IH. reflexivity.
Qed.
Lemma digits_value_zeros_r b n l : digits_value b (l ++ repeat 48 n) = digits_value b l * b ^ Z.of_nat n.
Proof.
  rewrite digits_value_app. replace (zlen (repeat 48 n)) with (Z.of_nat n) by (unfold zlen; now rewrite repeat_length).
  replace (digits_value b (repeat 48 n)) with 0; [lia|]. rewrite <- (app_nil_r (repeat 48 n)), digits_value_zeros. reflexivity.
Qed.
Lemma digits_value_bound l : Forall dec_char l -> 0 <= digits_value 10 l < 10 ^ zlen l.
Proof.
  intros H. unfold digits_value. replace (zlen l) with (zlen (map digit_of l)) by (unfold zlen; now rewrite map_length).
  apply base_value_bound; [lia|]. induction H as [|x l Hx H IH]; constructor; [|exact IH].
  unfold dec_char, digit_of in *. repeat match goal with |- context [if ?b then _ else _] => destruct b eqn:? end; lia.
Qed.

Lemma nat_str_value n : 0 <= n -> digits_value 10 (nat_str n) = n.
Proof.
  intros H. unfold digits_value, nat_str. destruct (base_digits_spec 10 n ltac:(lia) H) as (V & F & _).
  rewrite (digits_of_chars 10) by (lia || exact F). exact V.
Qed.
Lemma nat_str_chars n : 0 <= n -> Forall dec_char (nat_str n).
Proof.
  intros H. unfold nat_str. destruct (base_digits_spec 10 n ltac:(lia) H) as (_ & F & _). apply Forall_map.
  eapply Forall_impl; [|exact F]. intros d Hd. now apply digit_char_dec.
Qed.
Lemma nat_str_nonempty n : 0 <= n -> nat_str n <> [].
Proof. intros H. unfold nat_str. destruct (base_digits_spec 10 n ltac:(lia) H) as (_ & _ & NE & _). destruct (base_digits 10 n); [congruence|discriminate]. Qed.
Lemma nat_str_0 : nat_str 0 = [48].
Proof. reflexivity. Qed.
(** Zero is one digit; the others do not begin with zero. *)
Lemma nat_str_head n : 0 < n -> exists c r, nat_str n = c :: r /\ 49 <= c <= 57 /\ Forall dec_char r.
Proof.
  intros H. pose proof (nat_str_chars n ltac:(lia)) as C. unfold nat_str in *. destruct (base_digits_spec 10 n ltac:(lia) ltac:(lia)) as (_ & F & _ & HD & _).
  destruct (HD H) as (d & r & E & Hd). rewrite E in *. cbn [map] in *. exists (digit_char d), (map digit_char r).
  split; [reflexivity|]. inversion F; subst. split; [unfold digit_char; destruct (d <? 10) eqn:?; lia|]. inversion C; subst. assumption.
Qed.
Lemma nat_str_len n w : 0 <= n < 10 ^ Z.of_nat w -> (0 < w)%nat -> (length (nat_str n) <= w)%nat.
Proof. intros H W. unfold nat_str. rewrite map_length. apply base_digits_len; [lia|exact H|exact W]. Qed.
Lemma nat_str_ndigits n : 0 <= n -> zlen (nat_str n) = ndigits n.
Proof.
  intros H. destruct (ndigits_spec n H) as (N1 & N2 & N3).
  pose proof (digits_value_bound (nat_str n) (nat_str_chars n H)) as B. rewrite nat_str_value in B by exact H.
  destruct (Z.eq_dec n 0) as [->|N].
  - reflexivity.
  - destruct (nat_str_head n ltac:(lia)) as (c & r & E & Hc & Hr).
    assert (LO : 10 ^ (zlen (nat_str n) - 1) <= n).
    { rewrite <- (nat_str_value n H) at 2. rewrite E, zlen_cons. change (c :: r) with ([c] ++ r). rewrite digits_value_app.
      pose proof (digits_value_bound r Hr). replace (1 + zlen r - 1) with (zlen r) by lia.
      assert (1 <= digits_value 10 [c]) by (unfold digits_value, base_value; cbn [map fold_left]; unfold digit_of; repeat match goal with |- context [if ?b then _ else _] => destruct b eqn:? end; lia).
      pose proof (zlen_nonneg r). assert (0 < 10 ^ zlen r) by (apply Z.pow_pos_nonneg; lia). nia. }
    specialize (N3 ltac:(lia)).
    destruct (Z.lt_trichotomy (zlen (nat_str n)) (ndigits n)) as [L|[L|L]]; [exfalso|exact L|exfalso].
    + assert (10 ^ zlen (nat_str n) <= 10 ^ (ndigits n - 1)) by (apply Z.pow_le_mono_r; lia). lia.
    + assert (10 ^ ndigits n <= 10 ^ (zlen (nat_str n) - 1)) by (apply Z.pow_le_mono_r; lia). lia.
Qed.

(** * Padding *)
Lemma pad_value b w l : digits_value b (pad w l) = digits_value b l.
Proof. apply digits_value_zeros. Qed.
Lemma pad_len w l : (length l <= w)%nat -> length (pad w l) = w.
Proof. intros H. unfold pad. rewrite app_length, repeat_length. lia. Qed.
Lemma repeat_zero_dec n : Forall dec_char (repeat 48 n).
Proof. induction n; constructor; [unfold dec_char; lia|exact IHn]. Qed.
Lemma pad_chars w l : Forall dec_char l -> Forall dec_char (pad w l).
Proof. intros H. apply Forall_app. split; [apply repeat_zero_dec|exact H]. Qed.

Lemma padded w n : 0 <= n < 10 ^ Z.of_nat w -> (0 < w)%nat ->
  length (pad w (nat_str n)) = w /\ Forall dec_char (pad w (nat_str n)) /\ digits_value 10 (pad w (nat_str n)) = n.
Proof.
  intros H W. split; [apply pad_len, nat_str_len; assumption|]. split; [apply pad_chars, nat_str_chars; lia|].
  rewrite pad_value. apply nat_str_value. lia.
Qed.
Lemma two_spec n : 0 <= n < 100 -> exists a b, two n = [a; b] /\ dec_char a /\ dec_char b /\ digits_value 10 [a; b] = n.
Proof.
  intros H. destruct (padded 2 n ltac:(cbn; lia) ltac:(lia)) as (L & F & V). unfold two. destruct (pad 2 (nat_str n)) as [|a [|b [|c l]]]; try discriminate L.
  inversion F as [|? ? Ha F']; subst. inversion F' as [|? ? Hb]; subst. exists a, b. auto.
Qed.

(** * Hexadecimal *)
Lemma repeat_zero_hex n : Forall hex_lower (repeat 48 n).
Proof. induction n; constructor; [unfold hex_lower; lia|exact IHn]. Qed.
Lemma hex_digits w n : 0 <= n < 16 ^ Z.of_nat w -> (0 < w)%nat ->
  let l := pad w (map digit_char (base_digits 16 n)) in
  length l = w /\ Forall hex_lower l /\ digits_value 16 l = n.
Proof.
  intros H W l. destruct (base_digits_spec 16 n ltac:(lia) ltac:(lia)) as (V & F & _). split; [|split].
  - apply pad_len. rewrite map_length. apply base_digits_len; [lia|exact H|exact W].
  - apply Forall_app. split; [apply repeat_zero_hex|]. apply Forall_map. eapply Forall_impl; [|exact F]. intros d Hd. now apply digit_char_hex.
  - unfold l. rewrite pad_value. unfold digits_value. rewrite (digits_of_chars 16) by (lia || exact F). exact V.
Qed.
