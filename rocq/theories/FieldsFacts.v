(** Lemmas about the integer sub-fields: digits, flags, decoding. *)
From Verif Require Import Base BaseFacts FieldsModel.
From Coq Require Import ZifyNat.

(** Big-endian digits in base [2^b], [n] of them. *)
Fixpoint digits (b : Z) (n : nat) (v : Z) : list Z :=
  match n with
  | O => []
  | S k => digits b k (v / 2 ^ b) ++ [v mod 2 ^ b]
  end.

Definition undigits (b : Z) (l : list Z) (a : Z) : Z :=
  fold_left (fun acc d => acc * 2 ^ b + d) l a.

Lemma digits_length b n v : length (digits b n v) = n.
Proof. revert v; induction n as [|n IH]; intros v; cbn [digits]; [reflexivity|].
  rewrite app_length, IH; cbn; lia. Qed.

Lemma pow2_pos b : 0 <= b -> 0 < 2 ^ b.
Proof. intros; apply Z.pow_pos_nonneg; lia. Qed.

Lemma digits_range b n v : 0 <= b -> Forall (fun d => 0 <= d < 2 ^ b) (digits b n v).
Proof.
  intros Hb; revert v; induction n as [|n IH]; intros v; cbn [digits]; [constructor|].
  apply Forall_app; split; [apply IH|]. constructor; [|constructor].
  apply Z.mod_pos_bound, pow2_pos; lia.
Qed.

Lemma undigits_digits b n v a : 0 <= b ->
  undigits b (digits b n v) a = a * 2 ^ (b * Z.of_nat n) + v mod 2 ^ (b * Z.of_nat n).
Proof.
  intros Hb; revert v a; induction n as [|n IH]; intros v a.
  - cbn [digits]. unfold undigits; cbn [fold_left]. rewrite Z.mul_0_r, Z.pow_0_r, Z.mod_1_r. lia.
  - cbn [digits]. unfold undigits in *. rewrite fold_left_app, IH. cbn [fold_left].
    replace (b * Z.of_nat (S n)) with (b + b * Z.of_nat n) by lia.
    rewrite Z.pow_add_r by lia.
    pose proof (pow2_pos b Hb) as P1. pose proof (pow2_pos (b * Z.of_nat n) ltac:(lia)) as P2.
    rewrite (Z.rem_mul_r v (2 ^ b)) by lia. nia.
Qed.

Lemma zrange_S n : zrange (S n) = zrange n ++ [Z.of_nat n].
Proof. unfold zrange. rewrite seq_S, map_app. reflexivity. Qed.

Lemma digits_map b n v : 0 <= b ->
  digits b n v =
  map (fun i => (v / 2 ^ (b * (Z.of_nat n - 1 - i))) mod 2 ^ b) (zrange n).
Proof.
  intros Hb; revert v; induction n as [|n IH]; intros v; [reflexivity|].
  cbn [digits]. rewrite zrange_S, map_app, IH. cbn [map]. f_equal.
  - apply map_ext_in. intros i Hi. apply zrange_in in Hi.
    rewrite Z.div_div by (try apply Z.pow_nonzero; try apply pow2_pos; nia).
    rewrite <- Z.pow_add_r by nia. do 3 f_equal. lia.
  - replace (b * (Z.of_nat (S n) - 1 - Z.of_nat n)) with 0 by lia.
    rewrite Z.pow_0_r, Z.div_1_r. reflexivity.
Qed.

(** ** Bit operations as arithmetic *)

Lemma lor_disjoint_shift k hi lo : 0 <= k -> 0 <= lo < 2 ^ k ->
  Z.lor (hi * 2 ^ k) lo = hi * 2 ^ k + lo.
Proof.
  intros Hk Hlo. rewrite <- Z.shiftl_mul_pow2 by lia.
  rewrite Z.add_nocarry_lxor.
  - symmetry. apply Z.lxor_lor. apply Z.bits_inj'. intros i Hi.
    rewrite Z.land_spec, Z.bits_0.
    destruct (Z.lt_ge_cases i k) as [H|H].
    + rewrite Z.shiftl_spec_low by lia. reflexivity.
    + rewrite <- (Z.mod_small lo (2 ^ k)) by lia.
      rewrite Z.mod_pow2_bits_high by lia. apply andb_false_r.
  - apply Z.bits_inj'. intros i Hi.
    rewrite Z.land_spec, Z.bits_0.
    destruct (Z.lt_ge_cases i k) as [H|H].
    + rewrite Z.shiftl_spec_low by lia. reflexivity.
    + rewrite <- (Z.mod_small lo (2 ^ k)) by lia.
      rewrite Z.mod_pow2_bits_high by lia. apply andb_false_r.
Qed.

Lemma shiftl_lor k v lo : 0 <= k -> 0 <= lo < 2 ^ k ->
  Z.lor (Z.shiftl v k) lo = v * 2 ^ k + lo.
Proof. intros. rewrite Z.shiftl_mul_pow2 by lia. apply lor_disjoint_shift; lia. Qed.

Lemma land_mask k x : 0 <= k -> Z.land x (2 ^ k - 1) = x mod 2 ^ k.
Proof. intros. rewrite <- Z.land_ones by lia. rewrite Z.ones_equiv. f_equal. Qed.
Lemma land_3F x : Z.land x 0x3F = x mod 64. Proof. apply (land_mask 6); lia. Qed.
Lemma land_7F x : Z.land x 0x7F = x mod 128. Proof. apply (land_mask 7); lia. Qed.
Lemma land_FF x : Z.land x 0xFF = x mod 256. Proof. apply (land_mask 8); lia. Qed.
Lemma land_octet_mask bits x : bits = 7 \/ bits = 8 ->
  Z.land x (octet_mask bits) = x mod 2 ^ bits.
Proof. intros [->| ->]; [apply land_7F|apply land_FF]. Qed.

Lemma bit7_octet b : 0 <= b < 256 -> Z.testbit b 7 = (128 <=? b).
Proof.
  intros H. pose proof (sweep (fun b => Bool.eqb (Z.testbit b 7) (128 <=? b)) 256
    ltac:(vm_compute; reflexivity) b ltac:(lia)) as S. apply eqb_prop, S.
Qed.
Lemma bit6_octet b : 0 <= b < 256 -> Z.testbit b 6 = (64 <=? b mod 128).
Proof.
  intros H. pose proof (sweep (fun b => Bool.eqb (Z.testbit b 6) (64 <=? b mod 128)) 256
    ltac:(vm_compute; reflexivity) b ltac:(lia)) as S. apply eqb_prop, S.
Qed.
Lemma lor_80 d : 0 <= d < 128 -> Z.lor 0x80 d = 128 + d.
Proof.
  intros H. pose proof (sweep (fun b => Z.lor 0x80 b =? 128 + b) 128
    ltac:(vm_compute; reflexivity) d ltac:(lia)) as S. lia.
Qed.
Lemma lor_40 d : 0 <= d < 64 -> Z.lor 0x40 d = 64 + d.
Proof.
  intros H. pose proof (sweep (fun b => Z.lor 0x40 b =? 64 + b) 64
    ltac:(vm_compute; reflexivity) d ltac:(lia)) as S. lia.
Qed.
Lemma lor_C0 d : 0 <= d < 64 -> Z.lor (Z.lor 0x40 0x80) d = 192 + d.
Proof.
  intros H. pose proof (sweep (fun b => Z.lor (Z.lor 0x40 0x80) b =? 192 + b) 64
    ltac:(vm_compute; reflexivity) d ltac:(lia)) as S. lia.
Qed.
Lemma varuint_step_eq v o : varuint_step v o = v * 128 + o mod 128.
Proof.
  unfold varuint_step. rewrite land_7F. apply (shiftl_lor 7); [lia|].
  change (2 ^ 7) with 128. apply Z.mod_pos_bound; lia.
Qed.

(** ** bit_length *)

Lemma bit_length_spec v : 0 < v -> 2 ^ (bit_length v - 1) <= v < 2 ^ bit_length v.
Proof.
  intros H. unfold bit_length. destruct (v =? 0) eqn:E; [lia|].
  rewrite Z.abs_eq by lia. pose proof (Z.log2_spec v H) as L.
  replace (Z.log2 v + 1 - 1) with (Z.log2 v) by lia.
  replace (Z.log2 v + 1) with (Z.succ (Z.log2 v)) by lia. exact L.
Qed.
Lemma bit_length_pos v : 0 < v -> 1 <= bit_length v.
Proof.
  intros H. unfold bit_length. destruct (v =? 0) eqn:E; [lia|].
  pose proof (Z.log2_nonneg (Z.abs v)). lia.
Qed.

(** ** Flags *)

Definition add_sign (s : Z) (l : list Z) : list Z :=
  match l with [] => [] | x :: r => Z.lor s x :: r end.
Fixpoint add_end (e : Z) (l : list Z) : list Z :=
  match l with [] => [] | [x] => [Z.lor e x] | x :: r => x :: add_end e r end.

Lemma add_end_snoc e l x : add_end e (l ++ [x]) = l ++ [Z.lor e x].
Proof.
  induction l as [|y l IH]; [reflexivity|].
  cbn [app]. destruct (l ++ [x]) as [|z r] eqn:E.
  - destruct l; discriminate.
  - cbn [add_end]. rewrite <- IH. reflexivity.
Qed.
Lemma add_end_length e l : length (add_end e l) = length l.
Proof. induction l as [|y [|z l] IH]; cbn in *; congruence. Qed.
Lemma add_sign_length e l : length (add_sign e l) = length l.
Proof. destruct l; reflexivity. Qed.

Lemma lor_3 a b c : Z.lor (Z.lor a b) c = Z.lor a (Z.lor b c).
Proof. symmetry. apply Z.lor_assoc. Qed.

(** The number of octets [_write_base] chooses. *)
Definition num_octets (bits value : Z) (is_signed : bool) : Z :=
  if value =? 0 then 1 else
  let nb := bit_length value in
  if negb (nb mod bits =? 0) || is_signed then nb / bits + 1 else nb / bits.

Lemma num_octets_pos bits value sg : 0 < bits -> 0 <= value -> 1 <= num_octets bits value sg.
Proof.
  intros Hb Hv. unfold num_octets. destruct (value =? 0) eqn:E; [lia|].
  pose proof (bit_length_pos value ltac:(lia)) as P. cbv zeta.
  pose proof (Z.div_mod (bit_length value) bits ltac:(lia)) as D.
  pose proof (Z.mod_pos_bound (bit_length value) bits ltac:(lia)) as M.
  pose proof (Z.div_pos (bit_length value) bits ltac:(lia) ltac:(lia)) as Q.
  destruct (bit_length value mod bits =? 0) eqn:E2; destruct sg; cbn [negb orb]; nia.
Qed.

Lemma num_octets_fits bits value sg : 0 < bits -> 0 <= value ->
  value < 2 ^ (bits * num_octets bits value sg - (if sg then 1 else 0)).
Proof.
  intros Hb Hv. unfold num_octets. destruct (value =? 0) eqn:E.
  - assert (value = 0) as -> by lia. apply pow2_pos. destruct sg; lia.
  - pose proof (bit_length_spec value ltac:(lia)) as P. cbv zeta.
    pose proof (Z.div_mod (bit_length value) bits ltac:(lia)) as D.
    pose proof (Z.mod_pos_bound (bit_length value) bits ltac:(lia)) as M.
    pose proof (bit_length_pos value ltac:(lia)) as Q.
    eapply Z.lt_le_trans; [apply P|]. apply Z.pow_le_mono_r; [lia|].
    destruct (bit_length value mod bits =? 0) eqn:E2; destruct sg; cbn [negb orb]; nia.
Qed.

Lemma num_octets_minimal bits value sg : 1 < bits -> 0 <= value ->
  num_octets bits value sg = 1 \/
  2 ^ (bits * (num_octets bits value sg - 1) - (if sg then 1 else 0)) <= value.
Proof.
  intros Hb Hv. unfold num_octets. destruct (value =? 0) eqn:E; [left; reflexivity|].
  pose proof (bit_length_spec value ltac:(lia)) as P. cbv zeta.
  pose proof (Z.div_mod (bit_length value) bits ltac:(lia)) as D.
  pose proof (Z.mod_pos_bound (bit_length value) bits ltac:(lia)) as M.
  pose proof (bit_length_pos value ltac:(lia)) as Q.
  right. eapply Z.le_trans; [|apply P]. apply Z.pow_le_mono_r; [lia|].
  destruct (bit_length value mod bits =? 0) eqn:E2; destruct sg; cbn [negb orb]; nia.
Qed.

Lemma map_flags (f : Z -> Z) s e (n : nat) : (1 <= n)%nat ->
  map (fun i => Z.lor (let o := if i =? 0 then s else 0 in
                       if i =? Z.of_nat n - 1 then Z.lor o e else o) (f i)) (zrange n)
  = add_sign s (add_end e (map f (zrange n))).
Proof.
  intros Hn. destruct n as [|n]; [lia|].
  rewrite zrange_S, !map_app. cbn [map]. rewrite add_end_snoc.
  destruct n as [|n].
  - cbn [zrange map seq app add_sign]. cbn. rewrite lor_3. reflexivity.
  - assert (Hz : zrange (S n) = 0 :: map Z.of_nat (seq 1 n)) by reflexivity.
    rewrite Hz. cbn [map app add_sign].
    assert (H0 : (0 =? Z.of_nat (S (S n)) - 1) = false) by lia.
    rewrite H0. change (0 =? 0) with true. cbv beta iota zeta.
    f_equal. f_equal.
    + apply map_ext_in. intros i Hi. apply in_map_iff in Hi as [k [<- Hk]].
      apply in_seq in Hk.
      destruct (Z.of_nat k =? 0) eqn:E1; [lia|].
      destruct (Z.of_nat k =? Z.of_nat (S (S n)) - 1) eqn:E2; [lia|]. reflexivity.
    + destruct (Z.of_nat (S n) =? 0) eqn:E1; [lia|].
      destruct (Z.of_nat (S n) =? Z.of_nat (S (S n)) - 1) eqn:E2; [|lia]. reflexivity.
Qed.

Lemma write_base_spec buf value bits e s sg :
  bits = 7 \/ bits = 8 -> 0 <= value ->
  write_base buf value bits e s sg =
  (buf ++ add_sign s (add_end e (digits bits (Z.to_nat (num_octets bits value sg)) value)),
   num_octets bits value sg).
Proof.
  intros Hb Hv. unfold write_base.
  pose proof (num_octets_pos bits value sg ltac:(lia) Hv) as Pos.
  unfold num_octets in *.
  destruct (value =? 0) eqn:E.
  - assert (value = 0) as -> by lia. change (Z.to_nat 1) with 1%nat.
    destruct Hb as [-> | ->]; cbn; rewrite Z.lor_0_r; reflexivity.
  - cbv zeta in *. set (nb := bit_length value) in *.
    pose proof (Z.div_mod nb bits ltac:(lia)) as D.
    set (g := negb (nb mod bits =? 0) || sg) in *.
    set (n := if g then nb / bits + 1 else nb / bits) in *.
    f_equal. f_equal.
    rewrite digits_map by lia.
    rewrite <- map_flags by lia.
    apply map_ext_in. intros i Hi. apply zrange_in in Hi.
    unfold base_octet. rewrite land_octet_mask by exact Hb.
    f_equal.
    + cbv zeta. rewrite Z2Nat.id by lia. reflexivity.
    + assert (Hsh : nb - ((if g then nb mod bits else bits) + bits * i)
                    = bits * (Z.of_nat (Z.to_nat n) - 1 - i)).
      { rewrite Z2Nat.id by lia. subst n. destruct g eqn:G; [nia|].
        subst g. apply orb_false_iff in G as [G1 G2].
        apply negb_false_iff in G1. apply Z.eqb_eq in G1. nia. }
      rewrite Hsh. rewrite Z.shiftr_div_pow2 by nia. reflexivity.
Qed.

(** ** The canonical octets of each field *)

Definition uint_octets (v : Z) : list Z :=
  digits 8 (Z.to_nat (num_octets 8 v false)) v.
Definition varuint_octets (v : Z) : list Z :=
  add_end 0x80 (digits 7 (Z.to_nat (num_octets 7 v false)) v).
Definition int_octets (v : Z) : list Z :=
  add_sign (if v <? 0 then 0x80 else 0)
           (digits 8 (Z.to_nat (num_octets 8 (Z.abs v) true)) (Z.abs v)).
Definition varint_octets (v : Z) : list Z :=
  add_sign (if v <? 0 then 0x40 else 0)
           (add_end 0x80 (digits 7 (Z.to_nat (num_octets 7 (Z.abs v) true)) (Z.abs v))).

Lemma add_end_0 l : add_end 0 l = l.
Proof. induction l as [|x [|y l] IH]; cbn in *; congruence. Qed.
Lemma add_sign_0 l : add_sign 0 l = l.
Proof. destruct l; reflexivity. Qed.

Lemma write_uint_uncached_spec buf v : 0 <= v ->
  write_uint_uncached buf v = (buf ++ uint_octets v, zlen (uint_octets v)).
Proof.
  intros H. unfold write_uint_uncached. rewrite write_base_spec by (auto; lia).
  rewrite add_end_0, add_sign_0. unfold uint_octets, zlen. rewrite digits_length.
  pose proof (num_octets_pos 8 v false ltac:(lia) H). rewrite Z2Nat.id by lia. reflexivity.
Qed.
Lemma write_varuint_uncached_spec buf v : 0 <= v ->
  write_varuint_uncached buf v = (buf ++ varuint_octets v, zlen (varuint_octets v)).
Proof.
  intros H. unfold write_varuint_uncached. rewrite write_base_spec by (auto; lia).
  rewrite add_sign_0. unfold varuint_octets, zlen. rewrite add_end_length, digits_length.
  pose proof (num_octets_pos 7 v false ltac:(lia) H). rewrite Z2Nat.id by lia. reflexivity.
Qed.
Lemma write_int_uncached_spec buf v :
  write_int_uncached buf v = (buf ++ int_octets v, zlen (int_octets v)).
Proof.
  unfold write_int_uncached, write_signed_uncached, int_octets, zlen.
  rewrite add_sign_length, digits_length.
  pose proof (num_octets_pos 8 (Z.abs v) true ltac:(lia) ltac:(lia)) as P.
  rewrite Z2Nat.id by lia.
  destruct (v <? 0) eqn:E.
  - rewrite write_base_spec by (auto; lia). rewrite add_end_0.
    replace (Z.abs v) with (- v) by lia. reflexivity.
  - rewrite write_base_spec by (auto; lia). rewrite add_end_0.
    replace (Z.abs v) with v by lia. reflexivity.
Qed.
Lemma write_varint_uncached_spec buf v :
  write_varint_uncached buf v = (buf ++ varint_octets v, zlen (varint_octets v)).
Proof.
  unfold write_varint_uncached, write_signed_uncached, varint_octets, zlen.
  rewrite add_sign_length, add_end_length, digits_length.
  pose proof (num_octets_pos 7 (Z.abs v) true ltac:(lia) ltac:(lia)) as P.
  rewrite Z2Nat.id by lia.
  destruct (v <? 0) eqn:E.
  - rewrite write_base_spec by (auto; lia).
    replace (Z.abs v) with (- v) by lia. reflexivity.
  - rewrite write_base_spec by (auto; lia).
    replace (Z.abs v) with v by lia. reflexivity.
Qed.

(** ** The cache holds what the uncached writers produce *)

Lemma cached_uints_ok i : 0 <= i < 64 -> py_index cached_uints i = Ok (hd 0 (uint_octets i))
  /\ uint_octets i = [hd 0 (uint_octets i)].
Proof.
  intros H. pose proof (sweep (fun i => match py_index cached_uints i with
    | Ok o => zlist_eqb (uint_octets i) [o] | _ => false end) 64
    ltac:(vm_compute; reflexivity) i H) as S. cbv beta in S.
  destruct (py_index cached_uints i) as [o|]; [|discriminate].
  apply zlist_eqb_eq in S. rewrite S. auto.
Qed.
Lemma cached_varuints_ok i : 0 <= i < 64 -> py_index cached_varuints i = Ok (hd 0 (varuint_octets i))
  /\ varuint_octets i = [hd 0 (varuint_octets i)].
Proof.
  intros H. pose proof (sweep (fun i => match py_index cached_varuints i with
    | Ok o => zlist_eqb (varuint_octets i) [o] | _ => false end) 64
    ltac:(vm_compute; reflexivity) i H) as S. cbv beta in S.
  destruct (py_index cached_varuints i) as [o|]; [|discriminate].
  apply zlist_eqb_eq in S. rewrite S. auto.
Qed.
Lemma cached_ints_ok i : 0 <= i < 64 -> py_index cached_ints i = Ok (hd 0 (int_octets (i - 32)))
  /\ int_octets (i - 32) = [hd 0 (int_octets (i - 32))].
Proof.
  intros H. pose proof (sweep (fun i => match py_index cached_ints i with
    | Ok o => zlist_eqb (int_octets (i - 32)) [o] | _ => false end) 64
    ltac:(vm_compute; reflexivity) i H) as S. cbv beta in S.
  destruct (py_index cached_ints i) as [o|]; [|discriminate].
  apply zlist_eqb_eq in S. rewrite S. auto.
Qed.
Lemma cached_varints_ok i : 0 <= i < 64 -> py_index cached_varints i = Ok (hd 0 (varint_octets (i - 32)))
  /\ varint_octets (i - 32) = [hd 0 (varint_octets (i - 32))].
Proof.
  intros H. pose proof (sweep (fun i => match py_index cached_varints i with
    | Ok o => zlist_eqb (varint_octets (i - 32)) [o] | _ => false end) 64
    ltac:(vm_compute; reflexivity) i H) as S. cbv beta in S.
  destruct (py_index cached_varints i) as [o|]; [|discriminate].
  apply zlist_eqb_eq in S. rewrite S. auto.
Qed.

Lemma write_uint_spec buf v : 0 <= v ->
  write_uint buf v = Ok (buf ++ uint_octets v, zlen (uint_octets v)).
Proof.
  intros H. unfold write_uint, write_unsigned, cache_size.
  destruct (v <? 64) eqn:E.
  - destruct (cached_uints_ok v ltac:(lia)) as [-> E2]. cbn [bind]. rewrite E2. reflexivity.
  - rewrite write_uint_uncached_spec by lia. reflexivity.
Qed.
Lemma write_varuint_spec buf v : 0 <= v ->
  write_varuint buf v = Ok (buf ++ varuint_octets v, zlen (varuint_octets v)).
Proof.
  intros H. unfold write_varuint, write_unsigned, cache_size.
  destruct (v <? 64) eqn:E.
  - destruct (cached_varuints_ok v ltac:(lia)) as [-> E2]. cbn [bind]. rewrite E2. reflexivity.
  - rewrite write_varuint_uncached_spec by lia. reflexivity.
Qed.
Lemma write_int_spec buf v :
  write_int buf v = Ok (buf ++ int_octets v, zlen (int_octets v)).
Proof.
  unfold write_int, write_signed.
  change signed_min with (-32). change signed_max with 32. change cache_half with 32.
  destruct ((-32 <=? v) && (v <? 32)) eqn:E.
  - destruct (cached_ints_ok (32 + v) ltac:(lia)) as [-> E2]. cbn [bind].
    replace (32 + v - 32) with v in * by lia. rewrite E2. reflexivity.
  - rewrite write_int_uncached_spec. reflexivity.
Qed.
Lemma write_varint_spec buf v :
  write_varint buf v = Ok (buf ++ varint_octets v, zlen (varint_octets v)).
Proof.
  unfold write_varint, write_signed.
  change signed_min with (-32). change signed_max with 32. change cache_half with 32.
  destruct ((-32 <=? v) && (v <? 32)) eqn:E.
  - destruct (cached_varints_ok (32 + v) ltac:(lia)) as [-> E2]. cbn [bind].
    replace (32 + v - 32) with v in * by lia. rewrite E2. reflexivity.
  - rewrite write_varint_uncached_spec. reflexivity.
Qed.

(** ** Decoding *)

Lemma snoc_digits b n v : (1 <= n)%nat ->
  digits b n v = digits b (n - 1) (v / 2 ^ b) ++ [v mod 2 ^ b].
Proof. destruct n; [lia|]. intros _. cbn [digits]. rewrite Nat.sub_succ, Nat.sub_0_r. reflexivity. Qed.

Lemma parse_var_run ds d rest s v :
  Forall (fun x => 0 <= x < 128) ds -> 0 <= d < 128 ->
  parse_var_int_components (ds ++ [128 + d] ++ rest) false s v
  = Ok (s, undigits 7 (ds ++ [d]) v, rest).
Proof.
  intros Hds Hd; revert v; induction Hds as [|x ds Hx Hds IH]; intros v; cbn [app parse_var_int_components].
  - rewrite bit7_octet by lia. replace (128 <=? 128 + d) with true by lia.
    change (Z.lor (Z.shiftl v 7) (Z.land (128 + d) 0x7F)) with (varuint_step v (128 + d)).
    rewrite varuint_step_eq. unfold undigits; cbn [fold_left app].
    replace ((128 + d) mod 128) with d; [reflexivity|].
    replace (128 + d) with (d + 1 * 128) by lia. rewrite Z.mod_add, Z.mod_small by lia. reflexivity.
  - rewrite bit7_octet by lia. replace (128 <=? x) with false by lia.
    change (Z.lor (Z.shiftl v 7) (Z.land x 0x7F)) with (varuint_step v x).
    rewrite varuint_step_eq, (Z.mod_small x) by lia.
    cbn [app] in IH. rewrite IH. reflexivity.
Qed.

Lemma varuint_octets_split v : 0 <= v ->
  exists ds d, varuint_octets v = ds ++ [128 + d] /\ Forall (fun x => 0 <= x < 128) ds /\
    0 <= d < 128 /\ (forall a, undigits 7 (ds ++ [d]) a = a * 2 ^ (7 * zlen (varuint_octets v)) + v).
Proof.
  intros Hv. unfold varuint_octets.
  pose proof (num_octets_pos 7 v false ltac:(lia) Hv) as P.
  pose proof (num_octets_fits 7 v false ltac:(lia) Hv) as F.
  set (n := Z.to_nat (num_octets 7 v false)) in *.
  exists (digits 7 (n - 1) (v / 2 ^ 7)), (v mod 2 ^ 7).
  rewrite (snoc_digits 7 n v) at 1 by lia. rewrite add_end_snoc.
  assert (M : 0 <= v mod 2 ^ 7 < 128) by (apply Z.mod_pos_bound; reflexivity).
  rewrite lor_80 by exact M.
  split; [reflexivity|]. split; [apply (digits_range 7); lia|]. split; [exact M|].
  intros a. rewrite <- snoc_digits by lia. rewrite undigits_digits by lia.
  unfold zlen. rewrite add_end_length, digits_length. f_equal. apply Z.mod_small.
  split; [lia|]. cbv iota in F. replace (7 * Z.of_nat n) with (7 * num_octets 7 v false - 0) by lia. exact F.
Qed.

Lemma parse_varuint v rest : 0 <= v ->
  parse_var_int_components (varuint_octets v ++ rest) false 1 0 = Ok (1, v, rest).
Proof.
  intros Hv. destruct (varuint_octets_split v Hv) as (ds & d & -> & H1 & H2 & H3).
  rewrite <- app_assoc, parse_var_run by auto. rewrite H3, Z.mul_0_l. reflexivity.
Qed.

Lemma parse_varint v rest :
  parse_var_int_components (varint_octets v ++ rest) true 1 0
  = Ok (if v <? 0 then -1 else 1, Z.abs v, rest).
Proof.
  unfold varint_octets.
  set (s := if v <? 0 then 0x40 else 0).
  pose proof (num_octets_pos 7 (Z.abs v) true ltac:(lia) ltac:(lia)) as P.
  pose proof (num_octets_fits 7 (Z.abs v) true ltac:(lia) ltac:(lia)) as F.
  cbv iota in F. set (m := Z.abs v) in *.
  set (n := Z.to_nat (num_octets 7 m true)) in *.
  assert (Fn : m < 2 ^ (7 * Z.of_nat n - 1)) by (replace (Z.of_nat n) with (num_octets 7 m true) by lia; exact F).
  assert (Hm : 0 <= m) by lia.
  assert (Hrange : Forall (fun x => 0 <= x < 2 ^ 7) (digits 7 n m)) by (apply digits_range; lia).
  pose proof (undigits_digits 7 n m 0 ltac:(lia)) as U.
  rewrite Z.mod_small in U by (split; [lia|]; eapply Z.lt_le_trans; [exact Fn|apply Z.pow_le_mono_r; lia]).
  destruct n as [|n']; [lia|].
  assert (Hsplit : exists x ds, digits 7 (S n') m = x :: ds /\ length ds = n').
  { pose proof (digits_length 7 (S n') m) as L. destruct (digits 7 (S n') m) as [|x ds]; [discriminate|].
    exists x, ds. split; [reflexivity|]. cbn in L. lia. }
  destruct Hsplit as (x & ds & E & L).
  rewrite E in *. inversion Hrange as [|? ? Hx Hds]; subst.
  change (2 ^ 7) with 128 in Hx, Hds.
  (* the first digit leaves room for the sign bit *)
  assert (Hx64 : 0 <= x < 64).
  { split; [lia|]. unfold undigits in U. cbn [fold_left] in U.
    assert (Hmono : forall l a, Forall (fun x => 0 <= x < 128) l -> 0 <= a ->
       a * 2 ^ (7 * zlen l) <= fold_left (fun acc d => acc * 2 ^ 7 + d) l a).
    { induction l as [|y l IH]; intros a Hl Ha.
      - cbn. unfold zlen; cbn. lia.
      - cbn [fold_left]. inversion Hl; subst.
        rewrite zlen_cons. replace (7 * (1 + zlen l)) with (7 + 7 * zlen l) by lia.
        pose proof (zlen_nonneg l). rewrite Z.pow_add_r by lia.
        eapply Z.le_trans; [|apply IH; [assumption|lia]].
        pose proof (pow2_pos (7 * zlen l) ltac:(lia)). change (2 ^ 7) with 128. nia. }
    specialize (Hmono ds (0 * 2 ^ 7 + x) Hds ltac:(lia)). rewrite U in Hmono.
    unfold zlen in Hmono.
    assert (Q : (0 * 2 ^ 7 + x) * 2 ^ (7 * Z.of_nat (length ds)) < 64 * 2 ^ (7 * Z.of_nat (length ds))).
    { eapply Z.le_lt_trans; [exact Hmono|].
      replace (7 * Z.of_nat (S (length ds)) - 1) with (6 + 7 * Z.of_nat (length ds)) in Fn by lia.
      rewrite Z.pow_add_r in Fn by lia. change (2 ^ 6) with 64 in Fn. lia. }
    pose proof (pow2_pos (7 * Z.of_nat (length ds)) ltac:(lia)). nia. }
  destruct ds as [|y ds'].
  - (* single octet *)
    cbn [add_end add_sign app parse_var_int_components].
    assert (Ho : Z.lor s (Z.lor 0x80 x) = (if v <? 0 then 192 else 128) + x).
    { unfold s. destruct (v <? 0).
      - rewrite Z.lor_assoc. apply lor_C0; lia.
      - rewrite Z.lor_0_l. apply lor_80; lia. }
    rewrite Ho. unfold undigits in U; cbn [fold_left] in U.
    rewrite bit7_octet, bit6_octet by (destruct (v <? 0); lia).
    rewrite land_3F.
    assert (Hm64 : ((if v <? 0 then 192 else 128) + x) mod 64 = x).
    { destruct (v <? 0); [rewrite <- (Z.mod_small x 64) at 2 by lia; replace (192 + x) with (x + 3 * 64) by lia
                         |rewrite <- (Z.mod_small x 64) at 2 by lia; replace (128 + x) with (x + 2 * 64) by lia];
      apply Z.mod_add; lia. }
    rewrite Hm64.
    assert (Hb6 : (64 <=? ((if v <? 0 then 192 else 128) + x) mod 128) = (v <? 0)).
    { destruct (v <? 0).
      - replace (192 + x) with ((64 + x) + 1 * 128) by lia. rewrite Z.mod_add, Z.mod_small by lia. lia.
      - replace (128 + x) with (x + 1 * 128) by lia. rewrite Z.mod_add, Z.mod_small by lia. lia. }
    rewrite Hb6. replace (128 <=? (if v <? 0 then 192 else 128) + x) with true by (destruct (v <? 0); lia).
    repeat f_equal. lia.
  - (* several octets *)
    change (add_end 0x80 (x :: y :: ds')) with (x :: add_end 0x80 (y :: ds')).
    cbn [add_sign app parse_var_int_components].
    assert (Ho : Z.lor s x = (if v <? 0 then 64 else 0) + x).
    { unfold s. destruct (v <? 0); [apply lor_40; lia|reflexivity]. }
    rewrite Ho.
    rewrite bit7_octet, bit6_octet by (destruct (v <? 0); lia).
    rewrite land_3F.
    assert (Hm64 : ((if v <? 0 then 64 else 0) + x) mod 64 = x).
    { destruct (v <? 0); [replace (64 + x) with (x + 1 * 64) by lia; rewrite Z.mod_add by lia|];
      apply Z.mod_small; lia. }
    rewrite Hm64.
    assert (Hb6 : (64 <=? ((if v <? 0 then 64 else 0) + x) mod 128) = (v <? 0)).
    { destruct (v <? 0); rewrite Z.mod_small by lia; lia. }
    rewrite Hb6. replace (128 <=? (if v <? 0 then 64 else 0) + x) with false by (destruct (v <? 0); lia).
    destruct (exists_last (l := y :: ds')) as (ds0 & d & Ed); [discriminate|].
    rewrite Ed in *. rewrite add_end_snoc. apply Forall_app in Hds as [Hds0 Hd].
    inversion Hd as [|? ? Hd0 _]; subst.
    rewrite lor_80 by lia. rewrite <- app_assoc. rewrite parse_var_run by auto.
    unfold undigits in *. cbn [fold_left] in U. rewrite Z.mul_0_l, Z.add_0_l in U. rewrite U.
    reflexivity.
Qed.

Lemma fold_shift8 l a : octets l ->
  fold_left (fun value o => Z.lor (Z.shiftl value 8) o) l a = undigits 8 l a.
Proof.
  intros H; revert a; induction H as [|x l Hx Hl IH]; intros a; [reflexivity|].
  cbn [fold_left]. rewrite (shiftl_lor 8) by (unfold is_octet in Hx; lia). rewrite IH. reflexivity.
Qed.

Lemma digits8_octets n v : octets (digits 8 n v).
Proof. pose proof (digits_range 8 n v ltac:(lia)) as H. eapply Forall_impl; [|exact H].
  intros a Ha. unfold is_octet. cbn in Ha. lia. Qed.

Lemma parse_int_field v :
  parse_signed_int_components (int_octets v) = (if v <? 0 then 1 else 0, Z.abs v).
Proof.
  unfold int_octets.
  set (s := if v <? 0 then 0x80 else 0).
  pose proof (num_octets_pos 8 (Z.abs v) true ltac:(lia) ltac:(lia)) as P.
  pose proof (num_octets_fits 8 (Z.abs v) true ltac:(lia) ltac:(lia)) as F.
  cbv iota in F. set (m := Z.abs v) in *.
  set (n := Z.to_nat (num_octets 8 m true)) in *.
  assert (Fn : m < 2 ^ (8 * Z.of_nat n - 1)) by (replace (Z.of_nat n) with (num_octets 8 m true) by lia; exact F).
  assert (Hm : 0 <= m) by lia.
  assert (Hrange : octets (digits 8 n m)) by apply digits8_octets.
  pose proof (undigits_digits 8 n m 0 ltac:(lia)) as U.
  rewrite Z.mod_small in U by (split; [lia|]; eapply Z.lt_le_trans; [exact Fn|apply Z.pow_le_mono_r; lia]).
  destruct n as [|n']; [lia|].
  assert (Hsplit : exists x ds, digits 8 (S n') m = x :: ds /\ length ds = n').
  { pose proof (digits_length 8 (S n') m) as L. destruct (digits 8 (S n') m) as [|x ds]; [discriminate|].
    exists x, ds. split; [reflexivity|]. cbn in L. lia. }
  destruct Hsplit as (x & ds & E & L).
  rewrite E in *. apply octets_cons in Hrange as [Hx Hds]. unfold is_octet in Hx.
  assert (Hx128 : 0 <= x < 128).
  { split; [lia|]. unfold undigits in U. cbn [fold_left] in U.
    assert (Hmono : forall l a, octets l -> 0 <= a ->
       a * 2 ^ (8 * zlen l) <= fold_left (fun acc d => acc * 2 ^ 8 + d) l a).
    { induction l as [|y l IH]; intros a Hl Ha.
      - cbn. unfold zlen; cbn. lia.
      - cbn [fold_left]. apply octets_cons in Hl as [Hy Hl]. unfold is_octet in Hy.
        rewrite zlen_cons. replace (8 * (1 + zlen l)) with (8 + 8 * zlen l) by lia.
        pose proof (zlen_nonneg l). rewrite Z.pow_add_r by lia.
        eapply Z.le_trans; [|apply IH; [assumption|lia]].
        pose proof (pow2_pos (8 * zlen l) ltac:(lia)). change (2 ^ 8) with 256. nia. }
    specialize (Hmono ds (0 * 2 ^ 8 + x) Hds ltac:(lia)). rewrite U in Hmono.
    unfold zlen in Hmono.
    assert (Q : (0 * 2 ^ 8 + x) * 2 ^ (8 * Z.of_nat (length ds)) < 128 * 2 ^ (8 * Z.of_nat (length ds))).
    { eapply Z.le_lt_trans; [exact Hmono|]. subst n'.
      replace (8 * Z.of_nat (S (length ds)) - 1) with (7 + 8 * Z.of_nat (length ds)) in Fn by lia.
      rewrite Z.pow_add_r in Fn by lia. change (2 ^ 7) with 128 in Fn. lia. }
    pose proof (pow2_pos (8 * Z.of_nat (length ds)) ltac:(lia)). nia. }
  cbn [add_sign parse_signed_int_components].
  assert (Ho : Z.lor s x = (if v <? 0 then 128 else 0) + x).
  { unfold s. destruct (v <? 0); [apply lor_80; lia|reflexivity]. }
  rewrite Ho, bit7_octet by (destruct (v <? 0); lia).
  rewrite land_7F.
  assert (Hmod : ((if v <? 0 then 128 else 0) + x) mod 128 = x).
  { destruct (v <? 0); [replace (128 + x) with (x + 1 * 128) by lia; rewrite Z.mod_add by lia|];
      apply Z.mod_small; lia. }
  rewrite Hmod, fold_shift8 by exact Hds.
  unfold undigits in *. cbn [fold_left] in U. rewrite Z.mul_0_l, Z.add_0_l in U. rewrite U.
  f_equal. destruct (v <? 0); [replace (128 <=? 128 + x) with true by lia|replace (128 <=? 0 + x) with false by lia]; reflexivity.
Qed.

(** ** UInt: the sliced parser equals the plain big-endian value *)

Lemma undigits_bound b l a : 0 <= b -> Forall (fun d => 0 <= d < 2 ^ b) l -> 0 <= a ->
  0 <= undigits b l a < (a + 1) * 2 ^ (b * zlen l).
Proof.
  intros Hb Hl; revert a; induction Hl as [|x l Hx Hl IH]; intros a Ha.
  - unfold undigits; cbn. unfold zlen; cbn. rewrite Z.mul_0_r. cbn. lia.
  - unfold undigits in *. cbn [fold_left]. pose proof (pow2_pos b Hb) as P.
    specialize (IH (a * 2 ^ b + x) ltac:(nia)).
    rewrite zlen_cons. pose proof (zlen_nonneg l).
    replace (b * (1 + zlen l)) with (b + b * zlen l) by lia. rewrite Z.pow_add_r by lia.
    pose proof (pow2_pos (b * zlen l) ltac:(lia)). nia.
Qed.

Lemma unpack_undigits l : unpack_be l = undigits 8 l 0.
Proof. reflexivity. Qed.

Lemma undigits_app b l1 l2 a : undigits b (l1 ++ l2) a = undigits b l2 (undigits b l1 a).
Proof. unfold undigits. apply fold_left_app. Qed.

Lemma undigits_shift b l a : 0 <= b -> undigits b l a = a * 2 ^ (b * zlen l) + undigits b l 0.
Proof.
  intros Hb; revert a; induction l as [|x l IH]; intros a.
  - unfold undigits, zlen; cbn. rewrite Z.mul_0_r. cbn. lia.
  - unfold undigits in *. cbn [fold_left]. rewrite IH, (IH (0 * 2 ^ b + x)).
    rewrite zlen_cons. pose proof (zlen_nonneg l).
    replace (b * (1 + zlen l)) with (b + b * zlen l) by lia. rewrite Z.pow_add_r by lia. ring.
Qed.

Lemma seg_step data pre seg post value k :
  octets data -> data = pre ++ seg ++ post -> k = 8 * zlen seg ->
  value = undigits 8 pre 0 ->
  Z.lor (Z.shiftl value k) (unpack_be (rslice data (zlen seg + zlen post) (zlen seg)))
  = undigits 8 (pre ++ seg) 0.
Proof.
  intros Ho -> -> ->.
  assert (Hs : rslice (pre ++ seg ++ post) (zlen seg + zlen post) (zlen seg) = seg).
  { unfold rslice. rewrite !zlen_app.
    destruct (0 <=? - (zlen seg + zlen post) + zlen seg) eqn:E.
    - assert (post = []) as ->.
      { apply zlen_zero. pose proof (zlen_nonneg post). lia. }
      rewrite app_nil_r. apply zdrop_app_exact. rewrite zlen_nil. lia.
    - unfold zslice.
      change (skipn (Z.to_nat (zlen pre + (zlen seg + zlen post) + - (zlen seg + zlen post))) (pre ++ seg ++ post))
        with (zdrop (zlen pre + (zlen seg + zlen post) + - (zlen seg + zlen post)) (pre ++ seg ++ post)).
      rewrite zdrop_app_exact by lia. apply ztake_app_exact. lia. }
  rewrite Hs. apply octets_app in Ho as [_ Ho]. apply octets_app in Ho as [Ho _].
  rewrite unpack_undigits, undigits_app, (undigits_shift 8 seg (undigits 8 pre 0)) by lia.
  pose proof (zlen_nonneg seg). apply shiftl_lor; [lia|].
  pose proof (undigits_bound 8 seg 0 ltac:(lia) Ho ltac:(lia)). lia.
Qed.

Lemma parse_int_loop_spec fuel data pre post :
  octets data -> data = pre ++ post -> (length post <= fuel)%nat ->
  exists pre' post', data = pre' ++ post' /\ zlen post' < 8 /\
    parse_int_loop fuel data (undigits 8 pre 0) (zlen post) = (undigits 8 pre' 0, zlen post').
Proof.
  intros Ho; revert pre post; induction fuel as [|fuel IH]; intros pre post E L.
  - exists pre, post. repeat split; auto. unfold zlen; lia.
  - cbn [parse_int_loop]. destruct (8 <=? zlen post) eqn:C.
    + assert (Hp : post = ztake 8 post ++ zdrop 8 post) by (symmetry; apply ztake_drop).
      assert (L8 : zlen (ztake 8 post) = 8) by (apply zlen_ztake; lia).
      assert (L9 : zlen (zdrop 8 post) = zlen post - 8) by (apply zlen_zdrop; lia).
      replace (Z.lor (Z.shiftl (undigits 8 pre 0) 64) (unpack_be (rslice data (zlen post) 8)))
        with (undigits 8 (pre ++ ztake 8 post) 0).
      2:{ symmetry. rewrite <- (seg_step data pre (ztake 8 post) (zdrop 8 post) (undigits 8 pre 0) 64).
          - rewrite L8, L9. replace (8 + (zlen post - 8)) with (zlen post) by lia. reflexivity.
          - exact Ho.
          - rewrite <- Hp. exact E.
          - lia.
          - reflexivity. }
      rewrite <- L9. apply IH.
      * rewrite <- app_assoc, <- Hp. exact E.
      * unfold zlen in L9, C. lia.
    + exists pre, post. repeat split; auto. lia.
Qed.

Lemma parse_int_be sign data : octets data -> parse_int sign data = sign * undigits 8 data 0.
Proof.
  intros Ho. unfold parse_int.
  destruct (parse_int_loop_spec (length data) data [] data Ho eq_refl ltac:(lia))
    as (pre & post & E & L & EQ).
  change (undigits 8 [] 0) with 0 in EQ. rewrite EQ. clear EQ.
  (* 4-octet segment *)
  assert (S4 : exists pre' post', data = pre' ++ post' /\ zlen post' < 4 /\
    (if 4 <=? zlen post
     then (Z.lor (Z.shiftl (undigits 8 pre 0) 32) (unpack_be (rslice data (zlen post) 4)), zlen post - 4)
     else (undigits 8 pre 0, zlen post)) = (undigits 8 pre' 0, zlen post')).
  { destruct (4 <=? zlen post) eqn:C.
    - assert (Hp : post = ztake 4 post ++ zdrop 4 post) by (symmetry; apply ztake_drop).
      assert (L8 : zlen (ztake 4 post) = 4) by (apply zlen_ztake; lia).
      assert (L9 : zlen (zdrop 4 post) = zlen post - 4) by (apply zlen_zdrop; lia).
      exists (pre ++ ztake 4 post), (zdrop 4 post). repeat split.
      + rewrite <- app_assoc, <- Hp. exact E.
      + lia.
      + rewrite <- (seg_step data pre (ztake 4 post) (zdrop 4 post) (undigits 8 pre 0) 32); auto.
        * rewrite L8, L9. replace (4 + (zlen post - 4)) with (zlen post) by lia. reflexivity.
        * rewrite <- Hp. exact E.
        * lia.
    - exists pre, post. repeat split; auto. lia. }
  destruct S4 as (pre4 & post4 & E4 & L4 & ->).
  assert (S2 : exists pre' post', data = pre' ++ post' /\ zlen post' < 2 /\
    (if 2 <=? zlen post4
     then (Z.lor (Z.shiftl (undigits 8 pre4 0) 16) (unpack_be (rslice data (zlen post4) 2)), zlen post4 - 2)
     else (undigits 8 pre4 0, zlen post4)) = (undigits 8 pre' 0, zlen post')).
  { destruct (2 <=? zlen post4) eqn:C.
    - assert (Hp : post4 = ztake 2 post4 ++ zdrop 2 post4) by (symmetry; apply ztake_drop).
      assert (L8 : zlen (ztake 2 post4) = 2) by (apply zlen_ztake; lia).
      assert (L9 : zlen (zdrop 2 post4) = zlen post4 - 2) by (apply zlen_zdrop; lia).
      exists (pre4 ++ ztake 2 post4), (zdrop 2 post4). repeat split.
      + rewrite <- app_assoc, <- Hp. exact E4.
      + lia.
      + rewrite <- (seg_step data pre4 (ztake 2 post4) (zdrop 2 post4) (undigits 8 pre4 0) 16); auto.
        * rewrite L8, L9. replace (2 + (zlen post4 - 2)) with (zlen post4) by lia. reflexivity.
        * rewrite <- Hp. exact E4.
        * lia.
    - exists pre4, post4. repeat split; auto. lia. }
  destruct S2 as (pre2 & post2 & E2 & L2 & ->).
  f_equal.
  destruct (zlen post2 =? 1) eqn:C.
  - destruct post2 as [|x [|y post2]]; [discriminate| |unfold zlen in L2; cbn in L2; lia].
    change (zlen [x]) with 1.
    assert (Hi : py_index data (- (1)) = Ok x).
    { unfold py_index. change (- (1) <? 0) with true. cbv iota zeta.
      rewrite E2, zlen_app. change (zlen [x]) with 1.
      pose proof (zlen_nonneg pre2) as Hp0.
      destruct (zlen pre2 + 1 + - (1) <? 0) eqn:N; [lia|].
      replace (Z.to_nat (zlen pre2 + 1 + - (1))) with (length pre2) by (unfold zlen; lia).
      rewrite nth_error_app2 by lia. rewrite Nat.sub_diag. reflexivity. }
    rewrite Hi.
    rewrite E2, undigits_app. rewrite E2 in Ho. apply octets_app in Ho as [_ Ho].
    apply octets_cons in Ho as [Hx _]. unfold is_octet in Hx.
    rewrite (shiftl_lor 8) by lia. unfold undigits; reflexivity.
  - assert (post2 = []) as ->.
    { apply zlen_zero. pose proof (zlen_nonneg post2). lia. }
    rewrite app_nil_r in E2. rewrite E2. reflexivity.
Qed.

Lemma uint_octets_value v : 0 <= v -> undigits 8 (uint_octets v) 0 = v.
Proof.
  intros Hv. unfold uint_octets.
  pose proof (num_octets_pos 8 v false ltac:(lia) Hv) as P.
  pose proof (num_octets_fits 8 v false ltac:(lia) Hv) as F.
  rewrite undigits_digits by lia. rewrite Z2Nat.id by lia.
  rewrite Z.mod_small; [lia|]. split; [lia|].
  cbv iota in F. rewrite Z.sub_0_r in F. exact F.
Qed.

Lemma uint_octets_octets v : octets (uint_octets v).
Proof. apply digits8_octets. Qed.

Lemma parse_int_uint sign v : 0 <= v -> parse_int sign (uint_octets v) = sign * v.
Proof.
  intros Hv. rewrite parse_int_be by apply uint_octets_octets. rewrite uint_octets_value by lia. reflexivity.
Qed.

Lemma add_end_octets l : Forall (fun d => 0 <= d < 128) l -> octets (add_end 0x80 l).
Proof.
  intros H. induction H as [|x l Hx Hl IH]; [constructor|].
  destruct l as [|y l].
  - cbn [add_end]. rewrite lor_80 by lia. constructor; [unfold is_octet; lia|constructor].
  - change (add_end 128 (x :: y :: l)) with (x :: add_end 128 (y :: l)).
    constructor; [unfold is_octet; lia|exact IH].
Qed.
Lemma digits7_range n v : Forall (fun d => 0 <= d < 128) (digits 7 n v).
Proof. apply (digits_range 7); lia. Qed.
Lemma varuint_octets_octets v : octets (varuint_octets v).
Proof. apply add_end_octets, digits7_range. Qed.

Lemma lor_octet a b : is_octet a -> is_octet b -> is_octet (Z.lor a b).
Proof.
  unfold is_octet; intros Ha Hb.
  split; [apply Z.lor_nonneg; lia|].
  destruct (Z.eq_dec (Z.lor a b) 0) as [->|N]; [lia|].
  assert (0 < Z.lor a b) by (pose proof (proj2 (Z.lor_nonneg a b)); lia).
  apply Z.log2_lt_pow2 with (b := 8); [lia|].
  rewrite Z.log2_lor by lia.
  apply Z.max_lub_lt.
  - destruct (Z.eq_dec a 0) as [->|]; [cbn; lia|]. apply Z.log2_lt_pow2; [lia|]. cbn; lia.
  - destruct (Z.eq_dec b 0) as [->|]; [cbn; lia|]. apply Z.log2_lt_pow2; [lia|]. cbn; lia.
Qed.
Lemma add_sign_octets s l : is_octet s -> octets l -> octets (add_sign s l).
Proof.
  intros Hs [|x l' Hx Hl]; [constructor|]. cbn. constructor; [apply lor_octet; auto|auto].
Qed.
Lemma int_octets_octets v : octets (int_octets v).
Proof.
  apply add_sign_octets; [unfold is_octet; destruct (v <? 0); lia|apply digits8_octets].
Qed.
Lemma varint_octets_octets v : octets (varint_octets v).
Proof.
  apply add_sign_octets; [unfold is_octet; destruct (v <? 0); lia|].
  apply add_end_octets, digits7_range.
Qed.

Lemma octets_len_pos_uint v : 0 <= v -> 1 <= zlen (uint_octets v).
Proof.
  intros. unfold zlen, uint_octets. rewrite digits_length.
  pose proof (num_octets_pos 8 v false ltac:(lia) H). lia.
Qed.
Lemma octets_len_pos_varuint v : 0 <= v -> 1 <= zlen (varuint_octets v).
Proof.
  intros. unfold zlen, varuint_octets. rewrite add_end_length, digits_length.
  pose proof (num_octets_pos 7 v false ltac:(lia) H). lia.
Qed.
Lemma octets_len_pos_varint v : 1 <= zlen (varint_octets v).
Proof.
  intros. unfold zlen, varint_octets. rewrite add_sign_length, add_end_length, digits_length.
  pose proof (num_octets_pos 7 (Z.abs v) true ltac:(lia) ltac:(lia)). lia.
Qed.
Lemma octets_len_pos_int v : 1 <= zlen (int_octets v).
Proof.
  intros. unfold zlen, int_octets. rewrite add_sign_length, digits_length.
  pose proof (num_octets_pos 8 (Z.abs v) true ltac:(lia) ltac:(lia)). lia.
Qed.

Lemma parse_sids_aux_roundtrip sids : Forall (fun s => 0 <= s) sids ->
  forall fuel, (length (flat_map varuint_octets sids) <= fuel)%nat ->
  parse_sids_aux fuel (flat_map varuint_octets sids) = Ok sids.
Proof.
  induction 1 as [|s l Hs Hl IH]; intros fuel F.
  - destruct fuel; reflexivity.
  - cbn [flat_map] in *. rewrite app_length in F.
    pose proof (octets_len_pos_varuint s Hs) as P. unfold zlen in P.
    destruct fuel as [|fuel]; [lia|]. cbn [parse_sids_aux].
    destruct (varuint_octets s ++ flat_map varuint_octets l) as [|z zs] eqn:E.
    { destruct (varuint_octets s); [cbn in P; lia|discriminate]. }
    rewrite <- E. unfold parse_var_int. rewrite parse_varuint by exact Hs. cbn [bind].
    rewrite IH by lia. cbn [bind]. rewrite Z.mul_1_l. reflexivity.
Qed.
Lemma parse_sids_roundtrip sids : Forall (fun s => 0 <= s) sids ->
  parse_sids (flat_map varuint_octets sids) = Ok sids.
Proof. intros H. apply parse_sids_aux_roundtrip; auto. Qed.
