(** Round-trip facts for scalar payloads: text, decimals, floats. *)
From Verif Require Import Base BaseFacts FieldsModel FieldsFacts FieldsProofs CoreModel BinWriterModel.

(** * UTF-8 *)

Ltac Zify.zify_post_hook ::= Z.div_mod_to_equations.

Lemma utf8_cp_roundtrip c r : is_scalar c = true ->
  exists l, utf8_encode_cp c = Ok l /\ octets l /\ l <> [] /\ utf8_decode_cp (l ++ r) = Ok (c, r).
Proof.
  intros H. unfold utf8_encode_cp. rewrite H. cbn [negb].
  assert (R : 0 <= c <= 0x10FFFF) by (unfold is_scalar in H; lia).
  destruct (c <? 0x80) eqn:C1; [|destruct (c <? 0x800) eqn:C2; [|destruct (c <? 0x10000) eqn:C3]].
  - exists [c]. split; [reflexivity|].
    split; [constructor; [unfold is_octet; lia|constructor]|]. split; [discriminate|].
    cbn [app utf8_decode_cp]. rewrite C1. reflexivity.
  - eexists. split; [reflexivity|].
    split; [repeat (constructor; [unfold is_octet; lia|]); constructor|]. split; [discriminate|].
    cbn [app utf8_decode_cp].
    replace (0xC0 + c / 64 <? 0x80) with false by lia.
    replace (0xC0 + c / 64 <? 0xC2) with false by lia.
    replace (is_cont (0x80 + c mod 64)) with true by (unfold is_cont; lia). cbn [negb].
    replace (0xC0 + c / 64 <? 0xE0) with true by lia.
    do 2 f_equal. lia.
  - eexists. split; [reflexivity|].
    split; [repeat (constructor; [unfold is_octet; lia|]); constructor|]. split; [discriminate|].
    cbn [app utf8_decode_cp].
    replace (0xE0 + c / 4096 <? 0x80) with false by lia.
    replace (0xE0 + c / 4096 <? 0xC2) with false by lia.
    replace (is_cont (0x80 + (c / 64) mod 64)) with true by (unfold is_cont; lia). cbn [negb].
    replace (0xE0 + c / 4096 <? 0xE0) with false by lia.
    replace (is_cont (0x80 + c mod 64)) with true by (unfold is_cont; lia). cbn [negb].
    replace (0xE0 + c / 4096 <? 0xF0) with true by lia.
    replace ((0xE0 + c / 4096 - 0xE0) * 4096 + (0x80 + (c / 64) mod 64 - 0x80) * 64 + (0x80 + c mod 64 - 0x80))
      with c by lia.
    rewrite H, C2. reflexivity.
  - eexists. split; [reflexivity|].
    split; [repeat (constructor; [unfold is_octet; lia|]); constructor|]. split; [discriminate|].
    cbn [app utf8_decode_cp].
    replace (0xF0 + c / 262144 <? 0x80) with false by lia.
    replace (0xF0 + c / 262144 <? 0xC2) with false by lia.
    replace (is_cont (0x80 + (c / 4096) mod 64)) with true by (unfold is_cont; lia). cbn [negb].
    replace (0xF0 + c / 262144 <? 0xE0) with false by lia.
    replace (is_cont (0x80 + (c / 64) mod 64)) with true by (unfold is_cont; lia). cbn [negb].
    replace (0xF0 + c / 262144 <? 0xF0) with false by lia.
    replace (is_cont (0x80 + c mod 64)) with true by (unfold is_cont; lia). cbn [negb].
    replace ((0xF0 + c / 262144 - 0xF0) * 262144 + (0x80 + (c / 4096) mod 64 - 0x80) * 4096 +
             (0x80 + (c / 64) mod 64 - 0x80) * 64 + (0x80 + c mod 64 - 0x80)) with c by lia.
    rewrite H, C3. reflexivity.
Qed.

Definition text_ok (s : text) : Prop := Forall (fun c => is_scalar c = true) s.

Lemma utf8_roundtrip s : text_ok s ->
  exists l, utf8_encode s = Ok l /\ octets l /\ (s <> [] -> l <> []) /\ utf8_decode l = Ok s.
Proof.
  intros H. unfold utf8_decode.
  assert (G : exists l, utf8_encode s = Ok l /\ octets l /\ (s <> [] -> l <> []) /\
              forall fuel, (length l <= fuel)%nat -> utf8_decode_aux fuel l = Ok s).
  { induction H as [|c s Hc Hs IH].
    - exists []. split; [reflexivity|]. split; [constructor|]. split; [congruence|].
      intros [|f] _; reflexivity.
    - destruct IH as (l & E & O & _ & D). 
      destruct (utf8_cp_roundtrip c l Hc) as (a & Ea & Oa & Na & Da).
      exists (a ++ l). cbn [utf8_encode]. rewrite Ea, E. cbn [bind]. split; [reflexivity|].
      split; [apply octets_app; auto|].
      split; [intros _; destruct a; [contradiction|discriminate]|].
      intros fuel Hf. destruct a as [|x a]; [contradiction|]. cbn [app] in *.
      cbn [length] in Hf. destruct fuel as [|f]; [lia|].
      cbn [utf8_decode_aux]. rewrite Da. cbn [bind].
      rewrite D; [reflexivity|]. rewrite app_length in Hf. lia. }
  destruct G as (l & E & O & N & D). exists l. auto.
Qed.

Ltac Zify.zify_post_hook ::= idtac.

(** * Decimals *)

Lemma ndigits_aux_spec fuel : forall c, 0 <= c < 10 ^ Z.of_nat fuel -> (1 <= fuel)%nat ->
  1 <= ndigits_aux fuel c /\ c < 10 ^ ndigits_aux fuel c /\
  (0 < c -> 10 ^ (ndigits_aux fuel c - 1) <= c).
Proof.
  induction fuel as [|f IH]; intros c H Hf; [lia|].
  cbn [ndigits_aux]. destruct (c <? 10) eqn:C.
  - split; [lia|]. split; [change (10 ^ 1) with 10; lia|]. change (10 ^ (1 - 1)) with 1. lia.
  - assert (f <> 0%nat) by (intros ->; change (10 ^ Z.of_nat 1) with 10 in H; lia).
    rewrite Nat2Z.inj_succ, Z.pow_succ_r in H by lia.
    destruct (IH (c / 10)) as (A & B & D).
    { split; [apply Z.div_pos; lia|]. apply Z.div_lt_upper_bound; lia. }
    { lia. }
    set (n := ndigits_aux f (c / 10)) in *.
    pose proof (Z.div_mod c 10 ltac:(lia)). pose proof (Z.mod_pos_bound c 10 ltac:(lia)).
    split; [lia|]. split.
    + replace (1 + n) with (Z.succ n) by lia. rewrite Z.pow_succ_r by lia. lia.
    + intros _. replace (1 + n - 1) with (Z.succ (n - 1)) by lia.
      rewrite Z.pow_succ_r by lia. specialize (D ltac:(lia)). lia.
Qed.

Lemma ndigits_spec c : 0 <= c ->
  1 <= ndigits c /\ c < 10 ^ ndigits c /\ (0 < c -> 10 ^ (ndigits c - 1) <= c).
Proof.
  intros H. unfold ndigits. apply ndigits_aux_spec; [|lia].
  split; [lia|].
  destruct (Z.eq_dec c 0) as [->|N]; [reflexivity|].
  pose proof (Z.log2_spec c ltac:(lia)) as L.
  rewrite Nat2Z.inj_succ, Z2Nat.id by apply Z.log2_nonneg.
  eapply Z.lt_le_trans; [apply L|]. apply Z.pow_le_mono_l. lia.
Qed.

(** A finished result that needs no rounding and stays in range is left alone. *)
Lemma dec_fix_exact prec d : 0 < d_coef d -> ndigits (d_coef d) <= prec ->
  ndigits (d_coef d) - 1 + d_exp d <= dec_Emax -> dec_Emin - prec + 1 <= d_exp d ->
  dec_fix prec d = Ok d.
Proof.
  intros H1 H2 H3 H4. unfold dec_fix. cbv zeta.
  replace (d_coef d =? 0) with false by lia.
  replace (dec_Emax - prec + 1 <? ndigits (d_coef d) + d_exp d - prec) with false by lia.
  replace (d_exp d <? Z.max (ndigits (d_coef d) + d_exp d - prec) (dec_Emin - prec + 1)) with false by lia.
  reflexivity.
Qed.

(** The decimals the default [Emin]/[Emax] let through, in both directions. *)
Definition dec_in_range (d : dec) : Prop :=
  0 <= d_coef d /\
  if d_coef d =? 0 then - 2000000 <= d_exp d <= 2000000
  else ndigits (d_coef d) <= 1000000 /\ ndigits (d_coef d) - 1 + d_exp d <= 999999 /\
       - 999998 - ndigits (d_coef d) <= d_exp d.

Lemma dec_to_integral_0 d : d_exp d = 0 -> dec_to_integral d = d.
Proof. intros H. unfold dec_to_integral. rewrite H. reflexivity. Qed.

Lemma dec_int_0 s c : dec_int (mkdec s c 0) = if s then - c else c.
Proof. unfold dec_int; cbn. rewrite Z.mul_1_r. reflexivity. Qed.

Definition dec_payload (exp coefficient : Z) (sign : bool) : list Z :=
  varint_octets exp ++
  (if coefficient =? 0 then (if sign then [0x80] else []) else int_octets coefficient).

Lemma write_decimal_value_spec buf e c s :
  write_decimal_value buf e c s =
  Ok (buf ++ dec_payload e c s, zlen (dec_payload e c s)).
Proof.
  unfold write_decimal_value, dec_payload. rewrite write_varint_spec. cbn [bind].
  destruct (c =? 0) eqn:C; cbn [negb].
  - destruct s; [rewrite zlen_app, app_assoc|rewrite app_nil_r]; reflexivity.
  - rewrite write_int_spec. cbn [bind]. rewrite zlen_app, app_assoc. reflexivity.
Qed.

Lemma dec_payload_octets e c s : octets (dec_payload e c s).
Proof.
  apply octets_app. split; [apply varint_octets_octets|].
  destruct (c =? 0); [destruct s; [constructor; [unfold is_octet; lia|]|]; constructor|apply int_octets_octets].
Qed.
Lemma dec_payload_len e c s : 1 <= zlen (dec_payload e c s).
Proof.
  unfold dec_payload. rewrite zlen_app. pose proof (octets_len_pos_varint e).
  match goal with |- context [_ + zlen ?u] => pose proof (zlen_nonneg u) end. lia.
Qed.

(** Reading a payload back, when the coefficient carries the sign of the decimal. *)
Lemma parse_payload (d : dec) :
  0 <= d_coef d ->
  (0 < d_coef d -> ndigits (d_coef d) - 1 + d_exp d <= 999999 /\
                   - 999998 - ndigits (d_coef d) <= d_exp d) ->
  parse_decimal (dec_payload (d_exp d) (if d_neg d then - d_coef d else d_coef d) (d_neg d)) = Ok d.
Proof.
  intros Hc Hr. unfold parse_decimal, dec_payload, parse_var_int.
  rewrite parse_varint. cbn [bind].
  replace ((if d_exp d <? 0 then -1 else 1) * Z.abs (d_exp d)) with (d_exp d)
    by (destruct (d_exp d <? 0) eqn:E; lia).
  destruct d as [s c e]; cbn [d_neg d_coef d_exp] in *.
  destruct (c =? 0) eqn:C.
  - assert (c = 0) as -> by lia.
    replace ((if s then - 0 else 0) =? 0) with true by (destruct s; reflexivity).
    destruct s; reflexivity.
  - replace ((if s then - c else c) =? 0) with false by (destruct s; lia).
    rewrite parse_int_field.
    replace (Z.abs (if s then - c else c)) with c by (destruct s; lia).
    rewrite C.
    replace ((if s then - c else c) <? 0) with s by (destruct s; lia).
    destruct (ndigits_spec c ltac:(lia)) as (N1 & N2 & N3).
    destruct (Hr ltac:(lia)) as [R1 R2].
    set (p := ndigits c + (if (if s then 1 else 0) =? 0 then 0 else 1)).
    assert (Hp : ndigits c <= p) by (unfold p; destruct s; cbn; lia).
    unfold dec_scaleb.
    replace ((e <? - (2 * (dec_Emax + p))) || (2 * (dec_Emax + p) <? e)) with false
      by (unfold dec_Emax; lia).
    cbn [d_neg d_coef d_exp].
    replace (negb ((if s then 1 else 0) =? 0)) with s by (destruct s; reflexivity).
    apply dec_fix_exact; cbn [d_neg d_coef d_exp]; unfold dec_Emax, dec_Emin; lia.
Qed.

(** The coefficient the decimal serializer extracts. *)
Lemma decimal_coefficient d : dec_in_range d ->
  exists sc, dec_scaleb (ndigits (d_coef d)) d (- d_exp d) = Ok sc /\
    dec_int (dec_to_integral sc) = if d_neg d then - d_coef d else d_coef d.
Proof.
  intros [Hc Hr]. destruct d as [s c e]; cbn [d_neg d_coef d_exp] in *.
  destruct (ndigits_spec c Hc) as (N1 & N2 & N3).
  unfold dec_scaleb. cbn [d_neg d_coef d_exp].
  replace (e + - e) with 0 by lia.
  destruct (c =? 0) eqn:C.
  - assert (c = 0) as -> by lia. change (ndigits 0) with 1 in *.
    replace ((- e <? - (2 * (dec_Emax + 1))) || (2 * (dec_Emax + 1) <? - e)) with false
      by (unfold dec_Emax; lia).
    eexists. split; [reflexivity|]. cbn. destruct s; reflexivity.
  - destruct Hr as (R1 & R2 & R3).
    replace ((- e <? - (2 * (dec_Emax + ndigits c))) || (2 * (dec_Emax + ndigits c) <? - e)) with false
      by (unfold dec_Emax; lia).
    eexists. split.
    + apply dec_fix_exact; cbn [d_neg d_coef d_exp]; unfold dec_Emax, dec_Emin; lia.
    + rewrite dec_to_integral_0 by reflexivity. apply dec_int_0.
Qed.

(** * Floats *)

Lemma pack_be_digits n v : pack_be n v = digits 8 n v.
Proof.
  unfold pack_be. rewrite digits_map by lia. apply map_ext_in. intros i Hi.
  reflexivity.
Qed.

Lemma float_payload bits : 0 <= bits < 2 ^ 64 ->
  zlen (pack_be 8 bits) = 8 /\ octets (pack_be 8 bits) /\ parse_float (pack_be 8 bits) = Ok bits.
Proof.
  intros H. rewrite pack_be_digits.
  assert (L : zlen (digits 8 8 bits) = 8) by (rewrite zlen_digits; reflexivity).
  split; [exact L|]. split; [apply digits8_octets|].
  unfold parse_float. rewrite L. change (8 =? 8) with true. cbv iota. f_equal.
  rewrite unpack_undigits, undigits_digits by lia.
  change (8 * Z.of_nat 8) with 64. rewrite Z.mod_small by lia. lia.
Qed.
