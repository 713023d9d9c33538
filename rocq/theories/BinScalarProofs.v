(** The reader's thunks give what the payloads denote. *)
From Verif Require Import Base BaseFacts FieldsModel FieldsFacts CoreModel CalendarFacts BinWriterModel ScalarFacts TimestampFacts TimestampProofs TextRoundTripSpec TextGrammar TextNearest FloatProofs BinFormat BinScalars.
Local Open Scope Z_scope.

(** * Integers *)
Lemma big_endian_undigits l : forall a, big_endian a l = undigits 8 l a.
Proof. induction l as [|b l IH]; intros a; cbn [big_endian undigits]; [reflexivity|]. rewrite IH. reflexivity. Qed.
Lemma parse_int_value sign data : octets data -> parse_int sign data = sign * big_endian 0 data.
Proof. intros O. rewrite parse_int_be by exact O. rewrite big_endian_undigits. reflexivity. Qed.
Lemma unpack_value l : unpack_be l = big_endian 0 l.
Proof. rewrite unpack_undigits, big_endian_undigits. reflexivity. Qed.
Lemma big_endian_nonneg l : forall a, octets l -> 0 <= a -> 0 <= big_endian a l.
Proof. induction l as [|b l IH]; intros a O A; cbn [big_endian]; [exact A|]. apply octets_cons in O. destruct O as (B & O). unfold is_octet in B. apply IH; [exact O|lia]. Qed.
Lemma big_endian_bound l : forall a n, octets l -> 0 <= a < n -> big_endian a l < n * 256 ^ zlen l.
Proof.
  induction l as [|b l IH]; intros a n O A; cbn [big_endian].
  - change (zlen (@nil Z)) with 0. lia.
  - apply octets_cons in O. destruct O as (B & O). unfold is_octet in B. rewrite zlen_cons, Z.pow_add_r by (try apply zlen_nonneg; lia). specialize (IH (a * 256 + b) (n * 256) O ltac:(lia)). change (256 ^ 1) with 256. lia.
Qed.

(** * VarUInt and VarInt *)
Lemma var_octets acc c n : var_code acc c n -> octets c.
Proof. induction 1; apply octets_cons; (split; [unfold is_octet; lia|]); [constructor|assumption]. Qed.
Lemma var_nonempty acc c n : var_code acc c n -> c <> [].
Proof. destruct 1; discriminate. Qed.
Lemma var_parse acc c n : var_code acc c n -> forall s rest, parse_var_int_components (c ++ rest) false s acc = Ok (s, n, rest).
Proof.
  induction 1 as [acc d D|acc d bs n D V IH]; intros s rest; cbn [app parse_var_int_components]; cbv zeta; rewrite bit7_octet by lia; match goal with |- context [Z.lor (Z.shiftl acc 7) (Z.land ?o 127)] => change (Z.lor (Z.shiftl acc 7) (Z.land o 127)) with (varuint_step acc o) end; rewrite varuint_step_eq.
  - replace (128 <=? 128 + d) with true by lia. replace ((128 + d) mod 128) with d by (apply (Z.mod_unique _ _ 1); lia). reflexivity.
  - replace (128 <=? d) with false by lia. rewrite Z.mod_small by lia. apply IH.
Qed.
Lemma var_inverse buf : octets buf -> forall s acc s' v rest, parse_var_int_components buf false s acc = Ok (s', v, rest) -> exists c, buf = c ++ rest /\ var_code acc c v /\ s' = s.
Proof.
  induction buf as [|o buf IH]; intros O s acc s' v rest H; [discriminate|]. apply octets_cons in O. destruct O as (B & O). unfold is_octet in B. cbn [parse_var_int_components] in H. cbv zeta in H.
  rewrite bit7_octet in H by lia. change (Z.lor (Z.shiftl acc 7) (Z.land o 0x7F)) with (varuint_step acc o) in H. rewrite varuint_step_eq in H. destruct (128 <=? o) eqn:L.
  - injection H as <- <- <-. exists [o]. split; [reflexivity|]. split; [|reflexivity]. replace (o mod 128) with (o - 128) by (apply (Z.mod_unique _ _ 1); lia). pose proof (var_last acc (o - 128) ltac:(lia)) as V. replace (128 + (o - 128)) with o in V by lia. exact V.
  - rewrite Z.mod_small in H by lia. destruct (IH O _ _ _ _ _ H) as (c & -> & V & ->). exists (o :: c). split; [reflexivity|]. split; [|reflexivity]. apply var_more; [lia|exact V].
Qed.
Lemma varuint_parse c n rest : varuint_code c n -> parse_var_int (c ++ rest) false = Ok (n, rest).
Proof. intros V. unfold parse_var_int. rewrite (var_parse _ _ _ V). cbn [bind]. rewrite Z.mul_1_l. reflexivity. Qed.
Lemma varuint_inverse buf v rest : octets buf -> parse_var_int buf false = Ok (v, rest) -> exists c, buf = c ++ rest /\ varuint_code c v.
Proof.
  intros O H. unfold parse_var_int in H. apply bind_ok in H as ([[s' v'] rest'] & E & H). injection H as <- <-. destruct (var_inverse _ O _ _ _ _ _ E) as (c & -> & V & ->). exists c. rewrite Z.mul_1_l. auto.
Qed.
Lemma varint_octets c neg m : varint_code c neg m -> octets c.
Proof. destruct 1 as [neg m M|neg m bs n M V]; apply octets_cons; (split; [unfold is_octet; destruct neg; lia|]); [constructor|exact (var_octets _ _ _ V)]. Qed.
Lemma varint_parse c neg m rest : varint_code c neg m -> parse_var_int_components (c ++ rest) true 1 0 = Ok (if neg then -1 else 1, m, rest).
Proof.
  intros H. destruct H as [neg m M|neg m bs n M V]; cbn [app parse_var_int_components]; cbv zeta; rewrite bit7_octet, bit6_octet, land_3F by (destruct neg; lia).
  - replace (128 <=? 128 + (if neg then 64 else 0) + m) with true by (destruct neg; lia).
    replace ((128 + (if neg then 64 else 0) + m) mod 128) with ((if neg then 64 else 0) + m) by (apply (Z.mod_unique _ _ 1); destruct neg; lia).
    replace ((128 + (if neg then 64 else 0) + m) mod 64) with m by (apply (Z.mod_unique _ _ (if neg then 3 else 2)); destruct neg; lia).
    destruct neg; [replace (64 <=? 64 + m) with true by lia|replace (64 <=? 0 + m) with false by lia]; reflexivity.
  - replace (128 <=? (if neg then 64 else 0) + m) with false by (destruct neg; lia).
    replace (((if neg then 64 else 0) + m) mod 128) with ((if neg then 64 else 0) + m) by (symmetry; apply Z.mod_small; destruct neg; lia).
    replace (((if neg then 64 else 0) + m) mod 64) with m by (apply (Z.mod_unique _ _ (if neg then 1 else 0)); destruct neg; lia).
    rewrite (var_parse _ _ _ V). destruct neg; [replace (64 <=? 64 + m) with true by lia|replace (64 <=? 0 + m) with false by lia]; reflexivity.
Qed.
Lemma varint_inverse buf s v rest : octets buf -> parse_var_int_components buf true 1 0 = Ok (s, v, rest) -> exists c neg, buf = c ++ rest /\ varint_code c neg v /\ s = if neg then -1 else 1.
Proof.
  intros O H. destruct buf as [|o buf]; [discriminate|]. apply octets_cons in O. destruct O as (B & O). unfold is_octet in B. cbn [parse_var_int_components] in H. cbv zeta in H.
  rewrite bit7_octet, bit6_octet, land_3F in H by lia. set (neg := 64 <=? o mod 128) in *.
  pose proof (Z.div_mod o 128 ltac:(lia)) as D1. pose proof (Z.mod_pos_bound o 128 ltac:(lia)) as D2. pose proof (Z.mod_pos_bound o 64 ltac:(lia)) as D3.
  assert (E : o mod 128 = (if neg then 64 else 0) + o mod 64).
  { unfold neg. destruct (64 <=? o mod 128) eqn:L.
    - assert (o mod 64 = o mod 128 - 64); [|lia]. symmetry. apply (Z.mod_unique _ _ (2 * (o / 128) + 1)); lia.
    - assert (o mod 64 = o mod 128); [|lia]. symmetry. apply (Z.mod_unique _ _ (2 * (o / 128))); lia. }
  destruct (128 <=? o) eqn:L.
  - injection H as <- <- <-. exists [o], neg. split; [reflexivity|]. split; [|reflexivity]. pose proof (varint_one neg (o mod 64) D3) as V. replace (128 + (if neg then 64 else 0) + o mod 64) with o in V; [exact V|].
    assert (o / 128 = 1) by (symmetry; apply (Z.div_unique _ _ _ (o - 128)); lia). lia.
  - destruct (var_inverse _ O _ _ _ _ _ H) as (c & -> & V & ->). exists (o :: c), neg. split; [reflexivity|]. split; [|reflexivity]. pose proof (varint_more neg (o mod 64) c v D3 V) as W. replace ((if neg then 64 else 0) + o mod 64) with o in W; [exact W|].
    rewrite <- E. symmetry. apply Z.mod_small. lia.
Qed.
Lemma int_parse c neg m : int_code c neg m -> parse_signed_int_components c = (if neg then 1 else 0, m).
Proof.
  intros H. destruct H as [|neg m bs M O]; [reflexivity|]. cbn [parse_signed_int_components]. rewrite bit7_octet, land_7F by (destruct neg; lia). rewrite fold_shift8 by exact O. rewrite big_endian_undigits.
  replace (((if neg then 128 else 0) + m) mod 128) with m by (apply (Z.mod_unique _ _ (if neg then 1 else 0)); destruct neg; lia).
  destruct neg; [replace (128 <=? 128 + m) with true by lia|replace (128 <=? 0 + m) with false by lia]; reflexivity.
Qed.
Lemma int_nonneg c neg m : int_code c neg m -> 0 <= m.
Proof. destruct 1 as [|neg m bs M O]; [lia|apply big_endian_nonneg; [exact O|lia]]. Qed.
Lemma int_inverse c : octets c -> exists neg m, int_code c neg m.
Proof.
  intros O. destruct c as [|o c]; [exists false, 0; constructor|]. apply octets_cons in O. destruct O as (B & O). unfold is_octet in B. destruct (Z.ltb_spec o 128) as [L|L].
  - exists false, (big_endian o c). exact (int_octets false o c ltac:(lia) O).
  - exists true, (big_endian (o - 128) c). pose proof (int_octets true (o - 128) c ltac:(lia) O) as X. cbv iota in X; replace (128 + (o - 128)) with o in X by lia. exact X.
Qed.
Lemma int_code_octets c neg m : int_code c neg m -> octets c.
Proof. destruct 1 as [|neg m bs M O]; [constructor|]. apply octets_cons. split; [unfold is_octet; destruct neg; lia|exact O]. Qed.

(** * Decimals *)
Lemma digits_of d n : 0 < d_coef d -> 1 <= n -> 10 ^ (n - 1) <= d_coef d < 10 ^ n -> ndigits (d_coef d) = n.
Proof. apply ndigits_unique. Qed.
Lemma decimal_parse data d : decimal_code data d -> in_exponent_range d -> parse_decimal data = Ok d.
Proof.
  intros (ec & eneg & em & cc & -> & EC & EX & CC) R. unfold parse_decimal, parse_var_int. rewrite (varint_parse _ _ _ _ EC). cbn [bind]. rewrite (int_parse _ _ _ CC). pose proof (int_nonneg _ _ _ CC) as NN.
  replace ((if eneg then -1 else 1) * em) with (d_exp d) by (rewrite EX; unfold signed; destruct eneg; lia). destruct d as [s c e]. cbn [d_neg d_coef d_exp] in *. destruct (c =? 0) eqn:Z0.
  - assert (c = 0) as -> by lia. destruct s; reflexivity.
  - destruct R as [R|(n & N & RC & RE)]; [cbn [d_coef] in R; lia|]. cbn [d_coef d_exp] in *. assert (ND : ndigits c = n) by (apply ndigits_unique; lia). rewrite ND.
    replace (negb ((if s then 1 else 0) =? 0)) with s by (destruct s; reflexivity).
    set (p := n + (if (if s then 1 else 0) =? 0 then 0 else 1)). assert (Hp : n <= p) by (unfold p; destruct s; cbn; lia).
    unfold dec_scaleb. replace ((e <? - (2 * (dec_Emax + p))) || (2 * (dec_Emax + p) <? e)) with false by (unfold dec_Emax; lia).
    cbn [d_neg d_coef d_exp]. apply dec_fix_exact; cbn [d_neg d_coef d_exp]; unfold dec_Emax, dec_Emin; lia.
Qed.
Lemma decimal_inverse data d : octets data -> parse_decimal data = Ok d -> exists d0, decimal_code data d0.
Proof.
  intros O H. unfold parse_decimal, parse_var_int in H. apply bind_ok in H as ([e rest] & E & _). apply bind_ok in E as ([[s v] rest'] & E & F). injection F as <- <-.
  destruct (varint_inverse _ _ _ _ O E) as (c & neg & -> & V & ->). apply octets_app in O. destruct O as (_ & O). destruct (int_inverse _ O) as (n & m & I). exists (mkdec n m (signed neg v)), c, neg, v, rest'. auto.
Qed.
Lemma decimal_octets data d : decimal_code data d -> octets data.
Proof. intros (ec & eneg & em & cc & -> & EC & _ & CC). apply octets_app. split; [exact (varint_octets _ _ _ EC)|exact (int_code_octets _ _ _ CC)]. Qed.

(** * UTF-8 *)
Lemma utf8_char_decode bs c rest : utf8_char bs c -> utf8_decode_cp (bs ++ rest) = Ok (c, rest).
Proof.
  unfold is_scalar. destruct 1 as [c C|a b A B M|a b c A B C M S|a b c d A B C D M]; cbn [app utf8_decode_cp].
  - replace (c <? 0x80) with true by lia. reflexivity.
  - replace (0xC0 + a <? 0x80) with false by lia. replace (0xC0 + a <? 0xC2) with false by lia. unfold is_cont. replace (negb _) with false by lia. replace (0xC0 + a <? 0xE0) with true by lia. f_equal. f_equal. lia.
  - replace (0xE0 + a <? 0x80) with false by lia. replace (0xE0 + a <? 0xC2) with false by lia. unfold is_cont. replace (negb ((128 <=? 128 + b) && _)) with false by lia. replace (0xE0 + a <? 0xE0) with false by lia. replace (negb _) with false by lia.
    replace (0xE0 + a <? 0xF0) with true by lia. cbv zeta. replace ((0xE0 + a - 0xE0) * 4096 + (0x80 + b - 0x80) * 64 + (0x80 + c - 0x80)) with (a * 4096 + b * 64 + c) by lia. unfold is_scalar.
    replace ((a * 4096 + b * 64 + c <? 0x800) || negb _) with false by lia. reflexivity.
  - replace (0xF0 + a <? 0x80) with false by lia. replace (0xF0 + a <? 0xC2) with false by lia. unfold is_cont. replace (negb ((128 <=? 128 + b) && _)) with false by lia. replace (0xF0 + a <? 0xE0) with false by lia. replace (negb ((128 <=? 128 + c) && _)) with false by lia.
    replace (0xF0 + a <? 0xF0) with false by lia. replace (negb _) with false by lia. cbv zeta. replace ((0xF0 + a - 0xF0) * 262144 + (0x80 + b - 0x80) * 4096 + (0x80 + c - 0x80) * 64 + (0x80 + d - 0x80)) with (a * 262144 + b * 4096 + c * 64 + d) by lia.
    unfold is_scalar. replace ((a * 262144 + b * 4096 + c * 64 + d <? 0x10000) || negb _) with false by lia. reflexivity.
Qed.
Lemma utf8_char_nonempty bs c : utf8_char bs c -> bs <> []. Proof. destruct 1; discriminate. Qed.
Lemma utf8_text_decode data s : utf8_text data s -> forall f, (length data <= f)%nat -> utf8_decode_aux f data = Ok s.
Proof.
  induction 1 as [|bs c l s C T IH]; intros f F; [destruct f; reflexivity|]. rewrite app_length in F. pose proof (utf8_char_nonempty _ _ C) as NE. destruct bs as [|b bs]; [congruence|]. cbn [length] in F. destruct f as [|f]; [lia|].
  cbn [utf8_decode_aux]. change ((b :: bs) ++ l) with (b :: bs ++ l). cbv iota beta. change (b :: bs ++ l) with ((b :: bs) ++ l). rewrite (utf8_char_decode _ _ _ C). cbn [bind]. rewrite IH by lia. reflexivity.
Qed.
Lemma utf8_char_inverse data c rest : octets data -> utf8_decode_cp data = Ok (c, rest) -> exists bs, data = bs ++ rest /\ utf8_char bs c.
Proof.
  intros O H. destruct data as [|b0 r0]; [discriminate|]. apply octets_cons in O. destruct O as (B0 & O). unfold is_octet in B0. cbn [utf8_decode_cp] in H. unfold is_cont, is_scalar in H.
  destruct (b0 <? 0x80) eqn:L0; [injection H as <- <-; exists [b0]; split; [reflexivity|constructor; lia]|]. destruct (b0 <? 0xC2) eqn:L1; [discriminate|]. destruct r0 as [|b1 r1]; [discriminate|]. apply octets_cons in O. destruct O as (B1 & O). unfold is_octet in B1.
  destruct (negb ((128 <=? b1) && (b1 <=? 191))) eqn:C1; [discriminate|]. destruct (b0 <? 0xE0) eqn:L2.
  { injection H as <- <-. exists [b0; b1]. split; [reflexivity|]. pose proof (utf8_2 (b0 - 0xC0) (b1 - 0x80) ltac:(lia) ltac:(lia) ltac:(lia)) as X. replace (0xC0 + (b0 - 0xC0)) with b0 in X by lia. replace (0x80 + (b1 - 0x80)) with b1 in X by lia. exact X. }
  destruct r1 as [|b2 r2]; [discriminate|]. apply octets_cons in O. destruct O as (B2 & O). unfold is_octet in B2. destruct (negb ((128 <=? b2) && (b2 <=? 191))) eqn:C2; [discriminate|]. destruct (b0 <? 0xF0) eqn:L3.
  { cbv zeta in H. match type of H with (if ?x then _ else _) = _ => destruct x eqn:R; [discriminate|] end. injection H as <- <-. exists [b0; b1; b2]. split; [reflexivity|].
    pose proof (utf8_3 (b0 - 0xE0) (b1 - 0x80) (b2 - 0x80) ltac:(lia) ltac:(lia) ltac:(lia) ltac:(lia) ltac:(lia)) as X. replace (0xE0 + (b0 - 0xE0)) with b0 in X by lia. replace (0x80 + (b1 - 0x80)) with b1 in X by lia. replace (0x80 + (b2 - 0x80)) with b2 in X by lia. exact X. }
  destruct r2 as [|b3 r3]; [discriminate|]. destruct (negb ((128 <=? b3) && (b3 <=? 191))) eqn:C3; [discriminate|]. cbv zeta in H. match type of H with (if ?x then _ else _) = _ => destruct x eqn:R; [discriminate|] end. injection H as <- <-. exists [b0; b1; b2; b3]. split; [reflexivity|].
  pose proof (utf8_4 (b0 - 0xF0) (b1 - 0x80) (b2 - 0x80) (b3 - 0x80) ltac:(lia) ltac:(lia) ltac:(lia) ltac:(lia) ltac:(lia)) as X.
  replace (0xF0 + (b0 - 0xF0)) with b0 in X by lia. replace (0x80 + (b1 - 0x80)) with b1 in X by lia. replace (0x80 + (b2 - 0x80)) with b2 in X by lia. replace (0x80 + (b3 - 0x80)) with b3 in X by lia. exact X.
Qed.
Lemma utf8_text_inverse f : forall data s, octets data -> utf8_decode_aux f data = Ok s -> utf8_text data s.
Proof.
  induction f as [|f IH]; intros data s O H; destruct data as [|b data]; cbn [utf8_decode_aux] in H; try discriminate; try (injection H as <-; constructor).
  apply bind_ok in H as ([c r] & C & H). apply bind_ok in H as (s' & S & H). injection H as <-. destruct (utf8_char_inverse _ _ _ O C) as (bs & E & UC). rewrite E in *. apply octets_app in O. apply utf8_cons; [exact UC|]. apply IH; tauto.
Qed.

(** * Floats *)
Lemma fields_of b : 0 <= b < 2 ^ 64 -> exists s e m, (s = 0 \/ s = 1) /\ 0 <= e < 2 ^ 11 /\ 0 <= m < 2 ^ 52 /\ b = s * 2 ^ 63 + (e * 2 ^ 52 + m).
Proof.
  intros B. exists (b / 2 ^ 63), (b mod 2 ^ 63 / 2 ^ 52), (b mod 2 ^ 63 mod 2 ^ 52). pose proof (Z.div_mod b (2 ^ 63) ltac:(lia)). pose proof (Z.mod_pos_bound b (2 ^ 63) ltac:(lia)).
  pose proof (Z.div_mod (b mod 2 ^ 63) (2 ^ 52) ltac:(lia)). pose proof (Z.mod_pos_bound (b mod 2 ^ 63) (2 ^ 52) ltac:(lia)). lia.
Qed.
Lemma double_parts s e m : (s = 0 \/ s = 1) -> 0 <= e < 2 ^ 11 -> 0 <= m < 2 ^ 52 ->
  double (s * 2 ^ 63 + (e * 2 ^ 52 + m)) = if e =? 2047 then (if m =? 0 then Infinite (s =? 1) else NotANumber) else Finite (s =? 1) (double_size (e * 2 ^ 52 + m)).
Proof.
  intros S E M. destruct (fields64 s e m S E M) as (A & B & C & R). cbv zeta in *. unfold double, ieee. change (11 + 52) with 63. rewrite A, B, C. change (2 ^ 11 - 1) with 2047. destruct (e =? 2047) eqn:E1; [reflexivity|].
  destruct (e =? 0) eqn:E0; f_equal.
  - assert (e = 0) as -> by lia. unfold double_size. replace (0 * 2 ^ 52 + m <? 2 ^ 52) with true by lia. lia.
  - rewrite <- (size_at (e - 1) (2 ^ 52 + m)) by lia. f_equal. lia.
Qed.
Lemma size_injective a b : 0 <= a -> 0 <= b -> double_size a = double_size b -> a = b.
Proof. intros A B E. destruct (Z.lt_trichotomy a b) as [L|[L|L]]; [pose proof (size_mono _ _ (conj A L)); lia|exact L|pose proof (size_mono _ _ (conj B L)); lia]. Qed.
Lemma double_injective a b : 0 <= a < 2 ^ 64 -> 0 <= b < 2 ^ 64 -> double a = double b -> double a <> NotANumber -> a = b.
Proof.
  intros A B E N. destruct (fields_of a A) as (s & e & m & S & E1 & M & ->). destruct (fields_of b B) as (s' & e' & m' & S' & E1' & M' & ->). clear A B. rewrite !double_parts in E by assumption. rewrite double_parts in N by assumption.
  destruct (e =? 2047) eqn:X; destruct (e' =? 2047) eqn:X'; try (destruct (m =? 0); congruence); try (destruct (m' =? 0); congruence).
  - destruct (m =? 0) eqn:Y; [|congruence]. destruct (m' =? 0) eqn:Y'; [|congruence]. injection E as E. assert (s = s') by (destruct S, S'; subst; cbn in E; congruence). lia.
  - injection E as E E'. apply size_injective in E'; [|lia|lia]. assert (s = s') by (destruct S, S'; subst; cbn in E; congruence). lia.
Qed.
Lemma quiet_bits m : 0 < m < 2 ^ 23 -> Z.lor (m * 2 ^ 29) (2 ^ 51) = (if m <? 2 ^ 22 then m + 2 ^ 22 else m) * 2 ^ 29.
Proof.
  intros M. replace (2 ^ 51) with (2 ^ 22 * 2 ^ 29) by reflexivity. rewrite <- !Z.shiftl_mul_pow2 by lia. rewrite <- Z.shiftl_lor. f_equal. destruct (m <? 2 ^ 22) eqn:L.
  - rewrite <- Z.lxor_lor, <- Z.add_nocarry_lxor; try reflexivity; apply Z.bits_inj'; intros i I; rewrite Z.land_spec, Z.bits_0, Z.pow2_bits_eqb by lia; destruct (Z.eqb_spec 22 i) as [<-|]; rewrite ?andb_false_r, ?andb_true_r; try reflexivity; apply Z.bits_above_log2; try lia; apply Z.log2_lt_pow2; lia.
  - apply Z.bits_inj'. intros i I. rewrite Z.lor_spec, Z.pow2_bits_eqb by lia. destruct (Z.eqb_spec 22 i) as [<-|]; rewrite ?orb_false_r, ?orb_true_r; [|reflexivity]. symmetry.
    assert (LG : Z.log2 m = 22) by (apply Z.log2_unique; lia). rewrite <- LG. apply Z.bit_log2. lia.
Qed.
Lemma widened_exact b : 0 <= b < 2 ^ 32 -> widened b (float32_to_64 b).
Proof.
  intros B. destruct (widening_exact b B) as (R & D). split; [exact R|]. split; [exact D|]. intros N. unfold single, ieee in N. cbv zeta in N. change (2 ^ 8 - 1) with 255 in N. unfold float32_to_64. change (2 ^ 8) with 256 in N.
  assert (S : b / 2 ^ 31 = 0 \/ b / 2 ^ 31 = 1). { assert (0 <= b / 2 ^ 31) by (apply Z.div_pos; lia). assert (b / 2 ^ 31 < 2) by (apply Z.div_lt_upper_bound; lia). lia. }
  assert (M : 0 <= b mod 2 ^ 23 < 2 ^ 23) by (apply Z.mod_pos_bound; lia). cbv zeta.
  destruct (b / 2 ^ 23 mod 256 =? 255); [|destruct (b / 2 ^ 23 mod 256 =? 0); discriminate]. destruct (b mod 2 ^ 23 =? 0) eqn:M0; [discriminate|]. rewrite quiet_bits by lia.
  set (s := b / 2 ^ 31) in *. set (m := b mod 2 ^ 23) in *. set (q := (if m <? 2 ^ 22 then m + 2 ^ 22 else m)). assert (Q : 0 <= q < 2 ^ 23) by (unfold q; destruct (m <? 2 ^ 22) eqn:L; lia). clearbody s m q. 
  split; [symmetry; apply Z.div_unique with (2047 * 2 ^ 52 + q * 2 ^ 29); [left|]; lia|]. symmetry. apply Z.mod_unique with (s * 2 ^ 11 + 2047); [left|]; lia.
Qed.
Lemma widened_unique b x y : widened b x -> widened b y -> x = y.
Proof.
  intros (X & DX & NX) (Y & DY & NY). destruct (single b) as [n u|n|] eqn:S; cbn [in_double_units] in *; try (apply double_injective; [exact X|exact Y|congruence|rewrite DX; discriminate]).
  destruct (NX eq_refl) as (SX & MX). destruct (NY eq_refl) as (SY & MY). destruct (fields_of x X) as (s & e & m & PS & PE & PM & ->). destruct (fields_of y Y) as (s' & e' & m' & PS' & PE' & PM' & ->).
  rewrite double_parts in DX, DY by assumption. destruct (fields64 s e m PS PE PM) as (_ & _ & C & _). destruct (fields64 s' e' m' PS' PE' PM') as (_ & _ & C' & _). cbv zeta in *. rewrite C in MX. rewrite C' in MY.
  assert (D1 : (s * 2 ^ 63 + (e * 2 ^ 52 + m)) / 2 ^ 63 = s) by (symmetry; apply Z.div_unique with (e * 2 ^ 52 + m); [left|]; lia). assert (D2 : (s' * 2 ^ 63 + (e' * 2 ^ 52 + m')) / 2 ^ 63 = s') by (symmetry; apply Z.div_unique with (e' * 2 ^ 52 + m'); [left|]; lia).
  destruct (e =? 2047) eqn:E; [|congruence]. destruct (e' =? 2047) eqn:E'; [|congruence]. assert (e = e') by lia. assert (m = m') by congruence. assert (s = s') by congruence. subst. reflexivity.
Qed.
Lemma float_forward data b : octets data -> float_code data b -> parse_float data = Ok b.
Proof.
  intros O [(L & ->)|(L & W)]; unfold parse_float; rewrite L; cbn [Z.eqb Pos.eqb]; rewrite ?unpack_value; [reflexivity|]. f_equal. apply (widened_unique (big_endian 0 data)); [|exact W]. apply widened_exact.
  pose proof (big_endian_nonneg data 0 O ltac:(lia)). pose proof (big_endian_bound data 0 1 O ltac:(lia)) as U. rewrite L in U. change (1 * 256 ^ 4) with (2 ^ 32) in U. lia.
Qed.
Lemma float_inverse data b : octets data -> parse_float data = Ok b -> float_code data b.
Proof.
  intros O H. unfold parse_float in H. destruct (zlen data =? 8) eqn:L8; [injection H as <-; left; rewrite unpack_value; split; [lia|reflexivity]|]. destruct (zlen data =? 4) eqn:L4; [|discriminate]. injection H as <-. right. split; [lia|]. rewrite unpack_value. apply widened_exact.
  pose proof (big_endian_nonneg data 0 O ltac:(lia)). pose proof (big_endian_bound data 0 1 O ltac:(lia)) as U. replace (zlen data) with 4 in U by lia. change (1 * 256 ^ 4) with (2 ^ 32) in U. lia.
Qed.

(** * The calendar *)
Lemma year_starts a n : 0 <= n -> days_before_year (a + 1) <= days_before_year (a + 1 + n).
Proof.
  intros N. revert n N. apply natlike_ind; [rewrite Z.add_0_r; lia|]. intros n N IH. replace (a + 1 + Z.succ n) with (a + 1 + n + 1) by lia. rewrite (year_length (a + 1 + n)). destruct (is_leap (a + 1 + n)); lia.
Qed.
Lemma month_starts y a n : 1 <= a -> 0 <= n -> days_before_month y (Z.to_nat (a + 1)) <= days_before_month y (Z.to_nat (a + 1 + n)).
Proof.
  intros A N. revert n N. apply natlike_ind; [rewrite Z.add_0_r; lia|]. intros n N IH. replace (a + 1 + Z.succ n) with (a + 1 + n + 1) by lia. rewrite (days_before_month_succ y (a + 1 + n)) by lia. pose proof (days_in_month_pos y (a + 1 + n)). lia.
Qed.
Lemma day_bounds y m d : date_ok y m d -> days_before_year y < day_number y m d <= days_before_year (y + 1).
Proof.
  intros (M & D). unfold day_number. rewrite year_length, <- days_in_year. pose proof (days_before_month_succ y 12 ltac:(lia)) as T. pose proof (days_before_month_succ y m ltac:(lia)) as N.
  assert (days_before_month y (Z.to_nat (m + 1)) <= days_before_month y (Z.to_nat (12 + 1))) by (replace (12 + 1) with (m + 1 + (12 - m)) by lia; apply month_starts; lia).
  assert (0 <= days_before_month y (Z.to_nat m)).
  { destruct (Z.eq_dec m 1) as [->|]; [apply Z.le_refl|]. replace m with (1 + 1 + (m - 2)) by lia. pose proof (month_starts y 1 (m - 2) ltac:(lia) ltac:(lia)). pose proof (days_before_month_succ y 1 ltac:(lia)). pose proof (days_in_month_pos y 1). change (Z.to_nat 1) with 1%nat in *. change (days_before_month y 1) with 0 in *. lia. }
  change (Z.to_nat 12) with 12%nat in *. change (Z.to_nat (12 + 1)) with 13%nat in *. lia.
Qed.
Lemma month_before y m d m' d' : date_ok y m d -> date_ok y m' d' -> m < m' -> day_number y m d < day_number y m' d'.
Proof.
  intros (M & D) (M' & D') L. unfold day_number. pose proof (days_before_month_succ y m ltac:(lia)). pose proof (month_starts y m (m' - m - 1) ltac:(lia) ltac:(lia)) as S. replace (m + 1 + (m' - m - 1)) with m' in S by lia. lia.
Qed.
Lemma year_before y m d y' m' d' : date_ok y m d -> date_ok y' m' d' -> y < y' -> day_number y m d < day_number y' m' d'.
Proof.
  intros A B L. pose proof (day_bounds _ _ _ A). pose proof (day_bounds _ _ _ B). pose proof (year_starts y (y' - y - 1) ltac:(lia)) as S. replace (y + 1 + (y' - y - 1)) with y' in S by lia. lia.
Qed.
Lemma day_injective y m d y' m' d' : date_ok y m d -> date_ok y' m' d' -> day_number y m d = day_number y' m' d' -> (y, m, d) = (y', m', d').
Proof.
  intros A B E. destruct (Z.lt_trichotomy y y') as [L|[<-|L]]; [pose proof (year_before _ _ _ _ _ _ A B L); lia| |pose proof (year_before _ _ _ _ _ _ B A L); lia].
  destruct (Z.lt_trichotomy m m') as [L|[<-|L]]; [pose proof (month_before _ _ _ _ _ A B L); lia| |pose proof (month_before _ _ _ _ _ B A L); lia]. unfold day_number in E. f_equal. lia.
Qed.
Lemma shift_reaches t delta t' : dt_ok t -> dt_ok t' -> -86400 < delta < 86400 -> seconds_of t' = seconds_of t + delta ->
  dt_shift t delta = Ok (mkdt (dt_year t') (dt_month t') (dt_day t') (dt_hour t') (dt_minute t') (dt_second t') (dt_micro t) (dt_off t)).
Proof.
  intros (_ & DK & H & M & S & _) (Y' & DK' & H' & M' & S' & _) DL E. unfold dt_shift. cbv zeta. unfold seconds_of in E. set (s := dt_hour t * 3600 + dt_minute t * 60 + dt_second t + delta) in *.
  assert (X : exists y m d s', (if s <? 0 then prev_day (dt_year t) (dt_month t) (dt_day t) else if 86400 <=? s then next_day (dt_year t) (dt_month t) (dt_day t) else (dt_year t, dt_month t, dt_day t)) = (y, m, d) /\
     (if s <? 0 then s + 86400 else if 86400 <=? s then s - 86400 else s) = s' /\ date_ok y m d /\ 0 <= s' < 86400 /\ day_number y m d * 86400 + s' = day_number (dt_year t) (dt_month t) (dt_day t) * 86400 + s).
  { destruct (s <? 0) eqn:L1; [|destruct (86400 <=? s) eqn:L2].
    - pose proof (prev_day_number _ _ _ DK) as P. destruct (prev_day _ _ _) as [[y m] d]. exists y, m, d, (s + 86400). destruct P as (P1 & P2 & _). repeat split; try assumption; try apply P2; lia.
    - pose proof (next_day_number _ _ _ DK) as P. destruct (next_day _ _ _) as [[y m] d]. exists y, m, d, (s - 86400). destruct P as (P1 & P2 & _). repeat split; try assumption; try apply P2; lia.
    - exists (dt_year t), (dt_month t), (dt_day t), s. repeat split; try apply DK; lia. }
  destruct X as (y & m & d & s' & -> & -> & DK1 & SB & SE). assert (DN : day_number y m d = day_number (dt_year t') (dt_month t') (dt_day t')) by (unfold s in SE; lia).
  pose proof (day_injective _ _ _ _ _ _ DK1 DK' DN) as J. injection J as -> -> ->. assert (s' = dt_hour t' * 3600 + dt_minute t' * 60 + dt_second t') by (unfold s in SE; lia). subst s'. clearbody s.
  replace ((1 <=? dt_year t') && (dt_year t' <=? 9999)) with true by lia. f_equal. f_equal; symmetry; Z.to_euclidean_division_equations; lia.
Qed.

(** * Timestamps *)
Lemma fraction_range f : (d_coef f = 0 \/ d_coef f < 10 ^ (- d_exp f)) -> 0 <= d_coef f -> -999999 <= d_exp f < 0 -> in_exponent_range f.
Proof.
  intros C P E. destruct (Z.eq_dec (d_coef f) 0) as [Z0|NZ]; [left; exact Z0|]. right. destruct C as [C|C]; [contradiction|]. destruct (ndigits_spec (d_coef f) ltac:(lia)) as (N1 & N2 & N3). exists (ndigits (d_coef f)).
  pose proof (ndigits_le (d_coef f) (- d_exp f) ltac:(lia) ltac:(lia) C). split; [lia|]. split; [|lia]. split; [apply N3; lia|exact N2].
Qed.
Lemma moment_adjusts m t : timestamp_of m t ->
  let off := match m_offset m with Some o => Some (o * 60) | None => None end in let u := utc_fields (m_fields m) off in
  adjust_from_utc_fields (dt_year u) (dt_month u) (dt_day u) (dt_hour u) (dt_minute u) (dt_second u) off (Some (m_precision m)) (fraction_given (m_fraction m)) = Ok (TsStamp t).
Proof.
  intros (OB & UOK & TOK & TOFF & TP & SEC & FR). cbv zeta. set (off := match m_offset m with Some o => Some (o * 60) | None => None end) in *. clearbody off.
  assert (V : frac_valid (ts_frac t) = true /\ frac_norm (ts_frac t) = ts_frac t /\ 0 <= d_coef (ts_frac t) /\ ndigits (d_coef (ts_frac t)) <= 28 /\ -999999 <= d_exp (ts_frac t) /\ dt_micro (ts_dt t) = micros_of (ts_frac t) /\ ts_fprec t = Z.min (- d_exp (ts_frac t)) 6 /\ (fraction_given (m_fraction m) = Some (ts_frac t) \/ fraction_given (m_fraction m) = None /\ ts_frac t = dec_zero)).
  { destruct (fraction_given (m_fraction m)) as [f|].
    - destruct FR as (-> & FP & MI & C & E & VV). unfold frac_valid, frac_norm, dec_nonneg, dec_lt_one, micros_of. repeat split; try assumption; try lia.
      + destruct VV as [->|(-> & LT)]; [reflexivity|]. replace (d_exp f <? 0) with true by lia. replace (d_coef f <? 10 ^ (- d_exp f)) with true by lia. destruct (d_coef f =? 0); reflexivity.
      + replace (0 <? d_exp f) with false by lia. rewrite andb_false_r. reflexivity.
      + destruct (Z.eq_dec (d_coef f) 0) as [->|]; [vm_compute; discriminate|]. apply ndigits_le; lia.
      + left. reflexivity.
    - destruct FR as (-> & FP & MI). repeat split; try reflexivity; try (vm_compute; discriminate); try assumption. right. split; reflexivity. }
  destruct V as (V & N & C & ND & EX & MI & FP & G). destruct (dec_mul_micros _ V N C ND EX) as (mm & MM & MI').
  assert (CAN : ts_canonical t).
  { unfold ts_canonical, ts_rebuild. rewrite timestamp_new_frac, V, N, MM. cbn [bind]. rewrite MI', <- MI. destruct t as [d p fp fr]. destruct d as [yy mo dd hh mi ss us oo]. cbn [ts_dt ts_prec ts_fprec ts_frac dt_year dt_month dt_day dt_hour dt_minute dt_second dt_micro dt_off] in *. rewrite datetime_new_ok by exact TOK. cbn [bind]. congruence. }
  assert (UTC : exists u', utc_of (ts_dt t) = Ok u' /\ dt_ok u' /\ (dt_year u', dt_month u', dt_day u', dt_hour u', dt_minute u', dt_second u') = (let u := utc_fields (m_fields m) off in (dt_year u, dt_month u, dt_day u, dt_hour u, dt_minute u, dt_second u))).
  { unfold utc_of. rewrite TOFF. destruct off as [o|] eqn:OFF.
    - rewrite (shift_reaches (ts_dt t) (- o) (utc_fields (m_fields m) (Some o)) TOK UOK) by lia. eexists. split; [reflexivity|]. split; [|reflexivity]. destruct UOK as (? & ? & ? & ? & ? & ?). destruct TOK as (? & ? & ? & ? & ? & ?). repeat (split; [assumption|]). assumption.
    - exists (ts_dt t). split; [reflexivity|]. split; [exact TOK|]. destruct UOK as (_ & D1 & H1 & M1 & S1 & _). destruct TOK as (_ & D2 & H2 & M2 & S2 & _). unfold seconds_of in SEC. cbv zeta.
      assert (DN : day_number (dt_year (ts_dt t)) (dt_month (ts_dt t)) (dt_day (ts_dt t)) = day_number (dt_year (utc_fields (m_fields m) None)) (dt_month (utc_fields (m_fields m) None)) (dt_day (utc_fields (m_fields m) None))) by lia.
      pose proof (day_injective _ _ _ _ _ _ D2 D1 DN) as J. rewrite DN in SEC. set (u0 := utc_fields (m_fields m) None) in *. clearbody u0. injection J as E1 E2 E3. rewrite E1, E2, E3. assert (G1 : dt_hour (ts_dt t) = dt_hour u0) by lia. assert (G2 : dt_minute (ts_dt t) = dt_minute u0) by lia. assert (G3 : dt_second (ts_dt t) = dt_second u0) by lia. rewrite G1, G2, G3. reflexivity. }
  destruct UTC as (u' & UE & UOK' & UF). injection UF as F1 F2 F3 F4 F5 F6.
  assert (OB' : match dt_off (ts_dt t) with None => True | Some o => -86400 < o < 86400 end) by (rewrite TOFF; destruct off; lia || exact Logic.I).
  pose proof (adjust_back t u' (m_precision m) (fraction_given (m_fraction m)) CAN OB' UE UOK' G) as A. rewrite F1, F2, F3, F4, F5, F6, TOFF in A. refine (eq_trans A _). rewrite <- TP. destruct t; reflexivity.
Qed.
Lemma varuint_nonnil c n : varuint_code c n -> c <> []. Proof. exact (var_nonempty 0 c n). Qed.
Lemma app_nonnil {A} (l r : list A) : l <> [] -> l ++ r <> []. Proof. destruct l; [contradiction|discriminate]. Qed.
Lemma zone_read (neg : bool) m : 0 <= m -> (match (if neg && (m =? 0) then None else Some (signed neg m)) with Some o => -86400 < o * 60 < 86400 | None => True end) ->
  (let off_value := (if neg then -1 else 1) * m in
   if ((if neg then -1 else 1) =? -1) && (off_value =? 0) then Ok None
   else if 999999999 <? Z.abs (off_value / 1440) then Err OverflowError else let* o := offset_tz (off_value * 60) in Ok (Some o)) =
  Ok (match (if neg && (m =? 0) then None else Some (signed neg m)) with Some o => Some (o * 60) | None => None end).
Proof.
  intros M B. cbv zeta. replace ((if neg then -1 else 1) =? -1) with neg by (destruct neg; reflexivity). replace ((if neg then -1 else 1) * m) with (signed neg m) by (unfold signed; destruct neg; lia).
  replace (signed neg m =? 0) with (m =? 0) by (unfold signed; destruct neg; lia). destruct (neg && (m =? 0)) eqn:N; [reflexivity|]. set (o := signed neg m) in *. clearbody o. replace (999999999 <? Z.abs (o / 1440)) with false by (Z.to_euclidean_division_equations; lia).
  unfold offset_tz. replace ((o * 60 <=? -86400) || (86400 <=? o * 60)) with false by lia. reflexivity.
Qed.
Lemma varint_nonneg c neg m : varint_code c neg m -> 0 <= m.
Proof.
  destruct 1 as [neg m M|neg m bs n M V]; [lia|]. assert (X : forall acc bs n, var_code acc bs n -> 0 <= acc -> 0 <= n) by (clear; induction 1; lia). apply (X _ _ _ V); lia.
Qed.
Lemma fraction_read fc f : fc <> [] -> decimal_code fc f -> in_exponent_range f ->
  match fc with [] => Ok None | _ => let* f := parse_decimal fc in if (d_coef f =? 0) && (-1 <? d_exp f) then Ok None else Ok (Some f) end = Ok (fraction_given (Some f)).
Proof.
  intros NE C R. rewrite match_nonempty by exact NE. rewrite (decimal_parse _ _ C R). cbn [bind fraction_given]. replace (-1 <? d_exp f) with (0 <=? d_exp f) by lia. destruct ((d_coef f =? 0) && (0 <=? d_exp f)); reflexivity.
Qed.
Definition zone_ok (o : option Z) : Prop := match o with Some o => -86400 < o * 60 < 86400 | None => True end.
Definition zone (o : option Z) : option Z := match o with Some o => Some (o * 60) | None => None end.
Lemma zone_refused data m : moment_code data m -> ~ zone_ok (m_offset m) -> exists e, parse_timestamp data = Err e.
Proof.
  intros MC NZ. destruct MC as [oc neg mm cs ns fc p f OC CS P F]. cbn [m_offset] in NZ. unfold parse_timestamp. rewrite (varint_parse _ _ _ _ OC). cbn [bind]. cbv zeta.
  replace ((if neg then -1 else 1) =? -1) with neg by (destruct neg; reflexivity). replace ((if neg then -1 else 1) * mm) with (signed neg mm) by (unfold signed; destruct neg; lia).
  replace (signed neg mm =? 0) with (mm =? 0) by (unfold signed; destruct neg; lia). destruct (neg && (mm =? 0)); [destruct NZ; exact Logic.I|]. destruct (999999999 <? Z.abs (signed neg mm / 1440)); [eexists; reflexivity|].
  unfold offset_tz. unfold zone_ok in NZ. replace ((signed neg mm * 60 <=? -86400) || (86400 <=? signed neg mm * 60)) with true by lia. eexists. reflexivity.
Qed.
Lemma timestamp_reads data m : moment_code data m -> zone_ok (m_offset m) -> match m_fraction m with Some f => in_exponent_range f | None => True end ->
  let u := utc_fields (m_fields m) (zone (m_offset m)) in
  parse_timestamp data = adjust_from_utc_fields (dt_year u) (dt_month u) (dt_day u) (dt_hour u) (dt_minute u) (dt_second u) (zone (m_offset m)) (Some (m_precision m)) (fraction_given (m_fraction m)).
Proof.
  intros MC ZB RF. cbv zeta. destruct MC as [oc neg mm cs ns fc p f OC CS P F]. cbn [m_offset m_fields m_precision m_fraction] in *.
  assert (FR : match fc with [] => Ok None | _ => let* f := parse_decimal fc in if (d_coef f =? 0) && (-1 <? d_exp f) then Ok None else Ok (Some f) end = Ok (fraction_given f)).
  { destruct f as [f|]; [|rewrite F; reflexivity]. destruct F as (_ & NE & DC). apply fraction_read; assumption. }
  pose proof (zone_read neg mm (varint_nonneg _ _ _ OC) ZB) as Z. cbv zeta in Z. fold (zone (if neg && (mm =? 0) then None else Some (signed neg mm))) in Z. set (off := zone (if neg && (mm =? 0) then None else Some (signed neg mm))) in *. clearbody off.
  unfold parse_timestamp. rewrite (varint_parse _ _ _ _ OC). cbn [bind]. cbv zeta. rewrite Z. cbn [bind].
  destruct CS as [|c1 n1 cs ns C1 CS]; [discriminate|]. cbn [concat]. rewrite <- app_assoc, (varuint_parse _ _ _ C1). cbn [bind].
  destruct CS as [|c2 n2 cs ns C2 CS].
  { injection P as <-. assert (fc = []) as -> by (destruct f; [destruct F; discriminate|exact F]). cbn [concat app bind]. injection FR as X. rewrite <- X. reflexivity. }
  cbn [concat]. rewrite <- app_assoc. rewrite match_nonempty by (apply app_nonnil, (varuint_nonnil _ _ C2)). rewrite (varuint_parse _ _ _ C2). cbn [bind].
  destruct CS as [|c3 n3 cs ns C3 CS].
  { injection P as <-. assert (fc = []) as -> by (destruct f; [destruct F; discriminate|exact F]). cbn [concat app bind]. injection FR as X. rewrite <- X. reflexivity. }
  cbn [concat]. rewrite <- app_assoc. rewrite match_nonempty by (apply app_nonnil, (varuint_nonnil _ _ C3)). rewrite (varuint_parse _ _ _ C3). cbn [bind].
  destruct CS as [|c4 n4 cs ns C4 CS].
  { injection P as <-. assert (fc = []) as -> by (destruct f; [destruct F; discriminate|exact F]). cbn [concat app bind]. injection FR as X. rewrite <- X. reflexivity. }
  cbn [concat]. rewrite <- app_assoc. rewrite match_nonempty by (apply app_nonnil, (varuint_nonnil _ _ C4)). rewrite (varuint_parse _ _ _ C4). cbn [bind].
  destruct CS as [|c5 n5 cs ns C5 CS]; [discriminate|]. cbn [concat]. rewrite <- app_assoc. rewrite (varuint_parse _ _ _ C5). cbn [bind].
  destruct CS as [|c6 n6 cs ns C6 CS].
  { injection P as <-. assert (fc = []) as -> by (destruct f; [destruct F; discriminate|exact F]). cbn [concat app bind]. injection FR as X. rewrite <- X. reflexivity. }
  cbn [concat]. rewrite <- app_assoc. rewrite match_nonempty by (apply app_nonnil, (varuint_nonnil _ _ C6)). rewrite (varuint_parse _ _ _ C6). cbn [bind].
  destruct CS as [|c7 n7 cs ns C7 CS]; [|discriminate]. injection P as <-. cbn [concat app]. rewrite FR. cbn [bind]. reflexivity.
Qed.

Lemma timestamp_forward data m t : moment_code data m -> timestamp_of m t -> parse_timestamp data = Ok (TsStamp t).
Proof.
  intros MC TS. rewrite (timestamp_reads data m MC).
  - exact (moment_adjusts m t TS).
  - destruct TS as (OB & _). unfold zone_ok. destruct (m_offset m); [exact OB|exact Logic.I].
  - destruct TS as (_ & _ & _ & _ & _ & _ & TF). destruct (m_fraction m) as [f|]; [|exact Logic.I]. cbn [fraction_given] in TF. destruct ((d_coef f =? 0) && (0 <=? d_exp f)) eqn:G; [left; lia|]. destruct TF as (_ & _ & _ & C & E & V). apply fraction_range; lia.
Qed.
(** The other way: what the reader makes of it is the moment. *)
Lemma adjust_fraction y mo d h mi s off p fr t : adjust_from_utc_fields y mo d h mi s off (Some p) fr = Ok (TsStamp t) ->
  dt_ok (mkdt y mo d h mi s 0 off) /\ ts_frac t = (match fr with Some f => frac_norm f | None => dec_zero end) /\ frac_valid (ts_frac t) = true /\ (match fr with Some f => frac_valid f = true | None => True end) /\
  ts_fprec t = Z.min (- d_exp (ts_frac t)) 6 /\
  (0 <= d_coef (ts_frac t) -> ndigits (d_coef (ts_frac t)) <= 28 -> -999999 <= d_exp (ts_frac t) -> dt_micro (ts_dt t) = micros_of (ts_frac t)).
Proof.
  intros H. unfold adjust_from_utc_fields in H. apply bind_ok in H as (raw & R & H).
  assert (RF : ts_frac raw = match fr with Some f => frac_norm f | None => dec_zero end /\ match fr with Some f => frac_valid f = true | None => True end).
  { destruct fr as [f|]; [|rewrite timestamp_new_nofrac in R]; rewrite timestamp_new_frac in R.
    - destruct (frac_valid f) eqn:V; [|discriminate]. apply bind_ok in R as (? & _ & R). apply bind_ok in R as (? & _ & R). injection R as <-. auto.
    - destruct (frac_valid dec_zero); [|discriminate]. apply bind_ok in R as (? & _ & R). apply bind_ok in R as (? & _ & R). injection R as <-. auto. }
  destruct (ctor_normalises _ _ _ _ _ _ _ _ _ _ _ _ R) as (ROK & RFL & RN & RL & RP & RM). injection RFL as F1 F2 F3 F4 F5 F6 F7 F8.
  assert (D0 : dt_ok (mkdt y mo d h mi s 0 off)).
  { destruct ROK as (A & B & C & D & E & _). rewrite F1, F2, F3, F4, F5, F6 in *. repeat (split; [assumption|]). cbn [dt_micro]. lia. }
  destruct RF as (RF & RV).
  assert (GG : t = raw \/ exists y mo d h mi s, timestamp_new y mo d h mi s None off (ts_prec raw) None (Some (ts_frac raw)) = Ok t).
  { destruct off as [[|o|o]|]; try (left; congruence); right; apply bind_ok in H as (adj & _ & H); rewrite F8 in *; apply bind_ok in H as (t0 & T0 & H); injection H as <-; eauto 10. }
  split; [exact D0|]. rewrite <- RF. destruct GG as [->|(y' & mo' & d' & h' & mi' & s' & T)].
  - unfold frac_valid. rewrite RN, RL. auto 10.
  - destruct (ctor_normalises _ _ _ _ _ _ _ _ _ _ _ _ T) as (_ & _ & N2 & L2 & P2 & M2). rewrite timestamp_new_frac in T.
    assert (V : ts_frac t = ts_frac raw). { destruct (frac_valid (ts_frac raw)); [|discriminate]. apply bind_ok in T as (? & _ & T). apply bind_ok in T as (? & _ & T). injection T as <-. cbn [ts_frac]. rewrite RF. destruct fr; [apply frac_norm_idem|reflexivity]. }
    split; [exact V|]. unfold frac_valid. rewrite N2, L2. auto.
Qed.
Lemma decimal_nonneg data d : decimal_code data d -> 0 <= d_coef d.
Proof. intros (ec & eneg & em & cc & _ & _ & _ & C). exact (int_nonneg _ _ _ C). Qed.
Lemma timestamp_back data m v : moment_code data m -> moment_fits m -> parse_timestamp data = Ok v -> exists t, v = TsStamp t /\ timestamp_of m t.
Proof.
  intros MC FT H. assert (ZB : zone_ok (m_offset m)).
  { unfold zone_ok. destruct (m_offset m) as [o|] eqn:O; [|exact Logic.I]. destruct (Z_lt_dec (-86400) (o * 60)) as [L|L]; [destruct (Z_lt_dec (o * 60) 86400) as [U|U]; [lia|]|]; exfalso; (destruct (zone_refused data m MC) as (e & E); [rewrite O; cbn; lia|congruence]). }
  rewrite (timestamp_reads data m MC ZB) in H by (unfold moment_fits in FT; destruct (m_fraction m); [apply FT|exact Logic.I]).
  assert (ZB' : match zone (m_offset m) with None => True | Some o => -86400 < o < 86400 end) by (unfold zone_ok, zone in *; destruct (m_offset m); assumption).
  destruct (utc_adjust_instant _ _ _ _ _ _ _ _ _ _ ZB' H) as (t & -> & TOK & TOFF & TP & SEC). exists t. split; [reflexivity|]. destruct (adjust_fraction _ _ _ _ _ _ _ _ _ _ H) as (UOK & FR & V & V0 & FP & MI).
  assert (CN : match m_fraction m with Some f => 0 <= d_coef f | None => True end) by (destruct MC as [oc neg mm cs ns fc p f OC CS P F]; cbn [m_fraction]; destruct f as [f|]; [apply (decimal_nonneg fc), F|exact Logic.I]).
  unfold timestamp_of. fold (zone (m_offset m)). cbv zeta. split; [unfold zone in *; destruct (m_offset m); [exact ZB'|lia]|]. split; [exact UOK|]. split; [exact TOK|]. split; [exact TOFF|]. split; [exact TP|]. split; [exact SEC|].
  unfold moment_fits in FT. destruct (m_fraction m) as [f|]; cbn [fraction_given] in *.
  - destruct ((d_coef f =? 0) && (0 <=? d_exp f)) eqn:G.
    + split; [exact FR|]. rewrite FR in FP, MI. split; [exact FP|]. apply MI; vm_compute; discriminate.
    + assert (NF : frac_norm f = f) by (unfold frac_norm; replace ((d_coef f =? 0) && (0 <? d_exp f)) with false by lia; reflexivity). rewrite NF in FR. rewrite FR in FP, MI. destruct FT as (RF & CB & E1).
      destruct (frac_exp_bound f V0 NF CN) as (B1 & B2).
      split; [exact FR|]. split; [exact FP|]. split; [apply MI; try lia; destruct (Z.eq_dec (d_coef f) 0) as [->|]; [vm_compute; discriminate|apply ndigits_le; lia]|]. split; [lia|]. split; [|destruct (Z.eq_dec (d_coef f) 0); [left; assumption|right; destruct (B2 ltac:(lia)) as (? & ? & ?); auto]].
      destruct (Z.eq_dec (d_coef f) 0); [lia|]. destruct (B2 ltac:(lia)) as (? & ? & ?). lia.
  - split; [exact FR|]. rewrite FR in FP, MI. split; [exact FP|]. apply MI; vm_compute; discriminate.
Qed.
Lemma match_some {A B} (l : list A) (x y : res B) v : match l with [] => x | _ => y end = Ok v -> l = [] /\ x = Ok v \/ l <> [] /\ y = Ok v.
Proof. destruct l; intros H; [left|right]; split; auto; discriminate. Qed.
(** Whatever the reader takes for a timestamp has the fields of one. *)
Lemma timestamp_inverse data v : octets data -> parse_timestamp data = Ok v -> exists m, moment_code data m.
Proof.
  intros O H. unfold parse_timestamp in H. apply bind_ok in H as ([[sg mg] buf] & E & H). destruct (varint_inverse _ _ _ _ O E) as (oc & neg & -> & OC & ->). apply octets_app in O. destruct O as (_ & O).
  apply bind_ok in H as (tz & _ & H). apply bind_ok in H as ([y b1] & E1 & H). destruct (varuint_inverse _ _ _ O E1) as (c1 & -> & C1). apply octets_app in O. destruct O as (_ & O).
  set (off := if neg && (mg =? 0) then None else Some (signed neg mg)).
  apply bind_ok in H as ([[mo p2] b2] & E2 & H). apply match_some in E2 as [(-> & E2)|(NE2 & E2)].
  { exists (mkmoment off PYear [y] None). pose proof (moment_of oc neg mg [c1] [y] [] PYear None OC ltac:(repeat constructor; assumption) eq_refl eq_refl) as X. cbn [concat] in X. rewrite !app_nil_r in X. rewrite app_nil_r. exact X. }
  apply bind_ok in E2 as ([m2 b2'] & E2 & X). injection X as -> <- ->. destruct (varuint_inverse _ _ _ O E2) as (c2 & -> & C2). apply octets_app in O. destruct O as (_ & O).
  apply bind_ok in H as ([[da p3] b3] & E3 & H). apply match_some in E3 as [(-> & E3)|(NE3 & E3)].
  { exists (mkmoment off PMonth [y; mo] None). pose proof (moment_of oc neg mg [c1; c2] [y; mo] [] PMonth None OC ltac:(repeat constructor; assumption) eq_refl eq_refl) as X. cbn [concat] in X. rewrite !app_nil_r in X. rewrite app_nil_r. exact X. }
  apply bind_ok in E3 as ([m3 b3'] & E3 & X). injection X as -> <- ->. destruct (varuint_inverse _ _ _ O E3) as (c3 & -> & C3). apply octets_app in O. destruct O as (_ & O).
  apply bind_ok in H as ([[[ho mi] p4] b4] & E4 & H). apply match_some in E4 as [(-> & E4)|(NE4 & E4)].
  { exists (mkmoment off PDay [y; mo; da] None). pose proof (moment_of oc neg mg [c1; c2; c3] [y; mo; da] [] PDay None OC ltac:(repeat constructor; assumption) eq_refl eq_refl) as X. cbn [concat] in X. rewrite !app_nil_r in X. rewrite app_nil_r. exact X. }
  apply bind_ok in E4 as ([m4 b4'] & E4 & X). destruct (varuint_inverse _ _ _ O E4) as (c4 & -> & C4). apply octets_app in O. destruct O as (_ & O).
  apply bind_ok in X as ([m5 b5'] & E5 & X). injection X as -> -> <- ->. destruct (varuint_inverse _ _ _ O E5) as (c5 & -> & C5). apply octets_app in O. destruct O as (_ & O).
  apply bind_ok in H as ([[se p5] b5] & E6 & H). apply match_some in E6 as [(-> & E6)|(NE6 & E6)].
  { exists (mkmoment off PMinute [y; mo; da; ho; mi] None). pose proof (moment_of oc neg mg [c1; c2; c3; c4; c5] [y; mo; da; ho; mi] [] PMinute None OC ltac:(repeat constructor; assumption) eq_refl eq_refl) as X. cbn [concat] in X. rewrite !app_nil_r in X. rewrite app_nil_r. exact X. }
  apply bind_ok in E6 as ([m6 b6'] & E6 & X). injection X as -> <- ->. destruct (varuint_inverse _ _ _ O E6) as (c6 & -> & C6). apply octets_app in O. destruct O as (_ & O).
  apply bind_ok in H as (fr & EF & H). apply match_some in EF as [(-> & EF)|(NEF & EF)].
  { exists (mkmoment off PSecond [y; mo; da; ho; mi; se] None). pose proof (moment_of oc neg mg [c1; c2; c3; c4; c5; c6] [y; mo; da; ho; mi; se] [] PSecond None OC ltac:(repeat constructor; assumption) eq_refl eq_refl) as X. cbn [concat] in X. rewrite !app_nil_r in X. rewrite app_nil_r. exact X. }
  apply bind_ok in EF as (f & EF & _). destruct (decimal_inverse _ _ O EF) as (f0 & DC).
  exists (mkmoment off PSecond [y; mo; da; ho; mi; se] (Some f0)). pose proof (moment_of oc neg mg [c1; c2; c3; c4; c5; c6] [y; mo; da; ho; mi; se] b5 PSecond (Some f0) OC ltac:(repeat constructor; assumption) eq_refl (conj eq_refl (conj NEF DC))) as X. cbn [concat] in X. rewrite <- !app_assoc in X. exact X.
Qed.
Lemma adjust_canonical y mo d h mi s off p fr t : adjust_from_utc_fields y mo d h mi s off (Some p) fr = Ok (TsStamp t) -> ts_canonical t.
Proof.
  intros H. unfold adjust_from_utc_fields in H. apply bind_ok in H as (raw & R & H). pose proof (timestamp_new_canonical _ _ _ _ _ _ _ _ _ _ _ _ R) as RC.
  destruct off as [[|o|o]|]; try (injection H as <-; exact RC); apply bind_ok in H as (adj & _ & H); destruct (ts_prec raw); try discriminate; apply bind_ok in H as (t0 & T0 & H); injection H as <-; exact (timestamp_new_canonical _ _ _ _ _ _ _ _ _ _ _ _ T0).
Qed.
Lemma moment_canonical m t : timestamp_of m t -> ts_canonical t.
Proof. intros H. exact (adjust_canonical _ _ _ _ _ _ _ _ _ _ (moment_adjusts m t H)). Qed.
