(** Proofs of the property statements about integer fields (C01, C02). *)
From Verif Require Import Base BaseFacts FieldsModel FieldsFacts.

Lemma zlen_digits b n v : zlen (digits b n v) = Z.of_nat n.
Proof. unfold zlen. rewrite digits_length. reflexivity. Qed.
Lemma zlen_add_end e l : zlen (add_end e l) = zlen l.
Proof. unfold zlen. rewrite add_end_length. reflexivity. Qed.
Lemma zlen_add_sign e l : zlen (add_sign e l) = zlen l.
Proof. unfold zlen. rewrite add_sign_length. reflexivity. Qed.

Lemma zlen_uint v : 0 <= v -> zlen (uint_octets v) = num_octets 8 v false.
Proof.
  intros H. unfold uint_octets. rewrite zlen_digits.
  pose proof (num_octets_pos 8 v false ltac:(lia) H). lia.
Qed.
Lemma zlen_varuint v : 0 <= v -> zlen (varuint_octets v) = num_octets 7 v false.
Proof.
  intros H. unfold varuint_octets. rewrite zlen_add_end, zlen_digits.
  pose proof (num_octets_pos 7 v false ltac:(lia) H). lia.
Qed.
Lemma zlen_int v : zlen (int_octets v) = num_octets 8 (Z.abs v) true.
Proof.
  unfold int_octets. rewrite zlen_add_sign, zlen_digits.
  pose proof (num_octets_pos 8 (Z.abs v) true ltac:(lia) ltac:(lia)). lia.
Qed.
Lemma zlen_varint v : zlen (varint_octets v) = num_octets 7 (Z.abs v) true.
Proof.
  unfold varint_octets. rewrite zlen_add_sign, zlen_add_end, zlen_digits.
  pose proof (num_octets_pos 7 (Z.abs v) true ltac:(lia) ltac:(lia)). lia.
Qed.

Lemma uint_lossless buf v : 0 <= v ->
  exists out, write_uint buf v = Ok (buf ++ out, zlen out) /\ octets out /\
    (forall sign, parse_int sign out = sign * v) /\
    (zlen out = 1 \/ 2 ^ (8 * (zlen out - 1)) <= v).
Proof.
  intros H. exists (uint_octets v). split; [apply write_uint_spec, H|].
  split; [apply uint_octets_octets|]. split; [intros; apply parse_int_uint, H|].
  rewrite zlen_uint by auto.
  pose proof (num_octets_minimal 8 v false ltac:(lia) H) as M. cbv iota in M.
  rewrite Z.sub_0_r in M. exact M.
Qed.

Lemma varuint_lossless buf v : 0 <= v ->
  exists out, write_varuint buf v = Ok (buf ++ out, zlen out) /\ octets out /\
    (forall rest, parse_var_int (out ++ rest) false = Ok (v, rest)) /\
    (zlen out = 1 \/ 2 ^ (7 * (zlen out - 1)) <= v).
Proof.
  intros H. exists (varuint_octets v). split; [apply write_varuint_spec, H|].
  split; [apply varuint_octets_octets|]. split.
  { intros rest. unfold parse_var_int. rewrite parse_varuint by auto. cbn [bind].
    do 2 f_equal. lia. }
  rewrite zlen_varuint by auto.
  pose proof (num_octets_minimal 7 v false ltac:(lia) H) as M. cbv iota in M.
  rewrite Z.sub_0_r in M. exact M.
Qed.

Lemma int_lossless buf v :
  exists out, write_int buf v = Ok (buf ++ out, zlen out) /\ octets out /\
    parse_signed_int_components out = (if v <? 0 then 1 else 0, Z.abs v) /\
    (zlen out = 1 \/ 2 ^ (8 * (zlen out - 1) - 1) <= Z.abs v).
Proof.
  exists (int_octets v). split; [apply write_int_spec|].
  split; [apply int_octets_octets|]. split; [apply parse_int_field|].
  rewrite zlen_int. exact (num_octets_minimal 8 (Z.abs v) true ltac:(lia) ltac:(lia)).
Qed.

Lemma varint_lossless buf v :
  exists out, write_varint buf v = Ok (buf ++ out, zlen out) /\ octets out /\
    (forall rest, parse_var_int (out ++ rest) true = Ok (v, rest)) /\
    (zlen out = 1 \/ 2 ^ (7 * (zlen out - 1) - 1) <= Z.abs v).
Proof.
  exists (varint_octets v). split; [apply write_varint_spec|].
  split; [apply varint_octets_octets|]. split.
  { intros rest. unfold parse_var_int. rewrite parse_varint. cbn [bind].
    do 2 f_equal. destruct (v <? 0) eqn:E; lia. }
  rewrite zlen_varint. exact (num_octets_minimal 7 (Z.abs v) true ltac:(lia) ltac:(lia)).
Qed.

Lemma cache_transparent buf v :
  (0 <= v -> write_uint buf v = Ok (write_uint_uncached buf v) /\
             write_varuint buf v = Ok (write_varuint_uncached buf v)) /\
  write_int buf v = Ok (write_int_uncached buf v) /\
  write_varint buf v = Ok (write_varint_uncached buf v).
Proof.
  split; [intros H; split|split].
  - rewrite write_uint_spec, write_uint_uncached_spec by auto. reflexivity.
  - rewrite write_varuint_spec, write_varuint_uncached_spec by auto. reflexivity.
  - rewrite write_int_spec, write_int_uncached_spec. reflexivity.
  - rewrite write_varint_spec, write_varint_uncached_spec. reflexivity.
Qed.
