(** C65: every payload of a binary scalar is read as the value the Ion specification assigns to it
    ([BinScalars.payload_denotes]), payloads that are not well formed are refused, and each payload has one
    reading. *)
From Coq Require Import String.
From Verif Require Import Base BaseFacts FieldsModel CoreModel CalendarFacts BinWriterModel ScalarFacts TimestampFacts FloatProofs BinFormat BinScalars BinScalarProofs.
Local Open Scope Z_scope.
Local Open Scope list_scope.

Lemma utf8_decode_exact data s : octets data -> utf8_decode data = Ok s <-> utf8_text data s.
Proof.
  intros O. unfold utf8_decode. split; [apply utf8_text_inverse; exact O|]. intros T. apply (utf8_text_decode _ _ T). lia.
Qed.

(** The value of a payload that denotes one is that one. *)
Theorem C65_payload_value : forall k data s, octets data -> payload_denotes k data s -> eval_thunk k data = Ok s.
Proof.
  intros k data s O D. destruct D as [sign data|data b F|data d C R|data m t M T|data|data s U]; cbn [eval_thunk].
  - rewrite parse_int_value by exact O. reflexivity.
  - rewrite (float_forward _ _ O F). reflexivity.
  - rewrite (decimal_parse _ _ C R). reflexivity.
  - rewrite (timestamp_forward _ _ _ M T). reflexivity.
  - rewrite parse_int_value by exact O. rewrite Z.mul_1_l. reflexivity.
  - apply (utf8_decode_exact _ _ O) in U. rewrite U. reflexivity.
Qed.
Print Assumptions C65_payload_value.

(** So a payload denotes at most one value. *)
Theorem C65_one_reading : forall k data s s', octets data -> payload_denotes k data s -> payload_denotes k data s' -> s = s'.
Proof. intros k data s s' O A B. apply (C65_payload_value _ _ _ O) in A. apply (C65_payload_value _ _ _ O) in B. congruence. Qed.
Print Assumptions C65_one_reading.

(** Text, floats and integers: nothing else is accepted, and no value is another one. *)
Theorem C65_text_exact : forall data v, octets data -> eval_thunk KString data = Ok v <-> exists s, utf8_text data s /\ v = VString s.
Proof.
  intros data v O. cbn [eval_thunk]. split.
  - intros H. apply bind_ok in H as (s & E & H). injection H as <-. exists s. split; [apply (utf8_decode_exact _ _ O), E|reflexivity].
  - intros (s & U & ->). apply (utf8_decode_exact _ _ O) in U. rewrite U. reflexivity.
Qed.
Print Assumptions C65_text_exact.
Theorem C65_float_exact : forall data v, octets data -> eval_thunk KFloat data = Ok v <-> exists b, float_code data b /\ v = VFloat b.
Proof.
  intros data v O. cbn [eval_thunk]. split.
  - intros H. apply bind_ok in H as (s & E & H). injection H as <-. exists s. split; [exact (float_inverse _ _ O E)|reflexivity].
  - intros (s & U & ->). rewrite (float_forward _ _ O U). reflexivity.
Qed.
Print Assumptions C65_float_exact.
Theorem C65_integer_exact : forall sign data v, octets data -> eval_thunk (KInt sign) data = Ok v <-> v = VInt (sign * big_endian 0 data).
Proof. intros sign data v O. cbn [eval_thunk]. rewrite parse_int_value by exact O. split; [congruence|intros ->; reflexivity]. Qed.
Print Assumptions C65_integer_exact.

(** Timestamps whose fraction fits the decimal context: accepted exactly when the fields name a moment of the
    calendar, and then with that moment, offset, precision and fraction. *)
Theorem C65_timestamp_exact : forall data m v, moment_code data m -> moment_fits m ->
  eval_thunk KTimestamp data = Ok v <-> exists t, timestamp_of m t /\ v = VTimestamp (TsStamp t).
Proof.
  intros data m v M F. cbn [eval_thunk]. split.
  - intros H. apply bind_ok in H as (s & E & H). injection H as <-. destruct (timestamp_back _ _ _ M F E) as (t & -> & T). exists t. auto.
  - intros (t & T & ->). rewrite (timestamp_forward _ _ _ M T). reflexivity.
Qed.
Print Assumptions C65_timestamp_exact.

(** Whatever is accepted is well formed. *)
Theorem C65_only_well_formed : forall k data s, octets data -> eval_thunk k data = Ok s ->
  match k with
  | KInt sign => s = VInt (sign * big_endian 0 data)
  | KFloat => exists b, float_code data b /\ s = VFloat b
  | KDecimal => exists d, decimal_code data d
  | KTimestamp => exists m, moment_code data m
  | KSymbol => s = VSymbol (mktok None (Some (big_endian 0 data)) None)
  | KString => exists x, utf8_text data x /\ s = VString x
  end.
Proof.
  intros k data s O H. destruct k.
  - apply C65_integer_exact; assumption.
  - apply C65_float_exact; assumption.
  - cbn [eval_thunk] in H. apply bind_ok in H as (d & E & _). exact (decimal_inverse _ _ O E).
  - cbn [eval_thunk] in H. apply bind_ok in H as (d & E & _). exact (timestamp_inverse _ _ O E).
  - cbn [eval_thunk] in H. rewrite parse_int_value in H by exact O. rewrite Z.mul_1_l in H. injection H as <-. reflexivity.
  - apply C65_text_exact; assumption.
Qed.
Print Assumptions C65_only_well_formed.

(** Concrete payloads.  2017-03-01T00:30:15.125+01:00, in UTC 2017-02-28T23:30:15.125. *)
Definition stamp_octets : list Z := [0x80 + 60] ++ [0x0F; 0x80 + 0x61] ++ [0x82] ++ [0x9C] ++ [0x97] ++ [0x9E] ++ [0x8F] ++ [0xC3; 0x7D].
Definition stamp_moment : moment := mkmoment (Some 60) PSecond [2017; 2; 28; 23; 30; 15] (Some (mkdec false 125 (-3))).
Definition stamp_value : ts := mkts (mkdt 2017 3 1 0 30 15 125000 (Some 3600)) (Some PSecond) 3 (mkdec false 125 (-3)).
Lemma stamp_code : moment_code stamp_octets stamp_moment.
Proof.
  refine (moment_of [0x80 + 60] false 60 [[0x0F; 0x80 + 0x61]; [0x82]; [0x9C]; [0x97]; [0x9E]; [0x8F]] [2017; 2; 28; 23; 30; 15] [0xC3; 0x7D] PSecond (Some (mkdec false 125 (-3))) _ _ eq_refl _).
  - apply (varint_one false 60). lia.
  - constructor; [apply (var_more 0 0x0F); [lia|]; exact (var_last 15 0x61 ltac:(lia))|].
    constructor; [exact (var_last 0 2 ltac:(lia))|]. constructor; [exact (var_last 0 28 ltac:(lia))|]. constructor; [exact (var_last 0 23 ltac:(lia))|]. constructor; [exact (var_last 0 30 ltac:(lia))|]. constructor; [exact (var_last 0 15 ltac:(lia))|]. constructor.
  - split; [reflexivity|]. split; [discriminate|]. exists [0xC3], true, 3, [0x7D]. split; [reflexivity|]. split; [exact (varint_one true 3 ltac:(lia))|]. split; [reflexivity|]. exact (int_octets false 125 [] ltac:(lia) (Forall_nil _)).
Qed.
Lemma stamp_of : timestamp_of stamp_moment stamp_value.
Proof.
  unfold timestamp_of. change (m_offset stamp_moment) with (Some 60). change (fraction_given (m_fraction stamp_moment)) with (Some (mkdec false 125 (-3))). cbv iota zeta.
  unfold dt_ok, date_ok. repeat apply conj; try (vm_compute; reflexivity); try (vm_compute; discriminate). right. split; vm_compute; reflexivity.
Qed.
Example C65_sample : eval_thunk KTimestamp stamp_octets = Ok (VTimestamp (TsStamp stamp_value)) /\ moment_fits stamp_moment /\
  payload_denotes (KInt (-1)) [1; 0] (VInt (-256)) /\ payload_denotes KString [0xE2; 0x82; 0xAC] (VString [0x20AC]) /\
  payload_denotes KDecimal [0xC2; 0x80; 0x7B] (VDecimal (mkdec true 123 (-2))).
Proof.
  split; [apply C65_payload_value; [repeat (apply Forall_cons; [unfold is_octet; lia|]); exact (Forall_nil _)|exact (pd_timestamp _ _ _ stamp_code stamp_of)]|].
  split. { split; [right; exists 3; cbn; lia|]. split; vm_compute; [reflexivity|discriminate]. }
  split; [exact (pd_int (-1) [1; 0])|]. split.
  - apply pd_string. exact (utf8_cons _ _ [] [] (utf8_3 2 2 44 ltac:(lia) ltac:(lia) ltac:(lia) ltac:(lia) ltac:(lia)) utf8_nil).
  - apply pd_decimal; [|right; exists 3; cbn; lia]. exists [0xC2], true, 2, [0x80; 0x7B]. split; [reflexivity|]. split; [exact (varint_one true 2 ltac:(lia))|]. split; [reflexivity|].
    refine (int_octets true 0 [123] ltac:(lia) _). apply Forall_cons; [unfold is_octet; lia|exact (Forall_nil _)].
Qed.
Print Assumptions C65_sample.
(** 30 February, overlong text and surrogates are refused. *)
Example C65_refused :
  (forall v, eval_thunk KTimestamp [0x80; 0x0F; 0xE1; 0x82; 0x9E] <> Ok v) /\ (forall v, eval_thunk KString [0xC0; 0x80] <> Ok v) /\ (forall v, eval_thunk KString [0xED; 0xA0; 0x80] <> Ok v).
Proof. repeat split; intros v; vm_compute; discriminate. Qed.

(** Beyond the decimal module's range the value is not kept, and nothing is raised: 15d-1000003 is read as zero. *)
Definition tiny_octets : list Z := [0x3D + 64; 0x04; 0x80 + 0x43] ++ [15].
Definition tiny : dec := mkdec false 15 (-1000003).
Example C65_tiny_decimals_lost : decimal_code tiny_octets tiny /\ exists d, eval_thunk KDecimal tiny_octets = Ok (VDecimal d) /\ d_coef d = 0.
Proof.
  split; [|eexists; split; [vm_compute; reflexivity|reflexivity]]. exists [0x3D + 64; 0x04; 0x80 + 0x43], true, 1000003, [15]. split; [reflexivity|]. split; [|split; [reflexivity|exact (int_octets false 15 [] ltac:(lia) (Forall_nil _))]].
  refine (varint_more true 0x3D [0x04; 0x80 + 0x43] 1000003 ltac:(lia) _). apply (var_more 0x3D 4); [lia|]. exact (var_last (0x3D * 128 + 4) 0x43 ltac:(lia)).
Qed.
