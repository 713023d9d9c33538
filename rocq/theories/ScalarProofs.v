(** The scalar serializers against the format: what is written, and that it reads back. *)
From Verif Require Import Base BaseFacts FieldsModel FieldsFacts FieldsProofs CoreModel BinWriterModel
  ScalarFacts CalendarFacts TimestampFacts BinFormat.

(** * Lengths and numbers in the format *)

Lemma var_code_digits ds d : Forall (fun x => 0 <= x < 128) ds -> 0 <= d < 128 ->
  forall acc, var_code acc (ds ++ [128 + d]) (undigits 7 (ds ++ [d]) acc).
Proof.
  intros H Hd. induction H as [|x ds Hx _ IH]; intros acc; cbn [app].
  - unfold undigits; cbn [fold_left]. change (2 ^ 7) with 128. apply var_last. exact Hd.
  - unfold undigits; cbn [fold_left]. change (2 ^ 7) with 128. apply var_more; [exact Hx|]. apply IH.
Qed.
Lemma varuint_octets_code v : 0 <= v -> varuint_code (varuint_octets v) v.
Proof.
  intros H. destruct (varuint_octets_split v H) as (ds & d & -> & A & B & C). unfold varuint_code.
  pose proof (var_code_digits ds d A B 0) as V. rewrite C in V. exact V.
Qed.
Lemma length_octets_header tid lo n : lo <= n -> 0 <= n -> header tid lo n (length_octets (tid * 16) n).
Proof.
  intros L N. unfold header, length_octets. destruct (n <? 14) eqn:E.
  - left. split; [lia|reflexivity].
  - right. exists (varuint_octets n). split; [apply varuint_octets_code; exact N|reflexivity].
Qed.

Lemma payload_code tid k t data : payload_type tid k t -> 1 <= zlen data ->
  scalar_code t (payload_value k data) (length_octets (tid * 16) (zlen data) ++ data).
Proof. intros P L. apply (sc_payload tid); [exact P|]. apply length_octets_header; lia. Qed.
Lemma payload_type_tid tid k t : payload_type tid k t -> 2 <= tid <= 10.
Proof. destruct 1; lia. Qed.
Lemma payload_octets tid k t data : payload_type tid k t -> octets data ->
  octets (length_octets (tid * 16) (zlen data) ++ data).
Proof.
  intros P O. apply octets_app. split; [|exact O]. apply length_octets_octets; [|apply zlen_nonneg].
  pose proof (payload_type_tid _ _ _ P). split; [lia|]. apply Z.mod_mul. lia.
Qed.

(** * What each serializer writes *)

Lemma write_int_value_spec tid v : 0 <= v -> tid mod 16 = 0 ->
  write_int_value [] tid v = Ok (length_octets tid (zlen (uint_octets v)) ++ uint_octets v).
Proof.
  intros H T. unfold write_int_value. rewrite write_uint_spec by exact H. cbn [bind app].
  rewrite write_length_spec by (try apply zlen_nonneg; exact T). reflexivity.
Qed.
Lemma serialize_int_spec v : serialize_int v =
  Ok (if v =? 0 then [0x20]
      else length_octets (if v <? 0 then 0x30 else 0x20) (zlen (uint_octets (Z.abs v))) ++ uint_octets (Z.abs v)).
Proof.
  unfold serialize_int. destruct (v =? 0) eqn:E; [reflexivity|]. destruct (v <? 0) eqn:S; rewrite write_int_value_spec by (try lia; reflexivity).
  - rewrite Z.abs_neq by lia. reflexivity.
  - rewrite Z.abs_eq by lia. reflexivity.
Qed.

(** What a scalar reads back as: a symbol is known by its SID only, a timestamp of unspecified
    precision has precision SECOND, and a plain [datetime] becomes a timestamp with microseconds. *)
Definition micro_fraction (us : Z) : dec := mkdec false us (-6).
Definition as_read (s : scalar) : scalar :=
  match s with
  | VSymbol t => match tk_sid t with Some sid => VSymbol (by_sid sid) | None => s end
  | VTimestamp (TsStamp t) => VTimestamp (TsStamp (with_prec t))
  | VTimestamp (TsPlain d) => VTimestamp (TsStamp (mkts d (Some PSecond) 6 (micro_fraction (dt_micro d))))
  | _ => s
  end.

(** Invariants of the Python values themselves. *)
Definition dt_sane (d : dtime) : Prop :=
  dt_ok d /\ match dt_off d with Some o => -86400 < o < 86400 | None => True end.
Definition scalar_sane (s : scalar) : Prop :=
  match s with
  | VFloat b => 0 <= b < 2 ^ 64
  | VDecimal d => 0 <= d_coef d
  | VTimestamp (TsStamp t) => dt_sane (ts_dt t)
  | VTimestamp (TsPlain d) => dt_sane d
  | VBytes b => octets b
  | VSymbol t => match tk_sid t with Some sid => 0 <= sid | None => True end
  | _ => True
  end.

(** Shape: every accepted value is written as a scalar of its type. *)
Definition shaped (t : iontype) (bs : list Z) : Prop := octets bs /\ exists v, scalar_code t v bs.
Lemma shaped_octet t v o : octet_value o t v -> is_octet o -> shaped t [o].
Proof. intros H O. split; [constructor; [exact O|constructor]|]. exists v. apply sc_octet. exact H. Qed.
Lemma shaped_payload tid k t data : payload_type tid k t -> 1 <= zlen data -> octets data ->
  shaped t (length_octets (tid * 16) (zlen data) ++ data).
Proof.
  intros P L O. split; [exact (payload_octets _ _ _ _ P O)|]. eexists. exact (payload_code _ _ _ _ P L).
Qed.

Definition good (b : list Z) (n : Z) : Prop := octets b /\ n = zlen b /\ 1 <= n.
Lemma good_app b n x : good b n -> octets x -> good (b ++ x) (n + zlen x).
Proof.
  intros (A & B & C) O. split; [apply octets_app; auto|]. rewrite zlen_app. pose proof (zlen_nonneg x). lia.
Qed.
Lemma good_varuint b n v : good b n -> 0 <= v ->
  exists b' m, write_varuint b v = Ok (b', m) /\ good b' (n + m).
Proof.
  intros G V. rewrite write_varuint_spec by exact V. do 2 eexists. split; [reflexivity|]. apply good_app; [exact G|]. apply varuint_octets_octets.
Qed.
Lemma good_frac b n f b' m : good b n -> write_fractional_seconds b f = Ok (b', m) -> good b' (n + m).
Proof.
  intros G H. unfold write_fractional_seconds in H. destruct (dec_scaleb _ _ _) as [sc|]; [|discriminate]. cbn [bind] in H.
  destruct (_ && _); [injection H as <- <-; rewrite Z.add_0_r; exact G|]. rewrite write_decimal_value_spec in H.
  injection H as <- <-. apply good_app; [exact G|]. apply dec_payload_octets.
Qed.

Lemma good_gate (c : bool) (b : list Z) (n v : Z) : good b n -> 0 <= v ->
  exists b' n', (if c then let* (b1, m) := write_varuint b v in Ok (b1, n + m) else Ok (b, n)) = Ok (b', n') /\ good b' n'.
Proof.
  intros G V. destruct c; [|eauto]. destruct (good_varuint b n v G V) as (b' & m & -> & G'). cbn [bind]. eauto.
Qed.

Lemma timestamp_shape v bs : scalar_sane (VTimestamp v) -> serialize_timestamp v = Ok bs -> shaped TTimestamp bs.
Proof.
  intros S H. unfold serialize_timestamp in H.
  set (dt := match v with TsStamp t => ts_dt t | TsPlain t => t end) in *.
  set (prec := match v with TsStamp t => match ts_prec t with Some p => p | None => PSecond end | TsPlain _ => PSecond end) in *.
  assert (D : dt_sane dt) by (destruct v; exact S). destruct D as [D OF].
  assert (X : match (match dt_off dt with
    | None => Ok (dt, [0xC0], 1)
    | Some offset => let* dt' := dt_shift dt (- offset) in let* (b, n) := write_varint [] (offset / 60) in Ok (dt', b, n) end)
    with Ok (dt', b, n) => dt_ok dt' /\ good b n | Err _ => True end).
  { destruct (dt_off dt) as [o|].
    - pose proof (dt_shift_spec dt (- o) D ltac:(lia)) as Y. destruct (dt_shift dt (- o)) as [d'|]; [|exact Logic.I]. cbn [bind].
      rewrite write_varint_spec. cbn [bind app]. split; [apply Y|]. split; [apply varint_octets_octets|]. split; [reflexivity|].
      apply octets_len_pos_varint.
    - split; [exact D|]. split; [constructor; [unfold is_octet; lia|constructor]|]. split; [reflexivity|lia]. }
  destruct (match dt_off dt with None => _ | Some _ => _ end) as [[[d' b0] n0]|]; [|discriminate]. cbn [bind] in H.
  destruct X as [(Y & [M DD] & Ho & Mi & Se & Us) G0].
  destruct (good_varuint b0 n0 (dt_year d') G0 ltac:(lia)) as (b1 & m1 & E1 & G1). rewrite E1 in H. cbn [bind] in H.
  destruct (good_gate (includes prec PMonth) b1 (n0 + m1) (dt_month d') G1 ltac:(lia)) as (b2 & n2 & E2 & G2). rewrite E2 in H. cbn [bind] in H.
  destruct (good_gate (includes prec PDay) b2 n2 (dt_day d') G2 ltac:(lia)) as (b3 & n3 & E3 & G3). rewrite E3 in H. cbn [bind] in H.
  assert (E4 : exists b4 n4, (if includes prec PMinute
    then let* (b, n) := write_varuint b3 (dt_hour d') in
         let* (b, m) := write_varuint b (dt_minute d') in Ok (b, n3 + n + m)
    else Ok (b3, n3)) = Ok (b4, n4) /\ good b4 n4).
  { destruct (includes prec PMinute); [|eauto].
    destruct (good_varuint b3 n3 (dt_hour d') G3 ltac:(lia)) as (x & mx & -> & Gx). cbn [bind].
    destruct (good_varuint x (n3 + mx) (dt_minute d') Gx ltac:(lia)) as (y & my & -> & Gy). cbn [bind]. eauto. }
  destruct E4 as (b4 & n4 & E4 & G4). rewrite E4 in H. cbn [bind] in H.
  assert (E5 : match (if includes prec PSecond
    then let* (b, n) := write_varuint b4 (dt_second d') in
         let* (b, m) := match v with TsStamp t => write_fractional_seconds b (ts_frac t)
                        | TsPlain _ => write_decimal_value b (-6) (dt_micro d') false end in Ok (b, n4 + n + m)
    else Ok (b4, n4)) with Ok (b, n) => good b n | Err _ => True end).
  { destruct (includes prec PSecond); [|exact G4].
    destruct (good_varuint b4 n4 (dt_second d') G4 ltac:(lia)) as (x & mx & -> & Gx). cbn [bind]. destruct v.
    - destruct (write_fractional_seconds x (ts_frac t)) as [[y my]|] eqn:F; [|exact Logic.I]. cbn [bind]. exact (good_frac _ _ _ _ _ Gx F).
    - rewrite write_decimal_value_spec. cbn [bind]. apply good_app; [exact Gx|apply dec_payload_octets]. }
  destruct (if includes prec PSecond then _ else _) as [[b5 n5]|]; [|discriminate]. cbn [bind] in H.
  destruct E5 as (O & -> & L). rewrite write_length_spec in H by (try reflexivity; lia). cbn [bind app] in H. injection H as <-.
  apply (shaped_payload 6 (Some KTimestamp) TTimestamp); [constructor|exact L|exact O].
Qed.

Lemma decimal_shape d bs : serialize_decimal d = Ok bs -> shaped TDecimal bs.
Proof.
  unfold serialize_decimal. destruct (dec_scaleb _ _ _) as [sc|]; [|discriminate]. cbn [bind].
  destruct (_ && _); intros H.
  - injection H as <-. eapply shaped_octet; [constructor|unfold is_octet; lia].
  - rewrite write_decimal_value_spec in H. cbn [bind app] in H. rewrite write_length_spec in H by (try reflexivity; apply zlen_nonneg).
    injection H as <-. apply (shaped_payload 5 (Some KDecimal) TDecimal); [constructor|apply dec_payload_len|apply dec_payload_octets].
Qed.

Lemma utf8_encode_octets s : forall l, utf8_encode s = Ok l -> octets l /\ (s <> [] -> 1 <= zlen l).
Proof.
  induction s as [|c s IH]; intros l H; cbn [utf8_encode] in H.
  - injection H as <-. split; [constructor|congruence].
  - destruct (utf8_encode_cp c) as [a|] eqn:A; [|discriminate]. destruct (utf8_encode s) as [b|] eqn:B; [|discriminate].
    cbn [bind] in H. injection H as <-. destruct (IH b eq_refl) as [IH1 _].
    assert (is_scalar c = true) by (unfold utf8_encode_cp in A; destruct (is_scalar c); [reflexivity|discriminate]).
    destruct (utf8_cp_roundtrip c [] H) as (x & X & O & N & _). rewrite X in A. injection A as ->.
    split; [apply octets_app; auto|]. intros _. destruct a; [congruence|]. rewrite zlen_app. pose proof (zlen_nonneg b).
    rewrite zlen_cons. pose proof (zlen_nonneg a). lia.
Qed.

Theorem serialize_scalar_shape t s bs : scalar_sane s -> serialize_scalar (Some t) (Some s) = Ok bs -> shaped t bs.
Proof.
  intros S H. cbn [serialize_scalar] in H. destruct (is_container t) eqn:CT; [discriminate|].
  destruct t; try discriminate; destruct s as [b|z|b|d|tv|tk|tx|by_]; cbn [scalar_sane] in S; try discriminate.
  1-8: injection H as <-; try (match goal with |- shaped TBool [match ?c with true => _ | false => _ end] => destruct c end);
    (eapply shaped_octet; [apply ov_true || apply ov_false|unfold is_octet; lia]).
  1,2: rewrite serialize_int_spec in H; injection H as <-;
    match goal with |- context [?v =? 0] => destruct (v =? 0) eqn:Z0; [eapply shaped_octet; [constructor|unfold is_octet; lia]|];
      destruct (v <? 0); [apply (shaped_payload 3 (Some (KInt (-1))) TInt)|apply (shaped_payload 2 (Some (KInt 1)) TInt)];
      try constructor; try apply uint_octets_octets; apply octets_len_pos_uint; lia end.
  - unfold serialize_float in H. destruct (b =? 0) eqn:Z0; injection H as <-.
    + eapply shaped_octet; [constructor|unfold is_octet; lia].
    + destruct (float_payload b S) as (L & O & _). change (Z.lor 64 8) with 0x48. split.
      * constructor; [unfold is_octet; lia|exact O].
      * eexists. apply sc_float64. exact L.
  - exact (decimal_shape _ _ H).
  - exact (timestamp_shape _ _ S H).
  - unfold serialize_symbol in H. destruct (tk_sid tk) as [sid|]; [|discriminate]. destruct (sid =? 0) eqn:Z0.
    + injection H as <-. eapply shaped_octet; [constructor|unfold is_octet; lia].
    + rewrite write_int_value_spec in H by (try reflexivity; exact S). injection H as <-.
      apply (shaped_payload 7 (Some KSymbol) TSymbol); [constructor|apply octets_len_pos_uint; lia|apply uint_octets_octets].
  - unfold serialize_string in H. destruct tx as [|c tx].
    + injection H as <-. eapply shaped_octet; [constructor|unfold is_octet; lia].
    + destruct (utf8_encode (c :: tx)) as [l|] eqn:E; [|discriminate]. cbn [bind] in H.
      rewrite write_length_spec in H by (try reflexivity; apply zlen_nonneg). cbn [bind app] in H. injection H as <-.
      destruct (utf8_encode_octets _ _ E) as [O L]. apply (shaped_payload 8 (Some KString) TString); [constructor|apply L; discriminate|exact O].
  - unfold serialize_lob in H. rewrite write_length_spec in H by (try reflexivity; apply zlen_nonneg). cbn [bind app] in H. injection H as <-.
    destruct by_ as [|c r].
    + change (length_octets 144 (zlen []) ++ []) with [0x90]. eapply shaped_octet; [apply ov_clob0|unfold is_octet; lia].
    + apply (shaped_payload 9 None TClob); [constructor| |exact S]. rewrite zlen_cons. pose proof (zlen_nonneg r). lia.
  - unfold serialize_lob in H. rewrite write_length_spec in H by (try reflexivity; apply zlen_nonneg). cbn [bind app] in H. injection H as <-.
    destruct by_ as [|c r].
    + change (length_octets 160 (zlen []) ++ []) with [0xA0]. eapply shaped_octet; [apply ov_blob0|unfold is_octet; lia].
    + apply (shaped_payload 10 None TBlob); [constructor| |exact S]. rewrite zlen_cons. pose proof (zlen_nonneg r). lia.
Qed.

(** * Reading back *)

(** What the binary encoding can carry exactly. *)
Definition plain_stamp (d : dtime) : ts := mkts d (Some PSecond) 6 (micro_fraction (dt_micro d)).
Definition scalar_portable (t : iontype) (s : scalar) : Prop :=
  match t, s with
  | TBool, VBool _ => True
  | TInt, VInt _ => True
  | TFloat, VFloat b => 0 <= b < 2 ^ 64
  | TDecimal, VDecimal d => dec_in_range d
  | TTimestamp, VTimestamp (TsStamp t) => ts_portable t
  | TTimestamp, VTimestamp (TsPlain d) => ts_portable (plain_stamp d)
  | TSymbol, VSymbol t => exists sid, tk_sid t = Some sid /\ 0 <= sid
  | TString, VString s => text_ok s
  | TClob, VBytes b => octets b
  | TBlob, VBytes b => octets b
  | _, _ => False
  end.

(** [s], of type [t], is written as [bs], which the format reads as a value that forces to [s']. *)
Definition carried (t : iontype) (s s' : scalar) : Prop :=
  exists bs v, serialize_scalar (Some t) (Some s) = Ok bs /\ octets bs /\ scalar_code t v bs /\ ev_force v = Ok (Some s').

Lemma carried_payload tid k t s s' data :
  serialize_scalar (Some t) (Some s) = Ok (length_octets (tid * 16) (zlen data) ++ data) ->
  payload_type tid k t -> 1 <= zlen data -> octets data -> ev_force (payload_value k data) = Ok (Some s') -> carried t s s'.
Proof.
  intros E P L O F. exists (length_octets (tid * 16) (zlen data) ++ data), (payload_value k data).
  split; [exact E|]. split; [exact (payload_octets _ _ _ _ P O)|]. split; [exact (payload_code _ _ _ _ P L)|exact F].
Qed.
Lemma carried_octet t s s' o v : serialize_scalar (Some t) (Some s) = Ok [o] -> octet_value o t v -> is_octet o ->
  ev_force v = Ok (Some s') -> carried t s s'.
Proof.
  intros E P O F. exists [o], v. split; [exact E|]. split; [constructor; [exact O|constructor]|]. split; [apply sc_octet; exact P|exact F].
Qed.

Lemma int_carried z : carried TInt (VInt z) (VInt z).
Proof.
  destruct (z =? 0) eqn:Z0.
  - apply Z.eqb_eq in Z0. subst z. eapply carried_octet; [reflexivity|constructor|unfold is_octet; lia|reflexivity].
  - assert (SE : serialize_scalar (Some TInt) (Some (VInt z)) =
       Ok (length_octets (if z <? 0 then 0x30 else 0x20) (zlen (uint_octets (Z.abs z))) ++ uint_octets (Z.abs z)))
      by (cbn [serialize_scalar is_container]; rewrite serialize_int_spec, Z0; reflexivity).
    destruct (z <? 0) eqn:S.
    + apply (carried_payload 3 (Some (KInt (-1))) _ _ _ _ SE); [constructor|apply octets_len_pos_uint; lia|apply uint_octets_octets|].
      cbn [ev_force payload_value eval_thunk]. rewrite parse_int_uint by lia. cbn [bind]. do 3 f_equal. lia.
    + apply (carried_payload 2 (Some (KInt 1)) _ _ _ _ SE); [constructor|apply octets_len_pos_uint; lia|apply uint_octets_octets|].
      cbn [ev_force payload_value eval_thunk]. rewrite parse_int_uint by lia. cbn [bind]. do 3 f_equal. lia.
Qed.

Lemma decimal_carried d : dec_in_range d -> carried TDecimal (VDecimal d) (VDecimal d).
Proof.
  intros H. destruct (decimal_coefficient d H) as (sc & E1 & E2). destruct H as [C R].
  assert (SE : serialize_scalar (Some TDecimal) (Some (VDecimal d)) = serialize_decimal d) by reflexivity.
  unfold serialize_decimal in SE. rewrite E1 in SE. cbn [bind] in SE. rewrite E2 in SE.
  destruct (negb (d_neg d) && (d_exp d =? 0) && ((if d_neg d then - d_coef d else d_coef d) =? 0)) eqn:Z0.
  - assert (d = mkdec false 0 0) as ->.
    { destruct d as [s c e]; cbn [d_neg d_exp d_coef] in *. destruct s; [discriminate|]. cbn [negb andb] in Z0. f_equal; lia. }
    eapply carried_octet; [exact SE|constructor|unfold is_octet; lia|reflexivity].
  - rewrite write_decimal_value_spec in SE. cbn [bind app] in SE. rewrite write_length_spec in SE by (try reflexivity; apply zlen_nonneg).
    cbn [bind app] in SE. apply (carried_payload 5 (Some KDecimal) _ _ _ _ SE); [constructor|apply dec_payload_len|apply dec_payload_octets|].
    cbn [ev_force payload_value eval_thunk]. rewrite parse_payload; [reflexivity|exact C|]. intros P.
    replace (d_coef d =? 0) with false in R by lia. lia.
Qed.

Lemma timestamp_carried t : ts_portable t -> carried TTimestamp (VTimestamp (TsStamp t)) (VTimestamp (TsStamp (with_prec t))).
Proof.
  intros H. destruct (serialize_timestamp_spec t H) as (u & U & UO & SE).
  apply (carried_payload 6 (Some KTimestamp) _ _ _ (ts_payload t u)); [exact SE|constructor|apply ts_payload_len|apply ts_payload_octets|].
  cbn [ev_force payload_value eval_thunk]. rewrite (parse_timestamp_payload t u H U UO). reflexivity.
Qed.

Lemma dt_shift_micro d o u : dt_shift d o = Ok u -> dt_micro u = dt_micro d.
Proof.
  unfold dt_shift. cbv zeta. destruct (if _ <? 0 then prev_day _ _ _ else _) as [[y m] dd]. intros H.
  destruct ((1 <=? y) && (y <=? 9999)); [|discriminate]. injection H as <-. reflexivity.
Qed.

Lemma micro_written b us : 0 <= us <= 999999 ->
  write_decimal_value b (-6) us false = write_fractional_seconds b (micro_fraction us).
Proof.
  intros H. unfold write_fractional_seconds, micro_fraction. cbn [d_exp d_neg].
  assert (E : dec_scaleb default_prec (mkdec false us (-6)) (- -6) = Ok (mkdec false us 0)).
  { unfold dec_scaleb. cbn [d_neg d_coef d_exp]. replace ((- -6 <? _) || _) with false by reflexivity.
    change (-6 + - -6) with 0. destruct (Z.eq_dec us 0) as [->|N]; [reflexivity|].
    destruct (ndigits_spec us ltac:(lia)) as (N1 & N2 & N3). specialize (N3 ltac:(lia)).
    assert (ndigits us <= 6).
    { destruct (Z.le_gt_cases (ndigits us) 6) as [|G]; [assumption|]. exfalso.
      assert (10 ^ 6 <= 10 ^ (ndigits us - 1)) by (apply Z.pow_le_mono_r; lia). change (10 ^ 6) with 1000000 in *. lia. }
    apply dec_fix_exact; cbn [d_neg d_coef d_exp]; unfold dec_Emax, dec_Emin, default_prec; lia. }
  rewrite E. cbn [bind]. rewrite dec_to_integral_0 by reflexivity. rewrite dec_int_0.
  replace ((us =? 0) && (0 <=? -6)) with false by (rewrite andb_comm; reflexivity). reflexivity.
Qed.

Lemma plain_is_stamp d : 0 <= dt_micro d <= 999999 -> serialize_timestamp (TsPlain d) = serialize_timestamp (TsStamp (plain_stamp d)).
Proof.
  intros H. unfold serialize_timestamp, plain_stamp; cbn [ts_dt ts_prec ts_frac].
  assert (X : forall u, dt_micro u = dt_micro d -> forall b, write_decimal_value b (-6) (dt_micro u) false =
     write_fractional_seconds b (micro_fraction (dt_micro d))) by (intros u -> b; apply micro_written; exact H).
  destruct (dt_off d) as [o|].
  - destruct (dt_shift d (- o)) as [u|] eqn:U; [|reflexivity]. apply dt_shift_micro in U. cbn [bind].
    destruct (write_varint [] (o / 60)) as [[b n]|]; [|reflexivity]. cbn [bind].
    destruct (write_varuint b (dt_year u)) as [[b1 n1]|]; [|reflexivity]. cbn [bind includes prec_rank Z.leb Z.compare Pos.compare Pos.compare_cont].
    destruct (write_varuint b1 (dt_month u)) as [[b2 n2]|]; [|reflexivity]. cbn [bind].
    destruct (write_varuint b2 (dt_day u)) as [[b3 n3]|]; [|reflexivity]. cbn [bind].
    destruct (write_varuint b3 (dt_hour u)) as [[b4 n4]|]; [|reflexivity]. cbn [bind].
    destruct (write_varuint b4 (dt_minute u)) as [[b5 n5]|]; [|reflexivity]. cbn [bind].
    destruct (write_varuint b5 (dt_second u)) as [[b6 n6]|]; [|reflexivity]. cbn [bind]. rewrite (X u U). reflexivity.
  - cbn [bind].
    destruct (write_varuint [0xC0] (dt_year d)) as [[b1 n1]|]; [|reflexivity]. cbn [bind includes prec_rank Z.leb Z.compare Pos.compare Pos.compare_cont].
    destruct (write_varuint b1 (dt_month d)) as [[b2 n2]|]; [|reflexivity]. cbn [bind].
    destruct (write_varuint b2 (dt_day d)) as [[b3 n3]|]; [|reflexivity]. cbn [bind].
    destruct (write_varuint b3 (dt_hour d)) as [[b4 n4]|]; [|reflexivity]. cbn [bind].
    destruct (write_varuint b4 (dt_minute d)) as [[b5 n5]|]; [|reflexivity]. cbn [bind].
    destruct (write_varuint b5 (dt_second d)) as [[b6 n6]|]; [|reflexivity]. cbn [bind]. rewrite (X d eq_refl). reflexivity.
Qed.

Theorem scalar_carried t s : scalar_portable t s -> carried t s (as_read s).
Proof.
  intros H. destruct t, s as [b|z|b|d|tv|tk|tx|by_]; cbn [scalar_portable] in H; try contradiction; cbn [as_read].
  - destruct b; (eapply carried_octet; [reflexivity|constructor|unfold is_octet; lia|reflexivity]).
  - apply int_carried.
  - destruct (b =? 0) eqn:Z0.
    + apply Z.eqb_eq in Z0. subst b. eapply carried_octet; [reflexivity|constructor|unfold is_octet; lia|reflexivity].
    + destruct (float_payload b H) as (L & O & P). exists (0x48 :: pack_be 8 b), (EvThunk KFloat (pack_be 8 b)).
      cbn [serialize_scalar is_container]. unfold serialize_float. rewrite Z0. split; [reflexivity|].
      split; [constructor; [unfold is_octet; lia|exact O]|]. split; [apply sc_float64; exact L|].
      cbn [ev_force eval_thunk]. rewrite P. reflexivity.
  - apply decimal_carried; exact H.
  - destruct tv as [t|d]; [apply timestamp_carried; exact H|].
    destruct (timestamp_carried _ H) as (bs & v & A & B & C & D). exists bs, v.
    assert (dt_ok d) as (_ & _ & _ & _ & _ & M) by (destruct (canonical_inv _ (proj1 H)) as [K _]; exact K).
    split; [|auto]. cbn [serialize_scalar is_container] in *. rewrite plain_is_stamp by exact M. exact A.
  - destruct H as (sid & E & N). rewrite E. destruct (sid =? 0) eqn:Z0.
    + apply Z.eqb_eq in Z0. subst sid. eapply carried_octet; [|apply ov_symbol0|unfold is_octet; lia|reflexivity].
      cbn [serialize_scalar is_container]. unfold serialize_symbol. rewrite E. reflexivity.
    + apply (carried_payload 7 (Some KSymbol) _ _ _ (uint_octets sid)); [|constructor|apply octets_len_pos_uint; lia|apply uint_octets_octets|].
      * cbn [serialize_scalar is_container]. unfold serialize_symbol. rewrite E, Z0. apply write_int_value_spec; [lia|reflexivity].
      * cbn [ev_force payload_value eval_thunk]. rewrite parse_int_uint by lia. cbn [bind]. rewrite Z.mul_1_l. reflexivity.
  - destruct (utf8_roundtrip tx H) as (l & E & O & N & D). destruct tx as [|c tx].
    + eapply carried_octet; [reflexivity|constructor|unfold is_octet; lia|reflexivity].
    + apply (carried_payload 8 (Some KString) _ _ _ l); [|constructor| |exact O|].
      * cbn [serialize_scalar is_container]. unfold serialize_string. rewrite E. cbn [bind].
        rewrite write_length_spec by (try reflexivity; apply zlen_nonneg). reflexivity.
      * destruct l; [exfalso; apply N; [discriminate|reflexivity]|]. rewrite zlen_cons. pose proof (zlen_nonneg l). lia.
      * cbn [ev_force payload_value eval_thunk]. rewrite D. reflexivity.
  - destruct by_ as [|c r]; [apply (carried_octet _ _ _ 0x90 (EvVal (VBytes []))); [reflexivity|apply ov_clob0|unfold is_octet; lia|reflexivity]|].
    apply (carried_payload 9 None _ _ _ (c :: r)); [|constructor| |exact H|reflexivity].
    + cbn [serialize_scalar is_container]. unfold serialize_lob. rewrite write_length_spec by (try reflexivity; apply zlen_nonneg). reflexivity.
    + rewrite zlen_cons. pose proof (zlen_nonneg r). lia.
  - destruct by_ as [|c r]; [apply (carried_octet _ _ _ 0xA0 (EvVal (VBytes []))); [reflexivity|apply ov_blob0|unfold is_octet; lia|reflexivity]|].
    apply (carried_payload 10 None _ _ _ (c :: r)); [|constructor| |exact H|reflexivity].
    + cbn [serialize_scalar is_container]. unfold serialize_lob. rewrite write_length_spec by (try reflexivity; apply zlen_nonneg). reflexivity.
    + rewrite zlen_cons. pose proof (zlen_nonneg r). lia.
Qed.
