(** Property theorems C70: comparing events with [==].

    [event_eq a b] is the model (EventModel); the value attribute of an event may be computed when it is
    asked for, and then may raise. *)
From Coq Require Import String.
From Verif Require Import Base BaseFacts CoreModel CalendarFacts BinWriterModel SymbolsModel SymbolsProofs ManagedModel SimpleionModel SimpleionSpec EquivModel EquivSpec EquivProofs EquivMeaning Props_Equiv BinScalars BinScalarProofs EventModel.
Local Open Scope Z_scope.

(** * Specification *)

(** Objects that exist: floats are 64-bit patterns; timestamps are Timestamp objects (not plain
    datetimes) with fields in the ranges of the calendar. *)
Definition exists_as (s : scalar) : Prop :=
  match s with
  | VFloat x => 0 <= x < 2 ^ 64
  | VTimestamp (TsStamp t) => dt_ok (ts_dt t)
  | VTimestamp (TsPlain _) => False
  | _ => True
  end.
(** The event [e] has the value [x], and the class of the value is one of the Ion type. *)
Definition has_value (e : uevent) (x : attribute) : Prop :=
  attribute_of (ue_value e) = Ok x /\
  match x with
  | Holds s => exists_as s /\ exists t, ue_ion_type e = Some t /\ class_fits t s
  | _ => True
  end.

Definition nan (x : Z) : Prop := 2047 * 2 ^ 52 < x mod 2 ^ 63.
Definition zero (x : Z) : Prop := x = 0 \/ x = 2 ^ 63.
Definition whole (s : scalar) : option Z := match s with VBool b => Some (if b then 1 else 0) | VInt z => Some z | _ => None end.
(** No precision counts as SECOND. *)
Definition declared (p : option precision) : precision := match p with Some p => p | None => PSecond end.
(** When two values count as the same. *)
Inductive same_attribute : attribute -> attribute -> Prop :=
| sa_none : same_attribute Nothing Nothing
| sa_version x y : same_attribute (Version x y) (Version x y)
| sa_whole s t n : whole s = Some n -> whole t = Some n -> same_attribute (Holds s) (Holds t)
| sa_float x y : x = y \/ nan x /\ nan y \/ zero x /\ zero y -> same_attribute (Holds (VFloat x)) (Holds (VFloat y))
| sa_decimal d e : same_fraction d e -> same_attribute (Holds (VDecimal d)) (Holds (VDecimal e))
| sa_stamp s t : ts_dt s = ts_dt t -> declared (ts_prec s) = declared (ts_prec t) ->
    same_fraction (ts_frac s) (ts_frac t) -> same_attribute (Holds (VTimestamp (TsStamp s))) (Holds (VTimestamp (TsStamp t)))
| sa_symbol t : same_attribute (Holds (VSymbol t)) (Holds (VSymbol t))
| sa_string s : same_attribute (Holds (VString s)) (Holds (VString s))
| sa_bytes b : same_attribute (Holds (VBytes b)) (Holds (VBytes b)).

(** * Proofs *)
Lemma location_eqb_spec a b : location_eqb a b = true <-> a = b.
Proof. unfold location_eqb. rewrite andb_true_iff, zlist_eqb_eq, Z.eqb_eq. destruct a, b; cbn. split; [intros (-> & ->); reflexivity|intros [= -> ->]; auto]. Qed.
Lemma token_eqb_spec a b : token_eqb a b = true <-> a = b.
Proof.
  unfold token_eqb. rewrite !andb_true_iff, (opt_eqb_spec _ zlist_eqb_eq), (opt_eqb_spec _ Z.eqb_eq), (opt_eqb_spec _ location_eqb_spec). destruct a, b; cbn. split; [intros ((-> & ->) & ->); reflexivity|intros [= -> -> ->]; auto].
Qed.
Lemma symarg_eqb_spec a b : symarg_eqb a b = true <-> a = b.
Proof. destruct a, b; cbn [symarg_eqb]; rewrite ?token_eqb_spec, ?zlist_eqb_eq; split; congruence. Qed.
Lemma symargs_eqb_spec a : forall b, symargs_eqb a b = true <-> a = b.
Proof. induction a as [|x a IH]; intros [|y b]; cbn [symargs_eqb]; try (split; congruence). rewrite andb_true_iff, symarg_eqb_spec, IH. split; [intros (-> & ->); reflexivity|intros [= -> ->]; auto]. Qed.
Lemma evtype_eqb_spec a b : evtype_eqb a b = true <-> a = b.
Proof. destruct a, b; cbn; split; congruence. Qed.
Lemma ion_eqb_spec a b : iontype_eqb a b = true <-> a = b.
Proof. destruct a, b; vm_compute; split; congruence. Qed.
Lemma nan_true x : float_nan x = true <-> nan x.
Proof. unfold float_nan, nan. apply Z.ltb_lt. Qed.
Lemma zero_true x : 0 <= x < 2 ^ 64 -> (float_zero x = true <-> zero x).
Proof. intros R. split; [apply float_zero_spec; exact R|]. intros [->| ->]; reflexivity. Qed.
Lemma zero_no_nan x : zero x -> float_nan x = false.
Proof. intros [->| ->]; reflexivity. Qed.
Lemma float_same x y : 0 <= x < 2 ^ 64 -> 0 <= y < 2 ^ 64 -> (float_num_eq x y || (float_nan x && float_nan y) = true <-> x = y \/ nan x /\ nan y \/ zero x /\ zero y).
Proof.
  intros RX RY. rewrite <- !nan_true, <- (zero_true x RX), <- (zero_true y RY). unfold float_num_eq. rewrite orb_true_iff, !andb_true_iff, !orb_true_iff, !andb_true_iff, Z.eqb_eq, !negb_true_iff.
  assert (ZX : float_zero x = true -> float_nan x = false) by (intros H; apply zero_no_nan; apply zero_true; assumption).
  assert (ZY : float_zero y = true -> float_nan y = false) by (intros H; apply zero_no_nan; apply zero_true; assumption).
  split; [intuition|]. intros [->|[H|(A & B)]]; [|right; exact H|left; auto 10].
  destruct (float_nan y) eqn:N; [right; auto|left; auto].
Qed.
Lemma quantity_same d e : quantity_eq (if d_neg d then - d_coef d else d_coef d, 0, d_exp d) (if d_neg e then - d_coef e else d_coef e, 0, d_exp e) = true <-> same_fraction d e.
Proof. rewrite <- fraction_true. unfold quantity_eq, dec_num_eq, dec_units. rewrite Z.min_id, Z.sub_diag. change (2 ^ 0) with 1. rewrite !Z.mul_1_r. reflexivity. Qed.
Lemma whole_same n m : quantity_eq (n, 0, 0) (m, 0, 0) = true <-> n = m.
Proof. unfold quantity_eq. rewrite Z.min_id, Z.sub_diag. change (2 ^ 0) with 1. change (10 ^ 0) with 1. rewrite Z.eqb_eq. lia. Qed.
(** Times of the calendar at one offset are the same exactly if the instants are. *)
Lemma instant_same d e : dt_ok d -> dt_ok e -> dt_off d = dt_off e -> instant d = instant e -> d = e.
Proof.
  intros (_ & D1 & H1 & M1 & S1 & U1) (_ & D2 & H2 & M2 & S2 & U2) O I. unfold instant, seconds_of in I. rewrite O in I.
  set (o := match dt_off e with Some o => o | None => 0 end) in I.
  set (x := day_number (dt_year d) (dt_month d) (dt_day d)) in *. set (y := day_number (dt_year e) (dt_month e) (dt_day e)) in *. clearbody o.
  assert (E : dt_micro d = dt_micro e /\ x * 86400 + dt_hour d * 3600 + dt_minute d * 60 + dt_second d = y * 86400 + dt_hour e * 3600 + dt_minute e * 60 + dt_second e) by lia.
  destruct E as (EU & E). assert (x = y) by lia. assert (dt_hour d = dt_hour e) by lia. assert (dt_minute d = dt_minute e) by lia. assert (dt_second d = dt_second e) by lia.
  pose proof (day_injective _ _ _ _ _ _ D1 D2 H) as J. injection J as J1 J2 J3. destruct d, e; cbn in *. congruence.
Qed.
Lemma stamps_same s t : dt_ok (ts_dt s) -> dt_ok (ts_dt t) ->
  (datetimes_eq (ts_dt s) (ts_dt t) = true /\ opt_eqb Z.eqb (dt_off (ts_dt s)) (dt_off (ts_dt t)) = true <-> ts_dt s = ts_dt t).
Proof.
  intros A B. rewrite (opt_eqb_spec _ Z.eqb_eq). split.
  - intros (D & O). unfold datetimes_eq in D. rewrite O in D. destruct (dt_off (ts_dt t)) as [o|] eqn:E.
    + apply instant_same; try assumption; [congruence|]. apply Z.eqb_eq. exact D.
    + apply (fields_true_iff _ _); [congruence|exact D].
  - intros E. split; [|congruence]. unfold datetimes_eq. rewrite E. destruct (dt_off (ts_dt t)); [apply Z.eqb_refl|]. apply fields_true_iff; reflexivity.
Qed.
Definition plain_class (s : scalar) : Prop := match s with VFloat _ | VTimestamp _ => False | _ => True end.
Lemma values_plain x y : match x with Holds s => plain_class s | _ => True end -> match y with Holds s => plain_class s | _ => True end -> values_eq x y = attribute_eq x y.
Proof.
  intros PX PY. unfold values_eq. destruct x as [|s|? ?], y as [|t|? ?]; try (cbn; match goal with |- context [if negb ?b then _ else _] => destruct b end; reflexivity); try reflexivity.
  - destruct s; cbn in PX |- *; try contradiction; reflexivity.
  - destruct s, t; cbn [plain_class] in *; try contradiction; cbn [precision_attribute is_stamp orb andb negb]; destruct (attribute_eq _ _); reflexivity.
  - destruct s; cbn in PX |- *; try contradiction; reflexivity.
Qed.
Lemma values_same x y t u : (match x with Holds s => exists_as s /\ class_fits t s | _ => True end) -> (match y with Holds s => exists_as s /\ class_fits u s | _ => True end) ->
  t = u \/ x = Nothing \/ y = Nothing \/ (exists a b, x = Version a b) \/ (exists a b, y = Version a b) ->
  (values_eq x y = true <-> same_attribute x y).
Proof.
  intros WX WY SAME.
  destruct x as [|s|a b], y as [|s'|a' b'].
  - split; [constructor|reflexivity].
  - split; [discriminate|intros H; inversion H].
  - split; [discriminate|intros H; inversion H].
  - split; [|intros H; inversion H]. destruct s; discriminate.
  - assert (t = u) as -> by (destruct SAME as [E|[E|[E|[(? & ? & E)|(? & ? & E)]]]]; congruence). destruct WX as (EX & FX), WY as (EY & FY).
    assert (PLAIN : plain_class s -> plain_class s' -> (values_eq (Holds s) (Holds s') = true <-> scalar_eq s s' = true)) by (intros P Q; rewrite values_plain by assumption; reflexivity).
    destruct s as [b|z|f|d|ts|tk|tx|by_], s' as [b'|z'|f'|d'|ts'|tk'|tx'|by_']; try (destruct u; contradiction).
    1-4: rewrite PLAIN by exact Logic.I; cbn [scalar_eq quantity]; rewrite whole_same; split; [intros E; eapply sa_whole; cbn [whole]; [reflexivity|congruence]|intros H; inversion H as [| |? ? n A B| | | | | | ]; cbn in A, B; congruence].
    + cbn [values_eq]. cbn in EX, EY. rewrite (float_same _ _ EX EY). split; [apply sa_float|intros H; inversion H as [| |? ? n A B| | | | | | ]; subst; [discriminate|assumption]].
    + rewrite PLAIN by exact Logic.I. cbn [scalar_eq quantity]. rewrite quantity_same. split; [apply sa_decimal|intros H; inversion H as [| |? ? n A B| | | | | | ]; subst; [discriminate|assumption]].
    + destruct ts as [p|p], ts' as [q|q]; cbn [exists_as] in EX, EY; try contradiction. pose proof (stamps_same p q EX EY) as ST.
      cbn [values_eq attribute_eq scalar_eq precision_attribute is_stamp ts_datetime orb andb].
      split.
      * destruct (datetimes_eq (ts_dt p) (ts_dt q)) eqn:D; cbn [negb]; [|discriminate].
        match goal with |- (if ?c then _ else _) = _ -> _ => destruct c eqn:PR end; [discriminate|]. destruct (dec_num_eq (ts_frac p) (ts_frac q)) eqn:FR; cbn [negb]; [|discriminate]. intros O.
        apply sa_stamp; [apply ST; auto| |apply fraction_true; exact FR].
        destruct (ts_prec p) as [[]|], (ts_prec q) as [[]|]; cbn in PR; try discriminate; reflexivity.
      * intros H. inversion H as [| |? ? n A B| | |? ? E1 E2 E3| | | ]; subst; [discriminate|]. apply ST in E1. destruct E1 as (-> & O). cbn [negb]. rewrite O. apply fraction_true in E3. rewrite E3. cbn [negb].
        match goal with |- (if ?c then _ else _) = _ => assert (c = false) as -> end; [|reflexivity].
        destruct (ts_prec p) as [[]|], (ts_prec q) as [[]|]; cbn in E2 |- *; try discriminate; reflexivity.
    + rewrite PLAIN by exact Logic.I. cbn [scalar_eq]. rewrite token_eqb_spec. split; [intros ->; constructor|intros H; inversion H as [| |? ? n A B| | | | | | ]; subst; [discriminate|reflexivity]].
    + rewrite PLAIN by exact Logic.I. split; [discriminate|intros H; inversion H as [| |? ? n A B| | | | | | ]; discriminate].
    + rewrite PLAIN by exact Logic.I. split; [discriminate|intros H; inversion H as [| |? ? n A B| | | | | | ]; discriminate].
    + rewrite PLAIN by exact Logic.I. cbn [scalar_eq]. rewrite zlist_eqb_eq. split; [intros ->; constructor|intros H; inversion H as [| |? ? n A B| | | | | | ]; subst; [discriminate|reflexivity]].
    + rewrite PLAIN by exact Logic.I. cbn [scalar_eq]. rewrite zlist_eqb_eq. split; [intros ->; constructor|intros H; inversion H as [| |? ? n A B| | | | | | ]; subst; [discriminate|reflexivity]].
  - split; [|intros H; inversion H]. destruct s; discriminate.
  - split; [discriminate|intros H; inversion H].
  - split; [discriminate|intros H; inversion H].
  - cbn. destruct (a =? a') eqn:E; [destruct (b =? b') eqn:F|]; cbn; split; try discriminate; try reflexivity.
    + intros _. apply Z.eqb_eq in E, F. subst. constructor.
    + intros H. inversion H; subst. rewrite Z.eqb_refl in F. discriminate.
    + intros H. inversion H; subst. rewrite Z.eqb_refl in E. discriminate.
Qed.

(** * Theorems *)

(** Comparing raises only what computing a value raises. *)
Theorem C70_answers : forall a b x y, attribute_of (ue_value a) = Ok x -> attribute_of (ue_value b) = Ok y -> exists r, event_eq a b = Ok r.
Proof. intros a b x y A B. unfold event_eq. rewrite A, B. cbn [bind]. destruct (negb _); eauto. Qed.
Print Assumptions C70_answers.

(** C70.  Two events compare equal exactly if their types, Ion types, field names, annotations and depths
    are the same, and so are their values: whole numbers, texts, octets and symbol tokens by identity,
    floats by number with any NaN the same, decimals by number, timestamps by date, time, offset,
    precision (none is SECOND) and fraction of the second. *)
Theorem C70_meaning : forall a b x y, has_value a x -> has_value b y ->
  (event_eq a b = Ok true <->
   ue_type a = ue_type b /\ ue_ion_type a = ue_ion_type b /\ ue_field a = ue_field b /\ ue_annot a = ue_annot b /\ ue_depth a = ue_depth b /\
   same_attribute x y).
Proof.
  intros a b x y (A & WX) (B & WY). unfold event_eq. rewrite A, B. cbn [bind].
  assert (REST : evtype_eqb (ue_type a) (ue_type b) && opt_eqb iontype_eqb (ue_ion_type a) (ue_ion_type b) && opt_eqb symarg_eqb (ue_field a) (ue_field b) && symargs_eqb (ue_annot a) (ue_annot b) && opt_eqb Z.eqb (ue_depth a) (ue_depth b) = true
    <-> ue_type a = ue_type b /\ ue_ion_type a = ue_ion_type b /\ ue_field a = ue_field b /\ ue_annot a = ue_annot b /\ ue_depth a = ue_depth b).
  { rewrite !andb_true_iff, evtype_eqb_spec, (opt_eqb_spec _ ion_eqb_spec), (opt_eqb_spec _ symarg_eqb_spec), symargs_eqb_spec, (opt_eqb_spec _ Z.eqb_eq). tauto. }
  assert (VALS : ue_ion_type a = ue_ion_type b -> (values_eq x y = true <-> same_attribute x y)).
  { intros IT.
    destruct x as [|s|p q], y as [|s'|p' q'];
      try (apply (values_same _ _ TNull TNull); try exact Logic.I; eauto; fail).
    - destruct WY as (E & t & T & F). apply (values_same _ _ TNull t); auto.
    - destruct WX as (E & t & T & F). apply (values_same _ _ t TNull); auto.
    - destruct WX as (E & t & T & F), WY as (E' & t' & T' & F'). assert (t = t') as -> by congruence. apply (values_same _ _ t' t'); auto.
    - destruct WX as (E & t & T & F). apply (values_same _ _ t TNull); eauto 8.
    - destruct WY as (E & t & T & F). apply (values_same _ _ TNull t); eauto 8. }
  split.
  - destruct (values_eq x y) eqn:V; cbn [negb]; [|discriminate]. intros H. injection H as H. apply REST in H. destruct H as (H1 & H2 & H3 & H4 & H5). repeat split; try assumption. apply VALS; auto.
  - intros (H1 & H2 & H3 & H4 & H5 & H6). apply VALS in H6; [|exact H2]. rewrite H6. cbn [negb]. f_equal. apply REST. auto.
Qed.
Print Assumptions C70_meaning.

Lemma fraction_trans x y z : same_fraction x y -> same_fraction y z -> same_fraction x z.
Proof.
  intros A B. intros m L1 L2. set (k := Z.min m (d_exp y)).
  assert (KX : rational x k = rational z k) by (rewrite (A k), (B k) by (unfold k; lia); reflexivity). unfold rational in *.
  replace (d_exp x - k) with ((d_exp x - m) + (m - k)) in KX by lia. replace (d_exp z - k) with ((d_exp z - m) + (m - k)) in KX by lia.
  rewrite !Z.pow_add_r, !Z.mul_assoc in KX by (unfold k; lia). apply Z.mul_cancel_r in KX; [exact KX|]. apply Z.pow_nonzero; unfold k; lia.
Qed.
Lemma fraction_sym x y : same_fraction x y -> same_fraction y x.
Proof. intros A m L1 L2. symmetry. apply A; assumption. Qed.
Lemma same_sym x y : same_attribute x y -> same_attribute y x.
Proof.
  destruct 1 as [| |s t n A B|x y H|d e F|s t A B C| | | ]; try constructor.
  - exact (sa_whole _ _ n B A).
  - destruct H as [->|[(? & ?)|(? & ?)]]; auto.
  - exact (fraction_sym _ _ F).
  - auto.
  - auto.
  - exact (fraction_sym _ _ C).
Qed.
Lemma zero_not_nan x : zero x -> nan x -> False.
Proof. intros Z N. apply nan_true in N. rewrite (zero_no_nan _ Z) in N. discriminate. Qed.
Lemma same_trans x y z : same_attribute x y -> same_attribute y z -> same_attribute x z.
Proof.
  intros A B. destruct A as [| |s t n W1 W2|x y H|d e F|s t A1 A2 A3| | | ]; try exact B.
  - inversion B as [| |? t' m V1 V2|? ? ?|? ? ?|? ? ? ? ?| | | ]; subst; try discriminate. apply (sa_whole _ _ n W1). congruence.
  - inversion B as [| |? t' m V1 V2|? w K|? ? ?|? ? ? ? ?| | | ]; subst; [discriminate|]. apply sa_float.
    destruct H as [->|[(H1 & H2)|(H1 & H2)]]; [exact K| |]; destruct K as [<-|[(K1 & K2)|(K1 & K2)]]; auto; exfalso; eauto using zero_not_nan.
  - inversion B as [| |? t' m V1 V2|? w K|? g G|? ? ? ? ?| | | ]; subst; [discriminate|]. apply sa_decimal. exact (fraction_trans _ _ _ F G).
  - inversion B as [| |? t' m V1 V2|? w K|? g G|? u B1 B2 B3| | | ]; subst; [discriminate|]. apply sa_stamp; try congruence. exact (fraction_trans _ _ _ A3 B3).
Qed.

(** Every event equals itself, whatever its value (if it can be computed), NaN included. *)
Theorem C70_reflexive : forall e x, attribute_of (ue_value e) = Ok x -> event_eq e e = Ok true.
Proof.
  intros e x A. unfold event_eq. rewrite A. cbn [bind].
  assert (V : values_eq x x = true).
  { destruct x as [|s|p q]; [reflexivity| |cbn; rewrite !Z.eqb_refl; reflexivity].
    destruct s as [b|z|f|d|t|tk|tx|b]; cbn [values_eq attribute_eq scalar_eq quantity precision_attribute is_stamp orb andb].
    - rewrite (proj2 (whole_same _ _) eq_refl). reflexivity.
    - rewrite (proj2 (whole_same _ _) eq_refl). reflexivity.
    - unfold float_num_eq. rewrite Z.eqb_refl. destruct (float_nan f); reflexivity.
    - rewrite (proj2 (quantity_same d d)); [reflexivity|]. intros m _ _. reflexivity.
    - assert (D : datetimes_eq (ts_datetime t) (ts_datetime t) = true) by (unfold datetimes_eq; destruct (dt_off (ts_datetime t)); [apply Z.eqb_refl|apply fields_true_iff; reflexivity]).
      rewrite D. cbn [negb]. rewrite (proj2 (opt_eqb_spec _ prec_eqb_spec _ _) eq_refl). cbn [negb andb]. rewrite (proj2 (opt_eqb_spec _ Z.eqb_eq _ _) eq_refl).
      rewrite ?andb_false_r. destruct t as [t|t]; [rewrite dec_num_refl; reflexivity|reflexivity].
    - rewrite (proj2 (token_eqb_spec _ _) eq_refl). reflexivity.
    - rewrite zlist_eqb_refl. reflexivity.
    - rewrite zlist_eqb_refl. reflexivity. }
  rewrite V. cbn [negb]. f_equal. rewrite !andb_true_iff, evtype_eqb_spec, (opt_eqb_spec _ ion_eqb_spec), (opt_eqb_spec _ symarg_eqb_spec), symargs_eqb_spec, (opt_eqb_spec _ Z.eqb_eq). auto.
Qed.
Print Assumptions C70_reflexive.
(** Events whose values fit their types: [==] is symmetric and transitive. *)
Theorem C70_symmetric : forall a b x y, has_value a x -> has_value b y -> event_eq a b = event_eq b a.
Proof.
  intros a b x y A B. destruct (C70_answers a b x y (proj1 A) (proj1 B)) as [r R]. destruct (C70_answers b a y x (proj1 B) (proj1 A)) as [r' R']. rewrite R, R'.
  pose proof (C70_meaning a b x y A B) as M. pose proof (C70_meaning b a y x B A) as M'. rewrite R in M. rewrite R' in M'.
  assert (E : r = true <-> r' = true).
  { assert (X : forall u : bool, u = true <-> Ok u = Ok true) by (intros u; split; congruence). rewrite (X r), (X r'), M, M'. split; intros (H1 & H2 & H3 & H4 & H5 & H6); repeat split; try (symmetry; assumption); apply same_sym; assumption. }
  destruct r, r'; try reflexivity; destruct E as [E1 E2]; [symmetry; f_equal; auto|f_equal; auto].
Qed.
Print Assumptions C70_symmetric.
Theorem C70_transitive : forall a b c x y z, has_value a x -> has_value b y -> has_value c z ->
  event_eq a b = Ok true -> event_eq b c = Ok true -> event_eq a c = Ok true.
Proof.
  intros a b c x y z A B C AB BC. apply (C70_meaning a b x y A B) in AB. apply (C70_meaning b c y z B C) in BC. apply (C70_meaning a c x z A C).
  destruct AB as (? & ? & ? & ? & ? & S1), BC as (? & ? & ? & ? & ? & S2). repeat split; try congruence. exact (same_trans _ _ _ S1 S2).
Qed.
Print Assumptions C70_transitive.

(** * Cases *)

(** Events of one scalar. *)
Definition of_scalar (t : iontype) (s : scalar) : uevent := mkue EScalar (Some t) (EvVal s) None [] (Some 0).
Definition stamp (off : option Z) (frac : dec) (prec : option precision) : scalar :=
  VTimestamp (TsStamp (mkts (mkdt 2020 2 29 23 59 30 123456 off) prec 6 frac)).
Definition tenth : Z := 0x3FB999999999999A.
Definition quiet_nan : Z := 0x7FF8000000000000.
(** The hypotheses hold of ordinary events; the two answers occur. *)
Theorem C70_cases :
  let a := of_scalar TTimestamp (stamp (Some 3600) (mkdec false 1234567 (-7)) (Some PSecond)) in
  let b := of_scalar TTimestamp (stamp (Some 3600) (mkdec false 12345670 (-8)) (Some PSecond)) in
  let c := of_scalar TTimestamp (stamp (Some 3600) (mkdec false 1234568 (-7)) (Some PSecond)) in
  let d := of_scalar TTimestamp (stamp (Some 0) (mkdec false 1234567 (-7)) (Some PSecond)) in
  let e := of_scalar TTimestamp (stamp (Some 3600) (mkdec false 1234567 (-7)) (Some PMinute)) in
  has_value a (Holds (stamp (Some 3600) (mkdec false 1234567 (-7)) (Some PSecond))) /\
  event_eq a b = Ok true /\ event_eq a c = Ok false /\ event_eq a d = Ok false /\ event_eq a e = Ok false /\
  (* thunks of the binary reader are compared by their values *)
  event_eq (mkue EScalar (Some TInt) (EvThunk (KInt 1) [1; 0]) None [] (Some 0)) (of_scalar TInt (VInt 256)) = Ok true /\
  event_eq (mkue EScalar (Some TDecimal) (EvThunk KDecimal [0xC1; 10]) None [] (Some 0)) (of_scalar TDecimal (VDecimal (mkdec false 100 (-2)))) = Ok true /\
  (* a thunk that cannot be computed raises *)
  event_eq (mkue EScalar (Some TString) (EvThunk KString [0xFF]) None [] (Some 0)) (of_scalar TString (VString [])) = Err UnicodeDecodeError /\
  event_eq (of_scalar TFloat (VFloat quiet_nan)) (of_scalar TFloat (VFloat (quiet_nan + 1))) = Ok true /\
  event_eq (of_scalar TString (VString (txt "a"))) (of_scalar TSymbol (VString (txt "a"))) = Ok false.
Proof. repeat split; try (vm_compute; reflexivity); try (vm_compute; congruence). exists TTimestamp. split; [reflexivity|exact Logic.I]. Qed.

(** Numbers of different classes are compared exactly: the smallest and the largest subnormal float, the
    smallest normal one and the largest one, as decimals and as an int. *)
Theorem C70_mixed_cases :
  event_eq (of_scalar TFloat (VDecimal (mkdec false (5 ^ 1074) (-1074)))) (of_scalar TFloat (VFloat 1)) = Ok true /\
  event_eq (of_scalar TFloat (VDecimal (mkdec true ((2 ^ 52 - 1) * 5 ^ 1074) (-1074)))) (of_scalar TFloat (VFloat (2 ^ 63 + 2 ^ 52 - 1))) = Ok true /\
  event_eq (of_scalar TFloat (VDecimal (mkdec false (5 ^ 1022) (-1022)))) (of_scalar TFloat (VFloat (2 ^ 52))) = Ok true /\
  event_eq (of_scalar TFloat (VInt ((2 ^ 53 - 1) * 2 ^ 971))) (of_scalar TFloat (VFloat (2047 * 2 ^ 52 - 1))) = Ok true /\
  event_eq (of_scalar TFloat (VInt ((2 ^ 53 - 1) * 2 ^ 971 + 1))) (of_scalar TFloat (VFloat (2047 * 2 ^ 52 - 1))) = Ok false /\
  event_eq (of_scalar TFloat (VInt (2 ^ 1024))) (of_scalar TFloat (VFloat (2047 * 2 ^ 52))) = Ok false.
Proof. vm_compute. auto 10. Qed.

(** Signed zeros, and decimals that differ in trailing zeros only, are not told apart, though they are
    different Ion values. *)
Theorem C70_data_model_refuted :
  event_eq (of_scalar TFloat (VFloat 0)) (of_scalar TFloat (VFloat (2 ^ 63))) = Ok true /\
  event_eq (of_scalar TDecimal (VDecimal (mkdec false 10 (-1)))) (of_scalar TDecimal (VDecimal (mkdec false 100 (-2)))) = Ok true /\
  event_eq (of_scalar TDecimal (VDecimal (mkdec true 0 0))) (of_scalar TDecimal (VDecimal (mkdec false 0 0))) = Ok true.
Proof. vm_compute. auto. Qed.
(** Values whose class does not fit the type: an int under the type FLOAT equals the float, not the
    other way round. *)
Theorem C70_symmetric_refuted :
  let int := of_scalar TFloat (VInt 1) in
  let float := of_scalar TFloat (VFloat 0x3FF0000000000000) in
  event_eq int float = Ok true /\ event_eq float int = Ok false.
Proof. vm_compute. auto. Qed.
(** A plain datetime equals Timestamps that differ beyond the microsecond. *)
Theorem C70_transitive_refuted :
  let a := of_scalar TTimestamp (stamp None (mkdec false 1234561 (-7)) (Some PSecond)) in
  let b := of_scalar TTimestamp (VTimestamp (TsPlain (mkdt 2020 2 29 23 59 30 123456 None))) in
  let c := of_scalar TTimestamp (stamp None (mkdec false 1234562 (-7)) (Some PSecond)) in
  event_eq a b = Ok true /\ event_eq b c = Ok true /\ event_eq a c = Ok false.
Proof. vm_compute. auto. Qed.
(** [!=] is not the negation of [==]: two NaN events, two thunk events of one value, are equal and
    unequal; and two timestamps of the same instant at different offsets are neither. *)
Theorem C70_not_equal_refuted :
  let a := of_scalar TFloat (VFloat quiet_nan) in
  let t := mkue EScalar (Some TInt) (EvThunk (KInt 1) [1]) None [] (Some 0) in
  let p := of_scalar TTimestamp (VTimestamp (TsStamp (mkts (mkdt 2020 1 1 12 0 0 0 (Some 0)) (Some PMinute) 0 dec_zero))) in
  let q := of_scalar TTimestamp (VTimestamp (TsStamp (mkts (mkdt 2020 1 1 13 0 0 0 (Some 3600)) (Some PMinute) 0 dec_zero))) in
  (event_eq a a = Ok true /\ event_ne false a a = true) /\
  (event_eq t t = Ok true /\ event_ne false t t = true) /\
  (event_eq p q = Ok false /\ event_ne false p q = false).
Proof. vm_compute. auto. Qed.
