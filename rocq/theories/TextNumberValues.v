(** What the text of a number means to the reader: ints, decimals and floats come back. *)
From Verif Require Import Base BaseFacts CoreModel ScalarFacts BinReaderModel TextNumbers TextNumbersFacts TextWriterModel TextReaderModel TextWalk TextTokens TextNumberTokens.
Local Open Scope Z_scope.

Lemma strip_minus_other c r : c <> 45 -> strip_minus (c :: r) = (false, c :: r).
Proof.
  intros H. unfold strip_minus. destruct c as [|c|c]; try reflexivity.
  repeat (destruct c as [c|c|]; try reflexivity). congruence.
Qed.
Lemma parse_exp_other c r : c <> 45 -> c <> 43 -> parse_exp (c :: r) = digits_value 10 (c :: r).
Proof.
  intros H1 H2. unfold parse_exp. destruct c as [|c|c]; try reflexivity.
  repeat (destruct c as [c|c|]; try reflexivity); congruence.
Qed.
Lemma strip_sign sg ip rest : sign_part sg -> whole_part ip ->
  strip_minus (sg ++ ip ++ rest) = (match sg with [] => false | _ => true end, ip ++ rest).
Proof.
  intros [->| ->] W; [|reflexivity]. cbn [app].
  destruct W as [->|(c & r & -> & Hc & _)]; [reflexivity|]. cbn [app]. apply strip_minus_other. lia.
Qed.
Lemma span_stop p l c r : Forall (fun x => p x = true) l -> p c = false -> span p (l ++ c :: r) = (l, c :: r).
Proof. induction 1 as [|x l Hx H IH]; intros C; cbn [app span]; [now rewrite C|]. rewrite Hx, IH by exact C. reflexivity. Qed.
Lemma span_all p l : Forall (fun x => p x = true) l -> span p l = (l, []).
Proof. induction 1 as [|x l Hx H IH]; [reflexivity|]. cbn [span]. now rewrite Hx, IH. Qed.
Lemma whole_digits ip : whole_part ip -> Forall dec_char ip.
Proof. intros [->|(c & r & -> & Hc & Hr)]; constructor; auto; unfold dec_char; lia || constructor. Qed.
Lemma dec_not_e l : Forall dec_char l -> Forall (fun c => negb (is_exp_e c) = true) l.
Proof. intros H. eapply Forall_impl; [|exact H]. intros c Hc. chars. Qed.
Lemma dec_not_dot l : Forall dec_char l -> Forall (fun c => negb (c =? 46) = true) l.
Proof. intros H. eapply Forall_impl; [|exact H]. intros c Hc. chars. Qed.

(** A number's sign, coefficient and exponent, from its parts. *)
Definition frac_digits (fr : list Z) : list Z := match fr with _ :: r => r | [] => [] end.
Definition frac_ok (fr : list Z) : Prop := fr = [] \/ exists r, fr = 46 :: r /\ Forall dec_char r.
Lemma parse_mantissa ip fr : whole_part ip -> frac_ok fr -> span (fun c => negb (c =? 46)) (ip ++ fr) = (ip, fr).
Proof.
  intros W [->|(r & -> & D)].
  - rewrite app_nil_r. apply span_all, dec_not_dot, whole_digits, W.
  - apply span_stop; [apply dec_not_dot, whole_digits, W|reflexivity].
Qed.
Lemma mantissa_no_e ip fr : whole_part ip -> frac_ok fr -> Forall (fun c => negb (is_exp_e c) = true) (ip ++ fr).
Proof.
  intros W F. apply Forall_app. split; [apply dec_not_e, whole_digits, W|]. destruct F as [->|(r & -> & D)]; constructor; [reflexivity|now apply dec_not_e].
Qed.
Lemma parse_parts_exp sg ip fr x : sign_part sg -> whole_part ip -> frac_ok fr ->
  parse_parts (sg ++ ip ++ fr ++ 101 :: x) =
  (match sg with [] => false | _ => true end, digits_value 10 (ip ++ frac_digits fr), parse_exp x - zlen (frac_digits fr)).
Proof.
  intros S W F. unfold parse_parts. rewrite strip_sign by assumption. rewrite app_assoc.
  rewrite span_stop by first [apply mantissa_no_e; assumption | reflexivity].
  rewrite parse_mantissa by assumption. unfold frac_digits. destruct fr; reflexivity.
Qed.
Lemma parse_parts_plain sg ip fr : sign_part sg -> whole_part ip -> frac_ok fr ->
  parse_parts (sg ++ ip ++ fr) =
  (match sg with [] => false | _ => true end, digits_value 10 (ip ++ frac_digits fr), - zlen (frac_digits fr)).
Proof.
  intros S W F. unfold parse_parts. rewrite strip_sign by assumption.
  rewrite span_all by (apply mantissa_no_e; assumption). rewrite parse_mantissa by assumption. unfold frac_digits. destruct fr; reflexivity.
Qed.

(** * Integers *)
Lemma nat_str_whole n : 0 <= n -> whole_part (nat_str n).
Proof.
  intros H. destruct (Z.eq_dec n 0) as [->|N]; [left; reflexivity|]. right. destruct (nat_str_head n ltac:(lia)) as (c & r & E & C & R). eauto.
Qed.
Theorem int_reads n : reads (int_str n) TInt (EvLazy (Ok (VInt n))).
Proof.
  apply plain_reads. unfold int_str. destruct (n <? 0) eqn:L.
  - change (45 :: nat_str (- n)) with ([45] ++ nat_str (- n)).
    replace (VInt n) with (VInt (parse_int10 ([45] ++ nat_str (- n)))); [apply int_token; [right; reflexivity|apply nat_str_whole; lia]|].
    f_equal. unfold parse_int10. cbn [app strip_minus signed]. rewrite nat_str_value by lia. lia.
  - change (nat_str n) with ([] ++ nat_str n).
    replace (VInt n) with (VInt (parse_int10 ([] ++ nat_str n))); [apply int_token; [left; reflexivity|apply nat_str_whole; lia]|].
    f_equal. unfold parse_int10. rewrite <- (app_nil_r (nat_str n)), strip_sign by first [apply nat_str_whole; lia | left; reflexivity].
    cbn [signed]. rewrite app_nil_r. apply nat_str_value. lia.
Qed.

(** * Decimals *)
(** Every value Python's [Decimal] can hold. *)
Definition dec_possible (d : dec) : Prop :=
  0 <= d_coef d /\ -1999999999999999997 <= d_exp d /\ d_exp d + ndigits (d_coef d) - 1 <= 999999999999999999.
Lemma signed_exp n : exp_part (signed_str n) /\ parse_exp (signed_str n) = n.
Proof.
  unfold signed_str. pose proof (nat_str_value (Z.abs n) ltac:(lia)) as V. split.
  - exists [if n <? 0 then 45 else 43], (nat_str (Z.abs n)). split; [reflexivity|]. split; [destruct (n <? 0); auto|]. split; [apply nat_str_chars; lia|apply nat_str_nonempty; lia].
  - destruct (n <? 0) eqn:L; cbn [parse_exp]; rewrite V; lia.
Qed.
Definition sign_of (neg : bool) : list Z := if neg then [45] else [].
Lemma sign_of_part neg : sign_part (sign_of neg).
Proof. destruct neg; [right|left]; reflexivity. Qed.
Lemma sign_of_back neg : match sign_of neg with [] => false | _ => true end = neg.
Proof. destruct neg; reflexivity. Qed.

Definition to_d (c : Z) : Z := if (c =? 101) || (c =? 69) then 100 else c.
Lemma to_d_id l : Forall (fun c => to_d c = c) l -> map to_d l = l.
Proof. induction 1 as [|x l Hx H IH]; [reflexivity|]. cbn [map]. now rewrite Hx, IH. Qed.
Lemma to_d_dec l : Forall dec_char l -> Forall (fun c => to_d c = c) l.
Proof. intros H. eapply Forall_impl; [|exact H]. intros c Hc. unfold to_d. replace ((c =? 101) || (c =? 69)) with false by chars. reflexivity. Qed.
Lemma zlist_eqb_neq a b : a <> b -> zlist_eqb a b = false.
Proof. intros H. destruct (zlist_eqb a b) eqn:E; [|reflexivity]. apply zlist_eqb_eq in E. congruence. Qed.

(** The shapes of [decimal_str]: sign, whole part, fraction, exponent. *)
Lemma decimal_shape d : 0 <= d_coef d -> exists ip fr,
  whole_part ip /\ frac_ok fr /\ digits_value 10 (ip ++ frac_digits fr) = d_coef d /\
  (decimal_str d = sign_of (d_neg d) ++ ip ++ fr /\ d_exp d = - zlen (frac_digits fr) \/
   exists x, decimal_str d = sign_of (d_neg d) ++ ip ++ fr ++ 69 :: x /\ exp_part x /\ d_exp d = parse_exp x - zlen (frac_digits fr)).
Proof.
  intros H. set (ds := nat_str (d_coef d)). assert (V : digits_value 10 ds = d_coef d) by (apply nat_str_value; exact H).
  assert (W : whole_part ds) by (apply nat_str_whole; exact H). assert (D : Forall dec_char ds) by (apply nat_str_chars; exact H).
  assert (L : 1 <= zlen ds). { destruct W as [E|(c & r & E & _)]; rewrite E; [cbn; lia|]. rewrite zlen_cons. pose proof (zlen_nonneg r). lia. }
  unfold decimal_str, dec_digits. fold ds. cbv zeta. set (left := d_exp d + zlen ds).
  set (dot := if (d_exp d <=? 0) && (-6 <? left) then left else 1). change (if d_neg d then [45] else []) with (sign_of (d_neg d)).
  assert (DOT : dot = left /\ d_exp d <= 0 /\ -6 < left \/ dot = 1 /\ (0 < d_exp d \/ left <= -6)).
  { unfold dot. destruct ((d_exp d <=? 0) && (-6 <? left)) eqn:?; lia. }
  assert (LEFT : left = d_exp d + zlen ds) by reflexivity. clearbody dot left ds.
  destruct (dot <=? 0) eqn:E1.
  { (* 0.000ddd *)
    assert (DL : dot = left) by lia.
    exists [48], (46 :: repeat 48 (Z.to_nat (- dot)) ++ ds). split; [left; reflexivity|].
    split; [right; eexists; split; [reflexivity|apply Forall_app; split; [apply repeat_zero_dec|exact D]]|]. cbn [frac_digits].
    split; [change ([48] ++ repeat 48 (Z.to_nat (- dot)) ++ ds) with (repeat 48 (S (Z.to_nat (- dot))) ++ ds); rewrite digits_value_zeros; exact V|].
    left. replace (left =? dot) with true by lia. rewrite app_nil_r. split; [reflexivity|].
    unfold zlen. rewrite app_length, repeat_length. unfold zlen in *. lia. }
  destruct (zlen ds <=? dot) eqn:E2.
  { exists ds, []. split; [exact W|]. split; [left; reflexivity|]. cbn [frac_digits]. rewrite app_nil_r. split; [exact V|]. change (zlen (@nil Z)) with 0.
    assert (Z0 : repeat 48 (Z.to_nat (dot - zlen ds)) = []).
    { assert (dot <= zlen ds) by lia.
      replace (Z.to_nat (dot - zlen ds)) with O by lia. reflexivity. }
    rewrite Z0, app_nil_r. destruct (left =? dot) eqn:E3.
    - left. split; [now rewrite !app_nil_r|]. lia.
    - right. exists (signed_str (left - dot)). destruct (signed_exp (left - dot)) as (X & PE). split; [reflexivity|]. split; [exact X|].
      rewrite PE. lia. }
  (* a.b *)
  assert (SPLIT : ztake dot ds ++ zdrop dot ds = ds) by (unfold ztake, zdrop; apply firstn_skipn).
  exists (ztake dot ds), (46 :: zdrop dot ds).
  split.
  { right. destruct W as [E|(c & r & E & C & R)]; [rewrite E in E2; cbn in E2; lia|].
    rewrite E. unfold ztake. destruct (Z.to_nat dot) as [|n] eqn:N; [lia|]. exists c, (firstn n r). split; [reflexivity|]. split; [exact C|].
    rewrite <- (firstn_skipn n r) in R. apply Forall_app in R. apply R. }
  split; [right; eexists; split; [reflexivity|]; rewrite <- SPLIT in D; apply Forall_app in D; apply D|].
  cbn [frac_digits]. rewrite SPLIT. split; [exact V|].
  assert (ZL : zlen (zdrop dot ds) = zlen ds - dot) by (unfold zlen, zdrop in *; rewrite skipn_length; lia).
  rewrite ZL. destruct (left =? dot) eqn:E3.
  - left. rewrite app_nil_r. split; [reflexivity|]. lia.
  - right. exists (signed_str (left - dot)). destruct (signed_exp (left - dot)) as (X & PE). split; [reflexivity|]. split; [exact X|].
    rewrite PE. lia.
Qed.

Lemma exp_chars x : exp_part x -> Forall (fun c => to_d c = c) x /\ Forall (fun c => c <> 46) x.
Proof.
  intros (sg & ds & -> & S & D & _). split; apply Forall_app; (split; [destruct S as [->|[->| ->]]; repeat constructor; lia|]).
  - now apply to_d_dec.
  - eapply Forall_impl; [|exact D]. intros c Hc. chars.
Qed.
Lemma frac_chars fr : frac_ok fr -> Forall (fun c => to_d c = c) fr.
Proof. intros [->|(r & -> & D)]; constructor; [reflexivity|now apply to_d_dec]. Qed.
Lemma sign_chars neg : Forall (fun c => to_d c = c) (sign_of neg).
Proof. destruct neg; repeat constructor. Qed.

Lemma parse_decimal_component n l : (n = NDec \/ n = NFrac) -> parse_component n l = let* d := decimal_of_text l in Ok (VDecimal d).
Proof. intros [->| ->]; reflexivity. Qed.
Theorem decimal_reads d : dec_possible d -> reads (decimal_text d) TDecimal (EvLazy (Ok (VDecimal d))).
Proof.
  intros (H & LO & HI). apply plain_reads. destruct (decimal_shape d H) as (ip & fr & W & F & V & SH).
  assert (OK : forall l, parse_parts l = (d_neg d, d_coef d, d_exp d) -> decimal_of_text l = Ok d).
  { intros l E. unfold decimal_of_text. rewrite E. replace (_ || _) with false by lia. destruct d; reflexivity. }
  unfold decimal_text. fold to_d. destruct SH as [(E & X)|(x & E & XP & X)].
  - (* no exponent *)
    assert (M : map to_d (decimal_str d) = decimal_str d).
    { rewrite E. apply to_d_id. apply Forall_app. split; [apply sign_chars|]. apply Forall_app. split; [apply to_d_dec, whole_digits, W|apply frac_chars, F]. }
    change (map (fun c => if (c =? 101) || (c =? 69) then 100 else c) (decimal_str d)) with (map to_d (decimal_str d)). rewrite M, zlist_eqb_refl. cbn [andb].
    destruct F as [->|(r & -> & D)].
    + (* digits only *)
      replace (existsb (fun c => c =? 46) (decimal_str d)) with false.
      2:{ symmetry. rewrite E. apply not_true_is_false. intros Y. apply existsb_exists in Y. destruct Y as (c & IN & Y). apply in_app_iff in IN.
          rewrite app_nil_r in IN. destruct IN as [IN|IN]; [destruct (d_neg d); [destruct IN as [<-|[]]; lia|destruct IN]|].
          pose proof (whole_digits ip W) as D. rewrite Forall_forall in D. specialize (D c IN). chars. }
      cbn [negb]. rewrite E, app_nil_r, <- app_assoc.
      change ([100; 48]) with ([] ++ 100 :: [48]).
      replace (Ok (VDecimal d)) with (parse_component NDec (sign_of (d_neg d) ++ ip ++ [] ++ 101 :: [48])).
      * apply (exp_token (sign_of (d_neg d)) ip [] NDec 100 [48]); auto using sign_of_part. exists [], [48]. repeat split; auto; [repeat constructor; lia|discriminate].
      * cbn [parse_component]. rewrite OK; [reflexivity|]. rewrite parse_parts_exp by (auto using sign_of_part; left; reflexivity).
        rewrite sign_of_back, V. cbn [frac_digits] in *. rewrite X. reflexivity.
    + replace (existsb (fun c => c =? 46) (decimal_str d)) with true.
      2:{ symmetry. apply existsb_exists. exists 46. split; [|reflexivity]. rewrite E. apply in_app_iff. right. apply in_app_iff. right. now left. }
      cbn [negb]. rewrite E.
      replace (Ok (VDecimal d)) with (parse_component NFrac (sign_of (d_neg d) ++ ip ++ 46 :: r)).
      * apply frac_token; auto using sign_of_part.
      * cbn [parse_component]. rewrite OK; [reflexivity|]. rewrite parse_parts_plain by (auto using sign_of_part; right; eauto). rewrite sign_of_back, V, X. reflexivity.
  - (* an exponent *)
    assert (M : map to_d (decimal_str d) = sign_of (d_neg d) ++ ip ++ fr ++ 100 :: x).
    { rewrite E, !map_app. cbn [map]. change (to_d 69) with 100.
      rewrite (to_d_id (sign_of _)) by apply sign_chars. rewrite (to_d_id ip) by (apply to_d_dec, whole_digits, W). rewrite (to_d_id fr) by (apply frac_chars, F).
      rewrite (to_d_id x) by apply (exp_chars x XP). reflexivity. }
    change (map (fun c => if (c =? 101) || (c =? 69) then 100 else c) (decimal_str d)) with (map to_d (decimal_str d)). rewrite M.
    rewrite zlist_eqb_neq. 2:{ rewrite E. intros Y. apply app_inv_head in Y. apply app_inv_head in Y. apply app_inv_head in Y. discriminate Y. }
    cbn [andb].
    replace (Ok (VDecimal d)) with (parse_component NDec (sign_of (d_neg d) ++ ip ++ fr ++ 101 :: x)).
    + apply (exp_token _ _ _ NDec 100 x); auto using sign_of_part.
    + cbn [parse_component]. rewrite OK; [reflexivity|]. rewrite parse_parts_exp by auto using sign_of_part. rewrite sign_of_back, V, X. reflexivity.
Qed.
