(** The text reader on the numbers of the grammar: underscores, radixes, both letters of an exponent. *)
From Coq Require Import String.
From Verif Require Import Base BaseFacts CoreModel ScalarFacts BinReaderModel SymbolsModel TextNumbers TextNumbersFacts TextWriterModel TextReaderModel TextReaderFacts TextReaderNest TextReaderChunks TextWalk TextTokens TextNumberTokens TextNumberValues TextFloats TextQuoted TextSymbols.
From Verif Require Import TextRoundTripSpec TextGrammar TextGaps TextReads TextNearest.
Local Open Scope Z_scope.

Lemma digit_dec c : digit c <-> dec_char c.
Proof. unfold digit, dec_char. tauto. Qed.
Lemma digits_dec l : Forall digit l -> Forall dec_char l.
Proof. intros F. eapply Forall_impl; [|exact F]. intros c. apply digit_dec. Qed.

(** * Values of digits *)
Lemma number_digits b l : Forall hexadecimal l -> number b l = digits_value b l.
Proof.
  unfold number, digits_value, base_value. intros F. generalize 0. induction F as [|c l H F IH]; intros a; [reflexivity|]. cbn [fold_left map].
  rewrite IH. f_equal. f_equal. unfold hexadecimal, digit, digit_value, digit_of in *. clear IH F.
  repeat match goal with |- context [if ?b then _ else _] => destruct b eqn:? end; lia.
Qed.
Lemma number_ten l : Forall digit l -> number 10 l = digits_value 10 l.
Proof. intros F. apply number_digits. eapply Forall_impl; [|exact F]. intros c H. now left. Qed.
Lemma run_digits (D : Z -> Prop) w ds : digit_run D w ds -> Forall D ds /\ ds <> [].
Proof. induction 1 as [d H|d l ds H R (F & N)|d l ds H R (F & N)]; (split; [|discriminate]); repeat constructor; auto. Qed.

(** * Runs of digits *)
Lemma run_numeric v f an t n (D : Z -> Prop) w ds : (forall c, D c -> charset n c = true /\ ends (plain c) = false /\ c <> 95 /\ before_underscore n c = false) ->
  (forall a, flushy (num f an t a) = true) -> digit_run D w ds -> forall prev a,
  exists prev', D prev' /\ hrun v (HNumeric n prev) (num f an t a) w (HNumeric n prev') (num f an t (a ++ ds)).
Proof.
  intros HD FL R.
  assert (ONE : forall d prev a, D d -> send v (HNumeric n prev) (plain d) (num f an t a) = Ok (TGo (HNumeric n d), num f an t (a ++ [d]), [])).
  { intros d prev a Hd. destruct (HD d Hd) as (C & E & N & _). unfold send, send_numeric. rewrite E. cbn [cz plain]. replace (d =? 95) with false by lia. rewrite C. reflexivity. }
  induction R as [d H|d l ds H R IH|d l ds H R IH]; intros prev a.
  - exists d. split; [exact H|]. eapply hrun_one; [now apply ONE|reflexivity|apply FL].
  - destruct (IH d (a ++ [d])) as (prev' & P & RR). exists prev'. split; [exact P|]. eapply h_cons; [now apply ONE|reflexivity|apply FL|].
    rewrite <- app_assoc in RR. exact RR.
  - destruct (IH 95 (a ++ [d])) as (prev' & P & RR). exists prev'. split; [exact P|]. eapply h_cons; [now apply ONE|reflexivity|apply FL|].
    destruct (HD d H) as (_ & _ & N & B). eapply h_cons with (h1 := HNumeric n 95) (k1 := num f an t (a ++ [d])); [|reflexivity|apply FL|].
    + unfold send, send_numeric. cbn [cz plain ends is_eof]. change (ends (plain 95)) with false. cbv beta iota. change (95 =? 95) with true. cbv beta iota. replace (d =? 95) with false by lia. rewrite B. reflexivity.
    + rewrite <- app_assoc in RR. exact RR.
Qed.
Lemma digit_set n : n = NWhole \/ n = NFrac -> forall c, digit c -> charset n c = true /\ ends (plain c) = false /\ c <> 95 /\ before_underscore n c = false.
Proof. intros N c H. unfold digit in H. destruct N as [->| ->]; cbn [charset before_underscore]; repeat split; chars. Qed.
Lemma hex_set c : hexadecimal c -> charset NHex c = true /\ ends (plain c) = false /\ c <> 95 /\ before_underscore NHex c = false.
Proof. intros H. unfold hexadecimal, digit in H. cbn [charset before_underscore illegal_at_end radix_char]. unfold is_hex. repeat split; chars; chars. Qed.
Lemma bin_set c : binary c -> charset NBin c = true /\ ends (plain c) = false /\ c <> 95 /\ before_underscore NBin c = false.
Proof. intros H. unfold binary in H. cbn [charset before_underscore illegal_at_end radix_char]. unfold is_hex. repeat split; chars; chars. Qed.

(** After the first digit: the rest of the run. *)
Lemma num_tail v f an d w ds : digit_run digit (d :: w) (d :: ds) -> forall a,
  exists h1, wholeish h1 /\ hrun v HNum (num f an TInt a) w h1 (num f an TInt (a ++ ds)).
Proof.
  revert d ds. induction w as [|c w IH]; intros d ds R a.
  - inversion R as [d0 H|d0 l ds0 H R'|]; subst; [|inversion R']. exists HNum. rewrite app_nil_r. split; [left; reflexivity|constructor].
  - inversion R as [|d0 l ds0 H R'|d0 l ds0 H R']; subst.
    + destruct ds as [|x ds]; [inversion R'|]. assert (x = c /\ digit c) as (-> & HC) by (inversion R'; subst; auto).
      destruct (IH c ds R' (a ++ [c])) as (h1 & W & RR). exists h1. split; [exact W|].
      eapply h_cons with (h1 := HNum) (k1 := num f an TInt (a ++ [c])); [|reflexivity|reflexivity|rewrite <- app_assoc in RR; exact RR].
      unfold send, send_num. cbn [cz plain]. unfold digit in HC. decide_chars. reflexivity.
    + destruct (run_numeric v f an TInt NWhole digit w ds (digit_set NWhole (or_introl eq_refl)) ltac:(reflexivity) R' 95 a) as (prev & P & RR).
      exists (HNumeric NWhole prev). split; [right; right; exists prev; split; [reflexivity|unfold digit in P; lia]|].
      eapply h_cons with (h1 := HNumeric NWhole 95) (k1 := num f an TInt a); [reflexivity|reflexivity|reflexivity|exact RR].
Qed.
Lemma whole_first w ds : digit_run digit w ds -> exists d w' ds', w = d :: w' /\ ds = d :: ds' /\ digit d.
Proof. intros R. inversion R; subst; eauto 8. Qed.
Lemma whole_part_of w ds : whole_text w ds -> whole_part ds.
Proof.
  intros [(-> & ->)|(R & N)]; [left; reflexivity|]. right. destruct (whole_first w ds R) as (d & w' & ds' & -> & -> & D). cbn in N.
  exists d, ds'. split; [reflexivity|]. destruct (run_digits _ _ _ R) as (F & _). apply digits_dec in F. inversion F; subst. split; [unfold digit in D; lia|assumption].
Qed.
Lemma whole_tok v f an neg w ds : whole_text w ds -> exists c0 rest h0 k0 h1,
  minus neg ++ w = c0 :: rest /\ (48 <= c0 <= 57 \/ c0 = 45) /\
  start_value v c0 (kid f an) = Ok (TGo h0, k0, []) /\ k_quoted k0 = false /\
  hrun v h0 k0 rest h1 (num f an TInt (minus neg ++ ds)) /\ wholeish h1.
Proof.
  intros [(-> & ->)|(R & N)].
  - apply (whole_run v f an (minus neg) [48]); [destruct neg; [right|left]; reflexivity|left; reflexivity].
  - destruct (whole_first w ds R) as (d & w' & ds' & -> & -> & D). cbn in N. unfold digit in D. destruct neg; cbn [minus app].
    + inversion R as [d0 H|d0 l ds0 H R'|d0 l ds0 H R']; subst.
      * exists 45, [d], HNeg, (num f an TInt [45]), (HNumeric NWhole d). split; [reflexivity|]. split; [lia|]. split; [reflexivity|]. split; [reflexivity|]. split.
        -- eapply hrun_one; [|reflexivity|reflexivity]. unfold send. cbn [cz plain]. decide_chars. unfold start_numeric. decide_chars. reflexivity.
        -- right. right. exists d. split; [reflexivity|lia].
      * destruct (run_numeric v f an TInt NWhole digit w' ds' (digit_set NWhole (or_introl eq_refl)) ltac:(reflexivity) R' d [45; d]) as (prev & P & RR).
        exists 45, (d :: w'), HNeg, (num f an TInt [45]), (HNumeric NWhole prev). split; [reflexivity|]. split; [lia|]. split; [reflexivity|]. split; [reflexivity|]. split.
        -- eapply h_cons with (h1 := HNumeric NWhole d) (k1 := num f an TInt [45; d]); [|reflexivity|reflexivity|exact RR]. unfold send. cbn [cz plain]. decide_chars. unfold start_numeric. decide_chars. reflexivity.
        -- right. right. exists prev. split; [reflexivity|unfold digit in P; lia].
      * destruct (run_numeric v f an TInt NWhole digit l ds' (digit_set NWhole (or_introl eq_refl)) ltac:(reflexivity) R' 95 [45; d]) as (prev & P & RR).
        exists 45, (d :: 95 :: l), HNeg, (num f an TInt [45]), (HNumeric NWhole prev). split; [reflexivity|]. split; [lia|]. split; [reflexivity|]. split; [reflexivity|]. split.
        -- eapply h_cons with (h1 := HNumeric NWhole d) (k1 := num f an TInt [45; d]); [|reflexivity|reflexivity|].
           ++ unfold send. cbn [cz plain]. decide_chars. unfold start_numeric. decide_chars. reflexivity.
           ++ eapply h_cons with (h1 := HNumeric NWhole 95) (k1 := num f an TInt [45; d]); [|reflexivity|reflexivity|exact RR]. unfold send, send_numeric. change (ends (plain 95)) with false. cbn [cz plain]. cbv beta iota. change (95 =? 95) with true. cbn [before_underscore]. decide_chars. reflexivity.
        -- right. right. exists prev. split; [reflexivity|unfold digit in P; lia].
    + destruct (num_tail v f an d w' ds' R [d]) as (h1 & WH & RR).
      exists d, w', HNum, (num f an TInt [d]), h1. split; [reflexivity|]. split; [lia|]. split; [|split; [reflexivity|split; [exact RR|exact WH]]].
      unfold start_value. decide_chars. reflexivity.
Qed.
(** * Integers *)
Lemma signed_minus neg n : signed neg n = sign neg n.
Proof. reflexivity. Qed.
Lemma minus_part neg : sign_part (minus neg).
Proof. destruct neg; [right|left]; reflexivity. Qed.
Lemma minus_back neg : match minus neg with [] => false | _ => true end = neg.
Proof. destruct neg; reflexivity. Qed.
Lemma whole_forall w ds : whole_text w ds -> Forall digit ds.
Proof. intros [(-> & ->)|(R & N)]; [repeat constructor; unfold digit; lia|]. apply (run_digits _ _ _ R). Qed.
Lemma int_numeral_ten neg w ds : whole_text w ds -> numeral (minus neg ++ w) TInt (VInt (sign neg (number 10 ds))).
Proof.
  intros W uni p f an. destruct (whole_tok (penv uni p) f an neg w ds W) as (c0 & rest & h0 & k0 & h1 & E & C & SV & KQ & R & WH).
  destruct (first_ok c0 C) as (F1 & F2 & F3). exists h1, (num f an TInt (minus neg ++ ds)).
  split; [exists c0, rest, h0, k0; repeat (split; [assumption|]); exact R|]. repeat (split; [reflexivity|]).
  intros c EN. rewrite (whole_end _ h1 c _ WH EN). cbn [num k_val]. do 3 f_equal. unfold parse_int10.
  rewrite <- (app_nil_r (minus neg ++ ds)), <- app_assoc, strip_sign by first [apply minus_part | eapply whole_part_of; exact W].
  rewrite minus_back, app_nil_r, number_ten by (eapply whole_forall; exact W). reflexivity.
Qed.
Lemma int_numeral_radix neg n x w ds (D : Z -> Prop) b : (forall c, D c -> charset n c = true /\ ends (plain c) = false /\ c <> 95 /\ before_underscore n c = false) ->
  (forall c, D c -> hexadecimal c) -> (n = NHex /\ b = 16 /\ (x = 120 \/ x = 88) \/ n = NBin /\ b = 2 /\ (x = 98 \/ x = 66)) ->
  digit_run D w ds -> numeral (minus neg ++ 48 :: x :: w) TInt (VInt (sign neg (number b ds))).
Proof.
  intros HD HX N R uni p f an. set (v := penv uni p).
  destruct (run_numeric v f an TInt n D w ds HD ltac:(reflexivity) R x (minus neg ++ [48; x])) as (prev & P & RR).
  assert (Z : exists c0 rest h0 k0, minus neg ++ 48 :: x :: w = c0 :: rest /\ (48 <= c0 <= 57 \/ c0 = 45) /\ start_value v c0 (kid f an) = Ok (TGo h0, k0, []) /\ k_quoted k0 = false /\
    hrun v h0 k0 rest (HNumeric n prev) (num f an TInt ((minus neg ++ [48; x]) ++ ds))).
  { assert (ST : send v HZero (plain x) (num f an TInt (minus neg ++ [48])) = Ok (TGo (HNumeric n x), num f an TInt (minus neg ++ [48; x]), [])).
    { unfold send, send_zero. destruct N as [(-> & -> & [->| ->])|(-> & -> & [->| ->])]; destruct neg; reflexivity. }
    destruct neg; cbn [minus app] in *.
    - exists 45, (48 :: x :: w), HNeg, (num f an TInt [45]). split; [reflexivity|]. split; [lia|]. split; [reflexivity|]. split; [reflexivity|].
      eapply h_cons with (h1 := HZero) (k1 := num f an TInt [45; 48]); [reflexivity|reflexivity|reflexivity|]. eapply h_cons; [exact ST|reflexivity|reflexivity|exact RR].
    - exists 48, (x :: w), HZero, (num f an TInt [48]). split; [reflexivity|]. split; [lia|]. split; [reflexivity|]. split; [reflexivity|].
      eapply h_cons; [exact ST|reflexivity|reflexivity|exact RR]. }
  destruct Z as (c0 & rest & h0 & k0 & E & C & SV & KQ & RT). destruct (first_ok c0 C) as (F1 & F2 & F3).
  exists (HNumeric n prev), (num f an TInt ((minus neg ++ [48; x]) ++ ds)).
  split; [exists c0, rest, h0, k0; repeat (split; [assumption|]); exact RT|]. repeat (split; [reflexivity|]).
  intros c EN. unfold send, send_numeric. fold v. rewrite EN. destruct (HD prev P) as (_ & _ & N95 & BU).
  replace ((prev =? 95) || illegal_at_end n prev) with false by (destruct N as [(-> & _)|(-> & _)]; cbn [before_underscore] in BU; rewrite BU; lia).
  f_equal. cbn [num k_val]. rewrite number_digits by (eapply Forall_impl; [exact HX|apply (run_digits _ _ _ R)]).
  assert (PR : parse_radix b ((minus neg ++ [48; x]) ++ ds) = sign neg (digits_value b ds)) by (unfold parse_radix; destruct neg; reflexivity).
  destruct N as [(-> & -> & _)|(-> & -> & _)]; cbn [parse_component]; now rewrite PR.
Qed.
Theorem int_numeral w n : int_text w n -> numeral w TInt (VInt n).
Proof.
  intros [neg w0 ds W|neg x w0 ds X R|neg x w0 ds X R].
  - now apply int_numeral_ten.
  - eapply (int_numeral_radix neg NHex x w0 ds hexadecimal 16); eauto. exact hex_set.
  - eapply (int_numeral_radix neg NBin x w0 ds binary 2); eauto; [exact bin_set|]. unfold binary, hexadecimal, digit. intros c. lia.
Qed.

(** * Fractions and exponents *)
Lemma whole_next' v h z k n : wholeish h -> after_whole z = Some n -> ends (plain z) = false -> is_digit z = false -> z <> 95 -> send v h (plain z) k = start_numeric n z k.
Proof.
  intros [->|[->|(prev & -> & P)]] A E D N; unfold send, send_num, send_zero, send_numeric; cbn [cz plain]; change (cz (plain z)) with z; rewrite E, ?D.
  - replace (z =? 95) with false by lia. now rewrite A.
  - now rewrite A.
  - replace (z =? 95) with false by lia. cbn [charset]. rewrite D. replace (prev =? 95) with false by lia. now rewrite A.
Qed.
Lemma frac_next' v h z k n : fracish h -> after_frac z = Some n -> ends (plain z) = false -> is_digit z = false -> z <> 95 -> send v h (plain z) k = start_numeric n z k.
Proof.
  intros (prev & -> & P) A E D N. unfold send, send_numeric. change (cz (plain z)) with z. rewrite E. replace (z =? 95) with false by lia. cbn [charset]. rewrite D. replace (prev =? 95) with false by lia. now rewrite A.
Qed.
Definition point_of (fr fds : text) : text := match fr with [] => [] | _ => 46 :: fds end.
Lemma fraction_run v f an h a fr fds : wholeish h -> fraction_text fr fds -> exists h' t',
  hrun v h (num f an TInt a) fr h' (num f an t' (a ++ point_of fr fds)) /\ (fr = [] /\ wholeish h' /\ t' = TInt \/ fr <> [] /\ fracish h' /\ t' = TDecimal).
Proof.
  intros W F.
  assert (PT : send v h (plain 46) (num f an TInt a) = Ok (TGo (HNumeric NFrac 46), num f an TDecimal (a ++ [46]), [])).
  { rewrite (whole_next' v h 46 _ NFrac W eq_refl eq_refl eq_refl ltac:(lia)). cbn [start_numeric]. rewrite retype_num, push_num. reflexivity. }
  destruct F as [| |w ds R].
  - exists h, TInt. cbn [point_of]. rewrite app_nil_r. split; [constructor|]. left. auto.
  - exists (HNumeric NFrac 46), TDecimal. cbn [point_of]. split; [eapply hrun_one; [exact PT|reflexivity|reflexivity]|]. right. split; [discriminate|]. split; [exists 46; split; [reflexivity|lia]|reflexivity].
  - destruct (run_numeric v f an TDecimal NFrac digit w ds (digit_set NFrac (or_intror eq_refl)) ltac:(reflexivity) R 46 (a ++ [46])) as (prev & P & RR).
    exists (HNumeric NFrac prev), TDecimal. cbn [point_of]. split; [eapply h_cons; [exact PT|reflexivity|reflexivity|rewrite <- app_assoc in RR; exact RR]|].
    right. split; [discriminate|]. split; [exists prev; split; [reflexivity|unfold digit in P; lia]|reflexivity].
Qed.
Lemma fraction_ok fr fds : fraction_text fr fds -> frac_ok (point_of fr fds) /\ frac_digits (point_of fr fds) = fds /\ Forall digit fds.
Proof.
  intros [| |w ds R]; cbn [point_of frac_digits].
  - split; [left; reflexivity|]. split; [reflexivity|constructor].
  - split; [right; exists []; split; [reflexivity|constructor]|]. split; [reflexivity|constructor].
  - destruct (run_digits _ _ _ R) as (F & _). split; [right; exists ds; split; [reflexivity|now apply digits_dec]|]. split; [reflexivity|exact F].
Qed.
Lemma exponent_part e n : exponent_text e n -> exp_part e /\ parse_exp e = n.
Proof.
  intros [s ds S NE F]. split.
  - exists s, ds. repeat split; auto; try (now apply digits_dec).
  - rewrite number_ten by exact F. destruct S as [->|[->| ->]]; [|reflexivity|reflexivity]. cbn [app sign].
    destruct ds as [|c ds]; [congruence|]. inversion F as [|x l H F']; subst. unfold digit in H. apply parse_exp_other; lia.
Qed.
Definition exp_mark (n : numkind) (z : Z) : Z := match n with NDec => 101 | _ => z end.
Lemma exponent_run v f an h t a n z x : (wholeish h /\ t = TInt) \/ (fracish h /\ t = TDecimal) -> (n = NDec /\ (z = 100 \/ z = 68) \/ n = NFlt /\ (z = 101 \/ z = 69)) -> exp_part x ->
  exists prev, dec_char prev /\ hrun v h (num f an t a) (z :: x) (HNumeric n prev) (num f an (exp_type n) (a ++ exp_mark n z :: x)).
Proof.
  intros H N (sg & ds & -> & S & D & NE).
  assert (FL : forall a, flushy (num f an (exp_type n) a) = true) by (intros ?; destruct N as [[-> _]|[-> _]]; reflexivity).
  assert (ST : send v h (plain z) (num f an t a) = Ok (TGo (HNumeric n z), num f an (exp_type n) (a ++ [exp_mark n z]), [])).
  { assert (G : start_numeric n z (num f an t a) = Ok (TGo (HNumeric n z), num f an (exp_type n) (a ++ [exp_mark n z]), [])).
    { destruct N as [[-> Z]|[-> Z]]; cbn [start_numeric]; rewrite retype_num, push_num; reflexivity. }
    rewrite <- G. destruct H as [[H _]|[H _]]; [apply whole_next'|apply frac_next']; auto; destruct N as [[-> [->| ->]]|[-> [->| ->]]]; try reflexivity; lia. }
  assert (NK : n <> NBin /\ n <> NHex /\ (exp_type n = TDecimal \/ exp_type n = TFloat)).
  { destruct N as [[-> _]|[-> _]]; repeat split; try discriminate; auto. }
  destruct S as [->|S].
  - destruct (numeric_digits v f an (exp_type n) n ds D (or_intror NK) z (a ++ [exp_mark n z])) as (prev & R & P).
    exists prev. split; [destruct P as [[-> _]|P]; [congruence|exact P]|].
    eapply h_cons; [exact ST|reflexivity|apply FL|]. rewrite <- app_assoc in R. exact R.
  - assert (SS : exists c, sg = [c] /\ is_sign c = true) by (destruct S as [->| ->]; eexists; split; reflexivity).
    destruct SS as (c & -> & Hc). cbn [app].
    destruct (numeric_digits v f an (exp_type n) n ds D (or_intror NK) c (a ++ [exp_mark n z; c])) as (prev & R & P).
    exists prev. split; [destruct P as [[-> _]|P]; [congruence|exact P]|].
    eapply h_cons; [exact ST|reflexivity|apply FL|].
    eapply h_cons with (h1 := HNumeric n c) (k1 := num f an (exp_type n) (a ++ [exp_mark n z; c])); [|reflexivity|apply FL|].
    + unfold send, send_numeric. cbn [cz plain]. destruct N as [[-> [->| ->]]|[-> [->| ->]]]; cbn [charset exp_char]; decide_chars; rewrite push_num, <- app_assoc; reflexivity.
    + rewrite <- app_assoc in R. exact R.
Qed.
Lemma parse_parts_mark sg ip fr m x : sign_part sg -> whole_part ip -> frac_ok fr -> is_exp_e m = true ->
  parse_parts (sg ++ ip ++ fr ++ m :: x) =
  (match sg with [] => false | _ => true end, digits_value 10 (ip ++ frac_digits fr), parse_exp x - zlen (frac_digits fr)).
Proof.
  intros S W F M. unfold parse_parts. rewrite strip_sign by assumption. rewrite app_assoc.
  rewrite span_stop by first [apply mantissa_no_e; assumption | rewrite M; reflexivity].
  rewrite parse_mantissa by assumption. unfold frac_digits. destruct fr; reflexivity.
Qed.
(** A number with an exponent. *)
Lemma exp_numeral neg w ds fr fds n z x e v : whole_text w ds -> fraction_text fr fds -> (n = NDec /\ (z = 100 \/ z = 68) \/ n = NFlt /\ (z = 101 \/ z = 69)) -> exponent_text x e ->
  (forall l, parse_parts l = (neg, number 10 (ds ++ fds), e - zlen fds) -> parse_component n l = Ok v) ->
  numeral (minus neg ++ w ++ fr ++ z :: x) (exp_type n) v.
Proof.
  intros W F N X PV uni p f an. destruct (whole_tok (penv uni p) f an neg w ds W) as (c0 & rest & h0 & k0 & h1 & E & C & SV & KQ & R & WH).
  destruct (first_ok c0 C) as (F1 & F2 & F3). destruct (fraction_run (penv uni p) f an h1 (minus neg ++ ds) fr fds WH F) as (h2 & t2 & R2 & H2).
  destruct (fraction_ok fr fds F) as (FO & FD & FF). destruct (exponent_part x e X) as (XP & XV).
  destruct (exponent_run (penv uni p) f an h2 t2 ((minus neg ++ ds) ++ point_of fr fds) n z x ltac:(destruct H2 as [(_ & A & B)|(_ & A & B)]; auto) N XP) as (prev & PD & R3).
  exists (HNumeric n prev), (num f an (exp_type n) (((minus neg ++ ds) ++ point_of fr fds) ++ exp_mark n z :: x)).
  split.
  { exists c0, (rest ++ fr ++ z :: x), h0, k0. split; [rewrite app_assoc, E; reflexivity|]. repeat (split; [assumption|]). eapply hrun_app; [exact R|eapply hrun_app; eassumption]. }
  split; [reflexivity|]. split; [reflexivity|]. split; [reflexivity|]. split; [destruct N as [[-> _]|[-> _]]; reflexivity|]. split; [reflexivity|].
  intros c EN. rewrite exp_end by (auto; destruct N as [[-> _]|[-> _]]; auto). f_equal. apply PV. cbn [num k_val]. rewrite <- !app_assoc.
  rewrite parse_parts_mark; [|apply minus_part|eapply whole_part_of; exact W|exact FO|destruct N as [[-> _]|[-> [->| ->]]]; reflexivity].
  rewrite minus_back, FD, XV, number_ten; [reflexivity|]. apply Forall_app. split; [eapply whole_forall; exact W|exact FF].
Qed.
Lemma decimal_ok n l d : (n = NDec \/ n = NFrac) -> parse_parts l = (d_neg d, d_coef d, d_exp d) -> decimal_fits d -> parse_component n l = Ok (VDecimal d).
Proof.
  intros N E (H & LO & HI). rewrite parse_decimal_component by exact N. unfold decimal_of_text. rewrite E. replace (_ || _) with false by lia. destruct d; reflexivity.
Qed.
Theorem dec_numeral w d : dec_text w d -> decimal_fits d -> numeral w TDecimal (VDecimal d).
Proof.
  intros [neg w0 ds fr fds W F NE|neg w0 ds fr fds z x e W F Z X] FI.
  - intros uni p f an. destruct (whole_tok (penv uni p) f an neg w0 ds W) as (c0 & rest & h0 & k0 & h1 & E & C & SV & KQ & R & WH).
    destruct (first_ok c0 C) as (F1 & F2 & F3). destruct (fraction_run (penv uni p) f an h1 (minus neg ++ ds) fr fds WH F) as (h2 & t2 & R2 & H2).
    destruct (fraction_ok fr fds F) as (FO & FD & FF). destruct H2 as [(X & _)|(_ & H2 & ->)]; [congruence|].
    exists h2, (num f an TDecimal ((minus neg ++ ds) ++ point_of fr fds)). split.
    { exists c0, (rest ++ fr), h0, k0. split; [rewrite app_assoc, E; reflexivity|]. repeat (split; [assumption|]). eapply hrun_app; [exact R|exact R2]. }
    repeat (split; [reflexivity|]). intros c EN. rewrite (frac_end _ h2 c _ H2 EN). f_equal. apply decimal_ok; [auto| |exact FI]. cbn [num k_val d_neg d_coef d_exp]. rewrite <- app_assoc.
    rewrite parse_parts_plain; [|apply minus_part|eapply whole_part_of; exact W|exact FO].
    rewrite minus_back, FD, number_ten; [reflexivity|]. apply Forall_app. split; [eapply whole_forall; exact W|exact FF].
  - apply (exp_numeral neg w0 ds fr fds NDec z x e); auto. intros l E. apply decimal_ok; auto.
Qed.
Theorem float_numeral w b : float_text w b -> numeral w TFloat (VFloat b).
Proof.
  intros [neg w0 ds fr fds z x e c10 b0 W F Z X -> NB].
  apply (exp_numeral neg w0 ds fr fds NFlt z x e); auto. intros l E. cbn [parse_component]. unfold float_of_text. rewrite E. unfold decimal_bits.
  assert (D0 : 0 <= number 10 (ds ++ fds)).
  { destruct (fraction_ok fr fds F) as (_ & _ & FF). pose proof (whole_forall _ _ W) as FW. assert (FA : Forall digit (ds ++ fds)) by (apply Forall_app; auto).
    rewrite number_ten by exact FA. apply digits_value_bound. now apply digits_dec. }
  rewrite (nearest_is _ _ b0 (Z.mul_nonneg_nonneg _ _ D0 (Z.lt_le_incl _ _ (pow10_pos (Z.max 0 (e - zlen fds)) ltac:(lia)))) (pow10_pos (Z.max 0 (- (e - zlen fds))) ltac:(lia)) NB). destruct neg; do 2 f_equal; lia.
Qed.
