(** The text reader on numbers: integers, decimals and floats as the text writer writes them. *)
From Verif Require Import Base BaseFacts CoreModel ScalarFacts BinReaderModel TextNumbers TextNumbersFacts TextWriterModel TextReaderModel TextWalk TextTokens.
Local Open Scope Z_scope.

Ltac chars := unfold ends, starts, is_term, is_ws, is_op, is_digit, is_hex, is_sign, is_exp_d, is_exp_e, ident_start, ident_char, is_letter, dec_char, mem,
  c_terminators, c_ws, c_symbol_end, c_operators in *; cbn [existsb cz plain is_eof] in *; try lia.
Ltac decide_chars :=
  repeat match goal with
  | |- context [if ?b then _ else _] => first [replace b with true by (chars) | replace b with false by (chars)]
  end.

Definition num (f : option token) (an : list token) (t : iontype) (v : list Z) : tctx := mkk f an false v (Some t) None false false false false.
Lemma push_num f an t v c : push (num f an t v) c = num f an t (v ++ [c]).
Proof. reflexivity. Qed.
Lemma retype_num f an t t' v : set_type (Some t') (num f an t v) = num f an t' v.
Proof. unfold set_type. destruct t, t'; reflexivity. Qed.

Definition wholeish (h : hs) : Prop := h = HNum \/ h = HZero \/ exists prev, h = HNumeric NWhole prev /\ prev <> 95.
(** [after_whole]: the machine is past the whole part, or past the fraction. *)
Definition fracish (h : hs) : Prop := exists prev, h = HNumeric NFrac prev /\ prev <> 95.

Lemma ends_not c : ends c = true -> is_digit (cz c) = false /\ cz c <> 95 /\ cz c <> 46 /\ is_exp_d (cz c) = false /\ is_exp_e (cz c) = false.
Proof. destruct c as [z e g|]; chars; repeat split; lia. Qed.

(** Digits. *)
Lemma num_digits v f an t ds : Forall dec_char ds -> (t = TInt) -> forall w,
  hrun v HNum (num f an t w) ds HNum (num f an t (w ++ ds)).
Proof.
  intros D ->. induction D as [|d ds Hd D IH]; intros w; [rewrite app_nil_r; constructor|].
  eapply h_cons with (h1 := HNum) (k1 := num f an TInt (w ++ [d])); [|reflexivity|reflexivity|].
  - unfold send, send_num. cbn [cz plain]. decide_chars. reflexivity.
  - replace (w ++ d :: ds) with ((w ++ [d]) ++ ds) by (rewrite <- app_assoc; reflexivity). apply IH.
Qed.
Lemma numeric_digits v f an t n ds : Forall dec_char ds -> (n = NWhole /\ t = TInt \/ n <> NBin /\ n <> NHex /\ (t = TDecimal \/ t = TFloat)) -> forall prev w,
  exists prev', hrun v (HNumeric n prev) (num f an t w) ds (HNumeric n prev') (num f an t (w ++ ds)) /\
    (ds = [] /\ prev' = prev \/ dec_char prev').
Proof.
  intros D N. induction D as [|d ds Hd D IH]; intros prev w.
  - exists prev. rewrite app_nil_r. split; [constructor|auto].
  - destruct (IH d (w ++ [d])) as (prev' & R & P). exists prev'. split.
    + eapply h_cons with (h1 := HNumeric n d) (k1 := num f an t (w ++ [d])); [|reflexivity|destruct N as [[-> ->]|(_ & _ & [->| ->])]; reflexivity|].
      * unfold send, send_numeric. cbn [cz plain]. decide_chars.
        replace (charset n d) with true; [reflexivity|]. destruct N as [[-> ->]|(N1 & N2 & _)]; [|destruct n; try congruence]; cbn [charset]; chars.
      * replace (w ++ d :: ds) with ((w ++ [d]) ++ ds) by (rewrite <- app_assoc; reflexivity). exact R.
    + right. destruct P as [[-> ->]|P]; assumption.
Qed.

(** The whole part. *)
Definition whole_part (ip : list Z) : Prop := ip = [48] \/ exists c r, ip = c :: r /\ 49 <= c <= 57 /\ Forall dec_char r.
Definition sign_part (sg : list Z) : Prop := sg = [] \/ sg = [45].

Lemma whole_run v f an sg ip : sign_part sg -> whole_part ip -> exists c0 rest h0 k0 h1,
  sg ++ ip = c0 :: rest /\ (48 <= c0 <= 57 \/ c0 = 45) /\
  start_value v c0 (kid f an) = Ok (TGo h0, k0, []) /\ k_quoted k0 = false /\
  hrun v h0 k0 rest h1 (num f an TInt (sg ++ ip)) /\ wholeish h1.
Proof.
  intros [->| ->] [->|(c & r & -> & Hc & Hr)].
  - exists 48, [], HZero, (num f an TInt [48]), HZero. split; [reflexivity|]. split; [lia|]. repeat split; auto; [constructor|]. unfold wholeish. auto.
  - exists c, r, HNum, (num f an TInt [c]), HNum. split; [reflexivity|]. split; [lia|]. split; [|split; [reflexivity|]].
    + unfold start_value. decide_chars. reflexivity.
    + split; [|unfold wholeish; auto]. apply (num_digits v f an TInt r Hr eq_refl [c]).
  - exists 45, [48], HNeg, (num f an TInt [45]), HZero. split; [reflexivity|]. split; [lia|]. split; [reflexivity|]. split; [reflexivity|].
    split; [|unfold wholeish; auto]. eapply hrun_one; reflexivity.
  - destruct (numeric_digits v f an TInt NWhole r Hr (or_introl (conj eq_refl eq_refl)) c [45; c]) as (prev' & R & P).
    exists 45, (c :: r), HNeg, (num f an TInt [45]), (HNumeric NWhole prev'). split; [reflexivity|]. split; [lia|]. split; [reflexivity|]. split; [reflexivity|].
    split.
    + eapply h_cons with (h1 := HNumeric NWhole c) (k1 := num f an TInt [45; c]); [|reflexivity|reflexivity|exact R].
      unfold send. cbn [cz plain]. decide_chars. unfold start_numeric. decide_chars. reflexivity.
    + right. right. exists prev'. split; [reflexivity|]. destruct P as [[_ ->]|P]; chars.
Qed.
Lemma whole_end v h c k : wholeish h -> ends c = true ->
  send v h c k = number_end v c k (Ok (VInt (parse_int10 (k_val k)))).
Proof.
  intros [->|[->|(prev & -> & P)]] E; unfold send, send_num, send_zero, send_numeric; rewrite E; try reflexivity.
  replace ((prev =? 95) || illegal_at_end NWhole prev) with false; [reflexivity|]. cbn [illegal_at_end]. lia.
Qed.
Lemma whole_next v h z k n : wholeish h -> after_whole z = Some n -> (z = 46 \/ z = 100 \/ z = 101) -> send v h (plain z) k = start_numeric n z k.
Proof.
  intros [->|[->|(prev & -> & P)]] A Z; unfold send, send_num, send_zero, send_numeric; cbn [cz plain]; destruct Z as [->|[->| ->]];
  cbn in A; injection A as <-; try reflexivity; cbn [ends cz plain is_eof charset]; replace (prev =? 95) with false by lia; reflexivity.
Qed.
Lemma frac_next v h z k n : fracish h -> after_frac z = Some n -> (z = 100 \/ z = 101) -> send v h (plain z) k = start_numeric n z k.
Proof.
  intros (prev & -> & P) A Z. unfold send, send_numeric. destruct Z as [->| ->]; cbn in A; injection A as <-; cbn [ends cz plain is_eof charset];
  replace (prev =? 95) with false by lia; reflexivity.
Qed.

(** The fraction. *)
Lemma frac_run v f an h w fr : wholeish h -> Forall dec_char fr ->
  exists h', fracish h' /\ hrun v h (num f an TInt w) (46 :: fr) h' (num f an TDecimal (w ++ 46 :: fr)).
Proof.
  intros H D. destruct (numeric_digits v f an TDecimal NFrac fr D ltac:(right; repeat split; try discriminate; auto) 46 (w ++ [46])) as (prev' & R & P).
  exists (HNumeric NFrac prev'). split; [exists prev'; split; [reflexivity|destruct P as [[_ ->]|P]; chars]|].
  eapply h_cons with (h1 := HNumeric NFrac 46) (k1 := num f an TDecimal (w ++ [46])); [|reflexivity|reflexivity|].
  - rewrite (whole_next v h 46 _ NFrac H eq_refl) by auto. cbn [start_numeric]. rewrite retype_num, push_num. reflexivity.
  - rewrite <- app_assoc in R. exact R.
Qed.

(** The exponent: [d] for a decimal, [e] for a float; a [d] is remembered as [e]. *)
Definition exp_part (x : list Z) : Prop := exists sg ds, x = sg ++ ds /\ (sg = [] \/ sg = [43] \/ sg = [45]) /\ Forall dec_char ds /\ ds <> [].
Definition exp_type (n : numkind) : iontype := match n with NDec => TDecimal | _ => TFloat end.
Lemma exp_run v f an h t w n z x : (wholeish h /\ t = TInt) \/ (fracish h /\ t = TDecimal) -> (n = NDec /\ z = 100 \/ n = NFlt /\ z = 101) -> exp_part x ->
  exists prev, dec_char prev /\ hrun v h (num f an t w) (z :: x) (HNumeric n prev) (num f an (exp_type n) (w ++ 101 :: x)).
Proof.
  intros H N (sg & ds & -> & S & D & NE).
  assert (ST : send v h (plain z) (num f an t w) = Ok (TGo (HNumeric n z), num f an (exp_type n) (w ++ [101]), [])).
  { assert (G : start_numeric n z (num f an t w) = Ok (TGo (HNumeric n z), num f an (exp_type n) (w ++ [101]), [])).
    { destruct N as [[-> ->]|[-> ->]]; cbn [start_numeric]; rewrite retype_num, push_num; reflexivity. }
    rewrite <- G. destruct H as [[H _]|[H _]]; [apply whole_next|apply frac_next]; auto; destruct N as [[-> ->]|[-> ->]]; auto. }
  assert (NK : n <> NBin /\ n <> NHex /\ (exp_type n = TDecimal \/ exp_type n = TFloat)).
  { destruct N as [[-> _]|[-> _]]; repeat split; try discriminate; auto. }
  assert (FL : forall v, flushy (num f an (exp_type n) v) = true) by (intros ?; destruct N as [[-> _]|[-> _]]; reflexivity).
  destruct S as [->|S].
  - destruct (numeric_digits v f an (exp_type n) n ds D (or_intror NK) z (w ++ [101])) as (prev & R & P).
    exists prev. split; [destruct P as [[-> _]|P]; [congruence|exact P]|].
    eapply h_cons; [exact ST|reflexivity|apply FL|]. rewrite <- app_assoc in R. exact R.
  - assert (SS : exists c, sg = [c] /\ is_sign c = true) by (destruct S as [->| ->]; eexists; split; reflexivity).
    destruct SS as (c & -> & Hc). cbn [app].
    destruct (numeric_digits v f an (exp_type n) n ds D (or_intror NK) c (w ++ [101; c])) as (prev & R & P).
    exists prev. split; [destruct P as [[-> _]|P]; [congruence|exact P]|].
    eapply h_cons; [exact ST|reflexivity|apply FL|].
    eapply h_cons with (h1 := HNumeric n c) (k1 := num f an (exp_type n) (w ++ [101; c])); [|reflexivity|apply FL|].
    + unfold send, send_numeric. cbn [cz plain]. destruct N as [[-> ->]|[-> ->]]; cbn [charset exp_char]; decide_chars; rewrite push_num, <- app_assoc; reflexivity.
    + rewrite <- app_assoc in R. exact R.
Qed.

(** The end of a number that is not an integer. *)
Lemma frac_end v h c k : fracish h -> ends c = true -> send v h c k = number_end v c k (parse_component NFrac (k_val k)).
Proof.
  intros (prev & -> & P) E. unfold send, send_numeric. rewrite E. replace ((prev =? 95) || illegal_at_end NFrac prev) with false; [reflexivity|]. cbn [illegal_at_end]. lia.
Qed.
Lemma exp_end v n prev c k : (n = NDec \/ n = NFlt) -> dec_char prev -> ends c = true -> send v (HNumeric n prev) c k = number_end v c k (parse_component n (k_val k)).
Proof.
  intros N P E. unfold send, send_numeric. rewrite E. replace ((prev =? 95) || illegal_at_end n prev) with false; [reflexivity|].
  destruct N as [->| ->]; cbn [illegal_at_end exp_char]; chars.
Qed.
Lemma number_emits v c k r : cz c <> 47 -> number_end v c k r = Ok (TEv (thunk_event v k r) None, k, []).
Proof. intros H. unfold number_end. replace (cz c =? 47) with false by lia. reflexivity. Qed.

(** * Number tokens *)
Lemma first_ok c0 : 48 <= c0 <= 57 \/ c0 = 45 -> starts c0 = true /\ (c0 =? 91) || (c0 =? 40) = false /\ (c0 =? 34) || (c0 =? 39) = false.
Proof. intros H. repeat split; chars. Qed.

Theorem int_token sg ip : sign_part sg -> whole_part ip -> plain_token (sg ++ ip) TInt (EvLazy (Ok (VInt (parse_int10 (sg ++ ip))))).
Proof.
  intros S W uni p f an. destruct (whole_run (penv uni p) f an sg ip S W) as (c0 & rest & h0 & k0 & h1 & E & C & SV & KQ & R & WH).
  destruct (first_ok c0 C) as (F1 & F2 & F3). exists c0, rest, h0, k0, h1, (num f an TInt (sg ++ ip)).
  repeat (split; [assumption|]). split; [|split; reflexivity]. intros c EN N1 N2. rewrite (whole_end _ h1 c _ WH EN), number_emits by exact N1. reflexivity.
Qed.
(** [w.fr], [w.frEx] and [wEx]; [lit] is what the reader makes of [d]. *)
Theorem frac_token sg ip fr : sign_part sg -> whole_part ip -> Forall dec_char fr ->
  plain_token (sg ++ ip ++ 46 :: fr) TDecimal (EvLazy (parse_component NFrac (sg ++ ip ++ 46 :: fr))).
Proof.
  intros S W D uni p f an. destruct (whole_run (penv uni p) f an sg ip S W) as (c0 & rest & h0 & k0 & h1 & E & C & SV & KQ & R & WH).
  destruct (first_ok c0 C) as (F1 & F2 & F3).
  destruct (frac_run (penv uni p) f an h1 (sg ++ ip) fr WH D) as (h2 & FH & R2).
  exists c0, (rest ++ 46 :: fr), h0, k0, h2, (num f an TDecimal ((sg ++ ip) ++ 46 :: fr)).
  split; [rewrite app_assoc, E; reflexivity|]. repeat (split; [assumption|]). split; [eapply hrun_app; eassumption|]. split; [|split; reflexivity].
  intros c EN N1 N2. rewrite (frac_end _ h2 c _ FH EN), number_emits by exact N1. rewrite <- app_assoc. reflexivity.
Qed.
Theorem exp_token sg ip fr n z x : sign_part sg -> whole_part ip -> (fr = [] \/ exists r, fr = 46 :: r /\ Forall dec_char r) ->
  (n = NDec /\ z = 100 \/ n = NFlt /\ z = 101) -> exp_part x ->
  plain_token (sg ++ ip ++ fr ++ z :: x) (exp_type n) (EvLazy (parse_component n (sg ++ ip ++ fr ++ 101 :: x))).
Proof.
  intros S W FR N X uni p f an. destruct (whole_run (penv uni p) f an sg ip S W) as (c0 & rest & h0 & k0 & h1 & E & C & SV & KQ & R & WH).
  destruct (first_ok c0 C) as (F1 & F2 & F3).
  assert (M : exists h2 t2, hrun (penv uni p) h1 (num f an TInt (sg ++ ip)) fr h2 (num f an t2 ((sg ++ ip) ++ fr)) /\ ((wholeish h2 /\ t2 = TInt) \/ (fracish h2 /\ t2 = TDecimal))).
  { destruct FR as [->|(r & -> & D)].
    - exists h1, TInt. rewrite app_nil_r. split; [constructor|auto].
    - destruct (frac_run (penv uni p) f an h1 (sg ++ ip) r WH D) as (h2 & FH & R2). exists h2, TDecimal. auto. }
  destruct M as (h2 & t2 & R2 & H2). destruct (exp_run (penv uni p) f an h2 t2 ((sg ++ ip) ++ fr) n z x H2 N X) as (prev & PD & R3).
  exists c0, (rest ++ fr ++ z :: x), h0, k0, (HNumeric n prev), (num f an (exp_type n) (((sg ++ ip) ++ fr) ++ 101 :: x)).
  split; [rewrite app_assoc, E; reflexivity|]. repeat (split; [assumption|]). split; [eapply hrun_app; [exact R|eapply hrun_app; eassumption]|].
  split; [|split; reflexivity].
  intros c EN N1 N2. rewrite exp_end by (auto; destruct N as [[-> _]|[-> _]]; auto). rewrite number_emits by exact N1. rewrite <- !app_assoc. reflexivity.
Qed.
