(** The text reader on the timestamps of the grammar. *)
From Coq Require Import String.
From Verif Require Import Base BaseFacts CoreModel ScalarFacts CalendarFacts TimestampFacts BinReaderModel SymbolsModel TextNumbers TextNumbersFacts TextWriterModel TextReaderModel TextReaderFacts TextReaderNest TextReaderChunks TextWalk TextTokens TextNumberTokens TextNumberValues TextTimestamps TextQuoted TextSymbols.
From Verif Require Import TextRoundTripSpec TextGrammar TextGaps TextReads TextReadNumbers.
Local Open Scope Z_scope.

Lemma stamp_fits t : timestamp_fits t -> ts_textable t.
Proof.
  intros (C & O & P1 & P2 & P3 & R). split; [exact C|]. split; [exact O|]. split; [|exact R].
  destruct (ts_prec t) as [[]|]; try contradiction; cbn; repeat split; intros; try discriminate; try tauto; apply P3; discriminate.
Qed.
Lemma ts_ends v prev st nxt toks c k : nxt = XTerm \/ nxt = XDigitsTerm \/ nxt = XTTerm -> ends c = true -> send v (HTs prev st nxt toks true) c k = number_end v c k (parse_ts toks).
Proof.
  intros N E. unfold send, send_ts. cbn [andb negb]. destruct c as [z e g|].
  - cbn [cz is_eof]. rewrite orb_false_r. assert (T : is_term z = true) by (unfold ends in E; cbn [cz is_eof] in E; rewrite orb_false_r in E; exact E).
    rewrite T. replace (ts_allows nxt z) with true by (destruct N as [->|[->| ->]]; cbn [ts_allows]; rewrite T; rewrite ?orb_true_r; reflexivity). reflexivity.
  - cbn [cz is_eof negb]. rewrite andb_false_r, orb_true_r. reflexivity.
Qed.
Lemma ts_numeral y c rest toks x : length y = 4%nat -> Forall dec_char y -> c = 45 \/ c = 84 -> parse_ts toks = Ok x ->
  (forall v f an, exists prev st nxt, (nxt = XTerm \/ nxt = XDigitsTerm \/ nxt = XTTerm) /\ hrun v (ts_start c y) (stamp f an y) rest (HTs prev st nxt toks true) (stamp f an y)) ->
  numeral (y ++ c :: rest) TTimestamp x.
Proof.
  intros L D C X R uni p f an. destruct (R (penv uni p) f an) as (prev & st & nxt & N & R1). destruct (year_run (penv uni p) f an y c L D C) as (c0 & r0 & h0 & k0 & E & C0 & SV & KQ & R0).
  exists (HTs prev st nxt toks true), (stamp f an y). split.
  { exists c0, (r0 ++ rest), h0, k0. split; [change (c :: rest) with ([c] ++ rest); rewrite app_assoc, E; reflexivity|]. split; [chars|]. split; [chars|]. split; [chars|]. split; [exact SV|]. split; [exact KQ|].
    eapply hrun_app; [exact R0|exact R1]. }
  repeat (split; [reflexivity|]). intros ch E1. rewrite ts_ends by assumption. now rewrite X.
Qed.
Lemma figures_two w n : figures 2 w n -> exists a b, w = [a; b] /\ dec_char a /\ dec_char b /\ parse_int10 [a; b] = n /\ digits_value 10 [a; b] = n.
Proof.
  intros (L & F & V). destruct w as [|a [|b [|? ?]]]; try discriminate. exists a, b. pose proof F as F'. rewrite number_ten in V by exact F. inversion F as [|? ? A F2]; subst. inversion F2 as [|? ? B _]; subst.
  assert (parse_int10 [a; b] = digits_value 10 [a; b]) by (apply parse_dec; now apply digits_dec). auto.
Qed.
Lemma figures_four w n : figures 4 w n -> length w = 4%nat /\ Forall dec_char w /\ parse_int10 w = n.
Proof. intros (L & F & V). apply digits_dec in F as F'. split; [exact L|]. split; [exact F'|]. rewrite parse_dec by exact F'. rewrite number_ten in V by exact F. auto. Qed.

(** The offset: its tokens and what they mean. *)
Definition off_means (h m : list Z) (off : option Z) : Prop :=
  (let neg := mem 45 h in
   let oh := parse_int10 h in let om := parse_int10 m * (if neg then -1 else 1) in
   if neg && (oh =? 0) && (om =? 0) then Ok (None, None) else Ok (Some oh, Some om)) =
  @Ok (option Z * option Z) (match off with None => None | Some o => Some (Z.quot o 3600) end, match off with None => None | Some o => Some (Z.quot (Z.rem o 3600) 60) end).
Lemma offset_run w off : TextGrammar.offset_text w off ->
  exists h m, off_means h m off /\ forall v f an y prev st nxt toks can, (forall c, is_off c = true -> ts_allows nxt c = true) -> 2 <= st <= 6 -> length toks = 9%nat ->
  exists prev' st', hrun v (HTs prev st nxt toks can) (stamp f an y) w (HTs prev' st' XTerm (tok_set (tok_set toks 7 h) 8 m) true) (stamp f an y).
Proof.
  intros OT. destruct OT as [| |s hh h mm m S FH FM M60 NZ].
  - exists [48], [48]. split; [reflexivity|]. intros v f an y prev st nxt toks can NX ST L. exists 90, st.
    eapply hrun_one; [|reflexivity|reflexivity]. unfold send, send_ts. cbn [cz plain is_eof]. rewrite andb_false_r. cbn [negb]. rewrite (NX 90 eq_refl). reflexivity.
  - exists [45; 48; 48], [48; 48]. split; [reflexivity|]. intros v f an y prev st nxt toks can NX ST L.
    destruct (ts_signed v f an y prev st nxt toks can 45 48 48 48 48 NX ST L) as (pr & st' & R); [auto|chars..|]. exists pr, st'. exact R.
  - destruct (figures_two hh h FH) as (a & b & -> & A & B & HP & HV). destruct (figures_two mm m FM) as (c & d & -> & C & D & MP & MV).
    exists ((if s =? 45 then [45] else []) ++ [a; b]), [c; d].
    split; [|intros v f an y prev st nxt toks can NX ST L; now apply ts_signed]. pose proof (digits_value_bound [a; b] ltac:(auto)) as HB. pose proof (digits_value_bound [c; d] ltac:(auto)) as MB. rewrite HV in HB. rewrite MV in MB. change (10 ^ zlen [a; b]) with 100 in HB. clear MP.
    unfold off_means. assert (MP : parse_int10 [c; d] = m) by (rewrite parse_dec; auto). rewrite MP. destruct S as [->| ->].
    + cbn [Z.eqb Pos.eqb app]. rewrite (dec_no_minus [a; b]) by auto. cbn [andb]. rewrite HP, Z.mul_1_r.
      assert (Q : Z.quot ((h * 60 + m) * 60) 3600 = h) by (symmetry; apply (Z.quot_unique _ _ _ (m * 60)); lia).
      assert (RM : Z.rem ((h * 60 + m) * 60) 3600 = m * 60) by (symmetry; apply (Z.rem_unique _ _ h); lia).
      rewrite Q, RM. rewrite Z.quot_mul by lia. reflexivity.
    + cbn [Z.eqb Pos.eqb app]. change (mem 45 [45; a; b]) with true. cbn [andb].
      assert (P3 : parse_int10 [45; a; b] = - h) by (rewrite <- HV; reflexivity). rewrite P3.
      replace ((- h =? 0) && (m * -1 =? 0)) with false by lia.
      assert (Q : Z.quot (- (h * 60 + m) * 60) 3600 = - h). { replace (- (h * 60 + m) * 60) with (- ((h * 60 + m) * 60)) by lia. rewrite Z.quot_opp_l by lia. f_equal. symmetry. apply (Z.quot_unique _ _ _ (m * 60)); lia. }
      assert (RM : Z.rem (- (h * 60 + m) * 60) 3600 = - (m * 60)). { replace (- (h * 60 + m) * 60) with (- ((h * 60 + m) * 60)) by lia. rewrite Z.rem_opp_l by lia. f_equal. symmetry. apply (Z.rem_unique _ _ h); lia. }
      rewrite Q, RM. rewrite Z.quot_opp_l, Z.quot_mul by lia. do 3 f_equal. lia.
Qed.

Theorem stamp_numeral w t : stamp_text w t -> numeral w TTimestamp (VTimestamp (TsStamp t)).
Proof.
  intros (FI & SF). pose proof (stamp_fits t FI) as TX. pose proof TX as (CAN & OFF & PR & C0 & ND & EX & NG). destruct (canonical_inv t CAN) as (OK & V & N & _).
  pose proof (ts_fn t _ TX eq_refl) as FN.
  assert (RM : forall y m1 m2, dec_char m1 -> dec_char m2 -> forall v f an, hrun v (ts_start 45 y) (stamp f an y) [m1; m2] (HTs m2 1 XYearDelim [Some y; Some [m1; m2]; None; None; None; None; None; None; None] false) (stamp f an y)).
  { intros y m1 m2 MD1 MD2 v f an. exact (ts_two v f an y 45 0 XDigits _ _ m1 m2 MD1 MD2 ltac:(auto) ltac:(lia) ltac:(lia)). }
  assert (RD0 : forall y m1 m2 d1 d2, dec_char m1 -> dec_char m2 -> dec_char d1 -> dec_char d2 -> forall v f an,
     hrun v (ts_start 45 y) (stamp f an y) ([m1; m2] ++ 45 :: [d1; d2]) (HTs d2 2 XTTerm [Some y; Some [m1; m2]; Some [d1; d2]; None; None; None; None; None; None] true) (stamp f an y)).
  { intros y m1 m2 d1 d2 MD1 MD2 DD1 DD2 v f an. eapply hrun_app; [apply RM; assumption|]. eapply h_cons; [apply ts_delim; reflexivity|reflexivity|reflexivity|].
    exact (ts_two v f an y 45 1 XDigits _ _ d1 d2 DD1 DD2 ltac:(auto) ltac:(lia) ltac:(lia)). }
  assert (RD : forall y m1 m2 d1 d2, dec_char m1 -> dec_char m2 -> dec_char d1 -> dec_char d2 -> forall v f an,
     hrun v (ts_start 45 y) (stamp f an y) (([m1; m2] ++ 45 :: [d1; d2]) ++ [84]) (HTs 84 2 XDigitsTerm [Some y; Some [m1; m2]; Some [d1; d2]; None; None; None; None; None; None] true) (stamp f an y)).
  { intros y m1 m2 d1 d2 MD1 MD2 DD1 DD2 v f an. eapply hrun_app; [apply RD0; assumption|]. apply hrun_one; [|reflexivity|reflexivity]. apply ts_tee. reflexivity. }
  assert (RI : forall y m1 m2 d1 d2 h1 h2 i1 i2, dec_char m1 -> dec_char m2 -> dec_char d1 -> dec_char d2 -> dec_char h1 -> dec_char h2 -> dec_char i1 -> dec_char i2 -> forall v f an,
     hrun v (ts_start 45 y) (stamp f an y) ((([m1; m2] ++ 45 :: [d1; d2]) ++ [84]) ++ [h1; h2] ++ 58 :: [i1; i2])
     (HTs i2 4 XOffColon [Some y; Some [m1; m2]; Some [d1; d2]; Some [h1; h2]; Some [i1; i2]; None; None; None; None] false) (stamp f an y)).
  { intros y m1 m2 d1 d2 h1 h2 i1 i2 MD1 MD2 DD1 DD2 HD1 HD2 ID1 ID2 v f an. eapply hrun_app; [apply RD; assumption|]. eapply hrun_app; [exact (ts_two v f an y 84 2 XDigitsTerm _ _ h1 h2 HD1 HD2 ltac:(auto) ltac:(lia) ltac:(lia))|].
    eapply h_cons; [apply ts_delim; reflexivity|reflexivity|reflexivity|]. exact (ts_two v f an y 58 3 XDigits _ _ i1 i2 ID1 ID2 ltac:(auto) ltac:(lia) ltac:(lia)). }
  assert (RS : forall y m1 m2 d1 d2 h1 h2 i1 i2 s1 s2, dec_char m1 -> dec_char m2 -> dec_char d1 -> dec_char d2 -> dec_char h1 -> dec_char h2 -> dec_char i1 -> dec_char i2 -> dec_char s1 -> dec_char s2 -> forall v f an,
     hrun v (ts_start 45 y) (stamp f an y) (((([m1; m2] ++ 45 :: [d1; d2]) ++ [84]) ++ [h1; h2] ++ 58 :: [i1; i2]) ++ 58 :: [s1; s2])
     (HTs s2 5 XOffDot [Some y; Some [m1; m2]; Some [d1; d2]; Some [h1; h2]; Some [i1; i2]; Some [s1; s2]; None; None; None] false) (stamp f an y)).
  { intros y m1 m2 d1 d2 h1 h2 i1 i2 s1 s2 MD1 MD2 DD1 DD2 HD1 HD2 ID1 ID2 SD1 SD2 v f an. eapply hrun_app; [apply RI; assumption|]. eapply h_cons; [apply ts_delim; reflexivity|reflexivity|reflexivity|]. exact (ts_two v f an y 58 4 XDigits _ _ s1 s2 SD1 SD2 ltac:(auto) ltac:(lia) ltac:(lia)). }
  destruct SF as [y t P Y|y m t P Y M|y m d e t P Y M D E|y m d hh mm o t P Y M D H I O|y m d hh mm ss fr o t P Y M D H I S O FR];
    destruct (figures_four _ _ Y) as (YL & YD & YP); rewrite P in FN, PR; destruct PR as (D1 & D2 & D3 & D4); cbn [includes prec_rank Z.leb Z.compare Pos.compare Pos.compare_cont] in D1, D2, D3, D4;
    try (destruct (figures_two _ _ M) as (m1 & m2 & -> & MD1 & MD2 & MP & _)); try (destruct (figures_two _ _ D) as (d1 & d2 & -> & DD1 & DD2 & DP & _));
    try (destruct (figures_two _ _ H) as (h1 & h2 & -> & HD1 & HD2 & HP & _)); try (destruct (figures_two _ _ I) as (i1 & i2 & -> & ID1 & ID2 & IP & _));
    try (destruct (figures_two _ _ S) as (s1 & s2 & -> & SD1 & SD2 & SP & _)).
  - eapply (ts_numeral y 84 [] [Some y; None; None; None; None; None; None; None; None]); auto.
    + destruct (D3 eq_refl) as (H0 & M0 & O0). destruct (D4 eq_refl) as (S0 & F0). rewrite parse_nine. cbn [bind]. rewrite YP.
      specialize (FN None (or_intror (conj eq_refl F0))). rewrite O0, (D1 eq_refl), (D2 eq_refl), H0, M0, S0 in FN. rewrite FN. reflexivity.
    + intros v f an. exists 84, 0, XDigitsTerm. split; [auto|constructor].
  - eapply (ts_numeral y 45 ([m1; m2] ++ [84]) [Some y; Some [m1; m2]; None; None; None; None; None; None; None]); auto.
    + destruct (D3 eq_refl) as (H0 & M0 & O0). destruct (D4 eq_refl) as (S0 & F0). rewrite parse_nine. cbn [bind]. rewrite YP, MP.
      specialize (FN None (or_intror (conj eq_refl F0))). rewrite O0, (D2 eq_refl), H0, M0, S0 in FN. rewrite FN. reflexivity.
    + intros v f an. exists 84, 1, XDigitsTerm. split; [auto|]. eapply hrun_app; [apply RM; assumption|]. apply hrun_one; [|reflexivity|reflexivity]. apply ts_tee. reflexivity.
  - replace (y ++ 45 :: [m1; m2] ++ 45 :: [d1; d2] ++ e) with (y ++ 45 :: ([m1; m2] ++ 45 :: [d1; d2]) ++ e) by reflexivity.
    eapply (ts_numeral y 45 (([m1; m2] ++ 45 :: [d1; d2]) ++ e) [Some y; Some [m1; m2]; Some [d1; d2]; None; None; None; None; None; None]); auto.
    + destruct (D3 eq_refl) as (H0 & M0 & O0). destruct (D4 eq_refl) as (S0 & F0). rewrite parse_nine. cbn [bind]. rewrite YP, MP, DP.
      specialize (FN None (or_intror (conj eq_refl F0))). rewrite O0, H0, M0, S0 in FN. rewrite FN. reflexivity.
    + intros v f an. destruct E as [->| ->].
      * rewrite app_nil_r. exists d2, 2, XTTerm. split; [auto|]. now apply RD0.
      * exists 84, 2, XDigitsTerm. split; [auto|]. now apply RD.
  - replace (y ++ 45 :: [m1; m2] ++ 45 :: [d1; d2] ++ 84 :: [h1; h2] ++ 58 :: [i1; i2] ++ o) with (y ++ 45 :: ((([m1; m2] ++ 45 :: [d1; d2]) ++ [84]) ++ [h1; h2] ++ 58 :: [i1; i2]) ++ o) by reflexivity.
    destruct (offset_run o (dt_off (ts_dt t)) O) as (oh & om & OM & RO).
    eapply (ts_numeral y 45 _ [Some y; Some [m1; m2]; Some [d1; d2]; Some [h1; h2]; Some [i1; i2]; None; None; Some oh; Some om]); auto.
    + destruct (D4 eq_refl) as (S0 & F0). rewrite parse_nine. cbv delta [off_means] beta in OM. rewrite OM. cbn [bind]. rewrite YP, MP, DP, HP, IP.
      specialize (FN None (or_intror (conj eq_refl F0))). rewrite S0 in FN. rewrite FN. reflexivity.
    + intros v f an.
      destruct (RO v f an y i2 4 XOffColon [Some y; Some [m1; m2]; Some [d1; d2]; Some [h1; h2]; Some [i1; i2]; None; None; None; None] false) as (pr & st & R);
        [intros c C; cbn [ts_allows]; rewrite C; reflexivity|lia|reflexivity|].
      exists pr, st, XTerm. split; [auto|]. eapply hrun_app; [now apply RI|exact R].
  - destruct (offset_run o (dt_off (ts_dt t)) O) as (oh & om & OM & RO).
    replace (y ++ 45 :: [m1; m2] ++ 45 :: [d1; d2] ++ 84 :: [h1; h2] ++ 58 :: [i1; i2] ++ 58 :: [s1; s2] ++ fr ++ o) with (y ++ 45 :: (((([m1; m2] ++ 45 :: [d1; d2]) ++ [84]) ++ [h1; h2] ++ 58 :: [i1; i2]) ++ 58 :: [s1; s2]) ++ fr ++ o) by reflexivity.
    destruct FR as [(-> & F0)|(ds & -> & NE & DS & FR)].
    + eapply (ts_numeral y 45 _ [Some y; Some [m1; m2]; Some [d1; d2]; Some [h1; h2]; Some [i1; i2]; Some [s1; s2]; None; Some oh; Some om]); auto.
      * rewrite parse_nine. cbv delta [off_means] beta in OM. rewrite OM. cbn [bind]. rewrite YP, MP, DP, HP, IP, SP. rewrite (FN None (or_intror (conj eq_refl F0))). reflexivity.
      * intros v f an.
        destruct (RO v f an y s2 5 XOffDot [Some y; Some [m1; m2]; Some [d1; d2]; Some [h1; h2]; Some [i1; i2]; Some [s1; s2]; None; None; None] false) as (pr & st & R);
          [intros c C; cbn [ts_allows]; rewrite C; reflexivity|lia|reflexivity|].
        exists pr, st, XTerm. split; [auto|]. eapply hrun_app; [now apply RS|exact R].
    + apply digits_dec in DS as DD. destruct ds as [|d ds]; [congruence|]. inversion DD as [|? ? FD FDS]; subst.
      assert (FS : dec_scaleb default_prec (mkdec false (digits_value 10 (d :: ds)) 0) (- zlen (d :: ds)) = Ok (ts_frac t)).
      { rewrite <- number_ten by exact DS. rewrite FR in *. cbn [d_coef d_exp d_neg] in *. unfold dec_scaleb. cbn [d_neg d_coef d_exp].
        assert (ZL : 0 < zlen (d :: ds)) by (rewrite zlen_cons; pose proof (zlen_nonneg ds); lia). set (zl := zlen (d :: ds)) in *. clearbody zl.
        set (c := number 10 (d :: ds)) in *. clearbody c. destruct (frac_exp_bound _ V N C0) as (E0 & E1). cbn [d_coef d_exp] in E0, E1.
        replace (_ || _) with false by (unfold dec_Emax, default_prec; lia). rewrite Z.add_0_l.
        destruct (Z.eq_dec c 0) as [Z1|Z1].
        - unfold dec_fix. cbn [d_neg d_coef d_exp]. rewrite Z1. cbn [Z.eqb]. do 2 f_equal. unfold dec_Emin, dec_Emax, default_prec. lia.
        - rewrite dec_fix_exact; [reflexivity|..]; cbn [d_neg d_coef d_exp]; unfold default_prec, dec_Emin, dec_Emax; lia. }
      eapply (ts_numeral y 45 _ [Some y; Some [m1; m2]; Some [d1; d2]; Some [h1; h2]; Some [i1; i2]; Some [s1; s2]; Some (d :: ds); Some oh; Some om]); auto.
      * rewrite parse_nine. cbv delta [off_means] beta in OM. rewrite OM. cbn [bind]. rewrite FS. cbn [bind]. rewrite YP, MP, DP, HP, IP, SP. rewrite (FN (Some (ts_frac t)) (or_introl eq_refl)). reflexivity.
      * intros v f an.
        destruct (ts_fdigits v f an y ds FDS d [Some y; Some [m1; m2]; Some [d1; d2]; Some [h1; h2]; Some [i1; i2]; Some [s1; s2]; Some [d]; None; None] false [d] FD eq_refl eq_refl) as (pf & cf & RF).
        destruct (RO v f an y pf 6 XDigitsOff [Some y; Some [m1; m2]; Some [d1; d2]; Some [h1; h2]; Some [i1; i2]; Some [s1; s2]; Some (d :: ds); None; None] cf) as (pr & st & R);
          [intros c C; cbn [ts_allows]; rewrite C, orb_true_r; reflexivity|lia|reflexivity|].
        exists pr, st, XTerm. split; [auto|]. eapply hrun_app; [now apply RS|]. cbn [app].
        eapply h_cons; [apply ts_delim; reflexivity|reflexivity|reflexivity|]. eapply h_cons; [apply ts_frac_first; [exact FD|reflexivity]|reflexivity|reflexivity|].
        eapply hrun_app; [exact RF|exact R].
Qed.
