(** The text reader on the operators of the grammar. *)
From Coq Require Import String.
From Verif Require Import Base BaseFacts CoreModel BinReaderModel SymbolsModel TextNumbers TextNumbersFacts TextWriterModel TextReaderModel TextReaderFacts TextWalk TextTokens TextNumberTokens TextFloats TextKeywords TextQuoted TextBlobs TextSymbols.
From Verif Require Import TextRoundTripSpec Props_TextRoundTrip TextGrammar TextGaps TextReads TextReadNumbers TextReadNames TextReadItems TextReadQuoted TextReadLong.
Local Open Scope Z_scope.

Definition opk (f : option token) (an : list token) (ty : option iontype) (l : text) : tctx := mkk f an true l ty None false false false false.
Lemma tok0_next uni p k h s z q h' k' : Tok0 p k h s -> send (penv uni p) h (plain z) k = Ok (TGo h', k', []) -> k_quoted k' = false ->
  goes uni s (plain z :: q) [] (Tok0 p k' h') q.
Proof. intros (cm & fl & ->) SE Q. eapply goes_weaken; [eapply tok_next; [exists cm; reflexivity|exact SE|exact Q]|]. intros s' (cm' & ->). eexists _, _. reflexivity. Qed.
Lemma tok0_again uni p k h s z q h' k' : Tok0 p k h s -> send (penv uni p) h (plain z) k = Ok (TGo h', k', [z]) -> k_quoted k' = false ->
  goes uni s (plain z :: q) [] (Tok0 p k' h') (plain z :: q).
Proof. intros (cm & fl & ->) SE Q. eapply goes_weaken; [eapply tok_again; [exists cm; reflexivity|exact SE|exact Q]|]. intros s' (cm' & ->). eexists _, _. reflexivity. Qed.
Lemma oper_run uni p f an ty ws : Forall operator ws -> forall l s q, Tok0 p (opk f an ty l) HOper s -> goes uni s (map plain ws ++ q) [] (Tok0 p (opk f an ty (l ++ ws)) HOper) q.
Proof.
  induction 1 as [|c ws O F IH]; intros l s q T; cbn [map app]; [rewrite app_nil_r; now apply goes_here|].
  eapply goes_quiet; [eapply (tok0_next uni p _ _ s c _ HOper (opk f an ty (l ++ [c]))); [exact T| |reflexivity]|].
  - unfold send. cbn [cz plain]. rewrite (operator_op c O). reflexivity.
  - intros s1 T1. replace (l ++ c :: ws) with ((l ++ [c]) ++ ws) by (rewrite <- app_assoc; reflexivity). now apply IH.
Qed.
Lemma operator_cases c : operator c -> c <> 45 -> c <> 43 -> forall uni p f an, in_sexp (penv uni p) = true -> start_value (penv uni p) c (kid f an) = go (kid f an) (HKwOp c).
Proof.
  intros O N1 N2 uni p f an IS. unfold start_value, start_kw. rewrite IS, (operator_op c O).
  unfold operator in O. cbn [txt In] in O. cbn in O. unfold is_digit, ident_start, is_letter.
  replace (c =? 45) with false by lia. replace (c =? 43) with false by lia. replace (c =? 48) with false by lia. replace (c =? 123) with false by lia. replace (c =? 40) with false by lia. replace (c =? 91) with false by lia.
  replace (c =? 39) with false by lia. replace (c =? 34) with false by lia. replace (c =? 36) with false by lia. replace ((48 <=? c) && (c <=? 57)) with false by lia.
  replace (negb _) with true by lia. reflexivity.
Qed.
Lemma operator_starts c : operator c -> starts c = true /\ (c =? 91) || (c =? 40) = false /\ (c =? 34) || (c =? 39) = false.
Proof. unfold operator, starts, is_ws, mem, c_ws. cbn [txt In existsb]. cbn. lia. Qed.
Lemma op_cases c : is_op c = true -> operator c \/ c = 47.
Proof. unfold is_op, mem, c_operators, operator. cbn [txt In existsb]. cbn. lia. Qed.
Theorem operator_reads at_ w : at_ = InSexp -> w <> [] -> Forall operator w -> scalar_reads at_ w TSymbol (Some (VSymbol (text_symbol w))) (after_operator w).
Proof.
  intros A NE F. destruct w as [|c0 w]; [congruence|]. pose proof (Forall_inv F) as O. pose proof (Forall_inv_tail F) as FW. clear NE F.
  destruct (operator_starts c0 O) as (S1 & S2 & S3).
  exists c0, w. split; [reflexivity|]. split; [exact S1|]. intros uni p f an child s g rest SI FS FO HA HC MF TR DP NC NI.
  pose proof (sits_ok _ _ SI) as PO. assert (PF : p_field p = false) by apply SI.
  assert (IS : in_sexp (penv uni p) = true) by (apply (sits_sexp uni at_ p SI); exact A).
  assert (NS : p_stack p <> []) by (destruct SI as (_ & SI); subst at_; apply SI).
  assert (DG : deep p (g ++ rest)) by (intros E0; apply app_eq_nil in E0; apply DP, E0).
  assert (NX : exists y yq, g ++ rest = y :: yq). { destruct (g ++ rest) as [|y yq] eqn:E; [|eauto]. exfalso. apply NS. apply DG. reflexivity. }
  destruct NX as (y & yq & EY). unfold may_follow in MF. rewrite EY in MF. destruct MF as (NO & N47 & NI1 & ND).
  assert (OY : is_op y = false). { destruct (is_op y) eqn:E; [|reflexivity]. apply op_cases in E as [E|E]; contradiction. }
  set (ev := fun l => scalar_event p f an TSymbol (EvVal (VSymbol (text_symbol l)))).
  exists (ev (c0 :: w)). split; [left; reflexivity|].
  assert (TK : forall k h s1, Tok0 p k h s1 -> Tok p k h s1). { intros k h s1 (cm & fl & ->). eexists _, _. split; [reflexivity|]. contradiction. }
  assert (FIN : forall k h l s1, Tok0 p k h s1 -> send (penv uni p) h (plain y) k = Ok (TEv (ev l) None, opk f an (k_type k) l, []) \/ send (penv uni p) h (plain y) k = Ok (TEv (ev l) None, opk f an (Some TFloat) l, []) -> to uni s1 (all (g ++ rest)) [ev l] (Done p rest)).
  { intros k h l s1 T1 SE. eapply to_after with (X := Here p None (is_delimited (p_type p)) (g ++ rest)).
    - destruct SE as [SE|SE]; (eapply (emits_here uni p k h s1 (ev l)); [apply TK; exact T1|rewrite EY; exact SE|reflexivity|reflexivity|reflexivity|exact DG]).
    - intros s2 q2 H2. eapply done_here; eauto. exact bare_none. }
  assert (END : forall ty l s1, Tok0 p (opk f an ty l) HOper s1 -> to uni s1 (all (g ++ rest)) [ev l] (Done p rest)).
  { intros ty l s1 T1. eapply FIN; [exact T1|]. left. unfold send. cbn [cz plain]. rewrite OY. reflexivity. }
  assert (RUN : forall ty l ws s1, Forall operator ws -> Tok0 p (opk f an ty l) HOper s1 -> to uni s1 (all (ws ++ g ++ rest)) [ev (l ++ ws)] (Done p rest)).
  { intros ty l ws s1 FW' T1. rewrite all_app. eapply goes_to0; [eapply oper_run; eassumption|]. intros s2 T2. eapply END; exact T2. }
  (* After a sign. *)
  assert (SIGN : forall neg ty cd s1, (c0 = 45 \/ c0 = 43) -> Tok0 p (mkk f an cd [c0] ty None false false false false) (HInf neg 0) s1 -> to uni s1 (all (w ++ g ++ rest)) [ev (c0 :: w)] (Done p rest)).
  { intros neg ty cd s1 C0 T1.
    assert (SU : forall c, cz c <> 105 -> send (penv uni p) (HInf neg 0) c (mkk f an cd [c0] ty None false false false false) = (if is_op (cz c) then go_oper (cz c) (opk f an (Some TFloat) [c0]) else emits (opk f an (Some TFloat) [c0]) (ev [c0]))).
    { intros c N105. unfold send, send_inf. change ((0 =? 3)%nat) with false. change ((0 <? 3)%nat) with true. change (nth 0 t_inf 0) with 105. replace (cz c =? 105) with false by lia. cbn [andb].
      rewrite IS. cbn [negb]. destruct cd, ty as [[]|]; reflexivity. }
    destruct w as [|d w].
    - cbn [app]. eapply FIN; [exact T1|]. right. rewrite SU; [|cbn; apply NI1; destruct C0 as [->| ->]; auto]. cbn [cz plain]. rewrite OY. reflexivity.
    - pose proof (Forall_inv FW) as OD. cbn beta in OD. pose proof (Forall_inv_tail FW) as FW'. cbn [app]. rewrite all_cons.
      eapply goes_to0; [eapply (tok0_next uni p _ _ s1 d _ HOper (opk f an (Some TFloat) [c0; d])); [exact T1| |reflexivity]|].
      + rewrite SU; [|cbn; unfold operator in OD; cbn in OD; lia]. cbn [cz plain]. rewrite (operator_op d OD). unfold go_oper, start_oper. rewrite (operator_op d OD). reflexivity.
      + intros s2 T2. exact (RUN _ _ w s2 FW' T2). }
  (* The first character after this one. *)
  assert (NXT : exists z zq, all (w ++ g ++ rest) = plain z :: zq /\ (w = [] /\ z = y \/ operator z)).
  { destruct w as [|d w]; cbn [app]; [rewrite EY|]; rewrite all_cons; eexists _, _; (split; [reflexivity|]); [auto|right; exact (Forall_inv FW)]. }
  destruct NXT as (z & zq & EZ & HZ).
  destruct (Z.eq_dec c0 45) as [->|N45]; [|destruct (Z.eq_dec c0 43) as [->|N43]].
  - eapply goes_to0; [eapply (begin_tok0 uni p child f an 45 s _ HNeg (mkk f an false [45] (Some TInt) None false false false false)); [exact HA|exact HC|exact S1|exact S2|exact S3|rewrite PF; reflexivity|reflexivity]|].
    intros s1 T1. rewrite EZ. eapply goes_to0; [eapply (tok0_again uni p _ _ s1 z zq (HInf true 0) (mkk f an false [45] (Some TInt) None false false false false)); [exact T1| |reflexivity]|].
    + unfold send. cbn [cz plain].
      assert (DZ : is_digit z = false). { destruct HZ as [(-> & ->)|OZ]; [specialize (ND eq_refl); unfold digit in ND|unfold operator in OZ; cbn in OZ]; unfold is_digit; lia. }
      replace (z =? 48) with false by (unfold is_digit in DZ; lia). rewrite DZ. reflexivity.
    + intros s2 T2. rewrite <- EZ. eapply (SIGN true); [auto|exact T2].
  - eapply goes_to0; [eapply (begin_tok0 uni p child f an 43 s _ (HInf false 0) (mkk f an false [43] None None false false false false)); [exact HA|exact HC|exact S1|exact S2|exact S3|rewrite PF; reflexivity|reflexivity]|].
    intros s1 T1. eapply (SIGN false); [auto|exact T1].
  - eapply goes_to0; [eapply (begin_tok0 uni p child f an c0 s _ (HKwOp c0) (kid f an)); [exact HA|exact HC|exact S1|exact S2|exact S3|rewrite PF; now apply operator_cases|reflexivity]|].
    intros s1 T1. rewrite EZ. eapply goes_to0; [eapply (tok0_again uni p _ _ s1 z zq HOper (opk f an None [c0])); [exact T1| |reflexivity]|].
    + unfold send, putting_back, unread, go_oper, start_oper. cbn [cz plain bind]. rewrite (operator_op c0 O). reflexivity.
    + intros s2 T2. rewrite <- EZ. exact (RUN _ _ w s2 FW T2).
Qed.
