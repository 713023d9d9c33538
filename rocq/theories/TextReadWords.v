(** The text reader on the keywords of the grammar. *)
From Coq Require Import String.
From Verif Require Import Base BaseFacts CoreModel BinReaderModel SymbolsModel TextNumbers TextNumbersFacts TextWriterModel TextReaderModel TextReaderFacts TextWalk TextTokens TextNumberTokens TextFloats TextKeywords TextQuoted TextSymbols.
From Verif Require Import TextRoundTripSpec TextGrammar TextGaps TextReads.
Local Open Scope Z_scope.

Lemma stop_or v c : word_stop v c -> ends c || (in_sexp v && is_op (cz c)) = true.
Proof. intros [->|(-> & -> & ->)]; reflexivity. Qed.
Lemma op_colon c : is_op (cz c) = true -> (cz c =? 58) = false.
Proof. unfold is_op, mem, c_operators. cbn [existsb]. lia. Qed.
Lemma op_dot v c : word_stop v c -> ends c = true \/ ends c = false /\ (cz c =? 58) = false /\ in_sexp v && is_op (cz c) = true.
Proof. intros [E|(E & S & O)]; [now left|right]. split; [exact E|]. split; [now apply op_colon|]. now rewrite S, O. Qed.

Ltac kw_close E := destruct E as [E|(E & E1 & E2)]; [rewrite ?E; reflexivity|rewrite ?E, ?E1, ?E2; reflexivity].
Lemma null_close v f an a c : word_stop v c -> cz c <> 46 -> send v (HKw true false false false 3 false) c (symk f an a) =
  Ok (TEv (mkev EScalar (Some TNull) EvNone f an (Some (e_depth v))) None, symk f an a, []).
Proof.
  intros W N. apply op_dot in W. unfold send, send_kw, check_keyword. cbn [length t_ull Nat.ltb Nat.leb andb]. replace (cz c =? 46) with false by lia. kw_close W.
Qed.
Lemma nan_close v f an a c : word_stop v c -> send v (HKw false true false false 2 false) c (symk f an a) =
  Ok (TEv (mkev EScalar (Some TFloat) (EvVal (VFloat nan_bits)) f an (Some (e_depth v))) None, symk f an a, []).
Proof. intros W. apply op_dot in W. unfold send, send_kw, check_keyword. cbn [length t_an Nat.ltb Nat.leb andb]. kw_close W. Qed.
Lemma true_close v f an a c : word_stop v c -> send v (HKw false false true false 3 false) c (symk f an a) =
  Ok (TEv (mkev EScalar (Some TBool) (EvVal (VBool true)) f an (Some (e_depth v))) None, symk f an a, []).
Proof. intros W. apply op_dot in W. unfold send, send_kw, check_keyword. cbn [length t_rue Nat.ltb Nat.leb andb]. kw_close W. Qed.
Lemma false_close v f an a c : word_stop v c -> send v (HKw false false false true 4 false) c (symk f an a) =
  Ok (TEv (mkev EScalar (Some TBool) (EvVal (VBool false)) f an (Some (e_depth v))) None, symk f an a, []).
Proof. intros W. apply op_dot in W. unfold send, send_kw, check_keyword. cbn [length t_alse Nat.ltb Nat.leb andb]. kw_close W. Qed.
Lemma inf_close v neg f an a c : word_stop v c -> send v (HInf neg 3) c (mkk f an false a (Some TFloat) None false false false false) =
  Ok (TEv (mkev EScalar (Some TFloat) (EvVal (VFloat (if neg then ninf_bits else inf_bits))) f an (Some (e_depth v))) None, mkk f an false a (Some TFloat) None false false false false, []).
Proof. intros W. apply stop_or in W. unfold send, send_inf. cbn [set_type k_type opt_eqb iontype_eqb]. rewrite W. reflexivity. Qed.

Ltac word_start := intros uni p f an; eexists _, _; split; [do 4 eexists; split; [reflexivity|]; split; [reflexivity|]; split; [reflexivity|]; split; [reflexivity|]; split; [reflexivity|]; split; [reflexivity|kw_run]|]; split; [reflexivity|]; split; [reflexivity|].
Lemma null_word : word (txt "null") TNull EvNone (fun v c => word_stop v c /\ cz c <> 46).
Proof. word_start. intros c (W & N). now apply null_close. Qed.
Lemma true_word : word (txt "true") TBool (EvVal (VBool true)) word_stop.
Proof. word_start. intros c W. now apply true_close. Qed.
Lemma false_word : word (txt "false") TBool (EvVal (VBool false)) word_stop.
Proof. word_start. intros c W. now apply false_close. Qed.
Lemma nan_word : word (txt "nan") TFloat (EvVal (VFloat nan_bits)) word_stop.
Proof. word_start. intros c W. now apply nan_close. Qed.
Lemma inf_word : word (txt "+inf") TFloat (EvVal (VFloat inf_bits)) word_stop.
Proof. word_start. intros c W. exact (inf_close _ false f an _ c W). Qed.
Lemma ninf_word : word (txt "-inf") TFloat (EvVal (VFloat ninf_bits)) word_stop.
Proof.
  intros uni p f an; eexists _, _; split; [do 4 eexists; split; [reflexivity|]; split; [reflexivity|]; split; [reflexivity|]; split; [reflexivity|]; split; [reflexivity|]; split; [reflexivity|eapply h_back; [reflexivity|reflexivity|reflexivity|kw_run]]|]; split; [reflexivity|]; split; [reflexivity|].
  intros c W. exact (inf_close _ true f an _ c W).
Qed.
Lemma typed_null_word n t : In (n, t) TextGrammar.null_names -> word (txt "null." ++ txt n) t EvNone word_stop.
Proof.
  unfold TextGrammar.null_names. cbn [In]. intros H.
  repeat (destruct H as [H|H]; [injection H as <- <-; word_start; intros c W; apply stop_or in W; unfold send, send_null; cbn [find zlist_eqb fst typed_nulls app andb Z.eqb Pos.eqb]; rewrite W; reflexivity|]).
  destruct H.
Qed.

Theorem null_text_reads at_ : scalar_reads at_ (txt "null") TNull None after_null.
Proof. eapply word_reads; [exact null_word|reflexivity|]. intros uni p g rest h SI T M. eapply null_first; eauto. Qed.
Ltac by_word W := eapply word_reads; [exact W|reflexivity|]; intros uni p g rest h SI T M; eapply word_first; eauto.
Theorem typed_null_reads at_ n t : In (n, t) TextGrammar.null_names -> scalar_reads at_ (txt "null." ++ txt n) t None after_word.
Proof. intros H. by_word (typed_null_word n t H). Qed.
Theorem true_reads at_ : scalar_reads at_ (txt "true") TBool (Some (VBool true)) after_word.
Proof. by_word true_word. Qed.
Theorem false_reads at_ : scalar_reads at_ (txt "false") TBool (Some (VBool false)) after_word.
Proof. by_word false_word. Qed.
Theorem nan_text_reads at_ : scalar_reads at_ (txt "nan") TFloat (Some (VFloat 0x7FF8000000000000)) after_word.
Proof. by_word nan_word. Qed.
Theorem inf_text_reads at_ : scalar_reads at_ (txt "+inf") TFloat (Some (VFloat 0x7FF0000000000000)) after_word.
Proof. by_word inf_word. Qed.
Theorem ninf_text_reads at_ : scalar_reads at_ (txt "-inf") TFloat (Some (VFloat 0xFFF0000000000000)) after_word.
Proof. by_word ninf_word. Qed.
