(** The text reader on the keywords: nulls, booleans, [nan] and the infinities. *)
From Verif Require Import Base BaseFacts CoreModel BinReaderModel TextNumbers TextNumbersFacts TextWriterModel TextReaderModel TextWalk TextTokens TextNumberTokens TextFloats.
Local Open Scope Z_scope.

Ltac kw_run := repeat (eapply h_cons; [reflexivity|reflexivity|reflexivity|]); apply h_nil.

Lemma ends_dot c : ends c = true -> (cz c =? 46) = false.
Proof. intros H. destruct (ends_not c H) as (_ & _ & H1 & _). lia. Qed.
Lemma kw_null_end v f an a c : ends c = true -> send v (HKw true false false false 3 false) c (mkk f an true a (Some TSymbol) None false false false false) =
  Ok (TEv (mkev EScalar (Some TNull) EvNone f an (Some (e_depth v))) None, mkk f an true a (Some TSymbol) None false false false false, []).
Proof. intros E. unfold send, send_kw, check_keyword. cbn [length t_ull Nat.ltb Nat.leb]. rewrite (ends_dot c E), E. reflexivity. Qed.
Lemma kw_nan_end v f an a c : ends c = true -> send v (HKw false true false false 2 false) c (mkk f an true a (Some TSymbol) None false false false false) =
  Ok (TEv (mkev EScalar (Some TFloat) (EvVal (VFloat nan_bits)) f an (Some (e_depth v))) None, mkk f an true a (Some TSymbol) None false false false false, []).
Proof. intros E. unfold send, send_kw, check_keyword. cbn [length t_an Nat.ltb Nat.leb andb]. rewrite E. reflexivity. Qed.
Lemma kw_true_end v f an a c : ends c = true -> send v (HKw false false true false 3 false) c (mkk f an true a (Some TSymbol) None false false false false) =
  Ok (TEv (mkev EScalar (Some TBool) (EvVal (VBool true)) f an (Some (e_depth v))) None, mkk f an true a (Some TSymbol) None false false false false, []).
Proof. intros E. unfold send, send_kw, check_keyword. cbn [length t_rue Nat.ltb Nat.leb andb]. rewrite E. reflexivity. Qed.
Lemma kw_false_end v f an a c : ends c = true -> send v (HKw false false false true 4 false) c (mkk f an true a (Some TSymbol) None false false false false) =
  Ok (TEv (mkev EScalar (Some TBool) (EvVal (VBool false)) f an (Some (e_depth v))) None, mkk f an true a (Some TSymbol) None false false false false, []).
Proof. intros E. unfold send, send_kw, check_keyword. cbn [length t_alse Nat.ltb Nat.leb andb]. rewrite E. reflexivity. Qed.

Ltac null_end E := unfold send, send_null; cbn [find zlist_eqb fst typed_nulls app andb Z.eqb Pos.eqb]; rewrite E; reflexivity.
Lemma null_reads t : reads (null_text t) t EvNone.
Proof.
  apply plain_reads. intros uni p f an. destruct t; cbn [null_text iontype_num Z.to_nat nth null_names];
    (do 6 eexists; split; [reflexivity|]; split; [reflexivity|]; split; [reflexivity|]; split; [reflexivity|]; split; [reflexivity|]; split; [reflexivity|];
     split; [kw_run|]; split; [|split; reflexivity]).
  { intros c E _ _. apply kw_null_end. exact E. }
  all: intros c E _ _; null_end E.
Qed.
Lemma bool_reads (b : bool) : reads (if b then t_true else t_false) TBool (EvVal (VBool b)).
Proof.
  apply plain_reads. intros uni p f an. destruct b;
    (do 6 eexists; split; [reflexivity|]; split; [reflexivity|]; split; [reflexivity|]; split; [reflexivity|]; split; [reflexivity|]; split; [reflexivity|];
     split; [kw_run|]; split; [|split; reflexivity]).
  - intros c E _ _. apply kw_true_end. exact E.
  - intros c E _ _. apply kw_false_end. exact E.
Qed.
Lemma nan_reads : reads t_nan TFloat (EvVal (VFloat nan_bits)).
Proof.
  apply plain_reads. intros uni p f an.
  do 6 eexists; split; [reflexivity|]; split; [reflexivity|]; split; [reflexivity|]; split; [reflexivity|]; split; [reflexivity|]; split; [reflexivity|].
  split; [kw_run|]; split; [|split; reflexivity]. intros c E _ _. apply kw_nan_end. exact E.
Qed.
Lemma inf_end v neg f an a c : ends c = true -> send v (HInf neg 3) c (mkk f an false a (Some TFloat) None false false false false) =
  Ok (TEv (mkev EScalar (Some TFloat) (EvVal (VFloat (if neg then ninf_bits else inf_bits))) f an (Some (e_depth v))) None, mkk f an false a (Some TFloat) None false false false false, []).
Proof. intros E. unfold send, send_inf. cbn [set_type k_type opt_eqb iontype_eqb]. rewrite E. reflexivity. Qed.
Lemma inf_reads (neg : bool) : reads (if neg then t_ninf else t_pinf) TFloat (EvVal (VFloat (if neg then ninf_bits else inf_bits))).
Proof.
  apply plain_reads. intros uni p f an. destruct neg.
  - do 6 eexists; split; [reflexivity|]; split; [reflexivity|]; split; [reflexivity|]; split; [reflexivity|]; split; [reflexivity|]; split; [reflexivity|].
    split; [eapply h_back; [reflexivity|reflexivity|reflexivity|kw_run]|]; split; [|split; reflexivity]. intros c E _ _. exact (inf_end _ true f an _ c E).
  - do 6 eexists; split; [reflexivity|]; split; [reflexivity|]; split; [reflexivity|]; split; [reflexivity|]; split; [reflexivity|]; split; [reflexivity|].
    split; [kw_run|]; split; [|split; reflexivity]. intros c E _ _. exact (inf_end _ false f an _ c E).
Qed.

(** Every float. *)
Definition float_bits (bits : Z) : Prop := 0 <= bits < 2 ^ 64.
Definition read_float (bits : Z) : evalue :=
  if float_is_nan bits then EvVal (VFloat nan_bits)
  else if float_is_inf bits then EvVal (VFloat (if float_neg bits then ninf_bits else inf_bits)) else EvLazy (Ok (VFloat bits)).
Theorem float_reads bits : float_bits bits -> reads (float_str bits) TFloat (read_float bits).
Proof.
  intros B. unfold read_float. destruct (float_is_nan bits) eqn:N; [unfold float_str; rewrite N; apply nan_reads|].
  destruct (float_is_inf bits) eqn:I; [unfold float_str; rewrite N, I; apply inf_reads|]. apply finite_float_reads. repeat split; auto; apply B.
Qed.
Lemma inf_value bits : float_bits bits -> float_is_inf bits = true -> bits = if float_neg bits then ninf_bits else inf_bits.
Proof. unfold float_is_inf, float_neg, ninf_bits, inf_bits, float_bits. intros B H. destruct (2 ^ 63 <=? bits) eqn:L; lia. Qed.
