(** The text reader on the long strings of the grammar, and the long strings of clobs. *)
From Coq Require Import String.
From Verif Require Import Base BaseFacts CoreModel BinReaderModel SymbolsModel TextNumbers TextNumbersFacts TextWriterModel TextReaderModel TextReaderFacts TextWalk TextTokens TextNumberTokens TextFloats TextKeywords TextQuoted TextSymbols.
From Verif Require Import TextRoundTripSpec Props_TextRoundTrip TextGrammar TextGaps TextReads TextReadNumbers TextReadNames TextReadItems TextReadQuoted.
Local Open Scope Z_scope.

Definition In0 (p : place) (k : tctx) (h : hs) (s : tcore) : Prop := InTok p k false (cf p k) h s.
Lemma in0_tok0 p k h s : In0 p k h s -> Tok0 p k h s.
Proof. intros (cm & ->). eexists _, _. reflexivity. Qed.
Lemma in0_tok p k h s : place_ok p -> flushy k = true -> In0 p k h s -> Tok p k h s.
Proof. intros PO F (cm & ->). eexists _, _. split; [reflexivity|]. intros SP. now apply flushy_flush. Qed.
Lemma in0_next uni p k h s z q h' k' : In0 p k h s -> send (penv uni p) h (plain z) k = Ok (TGo h', k', []) -> k_quoted k' = false ->
  goes uni s (plain z :: q) [] (In0 p k' h') q.
Proof. intros T SE Q. eapply tok_next; eassumption. Qed.
Lemma in0_code uni p k h s z q h' k' : In0 p k h s -> send (penv uni p) h (plain z) k = Ok (TGo h', k', []) -> k_quoted k' = true ->
  goes uni s (plain z :: q) [] (Code p k' h' (CStart [] false)) q.
Proof. intros T SE Q. eapply tok0_code; eauto. now apply in0_tok0. Qed.
Lemma code_out uni p k h s z h' k' q : Code p k h (CStart [] false) s -> cp_step (negb (is_clob k)) (CStart [] false) z = Ok (CDone (plain z) []) ->
  send (penv uni p) h (plain z) k = Ok (TGo h', k', []) -> k_quoted k' = false -> goes uni s (plain z :: q) [] (In0 p k' h') q.
Proof.
  intros (cm & fl & ->) CP SE KQ. destruct (code_take uni p k h (CStart [] false) cm fl z (TGo h', k', [])) as (c' & CP' & T); [eauto|]. rewrite CP in CP'. injection CP' as <-.
  eapply (goes_move _ _ _ None); [eapply m_read0; [reflexivity|]; rewrite T; cbn [handled]; unfold token_pc; rewrite KQ; reflexivity|].
  exists cm. reflexivity.
Qed.

Definition lk (f : option token) (an : list token) (ty : iontype) (isf : bool) (l : text) (qt ln sf : bool) : tctx :=
  if isf then mkk f an false [] (Some TSymbol) (Some (SCodes l)) qt ln sf false else mkk f an true l (Some ty) None qt ln sf false.
(** After a segment. *)
Definition Between (p : place) (f : option token) (an : list token) (ty : iontype) (clob isf : bool) (l : text) (s : tcore) : Prop :=
  exists ln sf, In0 p (lk f an ty isf l false ln sf) (HLong 0 false clob isf) s.
Definition is_lob (ty : iontype) (clob isf : bool) : Prop := ty = TString /\ clob = false \/ ty = TClob /\ clob = true /\ isf = false.
Lemma lob_clob f an ty clob isf l qt ln sf : is_lob ty clob isf -> is_clob (lk f an ty isf l qt ln sf) = clob.
Proof. intros [(-> & ->)|(-> & -> & ->)]; [destruct isf; reflexivity|reflexivity]. Qed.

Lemma between_blank uni p f an ty clob isf l s w q : is_ws w = true -> Between p f an ty clob isf l s -> goes uni s (plain w :: q) [] (Between p f an ty clob isf l) q.
Proof.
  intros W (ln & sf & T). eapply goes_weaken; [eapply (in0_next uni p _ _ s w q (HLong 0 false clob isf) (lk f an ty isf l false ln false)); [exact T| |destruct isf; reflexivity]|].
  - unfold send, send_long. cbn [cz plain escaped]. pose proof (is_ws_cases w W). replace (w =? 39) with false by lia. cbn [andb]. change (0 <? 0) with false. cbn iota. rewrite W. destruct isf; reflexivity.
  - intros s' X. exists ln, false. exact X.
Qed.
Lemma between_blanks uni p f an ty clob isf l g : Forall (fun c => is_ws c = true) g -> forall s q, Between p f an ty clob isf l s -> goes uni s (map plain g ++ q) [] (Between p f an ty clob isf l) q.
Proof.
  induction 1 as [|w g W G IH]; intros s q T; cbn [map app]; [now apply goes_here|]. eapply goes_quiet; [eapply between_blank; eassumption|]. intros s1 T1. now apply IH.
Qed.
(** A comment. *)
Lemma between_comment uni p f an isf l s z q : Between p f an TString false isf l s -> z = 47 \/ z = 42 ->
  goes uni s (plain 47 :: plain z :: q) [] (fun s' => exists ln sf, In0 p (lk f an TString isf l false ln sf) (if z =? 47 then HLine (Some (HLong 0 false false isf)) else HBlock (Some (HLong 0 false false isf)) false) s') q.
Proof.
  intros (ln & sf & T) HZ. set (ag := HLong 0 false false isf). set (k1 := lk f an TString isf l false ln false).
  assert (C0 : forall s1, In0 p k1 (HComm0 (Some ag)) s1 -> goes uni s1 (plain z :: q) [] (fun s' => exists ln sf, In0 p (lk f an TString isf l false ln sf) (if z =? 47 then HLine (Some ag) else HBlock (Some ag) false) s') q).
  { intros s1 T1. destruct HZ as [->| ->].
    - eapply goes_weaken; [eapply (in0_next uni p k1 _ s1 47 q (HLine (Some ag)) (lk f an TString isf l false true false)); [exact T1|destruct isf; reflexivity|destruct isf; reflexivity]|]. intros s' X. exists true, false. exact X.
    - eapply goes_weaken; [eapply (in0_next uni p k1 _ s1 42 q (HBlock (Some ag) false) (lk f an TString isf l false false false)); [exact T1|destruct isf, ln; reflexivity|destruct isf; reflexivity]|]. intros s' X. exists false, false. exact X. }
  destruct (in_sexp (penv uni p)) eqn:IS.
  - eapply goes_quiet; [eapply (in0_next uni p _ _ s 47 _ (HSexpSlash (Some ag) (Some (value_event (penv uni p) k1 EScalar (k_type k1) (text_value k1)))) k1); [exact T| |destruct isf; reflexivity]|].
    + unfold send, send_long. cbn [cz plain escaped]. rewrite IS. unfold k1. destruct isf; reflexivity.
    + intros s1 T1. eapply goes_quiet; [eapply (tok_again uni p k1 false _ _ s1 z q (HComm0 (Some ag)) k1); [exact T1| |destruct isf; reflexivity]|].
      * unfold send, putting_back, unread. cbn [cz plain bind]. replace ((z =? 42) || (z =? 47)) with true by lia. reflexivity.
      * exact C0.
  - eapply goes_quiet; [eapply (in0_next uni p _ _ s 47 _ (HComm0 (Some ag)) k1); [exact T| |destruct isf; reflexivity]|].
    + unfold send, send_long. cbn [cz plain escaped]. rewrite IS. unfold k1. destruct isf; reflexivity.
    + exact C0.
Qed.
Lemma between_gap uni p f an isf l g : gap g -> forall s q, Between p f an TString false isf l s -> goes uni s (map plain g ++ q) [] (Between p f an TString false isf l) q.
Proof.
  induction 1 as [|c g B G IH|b n g FB HN G IH|b g FB G IH]; intros s q T; cbn [map app].
  - now apply goes_here.
  - eapply goes_quiet; [eapply between_blank; [now apply blank_ws|exact T]|]. intros s1 T1. now apply IH.
  - change (txt "//" ++ b ++ n :: g) with (47 :: 47 :: b ++ n :: g). cbn [map app]. eapply goes_quiet; [eapply (between_comment uni p f an isf l s 47); [exact T|auto]|].
    intros s1 (ln & sf & T1). rewrite map_app, <- app_assoc. eapply goes_quiet; [apply (line_run uni p (lk f an TString isf l false ln sf)); [exact FB|destruct isf; reflexivity|exact T1]|]. intros s2 T2. cbn [map app].
    eapply goes_quiet; [eapply (in0_next uni p _ _ s2 n _ (HLong 0 false false isf) (lk f an TString isf l false ln true)); [exact T2| |destruct isf; reflexivity]|].
    + unfold send, is_newline, comment_done. cbn [cz plain is_eof]. replace ((n =? 13) || (n =? 10) || false) with true by lia. destruct isf; reflexivity.
    + intros s3 T3. apply IH. exists ln, true. exact T3.
  - change (txt "/*" ++ b ++ txt "*/" ++ g) with (47 :: 42 :: b ++ 42 :: 47 :: g). cbn [map app]. eapply goes_quiet; [eapply (between_comment uni p f an isf l s 42); [exact T|auto]|].
    intros s1 (ln & sf & T1). rewrite map_app, <- app_assoc. cbn [map app]. eapply goes_quiet; [apply (block_run uni p (lk f an TString isf l false ln sf) false (Some (HLong 0 false false isf)) b) with (star := false); [destruct isf; reflexivity|exact FB|exact T1]|]. intros s2 T2.
    eapply goes_quiet; [eapply (in0_next uni p _ _ s2 47 _ (HLong 0 false false isf) (lk f an TString isf l false ln true)); [exact T2| |destruct isf; reflexivity]|].
    + destruct isf; reflexivity.
    + intros s3 T3. apply IH. exists ln, true. exact T3.
Qed.

(** * Segments *)
Section Segments.
  Context (uni : bool) (p : place) (f : option token) (an : list token) (ty : iontype) (clob isf : bool) (raw : Z -> Prop) (sep : text -> Prop).
  Hypothesis LOB : is_lob ty clob isf.
  Hypothesis RAW : forall c, raw c -> c <> 39 /\ (mem c c_ws = true \/ 32 <= c) /\ (negb clob = false -> c <= 127).
  Hypothesis SEP : forall g l s q, sep g -> Between p f an ty clob isf l s -> goes uni s (map plain g ++ q) [] (Between p f an ty clob isf l) q.
  Let K l := lk f an ty isf l true false false.
  Let H (n : nat) := HLong (Z.of_nat n) true clob isf.
  Lemma long_quote n l : (n < 2)%nat -> send (penv uni p) (H n) (plain 39) (K l) = Ok (TGo (H (S n)), K l, []).
  Proof. intros LN. unfold H, K, send, send_long. cbn [cz plain escaped]. do 2 (destruct n as [|n]; [destruct isf; reflexivity|]). lia. Qed.
  Lemma long_char n l c : (n <= 2)%nat -> clean 39 c_ws clob c -> send (penv uni p) (H n) c (K l) = Ok (TGo (H O), K (l ++ repeat 39 n ++ kept c), []).
  Proof.
    intros LN (C1 & C2). unfold H, K, send, send_long. rewrite C1, C2. cbn [negb]. rewrite Nat2Z.id. unfold go, kept.
    destruct isf, (gone c); cbn [lk text_push set_self k_pend with_val k_val k_field k_annot k_codes k_type k_quoted k_line k_self k_comp]; rewrite <- ?app_assoc, ?app_nil_r; reflexivity.
  Qed.
  Lemma clob_of l qt ln sf : is_clob (lk f an ty isf l qt ln sf) = clob.
  Proof. now apply lob_clob. Qed.
  (** A segment after its opening quotes. *)
  Lemma segment_goes w t l s q : body true raw (negb clob) w t -> Code p (K l) (H O) (CStart [] false) s ->
    goes uni s (map plain w ++ plain 39 :: plain 39 :: plain 39 :: q) [] (Between p f an ty clob isf (l ++ t)) q.
  Proof.
    intros B HC. eapply goes_quiet.
    { eapply (body_goes uni true (negb clob) raw p 39 c_ws H K); [auto|intros l0; unfold K; destruct isf; reflexivity|intros l0; rewrite Bool.negb_involutive; apply clob_of|exact RAW|reflexivity|intros _ n l0 LN; now apply long_quote| |exact B|lia|exact HC].
      intros n l0 c LN _ CL. rewrite Bool.negb_involutive in CL. now apply long_char. }
    intros s1 C1. assert (QK : forall l0, k_quoted (K l0) = true) by (intros l0; unfold K; destruct isf; reflexivity).
    eapply goes_quiet; [change (plain 39 :: plain 39 :: plain 39 :: q) with (map plain [39] ++ plain 39 :: plain 39 :: q); eapply code_go; [exact C1|reflexivity|apply (long_quote 0); lia|apply QK]|]. intros s2 C2.
    eapply goes_quiet; [change (plain 39 :: plain 39 :: q) with (map plain [39] ++ plain 39 :: q); eapply code_go; [exact C2|reflexivity|apply (long_quote 1); lia|apply QK]|]. intros s3 C3.
    eapply goes_weaken; [eapply (code_out uni p _ _ s3 39 (HLong 0 false clob isf) (lk f an ty isf (l ++ t) false false false)); [exact C3|reflexivity| |destruct isf; reflexivity]|].
    - unfold H, K, send, send_long. destruct isf; reflexivity.
    - intros s' X. exists false, false. exact X.
  Qed.
  Lemma reopen l s q : Between p f an ty clob isf l s -> goes uni s (plain 39 :: plain 39 :: plain 39 :: q) [] (Code p (K l) (H O) (CStart [] false)) q.
  Proof.
    intros (ln & sf & T). set (k1 := lk f an ty isf l false ln false).
    eapply goes_quiet; [eapply (in0_next uni p _ _ s 39 _ (HLong 1 false clob isf) k1); [exact T|destruct isf; reflexivity|destruct isf; reflexivity]|]. intros s1 T1.
    eapply goes_quiet; [eapply (in0_next uni p _ _ s1 39 _ (HLong 2 false clob isf) k1); [exact T1|unfold k1; destruct isf; reflexivity|destruct isf; reflexivity]|]. intros s2 T2.
    eapply (in0_code uni p k1 _ s2 39 q (H O) (K l)); [exact T2|unfold k1, K; destruct isf; reflexivity|unfold K; destruct isf; reflexivity].
  Qed.
  Lemma segments_go w t : segments (body true raw (negb clob)) sep w t -> exists w', w = 39 :: 39 :: 39 :: w' /\
    forall l s q, Code p (K l) (H O) (CStart [] false) s -> goes uni s (map plain w' ++ q) [] (Between p f an ty clob isf (l ++ t)) q.
  Proof.
    induction 1 as [w t B|w t g r t' B G SG (w' & -> & IH)].
    - exists (w ++ [39; 39; 39]). split; [reflexivity|]. intros l s q HC. rewrite map_app, <- app_assoc. cbn [map app]. now apply segment_goes.
    - exists (w ++ [39; 39; 39] ++ g ++ 39 :: 39 :: 39 :: w'). split; [reflexivity|]. intros l s q HC. rewrite !map_app, <- !app_assoc. cbn [map app].
      eapply goes_quiet; [eapply segment_goes; eassumption|]. intros s1 T1.
      eapply goes_quiet; [apply SEP; eassumption|]. intros s2 T2.
      eapply goes_quiet; [apply reopen; eassumption|]. intros s3 C3. rewrite app_assoc. now apply IH.
  Qed.
End Segments.
Lemma long_allowed c : long_raw c -> c <> 39 /\ (mem c c_ws = true \/ 32 <= c) /\ (negb false = false -> c <= 127).
Proof. intros (N & B). split; [exact N|]. split; [|discriminate]. destruct B as [B|B]; [now right|]. left. now apply blank_ws in B. Qed.

(** From the first quote of a long string to the end of its last segment. *)
Lemma long_go uni p f an child s w t : place_ok p -> At p child false (plain 39) s -> child_of child f an -> segments long_body gap w t ->
  exists w', w = 39 :: w' /\ forall q, goes uni s (map plain w' ++ q) [] (Between p f an TString false (p_field p) t) q.
Proof.
  intros PO HA HC SG.
  destruct (segments_go uni p f an TString false (p_field p) long_raw gap (or_introl (conj eq_refl eq_refl)) long_allowed (fun g l s0 q G T => between_gap uni p f an (p_field p) l g G s0 q T) w t SG) as (w' & -> & G).
  exists (39 :: 39 :: w'). split; [reflexivity|]. intros q. cbn [map app].
  set (k1 := mkk f an false [] (Some TSymbol) None false false false false).
  eapply goes_quiet; [eapply (begin_code uni p child f an 39 s _ (HSq1 (p_field p)) (kid f an)); [exact PO|exact HA|exact HC|reflexivity|reflexivity|reflexivity|]; destruct (p_field p); reflexivity|].
  intros s1 C1. eapply goes_quiet; [eapply (code_out uni p (kid f an) (HSq1 (p_field p)) s1 39 (HSq2 (p_field p)) k1); [exact C1|reflexivity|reflexivity|reflexivity]|].
  intros s2 T2. eapply goes_quiet; [eapply (in0_code uni p k1 _ s2 39 _ (HLong 0 true false (p_field p)) (lk f an TString (p_field p) [] true false false)); [exact T2|destruct (p_field p); reflexivity|destruct (p_field p); reflexivity]|].
  intros s3 C3. exact (G [] s3 q C3).
Qed.
Lemma long_trailing at_ an rest g : trailing at_ (held after_long an) rest g -> gap g.
Proof. intros [g0 G S|g0 o A NH R G O]; [exact G|]. exfalso. apply NH. exact Logic.I. Qed.
Theorem long_text_reads at_ w t : segments long_body gap w t -> scalar_reads at_ w TString (Some (VString t)) after_long.
Proof.
  intros SG.
  assert (E : exists w', w = 39 :: w') by (destruct SG; eexists; reflexivity). destruct E as (w' & E).
  exists 39, w'. split; [exact E|]. split; [reflexivity|]. intros uni p f an child s g rest SI FS FO HA HC MF TR DP NC NI.
  pose proof (sits_ok _ _ SI) as PO. assert (PF : p_field p = false) by apply SI.
  destruct (long_go uni p f an child s w t PO HA HC SG) as (w2 & E2 & G). rewrite E in E2. injection E2 as <-. rewrite PF in G.
  exists (scalar_event p f an TString (EvVal (VString t))). split; [left; reflexivity|].
  rewrite all_app. eapply goes_to0; [apply G|]. intros s1 T1. rewrite all_app.
  eapply goes_to0; [apply between_gap; [eapply long_trailing; eauto|exact T1]|]. intros s2 (ln & sf & T2).
  destruct (settled_stop rest (trailing_settled _ _ _ _ TR)) as (W & N47).
  eapply to_after; [eapply (emits_here uni p (lk f an TString false t false ln sf) (HLong 0 false false false) s2 (scalar_event p f an TString (EvVal (VString t))) (lk f an TString false t false ln false) rest); [apply in0_tok; [exact PO|reflexivity|exact T2]| |reflexivity|reflexivity|reflexivity|exact DP]|].
  - unfold send, send_long. replace (cz (first rest) =? 39) with false by (cbn in MF; destruct rest; cbn in MF |- *; lia). cbn [andb]. change (0 <? 0) with false. cbn iota. rewrite W.
    replace (cz (first rest) =? 47) with false by lia. reflexivity.
  - intros s3 q3 H3. eapply (done_here uni at_ False p [] rest None); eauto; [|exact bare_none]. constructor; [constructor|]. eapply trailing_settled; eauto.
Qed.
(** A long string before a colon: a field name. *)
Lemma long_colon uni p f an child s w t g l : place_ok p -> p_field p = true -> At p child false (plain 39) s -> child_of child f an -> segments long_body gap w t -> gap g ->
  exists w', w = 39 :: w' /\ to uni s (all (w' ++ g ++ 58 :: l)) [] (Colon p f an (text_symbol t) l).
Proof.
  intros PO PF HA HC SG G. destruct (long_go uni p f an child s w t PO HA HC SG) as (w' & -> & R). rewrite PF in R. exists w'. split; [reflexivity|].
  rewrite all_app. eapply goes_to0; [apply R|]. intros s1 T1. rewrite all_app.
  eapply goes_to0; [apply between_gap; [exact G|exact T1]|]. intros s2 (ln & sf & T2).
  assert (NS : p_stack p <> []) by (intros SP; destruct (PO SP); congruence).
  eapply to_quiet; [eapply (tok_pending uni p (lk f an TString true t false ln sf) (HLong 0 false false true) s2 (58 :: l) f an (SCodes t) (lk f an TString true t false ln false)); [exact PO| |reflexivity|reflexivity|intros X; discriminate]|].
  - destruct T2 as (cm & ->). eexists _, _. split; [reflexivity|]. contradiction.
  - intros s3 q3 (k & PK & _ & _ & H3). eapply to_goes; [eapply here_char; exact H3|]. intros s4 A4. exists k, (SCodes t). auto.
Qed.
