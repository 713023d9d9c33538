(** The text reader on the strings and quoted symbols of the grammar. *)
From Coq Require Import String.
From Verif Require Import Base BaseFacts CoreModel BinReaderModel SymbolsModel TextNumbers TextNumbersFacts TextWriterModel TextReaderModel TextReaderFacts TextWalk TextTokens TextNumberTokens TextFloats TextKeywords TextQuoted TextSymbols.
From Verif Require Import TextRoundTripSpec Props_TextRoundTrip TextGrammar TextGaps TextReads TextReadNumbers TextReadNames TextReadItems.
Local Open Scope Z_scope.

(** * One item, and all of them *)
Lemma code_more uni p k h s w : forall cs cs', cp_goes (negb (is_clob k)) cs w cs' -> forall q, Code p k h cs s -> goes uni s (map plain w ++ q) [] (Code p k h cs') q.
Proof.
  intros cs cs' G. revert s. induction G as [cs|cs z cs1 r cs2 ST G IH]; intros s q HC; cbn [map app]; [now apply goes_here|].
  destruct HC as (cm & fl & ->). eapply goes_via.
  - eapply m_read0 with (s' := core p (Some k) false cm fl (PRead (KCode cs1 h) false false)); [reflexivity|]. unfold take. cbn [core t_child cz plain]. rewrite ST. reflexivity.
  - apply IH. exists cm, fl. reflexivity.
Qed.
Lemma code_item uni p k h s w c h' k' z q : Code p k h (CStart [] false) s -> taken (negb (is_clob k)) w c -> (last w 0 = 13 -> z <> 10) ->
  send (penv uni p) h c k = Ok (TGo h', k', []) -> k_quoted k' = true -> goes uni s (map plain w ++ plain z :: q) [] (Code p k' h' (CStart [] false)) (plain z :: q).
Proof.
  intros HC [R|(L & e & G & ->)] NZ SE KQ; [eapply code_go; eassumption|]. specialize (NZ L).
  eapply goes_quiet; [eapply code_more; [exact G|exact HC]|]. intros s1 (cm & fl & ->).
  eapply (goes_move _ _ _ None).
  - change (plain z :: q) with (map plain [z] ++ q) at 2. eapply m_read; [reflexivity|]. unfold take. cbn [core t_child cz plain cp_step bind].
    change (env_of uni _) with (penv uni p). rewrite SE. cbn [bind handled]. replace (z =? 10) with false by lia. unfold token_pc. rewrite KQ. reflexivity.
  - eexists _, _. reflexivity.
Qed.
Section Body.
  Context (uni long wide : bool) (raw : Z -> Prop) (p : place) (quote : Z) (allowed : list Z) (H : nat -> hs) (K : text -> tctx).
  Hypothesis QU : quote = 34 \/ quote = 39.
  Hypothesis KQ : forall l, k_quoted (K l) = true.
  Hypothesis KC : forall l, is_clob (K l) = negb wide.
  Hypothesis RAW : forall c, raw c -> c <> quote /\ (mem c allowed = true \/ 32 <= c) /\ (wide = false -> c <= 127).
  Hypothesis RET : raw 13 -> mem 10 allowed = true.
  Hypothesis SQ : long = true -> forall n l, (n < 2)%nat -> send (penv uni p) (H n) (plain 39) (K l) = Ok (TGo (H (S n)), K l, []).
  Hypothesis SC : forall n l c, (n <= 2)%nat -> (long = false -> n = O) -> clean quote allowed (negb wide) c -> send (penv uni p) (H n) c (K l) = Ok (TGo (H O), K (l ++ repeat 39 n ++ kept c), []).
  Lemma quote_go n l s q : long = true -> (n < 2)%nat -> Code p (K l) (H n) (CStart [] false) s -> goes uni s (plain 39 :: q) [] (Code p (K l) (H (S n)) (CStart [] false)) q.
  Proof. intros LG LN HC. change (plain 39 :: q) with (map plain [39] ++ q). eapply code_go; [exact HC| |apply SQ; assumption|apply KQ]. reflexivity. Qed.
  Lemma body_goes w t : body long raw wide w t -> forall l s z q, z <> 10 -> Code p (K l) (H O) (CStart [] false) s ->
    goes uni s (map plain w ++ plain z :: q) [] (Code p (K (l ++ t)) (H O) (CStart [] false)) (plain z :: q).
  Proof.
    induction 1 as [|q0 w s0 l0 t Q0 I LST B IH]; intros l s z q NZ HC; [rewrite app_nil_r; now apply goes_here|].
    destruct (item_taken quote allowed raw wide w s0 RAW RET QU I) as (c & TK & CL & -> & NE & _).
    rewrite !map_app, <- !app_assoc.
    assert (N : exists n, (n <= 2)%nat /\ (long = false -> n = O) /\ q0 = repeat 39 n /\ forall qq, goes uni s (map plain q0 ++ qq) [] (Code p (K l) (H n) (CStart [] false)) qq).
    { destruct Q0 as [->|(LG & [->| ->])].
      - exists O. split; [lia|]. split; [reflexivity|]. split; [reflexivity|]. intros qq. now apply goes_here.
      - exists 1%nat. split; [lia|]. split; [congruence|]. split; [reflexivity|]. intros qq. apply quote_go; auto.
      - exists 2%nat. split; [lia|]. split; [congruence|]. split; [reflexivity|]. intros qq. cbn [map app]. eapply goes_quiet; [apply quote_go; [exact LG| |exact HC]; lia|]. intros s1 C1. apply quote_go; auto. }
    destruct N as (n & LN & LL & EQ & G). eapply goes_quiet; [apply G|]. intros s1 C1. clear G HC s.
    assert (NX : exists y yq, map plain l0 ++ plain z :: q = plain y :: yq /\ (last w 0 = 13 -> y <> 10)).
    { destruct l0 as [|y l0]; cbn [map app]; eexists _, _; (split; [reflexivity|]); [intros _; exact NZ|exact LST]. }
    destruct NX as (y & yq & EY & NY). rewrite EY.
    eapply goes_quiet; [eapply code_item; [exact C1|rewrite KC, Bool.negb_involutive; exact TK|exact NY|apply SC; [exact LN|exact LL|exact CL]|apply KQ]|].
    intros s2 C2. rewrite <- EY. replace (l ++ q0 ++ kept c ++ t) with ((l ++ repeat 39 n ++ kept c) ++ t) by (rewrite EQ, <- !app_assoc; reflexivity). now apply IH.
  Qed.
End Body.

(** * Strings *)
Lemma short_allowed q c : short_raw q c -> c <> q /\ (mem c c_ws_not_nl = true \/ 32 <= c) /\ (true = false -> c <= 127).
Proof. intros (N & H). split; [exact N|]. split; [|discriminate]. unfold mem, c_ws_not_nl. cbn [existsb]. lia. Qed.
Lemma short_13 q : short_raw q 13 -> mem 10 c_ws_not_nl = true.
Proof. intros (_ & H). lia. Qed.
Definition strk (f : option token) (an : list token) (isf : bool) (l : text) : tctx :=
  if isf then mkk f an false [] None (Some (SCodes l)) true false false false else mkk f an true l (Some TString) None true false false false.

Lemma string_go uni p f an isf child s w t q : place_ok p -> p_field p = isf -> At p child false (plain 34) s -> child_of child f an -> string_body w t ->
  goes uni s (map plain w ++ plain 34 :: q) [] (Code p (strk f an isf t) (HStr false isf) (CStart [] false)) (plain 34 :: q).
Proof.
  intros PO PF HA HC B. eapply goes_quiet.
  { eapply (begin_code uni p child f an 34 s _ (HStr false isf) (strk f an isf [])); [exact PO|exact HA|exact HC|reflexivity|reflexivity|apply orb_true_r|]. rewrite PF. destruct isf; reflexivity. }
  intros s1 C1. change t with ([] ++ t).
  eapply (body_goes uni false true (short_raw 34) p 34 c_ws_not_nl (fun _ => HStr false isf) (strk f an isf)); [auto|intros l; destruct isf; reflexivity|intros l; destruct isf; reflexivity|apply short_allowed|apply short_13|discriminate| |exact B|lia|exact C1].
  intros n l c LN LL (C1' & C2'). rewrite (LL eq_refl). unfold send, send_string. rewrite C1'. cbn [negb] in C2'. rewrite C2'. cbn [negb repeat app]. unfold go, kept.
  destruct isf, (gone c); cbn [strk text_push k_pend]; rewrite ?app_nil_r; reflexivity.
Qed.
Lemma code_closes uni p k h s z ev k' l : Code p k h (CStart [] false) s -> cp_step (negb (is_clob k)) (CStart [] false) z = Ok (CDone (plain z) []) ->
  send (penv uni p) h (plain z) k = Ok (TEv ev None, k', []) -> k_comp k' = false -> k_self k' = true -> is_container_start ev = false ->
  to uni s (all (z :: l)) [ev] (Here p None (is_delimited (p_type p)) l).
Proof.
  intros HC CP SE C SF N. rewrite all_cons. eapply (goes_to _ _ _ [ev] _ _ []); [eapply code_emits; eassumption|]. intros s1 I1. now apply idle_here.
Qed.
Theorem string_text_reads at_ w t : string_body w t -> scalar_reads at_ (34 :: w ++ [34]) TString (Some (VString t)) free.
Proof.
  intros B. exists 34, (w ++ [34]). split; [reflexivity|]. split; [reflexivity|]. intros uni p f an child s g rest SI FS FO HA HC MF TR DP NC NI.
  pose proof (sits_ok _ _ SI) as PO. assert (PF : p_field p = false) by apply SI.
  exists (scalar_event p f an TString (EvVal (VString t))). split; [left; reflexivity|].
  rewrite <- app_assoc, all_app. cbn [app]. rewrite all_cons. eapply goes_to0; [eapply (string_go uni p f an false); eauto|]. intros s1 C1. rewrite <- all_cons.
  eapply to_after; [eapply (code_closes uni p _ _ s1 34 _ (set_self true (strk f an false t))); [exact C1|reflexivity|reflexivity|reflexivity|reflexivity|reflexivity]|].
  intros s2 q2 H2. eapply done_here; eauto. exact bare_none.
Qed.
(** The text ends without an event. *)
Lemma code_hold uni p k h s z l f an sv kp : place_ok p -> Code p k h (CStart [] false) s -> cp_step (negb (is_clob k)) (CStart [] false) z = Ok (CDone (plain z) []) -> z <> 58 ->
  send (penv uni p) h (plain z) k = back kp -> set_type None kp = mkk f an false [] None (Some sv) false false true false ->
  to uni s (all (z :: l)) [] (fun s' q' => exists k', shape (Some (f, an, sv)) k' /\ Here p (Some k') false l s' q').
Proof.
  intros PO (cm & fl & ->) CP NC SE ST. destruct (code_take uni p k h (CStart [] false) cm fl z (TBack, kp, [])) as (c' & CP' & T); [exists (plain z); auto|]. rewrite CP in CP'. injection CP' as <-.
  assert (T' : exists fl', take uni (core p (Some k) false cm fl (PRead (KCode (CStart [] false) h) false false)) (KCode (CStart [] false) h) (plain z) = Ok (core p (Some (set_type None kp)) false false fl' (PRead KTop false fl'), None, []) /\ (p_field p = false -> p_stack p = [] -> fl' = true)).
  { rewrite T. cbn [handled]. unfold after_back. rewrite ST. cbn [cz plain]. destruct p as [pt pst pf]. unfold core, with_pc, with_flags, with_child, at_top. cbn [t_type t_stack t_field t_delim t_complete t_flush t_child k_pend k_self k_line negb orb p_type p_stack p_field].
    replace (z =? 58) with false by lia. destruct pf; eexists; (split; [reflexivity|]); [discriminate|]. intros _ ->. reflexivity. }
  destruct T' as (fl' & T' & HF). rewrite all_cons. eapply (to_move _ _ _ None); [eapply m_read0; [reflexivity|exact T']|].
  exists (set_type None kp). split; [exists false, true; exact ST|]. apply here_read. intros SP. right. split; [reflexivity|]. apply HF; [|exact SP]. apply (PO SP).
Qed.
(** A string before a colon: a field name. *)
Lemma string_colon uni p f an child s w t g l : place_ok p -> p_field p = true -> At p child false (plain 34) s -> child_of child f an -> string_body w t -> gap g ->
  to uni s (all (w ++ 34 :: g ++ 58 :: l)) [] (Colon p f an (text_symbol t) l).
Proof.
  intros PO PF HA HC B G. rewrite all_app, all_cons. eapply goes_to0; [eapply (string_go uni p f an true); eauto|]. intros s1 C1. rewrite <- all_cons.
  eapply to_quiet; [eapply (code_hold uni p _ _ s1 34 (g ++ 58 :: l) f an (SCodes t) (set_self true (set_quoted false (strk f an true t)))); [exact PO|exact C1|reflexivity|lia|reflexivity|reflexivity]|].
  intros s2 q2 (k & SK & H2). exact (hold_colon uni p k f an (SCodes t) g l s2 q2 PO Logic.I G SK H2).
Qed.

(** * Quoted symbols *)
Definition sqk (f : option token) (an : list token) (l : text) : tctx := mkk f an true l None None true false false false.
Lemma quoted_go uni p f an child s c w t q : place_ok p -> At p child false (plain 39) s -> child_of child f an -> symbol_body (c :: w) t ->
  goes uni s (map plain (c :: w) ++ plain 39 :: q) [] (Code p (sqk f an t) (HSym (p_field p)) (CStart [] false)) (plain 39 :: q).
Proof.
  intros PO HA HC B. eapply goes_quiet.
  { eapply (begin_code uni p child f an 39 s _ (HSq1 (p_field p)) (kid f an)); [exact PO|exact HA|exact HC|reflexivity|reflexivity|reflexivity|]. destruct (p_field p); reflexivity. }
  intros s1 C1. unfold symbol_body in B. inversion B as [|q0 w0 s0 l0 t0 Q0 I LST B0 E1 E2].
  destruct Q0 as [->|(X & _)]; [|discriminate]. clear E2 B. cbn [app] in E1 |- *. rewrite <- ?E1. clear E1.
  destruct (item_taken 39 c_ws_not_nl (short_raw 39) true w0 s0 (short_allowed 39) (short_13 39) (or_intror eq_refl) I) as (x & TK & (CL1 & CL2) & -> & NE & _).
  rewrite !map_app, <- !app_assoc.
  assert (NX : exists y yq, map plain l0 ++ plain 39 :: q = plain y :: yq /\ (last w0 0 = 13 -> y <> 10)).
  { destruct l0 as [|y l0]; cbn [map app]; eexists _, _; (split; [reflexivity|]); [intros _; lia|exact LST]. }
  destruct NX as (y & yq & EY & NY). rewrite EY.
  eapply goes_quiet.
  { eapply (code_item uni p (kid f an) (HSq1 (p_field p)) s1 w0 x (HSym (p_field p)) (sqk f an (kept x))); [exact C1|exact TK|exact NY| |reflexivity].
    unfold send, send_quote1, start_quoted_symbol. rewrite CL1. cbn [set_unicode kid k_codes bind k_quoted is_clob k_type opt_eqb Bool.eqb]. cbn [negb] in CL2. rewrite CL2. unfold kept. cbn [negb]. destruct (gone x); reflexivity. }
  intros s2 C2. rewrite <- EY.
  eapply (body_goes uni false true (short_raw 39) p 39 c_ws_not_nl (fun _ => HSym (p_field p)) (sqk f an)); [auto|reflexivity|reflexivity|apply short_allowed|apply short_13|discriminate| |exact B0|lia|exact C2].
  intros n l d LN LL (C1' & C2'). rewrite (LL eq_refl). unfold send, send_quoted_symbol. rewrite C1'. cbn [negb] in C2'. unfold is_clob. cbn [sqk k_type opt_eqb]. rewrite C2'. cbn [negb repeat app]. unfold go, kept.
  destruct (gone d); cbn [app]; rewrite ?app_nil_r; reflexivity.
Qed.
Lemma quoted_hold uni p f an child s c w t l : place_ok p -> At p child false (plain 39) s -> child_of child f an -> symbol_body (c :: w) t ->
  to uni s (all (c :: w ++ 39 :: l)) [] (fun s' q' => exists k', shape (Some (f, an, SCodes t)) k' /\ Here p (Some k') false l s' q').
Proof.
  intros PO HA HC B. change (c :: w ++ 39 :: l) with ((c :: w) ++ 39 :: l). rewrite all_app, all_cons. eapply goes_to0; [eapply quoted_go; eauto|]. intros s1 C1. rewrite <- all_cons.
  eapply (code_hold uni p _ _ s1 39 l f an (SCodes t) (mkk f an false [] None (Some (SCodes t)) false false true false)); [exact PO|exact C1|reflexivity|lia| |reflexivity].
  unfold send, send_quoted_symbol, symbol_end. cbn [cz plain escaped]. change (39 =? 39) with true. cbn [andb negb sqk k_quoted]. rewrite orb_true_r. reflexivity.
Qed.
(** [''] *)
Lemma empty_hold uni p f an child s l : place_ok p -> At p child false (plain 39) s -> child_of child f an -> hd 0 l <> 39 -> deep p l ->
  to uni s (all (39 :: l)) [] (fun s' q' => exists k', pend f an (SCodes []) k' /\ Here p (Some k') false l s' q').
Proof.
  intros PO HA HC N39 DP. set (k1 := mkk f an false [] (Some TSymbol) None false false false false).
  set (kp := mkk f an false [] (Some TSymbol) (Some (SCodes [])) true false false false).
  assert (SE : forall c, cz c <> 39 -> send (penv uni p) (HSq2 (p_field p)) c k1 = back kp).
  { intros c NC. unfold send, send_quote2, k1. cbn [set_unicode k_codes bind]. replace (cz c =? 39) with false by lia. reflexivity. }
  rewrite all_cons. eapply goes_to0 with (P := Tok p k1 (HSq2 (p_field p))).
  - eapply goes_quiet; [eapply (begin_code uni p child f an 39 s _ (HSq1 (p_field p)) (kid f an)); [exact PO|exact HA|exact HC|reflexivity|reflexivity|reflexivity|]; destruct (p_field p); reflexivity|].
    intros s1 C1. eapply goes_weaken.
    + eapply (code_tok uni p (kid f an) (HSq1 (p_field p)) s1 39 (HSq2 (p_field p)) k1); [exact PO|exact C1|reflexivity|reflexivity|reflexivity].
    + intros s' (_ & X). apply X. reflexivity.
  - intros s1 T1. eapply to_weaken; [eapply (tok_pending uni p k1 _ s1 l f an (SCodes []) kp); [exact PO|exact T1| |reflexivity|exact DP]|].
    + apply SE. destruct l; cbn in *; lia.
    + intros s' q' (k & PK & _ & _ & H2). exists k. auto.
Qed.
Lemma blanks_here uni p child dlm g l s q : blanks g -> Here p child dlm (g ++ l) s q -> to uni s q [] (Here p child dlm l).
Proof. intros B. apply here_blanks. now apply blanks_ws. Qed.
Lemma symbol_body_nil t : symbol_body [] t -> t = [].
Proof.
  unfold symbol_body. intros B. inversion B as [|q0 w0 s0 l0 t0 Q0 I LST B0 E1 E2]; [reflexivity|]. exfalso. apply app_eq_nil in E1 as (_ & E1). apply app_eq_nil in E1 as (E1 & _). subst w0.
  inversion I.
Qed.
Theorem quoted_name_reads at_ w t : symbol_body w t -> scalar_reads at_ (39 :: w ++ [39]) TSymbol (Some (VSymbol (text_symbol t))) (match w with [] => after_empty | _ => after_quoted end).
Proof.
  intros B. exists 39, (w ++ [39]). split; [reflexivity|]. split; [reflexivity|]. intros uni p f an child s g rest SI FS FO HA HC MF TR DP NC NI.
  pose proof (sits_ok _ _ SI) as PO. assert (PF : p_field p = false) by apply SI.
  exists (scalar_event p f an TSymbol (EvVal (VSymbol (text_symbol t)))). split; [left; reflexivity|].
  assert (EV : symbol_event (penv uni p) (kid f an) (SCodes t) = Ok (scalar_event p f an TSymbol (EvVal (VSymbol (text_symbol t))))) by reflexivity.
  assert (DG : deep p (g ++ rest)) by (intros E0; apply app_eq_nil in E0; apply DP, E0).
  rewrite <- app_assoc. cbn [app]. destruct w as [|c w].
  - apply symbol_body_nil in B. subst t. cbn [app]. destruct MF as (BG & N39). eapply to_quiet; [eapply (empty_hold uni p f an child s (g ++ rest)); eauto|].
    + destruct g as [|c g]; cbn [app hd].
      * destruct rest as [|c rest]; [cbn; lia|]. cbn [hd]. intros ->. exact N39.
      * pose proof (Forall_inv BG) as X. unfold blank in X. cbn in X. lia.
    + intros s1 q1 (k & PK & H1). eapply to_quiet; [exact (blanks_here uni p _ _ g rest s1 q1 BG H1)|]. intros s2 q2 H2. eapply pend_done; eauto. eapply trailing_settled; eauto.
  - eapply to_quiet; [exact (quoted_hold uni p f an child s c w t (g ++ rest) PO HA HC B)|]. intros s1 q1 (k & SK & H1).
    refine (hold_done uni at_ (held after_quoted an) p k f an (SCodes t) _ g rest s1 q1 SI FS FO Logic.I _ DP NC TR SK EV H1). cbn. intros X. destruct an; [reflexivity|]. exfalso. apply X. discriminate.
Qed.
(** A quoted name before a colon. *)
Lemma quoted_colon w t : symbol_body w t -> name_reads (39 :: w ++ [39]) (text_symbol t).
Proof.
  intros B. exists 39, (w ++ [39]). split; [reflexivity|]. split; [reflexivity|]. intros uni p f an child s g l PO HA HC (G & BG).
  rewrite <- app_assoc. cbn [app]. destruct w as [|c w].
  - apply symbol_body_nil in B. subst t. cbn [app]. specialize (BG eq_refl).
    assert (DG : deep p (g ++ 58 :: l)) by (intros E0; apply app_eq_nil in E0; destruct E0; discriminate).
    eapply to_quiet; [eapply (empty_hold uni p f an child s (g ++ 58 :: l)); eauto|].
    + destruct g as [|c g]; cbn [app hd]; [lia|]. pose proof (Forall_inv BG) as X. unfold blank in X. cbn in X. lia.
    + intros s1 q1 (k & PK & H1). eapply to_quiet; [exact (blanks_here uni p _ _ g (58 :: l) s1 q1 BG H1)|]. intros s2 q2 H2.
      eapply to_goes; [eapply here_char; exact H2|]. intros s3 A3. exists k, (SCodes []). auto.
  - eapply to_quiet; [exact (quoted_hold uni p f an child s c w t (g ++ 58 :: l) PO HA HC B)|]. intros s1 q1 (k & SK & H1).
    exact (hold_colon uni p k f an (SCodes t) g l s1 q1 PO Logic.I G SK H1).
Qed.
Theorem name_colon w k : name_text w k -> name_reads w k.
Proof. intros [w0 k0 PN|w0 t B]; [now apply plain_name_colon|now apply quoted_colon]. Qed.
