(** The text reader on the names of the grammar that have no quotes: symbols, annotations, field names. *)
From Coq Require Import String.
From Verif Require Import Base BaseFacts CoreModel BinReaderModel SymbolsModel TextNumbers TextNumbersFacts TextWriterModel TextReaderModel TextReaderFacts TextWalk TextTokens TextNumberTokens TextFloats TextKeywords TextQuoted TextSymbols.
From Verif Require Import TextRoundTripSpec Props_TextRoundTrip TextGrammar TextGaps TextReads TextReadNumbers.
Local Open Scope Z_scope.

(** The token ends without an event. *)
Lemma tok_pending uni p k h s l f an sv kp : place_ok p -> Tok p k h s -> send (penv uni p) h (first l) k = back kp ->
  set_type None kp = mkk f an false [] None (Some sv) (k_quoted kp) false false false -> deep p l ->
  to uni s (all l) [] (fun s' q' => exists k, pend f an sv k /\ k_quoted k = k_quoted kp /\ k_line k = false /\ Here p (Some k) false l s' q').
Proof.
  intros PO (cm & fl & -> & HF) SE ST DP. set (k1 := set_type None kp) in *.
  assert (T : exists fl', take uni (core p (Some k) false cm fl (PRead (KTok h) false fl)) (KTok h) (first l) = Ok (core p (Some k1) false false fl' (PTop (Some (first l))), None, []) /\ (p_stack p = [] -> fl' = true)).
  { unfold take. cbn [core t_child]. change (env_of uni _) with (penv uni p). rewrite SE. cbn [back bind handled]. unfold after_back. fold k1. rewrite ST.
    unfold core, with_pc, with_flags, with_child, at_top. cbn [t_type t_stack t_field t_delim t_complete t_flush t_child k_pend k_self negb orb]. rewrite orb_true_r.
    destruct (p_field p) eqn:PF; eexists; (split; [reflexivity|]).
    - intros SP. destruct (PO SP) as (_ & X). congruence.
    - intros ->. reflexivity. }
  destruct T as (fl' & T & HF').
  assert (G : Here p (Some k1) false l (core p (Some k1) false false fl' (PTop (Some (first l)))) (after l)).
  { apply here_at. intros _ SP. right. auto. }
  assert (R : exists k, pend f an sv k /\ k_quoted k = k_quoted kp /\ k_line k = false /\ Here p (Some k) false l (core p (Some k1) false false fl' (PTop (Some (first l)))) (after l)).
  { exists k1. split; [exists (k_quoted kp), false, false; exact ST|]. split; [rewrite ST; reflexivity|]. split; [rewrite ST; reflexivity|exact G]. }
  rewrite all_first. destruct l as [|c l].
  - specialize (DP eq_refl). rewrite (HF DP) in *. eapply (to_move _ _ _ None); [eapply m_flush; [reflexivity|exact T]|exact R].
  - eapply (to_move _ _ _ None); [eapply m_read0; [reflexivity|exact T]|exact R].
Qed.
Lemma pend_shape f an sv k : pend f an sv k -> k_quoted k = false -> shape (Some (f, an, sv)) k.
Proof. intros (qt & ln & sf & ->) Q. cbn in Q. subst qt. exists ln, sf. reflexivity. Qed.
Lemma shape_pend f an sv k : shape (Some (f, an, sv)) k -> pend f an sv k.
Proof. intros (ln & sf & ->). exists false, ln, sf. reflexivity. Qed.
Lemma shaped_pend f an sv child : shaped (Some (f, an, sv)) child -> exists k, child = Some k /\ pend f an sv k.
Proof. destruct child as [k|]; [|discriminate]. intros H. exists k. split; [reflexivity|now apply shape_pend]. Qed.

(** A symbol that turns out to be a value. *)
Lemma settled_stop l : settled l -> is_ws (cz (first l)) = false /\ cz (first l) <> 47.
Proof. destruct l as [|c l]; [split; [reflexivity|cbn; lia]|]. cbn [settled first cz plain]. intros (B & N). split; [|exact N]. destruct (is_ws c) eqn:E; [|reflexivity]. exfalso. apply B, blank_ws, E. Qed.
Lemma first_hd l : hd 0 l <> 58 -> cz (first l) <> 58.
Proof. destruct l; cbn; [lia|auto]. Qed.
Lemma pend_done uni at_ p k f an sv ev l s q : sits at_ p -> (at_ = InStruct -> f <> None) -> deep p l -> settled l -> hd 0 l <> 58 -> pend f an sv k -> symbol_event (penv uni p) (kid f an) sv = Ok ev ->
  Here p (Some k) false l s q -> to uni s q [ev] (Done p l).
Proof.
  intros SI FS DP SE NC PK EV H. destruct (settled_stop l SE) as (W & N47).
  eapply goes_to0; [eapply here_stop; [exact DP| |exact H]|].
  { destruct PK as (qt & ln & sf & ->). discriminate. }
  intros s1 A1. eapply to_goes.
  - eapply pend_value; [apply SI| |exact PK|exact W|exact N47|now apply first_hd|now apply stop_first|exact EV|exact A1].
    intros PT. apply FS. destruct SI as (_ & SI). destruct at_; destruct SI as (SI & _); congruence.
  - intros s' (cm & fl & ->). exists None. split; [exact bare_none|]. apply here_at. intros X. congruence.
Qed.
Definition told (uni : bool) (p : place) (f : option token) (an : list token) (sv : symv) : Prop :=
  match sv with SIvm _ => p_stack p = [] | _ => True end.
Lemma told_sayable uni p f an sv : place_ok p -> told uni p f an sv -> sayable uni p (Some (f, an, sv)).
Proof. intros PO T PT. destruct sv; [eexists; reflexivity|eexists; reflexivity|]. cbn in T. destruct (PO T) as (X & _). congruence. Qed.
Lemma hold_done uni at_ h p k f an sv ev g rest s q : sits at_ p -> (at_ = InStruct -> f <> None) -> (at_ = Outside -> f = None) -> told uni p f an sv -> (~ h -> an = []) -> deep p rest -> hd 0 rest <> 58 ->
  trailing at_ h rest g -> shape (Some (f, an, sv)) k -> symbol_event (penv uni p) (kid f an) sv = Ok ev ->
  Here p (Some k) false (g ++ rest) s q -> to uni s q [ev] (Done p rest).
Proof.
  intros SI FS FO TO AN DP NC TR SK EV H. pose proof (sits_ok _ _ SI) as PO.
  eapply to_quiet; [exact (trailing_here uni at_ h p (Some (f, an, sv)) g rest (Some k) false s q SI (told_sayable uni p f an sv PO TO) (fun A NH => conj (FO A) (AN NH)) DP TR SK H)|].
  - intros s1 q1 (child & SH & H1). destruct (shaped_pend _ _ _ _ SH) as (k1 & -> & PK).
    eapply pend_done; eauto. eapply trailing_settled; eauto.
Qed.

Lemma shuts_end c : shuts c -> ends (plain c) = true /\ mem c c_symbol_end = false.
Proof. intros H. split; [now apply shuts_ends|]. unfold shuts in H. unfold mem, c_symbol_end. cbn in H |- *. lia. Qed.
Lemma op_end c : operator c -> is_op c = true /\ mem c c_symbol_end = false.
Proof. intros H. split; [now apply operator_op|]. unfold operator in H. unfold mem, c_symbol_end. cbn in H |- *. lia. Qed.
Lemma gap_symbol_end at_ h rest c g : trailing at_ h rest (c :: g) -> mem c c_symbol_end = true.
Proof. intros T. destruct (trailing_first _ _ _ _ _ T) as [(B & _)| ->]; [|reflexivity]. apply ws_symbol_end. now apply blank_ws. Qed.
Lemma name_follow uni at_ p rest : sits at_ p -> may_follow at_ after_name [] rest ->
  (ends (first rest) = true \/ in_sexp (penv uni p) && is_op (cz (first rest)) = true) /\ mem (cz (first rest)) c_symbol_end = false.
Proof.
  intros SI M. destruct rest as [|c rest]; cbn in M |- *; [split; [now left|reflexivity]|]. destruct M as [M|(-> & M)].
  - destruct (shuts_end c M). auto.
  - destruct (op_end c M) as (O & E). split; [|exact E]. right. apply andb_true_iff. split; [exact (proj2 (sits_sexp uni InSexp p SI) eq_refl)|exact O].
Qed.
(** A name that is a value. *)
Lemma unq_done uni at_ h p f an w h1 sv ev s1 g rest : sits at_ p -> (at_ = InStruct -> f <> None) -> (at_ = Outside -> f = None) -> told uni p f an sv -> (~ h -> an = []) -> deep p rest -> hd 0 rest <> 58 ->
  trailing at_ h rest g -> may_follow at_ after_name g rest -> Tok p (symk f an w) h1 s1 ->
  fin_a (penv uni p) h1 (symk f an w) sv \/ fin_b (penv uni p) h1 (symk f an w) sv (p_field p) ->
  symbol_event (penv uni p) (kid f an) sv = Ok ev -> is_container_start ev = false ->
  to uni s1 (all (g ++ rest)) [ev] (Done p rest).
Proof.
  intros SI FS FO TO AN DP NC TR MF T1 FIN EV NCS. pose proof (sits_ok _ _ SI) as PO. assert (PF : p_field p = false) by apply SI.
  assert (EVK : symbol_event (penv uni p) (symk f an w) sv = Ok ev) by (rewrite <- EV; apply symbol_event_of; reflexivity).
  assert (DG : forall g, deep p (g ++ rest)) by (intros g' E0; apply app_eq_nil in E0; apply DP, E0).
  assert (PD : forall h2 kp s2 g2, Tok p (symk f an w) h2 s2 -> trailing at_ h rest g2 -> send (penv uni p) h2 (first (g2 ++ rest)) (symk f an w) = back kp ->
    set_type None kp = mkk f an false [] None (Some sv) (k_quoted kp) false false false -> k_quoted kp = false -> to uni s2 (all (g2 ++ rest)) [ev] (Done p rest)).
  { intros h2 kp s2 g2 T2 TR2 SE ST KQ. eapply to_quiet; [eapply (tok_pending uni p _ h2 s2 (g2 ++ rest) f an sv kp); eauto|].
    intros s3 q3 (k3 & PK & Q3 & _ & H3). eapply hold_done; eauto. apply pend_shape; congruence. }
  assert (EM : forall h2 s2 g2, Tok p (symk f an w) h2 s2 -> trailing at_ h rest g2 -> send (penv uni p) h2 (first (g2 ++ rest)) (symk f an w) = (let* ev := symbol_event (penv uni p) (symk f an w) sv in emits (symk f an w) ev) ->
    to uni s2 (all (g2 ++ rest)) [ev] (Done p rest)).
  { intros h2 s2 g2 T2 TR2 SE. rewrite EVK in SE. cbn [bind] in SE. eapply to_after; [eapply (emits_here uni p _ h2 s2 ev (symk f an w) (g2 ++ rest) T2 SE); auto|].
    intros s3 q3 H3. eapply done_here; eauto. exact bare_none. }
  destruct FIN as [(FA & FE)|(hw & FW & FWW & FC & FWC)].
  - destruct g as [|c g].
    + destruct (name_follow uni at_ p rest SI MF) as (E & M). exact (EM h1 s1 [] T1 TR (FE _ E M)).
    + pose proof (gap_symbol_end _ _ _ _ _ TR) as M. exact (PD h1 _ s1 _ T1 TR (FA (plain c) M) eq_refl eq_refl).
  - pose proof (settled_stop rest (trailing_settled _ _ _ _ TR)) as (W & N47).
    assert (NSE : mem (cz (first rest)) c_symbol_end = false) by (apply not_symbol_end; [exact W|exact N47|now apply first_hd]).
    assert (EN : forall c, mem (cz c) c_symbol_end = false -> symbol_end (penv uni p) c (symk f an w) (p_field p) sv = (let* ev := symbol_event (penv uni p) (symk f an w) sv in emits (symk f an w) ev)).
    { intros c M. unfold symbol_end. rewrite PF, M. reflexivity. }
    assert (BK : forall c, mem (cz c) c_symbol_end = true -> symbol_end (penv uni p) c (symk f an w) (p_field p) sv = back (set_quoted false (set_pending sv (set_self false (symk f an w))))).
    { intros c M. apply symbol_end_back; [reflexivity|right; exact M]. }
    assert (LOOP : forall g, trailing at_ h rest g -> forall x s2, is_ws x = true -> Tok p (symk f an w) (hw x) s2 -> to uni s2 (all (g ++ rest)) [ev] (Done p rest)).
    { clear g TR MF T1. induction g as [|c g IH]; intros TR x s2 WX T2.
      - apply (EM (hw x)); auto. cbn [app]. rewrite (FWC x (first rest) WX W). exact (EN _ NSE).
      - destruct (trailing_first _ _ _ _ _ TR) as [(B & TR')| ->].
        + apply blank_ws in B. cbn [app]. rewrite all_cons. eapply goes_to0; [eapply (tok_go uni p _ (hw x) s2 c _ (hw c) (symk f an w) PO T2); [apply FWW; exact B|reflexivity|reflexivity]|].
          intros s3 T3. eapply IH; eauto.
        + eapply (PD (hw x) (set_quoted false (set_pending sv (set_self false (symk f an w))))); [exact T2|exact TR| |reflexivity|reflexivity]. cbn [app first]. rewrite (FWC x (plain 47) WX eq_refl). now apply BK. }
    destruct g as [|c g].
    + destruct (name_follow uni at_ p rest SI MF) as (E & M). apply (EM h1); auto. cbn [app]. rewrite FC; [exact (EN _ NSE)|exact W|tauto].
    + destruct (trailing_first _ _ _ _ _ TR) as [(B & TR')| ->].
      * apply blank_ws in B. cbn [app]. rewrite all_cons. eapply goes_to0; [eapply (tok_go uni p _ h1 s1 c _ (hw c) (symk f an w) PO T1); [apply FW; exact B|reflexivity|reflexivity]|].
        intros s3 T3. eapply LOOP; eauto.
      * eapply (PD h1 (set_quoted false (set_pending sv (set_self false (symk f an w))))); [exact T1|exact TR| |reflexivity|reflexivity]. cbn [app first]. rewrite (FC (plain 47) eq_refl (or_introl eq_refl)). now apply BK.
Qed.
(** A name before a colon. *)
Definition Colon (p : place) (f : option token) (an : list token) (tok : token) (l : text) (s : tcore) (q : list ch) : Prop :=
  exists k sv, pend f an sv k /\ as_token sv = tok /\ At p (Some k) false (plain 58) s /\ q = all l.
Lemma gap_first c g : gap (c :: g) -> blank c /\ gap g \/ c = 47.
Proof. intros G. inversion G; subst; auto. Qed.
Lemma hold_colon uni p k f an sv g l s q : place_ok p -> told uni p f an sv -> gap g -> shape (Some (f, an, sv)) k ->
  Here p (Some k) false (g ++ 58 :: l) s q -> to uni s q [] (Colon p f an (as_token sv) l).
Proof.
  intros PO TO G SK H. eapply to_quiet; [exact (gap_here uni p (Some (f, an, sv)) g (58 :: l) PO (told_sayable uni p f an sv PO TO) (deep_cons p 58 l) G (Some k) false s q SK H)|].
  - intros s1 q1 (child & SH & H1). destruct (shaped_pend _ _ _ _ SH) as (k1 & -> & PK).
    eapply to_goes; [eapply here_char; exact H1|]. intros s2 A2. exists k1, sv. auto.
Qed.
Lemma unq_colon uni p f an w h1 sv s1 g l : place_ok p -> told uni p f an sv -> gap g -> Tok p (symk f an w) h1 s1 ->
  fin_a (penv uni p) h1 (symk f an w) sv \/ fin_b (penv uni p) h1 (symk f an w) sv (p_field p) ->
  to uni s1 (all (g ++ 58 :: l)) [] (Colon p f an (as_token sv) l).
Proof.
  intros PO TO G T1 FIN.
  assert (DG : forall g, deep p (g ++ 58 :: l)) by (intros g' E0; apply app_eq_nil in E0; destruct E0; discriminate).
  assert (PD : forall h2 kp s2 g2, Tok p (symk f an w) h2 s2 -> gap g2 -> send (penv uni p) h2 (first (g2 ++ 58 :: l)) (symk f an w) = back kp ->
    set_type None kp = mkk f an false [] None (Some sv) (k_quoted kp) false false false -> k_quoted kp = false -> to uni s2 (all (g2 ++ 58 :: l)) [] (Colon p f an (as_token sv) l)).
  { intros h2 kp s2 g2 T2 G2 SE ST KQ. eapply to_quiet; [eapply (tok_pending uni p _ h2 s2 (g2 ++ 58 :: l) f an sv kp); eauto|].
    intros s3 q3 (k3 & PK & Q3 & _ & H3). eapply hold_colon; eauto. apply pend_shape; congruence. }
  destruct FIN as [(FA & FE)|(hw & FW & FWW & FC & FWC)].
  - eapply (PD h1 (set_pending sv (symk f an w))); eauto. apply FA. destruct g as [|c g]; [reflexivity|]. destruct (gap_first _ _ G) as [(B & _)| ->]; [|reflexivity]. apply ws_symbol_end. now apply blank_ws.
  - assert (BK : forall c, mem (cz c) c_symbol_end = true -> symbol_end (penv uni p) c (symk f an w) (p_field p) sv = back (set_quoted false (set_pending sv (set_self false (symk f an w))))).
    { intros c M. apply symbol_end_back; [reflexivity|right; exact M]. }
    assert (LOOP : forall g, gap g -> forall x s2, is_ws x = true -> Tok p (symk f an w) (hw x) s2 -> to uni s2 (all (g ++ 58 :: l)) [] (Colon p f an (as_token sv) l)).
    { clear g G T1. induction g as [|c g IH]; intros G x s2 WX T2.
      - eapply (PD (hw x) (set_quoted false (set_pending sv (set_self false (symk f an w))))); [exact T2|exact G| |reflexivity|reflexivity]. cbn [app first]. rewrite (FWC x (plain 58) WX eq_refl). now apply BK.
      - destruct (gap_first _ _ G) as [(B & TR')| ->].
        + apply blank_ws in B. cbn [app]. rewrite all_cons. eapply goes_to0; [eapply (tok_go uni p _ (hw x) s2 c _ (hw c) (symk f an w) PO T2); [apply FWW; exact B|reflexivity|reflexivity]|].
          intros s3 T3. eapply IH; eauto.
        + eapply (PD (hw x) (set_quoted false (set_pending sv (set_self false (symk f an w))))); [exact T2|exact G| |reflexivity|reflexivity]. cbn [app first]. rewrite (FWC x (plain 47) WX eq_refl). now apply BK. }
    destruct g as [|c g].
    + eapply (PD h1 (set_quoted false (set_pending sv (set_self false (symk f an w))))); [exact T1|exact G| |reflexivity|reflexivity]. cbn [app first]. rewrite (FC (plain 58) eq_refl (or_intror (or_introl eq_refl))). now apply BK.
    + destruct (gap_first _ _ G) as [(B & TR')| ->].
      * apply blank_ws in B. cbn [app]. rewrite all_cons. eapply goes_to0; [eapply (tok_go uni p _ h1 s1 c _ (hw c) (symk f an w) PO T1); [apply FW; exact B|reflexivity|reflexivity]|].
        intros s3 T3. eapply LOOP; eauto.
      * eapply (PD h1 (set_quoted false (set_pending sv (set_self false (symk f an w))))); [exact T1|exact G| |reflexivity|reflexivity]. cbn [app first]. rewrite (FC (plain 47) eq_refl (or_introl eq_refl)). now apply BK.
Qed.

(** * Names without quotes *)
Lemma plain_name_token w k : plain_name w k -> unq_token w k (like_ivm w).
Proof.
  intros [t B NS|ds NE F].
  - assert (NQ : symbol_needs_quotes t = false) by now apply bare_spec.
    destruct (Z.eq_dec (hd 0 t) 36) as [E|E].
    + destruct (identifier_chars t (unquoted_identifier t NQ)) as (c & r & -> & HC & FR). cbn [hd] in E. subst c.
      pose proof (dollar_token (36 :: r) r eq_refl FR) as D. intros uni p f an. specialize (D uni p f an).
      assert (SS : match r with [] => false | _ => forallb is_digit r end = false).
      { destruct (match r with [] => false | _ => forallb is_digit r end) eqn:X; [|reflexivity]. exfalso. apply NS, like_sid_spec. exact X. }
      rewrite SS in D. destruct D as (c0 & rest & h0 & k0 & h1 & sv & D). exists c0, rest, h0, k0, h1, sv.
      destruct D as (D1 & D2 & D3 & D4 & D5 & D6 & D7 & D8 & D9 & D10). repeat (split; [assumption|]). split; [|exact D10].
      destruct sv; auto. destruct D9 as (D9 & X). split; [now apply like_ivm_spec|exact X].
    + pose proof (ident_token t NQ E) as D. intros uni p f an. destruct (D uni p f an) as (c0 & rest & h0 & k0 & h1 & sv & D1 & D2 & D3 & D4 & D5 & D6 & D7 & D8 & D9 & D10).
      exists c0, rest, h0, k0, h1, sv. repeat (split; [assumption|]). split; [|exact D10]. destruct sv; auto. destruct D9 as ([] & _).
  - assert (FI : Forall (fun c => ident_char c = true) ds).
    { eapply Forall_impl; [|exact F]. intros x H. unfold digit in H. unfold ident_char, ident_start, is_letter, is_digit. lia. }
    assert (AD : match ds with [] => false | _ => forallb is_digit ds end = true).
    { destruct ds as [|d ds]; [congruence|]. apply forallb_forall. intros x IN. rewrite Forall_forall in F. specialize (F x IN). unfold digit in F. unfold is_digit. lia. }
    pose proof (dollar_token (36 :: ds) ds eq_refl FI) as D. rewrite AD in D. intros uni p f an. destruct (D uni p f an) as (c0 & rest & h0 & k0 & h1 & sv & D1 & D2 & D3 & D4 & D5 & D6 & D7 & D8 & D9 & D10).
    exists c0, rest, h0, k0, h1, sv. repeat (split; [assumption|]). split; [|split; [|exact D10]].
    + rewrite D8, number_ten by exact F. reflexivity.
    + destruct sv; auto. destruct D9 as (D9 & X). split; [now apply like_ivm_spec|exact X].
Qed.
Theorem plain_name_reads at_ w k : plain_name w k -> scalar_reads at_ w TSymbol (Some (VSymbol k)) after_name.
Proof.
  intros PN. pose proof (plain_name_token w k PN) as H. destruct (H false (mkp None [] false) None []) as (c0 & w0 & _ & _ & _ & _ & E & S1 & _).
  exists c0, w0. split; [exact E|]. split; [exact S1|]. intros uni p f an child s g rest SI FS FO HA HC MF TR DP NC NI.
  destruct (H uni p f an) as (c1 & rest1 & h0 & k0 & h1 & sv & E1 & S & B & Q & SV & KQ & R & AT & IV & FIN).
  assert (E1' := E1). rewrite E in E1'. injection E1' as <- <-. pose proof (sits_ok _ _ SI) as PO.
  assert (NV : match sv with SIvm _ => False | _ => True end).
  { destruct sv as [| |x]; [exact Logic.I|exact Logic.I|]. destruct IV as (I1 & I2 & I3). apply NI. split; [|split; [exact I3|exact I1]]. eapply sits_out; [exact SI|]. destruct (p_stack p); [reflexivity|unfold zlen in I2; cbn in I2; lia]. }
  exists (scalar_event p f an TSymbol (EvVal (VSymbol k))). split; [left; reflexivity|].
  rewrite all_app. eapply goes_to0; [eapply goes_quiet; [eapply (begin_tok uni p child f an c0 s _ h0 k0); eauto|intros s1 T1; eapply hrun_goes; eassumption]|].
  intros s1 T1. eapply (unq_done uni at_ (an <> []) p f an w h1 sv); eauto.
  - destruct sv; [exact Logic.I|exact Logic.I|destruct NV].
  - intros X. destruct an; [reflexivity|]. exfalso. apply X. discriminate.
  - now apply event_of.
Qed.
(** A name: from its first character to the colon after it. *)
Definition name_reads (w : text) (k : token) : Prop :=
  exists c0 w0, w = c0 :: w0 /\ starts c0 = true /\
  forall uni p f an child s g l, place_ok p -> At p child false (plain c0) s -> child_of child f an -> name_gap w g ->
    to uni s (all (w0 ++ g ++ 58 :: l)) [] (Colon p f an k l).
Theorem plain_name_colon w k : plain_name w k -> name_reads w k.
Proof.
  intros PN. pose proof (plain_name_token w k PN) as H. destruct (H false (mkp None [] false) None []) as (c0 & w0 & _ & _ & _ & _ & E & S1 & _).
  exists c0, w0. split; [exact E|]. split; [exact S1|]. intros uni p f an child s g l PO HA HC (G & _).
  destruct (H uni p f an) as (c1 & rest1 & h0 & k0 & h1 & sv & E1 & S & B & Q & SV & KQ & R & AT & IV & FIN).
  assert (E1' := E1). rewrite E in E1'. injection E1' as <- <-.
  rewrite all_app. eapply goes_to0; [eapply goes_quiet; [eapply (begin_tok uni p child f an c0 s _ h0 k0); eauto|intros s1 T1; eapply hrun_goes; eassumption]|].
  intros s1 T1. rewrite <- AT. eapply unq_colon; eauto. destruct sv; [exact Logic.I|exact Logic.I|]. destruct IV as (_ & IV & _). cbn. destruct (p_stack p); [reflexivity|unfold zlen in IV; cbn in IV; lia].
Qed.
