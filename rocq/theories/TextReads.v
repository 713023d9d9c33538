(** From the last character of a token to the value after it: what the reader does between values. *)
From Coq Require Import String.
From Verif Require Import Base BaseFacts CoreModel BinReaderModel SymbolsModel TextNumbers TextWriterModel TextReaderModel TextReaderFacts TextReaderNest TextReaderChunks TextWalk TextTokens TextNumberTokens TextQuoted TextSymbols.
From Verif Require Import TextRoundTripSpec TextGrammar TextGaps.
Local Open Scope Z_scope.

(** Where a value stands. *)
Definition sits (at_ : where_) (p : place) : Prop :=
  p_field p = false /\
  match at_ with
  | Outside => p_type p = None /\ p_stack p = []
  | InList => p_type p = Some TList /\ p_stack p <> []
  | InSexp => p_type p = Some TSexp /\ p_stack p <> []
  | InStruct => p_type p = Some TStruct /\ p_stack p <> []
  end.
Lemma sits_ok at_ p : sits at_ p -> place_ok p.
Proof. intros (PF & H) SP. destruct at_; destruct H as (PT & ST); [auto|congruence|congruence|congruence]. Qed.
Lemma sits_out at_ p : sits at_ p -> p_stack p = [] -> at_ = Outside.
Proof. intros (PF & H) SP. destruct at_; destruct H as (PT & ST); congruence. Qed.
Lemma sits_sexp uni at_ p : sits at_ p -> in_sexp (penv uni p) = true <-> at_ = InSexp.
Proof. intros (PF & H). unfold in_sexp, penv. cbn [e_type]. destruct at_; destruct H as (-> & _); cbn; intuition congruence. Qed.

(** A value has been read, and [rest] is next. *)
Definition Done (p : place) (rest : text) (s : tcore) (q : list ch) : Prop := exists child, bare child /\ Here p child (is_delimited (p_type p)) rest s q.

(** * What trails a value *)
Lemma trailing_settled at_ h rest g : trailing at_ h rest g -> settled rest.
Proof. intros [g0 G S|g0 o A NH -> G O]; [exact S|exact Logic.I]. Qed.
Lemma trailing_first at_ h rest c g : trailing at_ h rest (c :: g) -> blank c /\ trailing at_ h rest g \/ c = 47.
Proof.
  intros T. inversion T as [g0 G S E|g0 o A NH R G O E]; subst.
  - inversion G as [|c0 g1 B G1|b n g1 FB HN G1 E1|b g1 FB G1 E1]; subst; [left; split; [exact B|now constructor]|now right|now right].
  - destruct G as [|c0 g1 B G1|b n g1 FB HN G1|b g1 FB G1]; cbn [app] in E.
    + destruct O as (b & -> & FB). injection E as <- _. now right.
    + injection E as <- <-. left. split; [exact B|]. apply trailing_open; auto.
    + injection E as <- _. now right.
    + injection E as <- _. now right.
Qed.
Lemma trailing_slash at_ h rest x : trailing at_ h rest (47 :: x) ->
  (exists b n g, x = 47 :: b ++ n :: g /\ Forall (fun c => c <> 10 /\ c <> 13) b /\ (n = 10 \/ n = 13) /\ trailing at_ h rest g) \/
  (exists b g, x = 42 :: b ++ 42 :: 47 :: g /\ (forall u v, b <> u ++ [42; 47] ++ v) /\ trailing at_ h rest g) \/
  (exists b, x = 47 :: b /\ Forall (fun c => c <> 10 /\ c <> 13) b /\ at_ = Outside /\ ~ h /\ rest = []).
Proof.
  assert (NB : ~ blank 47) by (unfold blank; cbn [In]; lia).
  intros T. inversion T as [g0 G S E|g0 o A NH R G O E]; subst.
  - inversion G as [|c0 g1 B G1|b n g1 FB HN G1 E1|b g1 FB G1 E1]; subst; [contradiction| |].
    + left. exists b, n, g1. repeat split; auto. now constructor.
    + right. left. exists b, g1. split; [reflexivity|]. split; [exact FB|]. now constructor.
  - destruct G as [|c0 g1 B G1|b n g1 FB HN G1|b g1 FB G1]; cbn [app] in E.
    + destruct O as (b & -> & FB). injection E as <-. right. right. exists b. auto.
    + injection E as -> _. contradiction.
    + injection E as <-. left. exists b, n, (g1 ++ o). rewrite <- app_assoc. repeat split; auto. apply trailing_open; auto.
    + injection E as <-. right. left. exists b, (g1 ++ o). rewrite <- app_assoc. repeat split; auto. apply trailing_open; auto.
Qed.

Theorem trailing_here uni at_ h p kd g rest child dlm s q : sits at_ p -> sayable uni p kd -> (at_ = Outside -> ~ h -> plain_kind kd) -> deep p rest -> trailing at_ h rest g -> shaped kd child ->
  Here p child dlm (g ++ rest) s q -> to uni s q [] (fun s' q' => exists child', shaped kd child' /\ Here p child' dlm rest s' q').
Proof.
  intros SI SA PK DP [g0 G S|g0 o A NH R G O] SH H.
  - eapply gap_here; eauto. eapply sits_ok; eauto.
  - subst rest. rewrite <- app_assoc, app_nil_r in H. assert (SP : p_stack p = []) by (destruct SI as (_ & SI); subst at_; apply SI).
    eapply to_quiet; [eapply (gap_here uni p kd g0 o); eauto; [eapply sits_ok; eauto|intros _; exact SP]|]. intros s1 q1 (child' & SH' & H1).
    eapply open_here; eauto. eapply sits_ok; eauto.
Qed.
Lemma done_here uni at_ h p g rest child s q : sits at_ p -> deep p rest -> trailing at_ h rest g -> bare child ->
  Here p child (is_delimited (p_type p)) (g ++ rest) s q -> to uni s q [] (Done p rest).
Proof.
  intros SI DP T B H. eapply to_weaken; [eapply (trailing_here uni at_ h p None); eauto; [exact Logic.I|intros _ _; exact Logic.I|now apply shaped_bare]|].
  intros s' q' (child' & SH & HH). exists child'. split; [now apply shaped_bare|exact HH].
Qed.

(** The first character of what is left, the mark included. *)
Lemma here_stop uni p child dlm l s q : deep p l -> pending child <> None -> Here p child dlm l s q -> goes uni s q [] (At p child dlm (first l)) (after l).
Proof.
  intros DP PN H. destruct l as [|c l]; [|now apply here_char]. specialize (DP eq_refl).
  assert (R : forall cm fl, flags p child cm fl -> goes uni (core p child dlm cm fl (PRead KTop cm fl)) [Eof] [] (At p child dlm Eof) []).
  { intros cm fl F. destruct (F DP) as [(-> & X)|(-> & ->)]; [congruence|]. eapply (goes_move _ _ _ None); [eapply m_flush; reflexivity|]. exists false, true. reflexivity. }
  destruct H as [cm fl F|cm fl F|cm fl F|fl E X].
  - apply goes_here. exists cm, fl. reflexivity.
  - eapply goes_via; [eapply m_top; reflexivity|]. apply R. exact F.
  - apply R. exact F.
  - congruence.
Qed.
Lemma stop_first p l : deep p l -> stop_ok p (first l) (after l).
Proof. intros D. destruct l; [split; [exact (D eq_refl)|reflexivity]|split; reflexivity]. Qed.

(** * Tokens that the next character ends *)
Lemma emits_here uni p k h s ev k' l : Tok p k h s -> send (penv uni p) h (first l) k = Ok (TEv ev None, k', []) -> k_comp k' = false -> k_self k' = false ->
  is_container_start ev = false -> deep p l -> to uni s (all l) [ev] (Here p None (is_delimited (p_type p)) l).
Proof.
  intros (cm & fl & -> & HF) S C SF N DP. pose proof (take_emits uni p k h cm fl fl (first l) ev k' S C N) as T. rewrite SF in T.
  assert (A : Here p None (is_delimited (p_type p)) l (core p None (is_delimited (p_type p)) (match p_stack p with [] => true | _ => false end) false (PTop (Some (first l)))) (after l)).
  { apply here_at. intros _ ->. left. auto. }
  rewrite all_first. destruct l as [|c l].
  - specialize (DP eq_refl). rewrite (HF DP) in *. eapply (to_move _ _ _ (Some ev)); [|exact A]. eapply m_flush; [reflexivity|exact T].
  - eapply (to_move _ _ _ (Some ev)); [|exact A]. eapply m_read0; [reflexivity|exact T].
Qed.
Lemma idle_here uni p child dlm s l : Idle p child dlm s -> to uni s (all l) [] (Here p child dlm l).
Proof.
  intros (cm & fl & F & [->|[->|(w & W & ->)]]).
  - apply to_here. now apply here_none.
  - apply to_here. now apply here_read.
  - now apply ws_read.
Qed.
(** A token without quotes: from the head of the loop to its last character. *)
Definition token_of (v : tenv) (f : option token) (an : list token) (w : text) (h1 : hs) (k1 : tctx) : Prop :=
  exists c0 w0 h0 k0, w = c0 :: w0 /\ starts c0 = true /\ (c0 =? 91) || (c0 =? 40) = false /\ (c0 =? 34) || (c0 =? 39) = false /\
    start_value v c0 (kid f an) = Ok (TGo h0, k0, []) /\ k_quoted k0 = false /\ hrun v h0 k0 w0 h1 k1.
Lemma token_runs uni p f an w h1 k1 : place_ok p -> p_field p = false -> token_of (penv uni p) f an w h1 k1 -> forall c0 w0 child s q, w = c0 :: w0 ->
  At p child false (plain c0) s -> child_of child f an -> goes uni s (map plain w0 ++ q) [] (Tok p k1 h1) q.
Proof.
  intros PO PF (c1 & w1 & h0 & k0 & E1 & S1 & B1 & Q1 & SV & KQ & R) c0 w0 child s q E HA HC. rewrite E in E1. injection E1 as <- <-.
  eapply goes_quiet; [eapply (begin_tok uni p child f an c0 s _ h0 k0); eauto; rewrite PF; exact SV|].
  intros s1 T1. eapply hrun_goes; eassumption.
Qed.
Lemma token_first v f an w h1 k1 : token_of v f an w h1 k1 -> exists c0 w0, w = c0 :: w0 /\ starts c0 = true.
Proof. intros (c0 & w0 & h0 & k0 & E & S1 & _). eauto. Qed.

(** * The statement about scalars *)
Definition scalar_reads (at_ : where_) (w : text) (t : iontype) (v : option scalar) (e : ending) : Prop :=
  exists c0 w0, w = c0 :: w0 /\ starts c0 = true /\
  forall uni p f an child s g rest, sits at_ p -> (at_ = InStruct -> f <> None) -> (at_ = Outside -> f = None) -> At p child false (plain c0) s -> child_of child f an ->
    may_follow at_ e g rest -> trailing at_ (held e an) rest g -> deep p rest -> hd 0 rest <> 58 -> ~ (at_ = Outside /\ an = [] /\ like_ivm w) ->
    exists ev, answers (scalar_ev t v f an (zlen (p_stack p))) ev /\ to uni s (all (w0 ++ g ++ rest)) [ev] (Done p rest).

(** ** Keywords *)
Lemma operator_op c : operator c -> is_op c = true.
Proof. unfold operator, is_op, mem, c_operators. cbn [In txt]. cbn. intros H. lia. Qed.
Lemma shuts_ends c : shuts c -> ends (plain c) = true.
Proof. unfold shuts, ends, mem, c_terminators. cbn [cz plain is_eof existsb]. cbn. intros H. lia. Qed.
Lemma gap_ends at_ h rest c g : trailing at_ h rest (c :: g) -> c <> 11 /\ c <> 12 -> ends (plain c) = true.
Proof. intros T N. destruct (trailing_first _ _ _ _ _ T) as [(B & _)| ->]; [|reflexivity]. unfold blank in B. unfold ends, mem, c_terminators. cbn [In cz plain is_eof existsb] in *. lia. Qed.
(** What may come after a keyword. *)
Definition word_stop (v : tenv) (c : ch) : Prop := ends c = true \/ ends c = false /\ in_sexp v = true /\ is_op (cz c) = true.
Lemma op_not_end c : operator c -> ends (plain c) = false.
Proof. unfold operator, ends, mem, c_terminators. cbn [In txt cz plain is_eof existsb]. cbn. intros H. lia. Qed.
Lemma word_first uni at_ p g rest h : sits at_ p -> trailing at_ h rest g -> may_follow at_ after_word g rest -> word_stop (penv uni p) (first (g ++ rest)).
Proof.
  intros SI T M. destruct g as [|c g]; cbn [app first] in *.
  - destruct rest as [|c rest]; cbn in M |- *; [left; reflexivity|]. destruct M as [M|(-> & M)]; [left; now apply shuts_ends|]. right. split; [now apply op_not_end|]. split; [now apply (sits_sexp uni InSexp p SI)|now apply operator_op].
  - left. cbn in M. eapply gap_ends; eauto.
Qed.
Lemma null_first uni at_ p g rest h : sits at_ p -> trailing at_ h rest g -> may_follow at_ after_null g rest -> word_stop (penv uni p) (first (g ++ rest)) /\ cz (first (g ++ rest)) <> 46.
Proof.
  intros SI T M. assert (M' : may_follow at_ after_word g rest) by (unfold may_follow in *; destruct g; [destruct rest; tauto|exact M]).
  split; [eapply word_first; eauto|]. destruct g as [|c g]; cbn [app first].
  - destruct rest as [|c rest]; cbn in M |- *; [lia|]. destruct M as [M|(_ & _ & M)]; [unfold shuts in M; cbn in M; lia|exact M].
  - destruct (trailing_first _ _ _ _ _ T) as [(B & _)| ->]; unfold blank in *; cbn [In cz plain] in *; lia.
Qed.
(** A keyword's token. *)
Definition word (w : text) (t : iontype) (x : evalue) (ok : tenv -> ch -> Prop) : Prop :=
  forall uni p f an, exists h1 k1, token_of (penv uni p) f an w h1 k1 /\ k_comp k1 = false /\ k_self k1 = false /\
    forall c, ok (penv uni p) c -> send (penv uni p) h1 c k1 = Ok (TEv (scalar_event p f an t x) None, k1, []).
Lemma word_reads at_ w t x v e ok : word w t x ok -> (x = match v with Some v => EvVal v | None => EvNone end) ->
  (forall uni p g rest h, sits at_ p -> trailing at_ h rest g -> may_follow at_ e g rest -> ok (penv uni p) (first (g ++ rest))) -> scalar_reads at_ w t v e.
Proof.
  intros H EX FI. destruct (H false (mkp None [] false) None []) as (h0 & k0 & T0 & _). destruct (token_first _ _ _ _ _ _ T0) as (c0 & w0 & E & S1).
  exists c0, w0. split; [exact E|]. split; [exact S1|]. intros uni p f an child s g rest SI FS FO HA HC MF TR DP NC NI.
  destruct (H uni p f an) as (h1 & k1 & TK & KC & KS & SE).
  exists (scalar_event p f an t x). split; [left; subst x; reflexivity|].
  rewrite all_app. eapply goes_to0; [eapply token_runs; eauto; [eapply sits_ok; eauto|apply SI]|]. intros s1 T1.
  assert (DG : deep p (g ++ rest)) by (intros E0; apply app_eq_nil in E0; apply DP, E0).
  eapply to_after; [eapply (emits_here uni p k1 h1 s1 _ k1 (g ++ rest) T1); eauto|]. intros s2 q2 H2. eapply done_here; eauto. exact bare_none.
Qed.

(** ** Numbers *)
Lemma slash_here uni at_ h p k ev s x rest : sits at_ p -> deep p rest -> trailing at_ h rest (47 :: x) -> is_container_start ev = false ->
  Tok p k (HSlash ev) s -> to uni s (all (x ++ rest)) [ev] (Done p rest).
Proof.
  intros SI DP TR NC T. pose proof (sits_ok _ _ SI) as PO.
  assert (ST : forall z q, z = 47 \/ z = 42 -> goes uni s (plain z :: q) [ev] (fun s' => exists k', shape None k' /\ k_line k' = (z =? 47) /\ InTok p k' (is_delimited (p_type p)) (cf p k') (if z =? 47 then HLine None else HBlock None false) s') q).
  { intros z q HZ. destruct T as (cm & fl & -> & HF).
    set (k' := if z =? 47 then set_line true child_new else child_new). set (h' := if z =? 47 then HLine None else HBlock None false).
    assert (SE : send (penv uni p) (HSlash ev) (plain z) k = Ok (TEv ev (Some (Some h', k')), set_comp k, [])).
    { destruct HZ as [->| ->]; reflexivity. }
    assert (QK : k_quoted k' = false) by (unfold k'; destruct (z =? 47); reflexivity).
    eapply (goes_move _ _ _ (Some ev)).
    - eapply m_read0; [reflexivity|]. unfold take. cbn [core t_child]. change (env_of uni _) with (penv uni p). rewrite SE. cbn [bind handled].
      unfold after_event. cbn [set_comp k_comp bind]. rewrite NC. unfold token_pc. rewrite QK. reflexivity.
    - exists k'. split; [|split; [|exists (match p_stack p with [] => true | _ => false end); reflexivity]].
      + unfold k'. destruct (z =? 47); [exists true, false|exists false, false]; reflexivity.
      + unfold k'. destruct (z =? 47); reflexivity. }
  destruct (trailing_slash _ _ _ _ TR) as [(b & n & g & -> & FB & HN & TG)|[(b & g & -> & FB & TG)|(b & -> & FB & A & NH & ->)]]; cbn [app]; rewrite all_cons.
  - eapply (goes_to _ _ _ [ev] _ _ []); [apply ST; auto|]. intros s1 (k' & SK & LK & T1).
    rewrite <- app_assoc. cbn [app].
    eapply to_quiet; [exact (line_rest uni p None k' _ b n (g ++ rest) s1 PO SK ltac:(intros E0; apply app_eq_nil in E0; apply DP, E0) FB HN LK T1)|].
    intros s2 q2 (child & SH & H2). eapply done_here; eauto. now apply shaped_bare.
  - eapply (goes_to _ _ _ [ev] _ _ []); [apply ST; auto|]. intros s1 (k' & SK & LK & T1).
    rewrite <- app_assoc. cbn [app].
    eapply to_quiet; [exact (block_rest uni p None k' _ b (g ++ rest) s1 PO SK ltac:(intros E0; apply app_eq_nil in E0; apply DP, E0) FB LK T1)|].
    intros s2 q2 (child & SH & H2). eapply done_here; eauto. now apply shaped_bare.
  - eapply (goes_to _ _ _ [ev] _ _ []); [apply ST; auto|]. intros s1 (k' & SK & LK & T1). rewrite app_nil_r.
    eapply to_weaken; [exact (line_open uni p None k' _ b s1 PO (DP eq_refl) SK Logic.I LK FB T1)|].
    intros s' q' (child & SH & H2). exists child. split; [now apply shaped_bare|exact H2].
Qed.
Definition numeral (w : text) (t : iontype) (v : scalar) : Prop :=
  forall uni p f an, exists h1 k1, token_of (penv uni p) f an w h1 k1 /\ k_comp k1 = false /\ k_self k1 = false /\ k_quoted k1 = false /\ flushy k1 = true /\
    thunk_event (penv uni p) k1 (Ok v) = scalar_event p f an t (EvLazy (Ok v)) /\
    forall c, ends c = true -> send (penv uni p) h1 c k1 = number_end (penv uni p) c k1 (Ok v).
Lemma number_first at_ h g rest : trailing at_ h rest g -> may_follow at_ after_number g rest -> ends (first (g ++ rest)) = true.
Proof.
  intros T M. destruct g as [|c g]; cbn [app first] in *.
  - destruct rest as [|c rest]; [reflexivity|]. now apply shuts_ends.
  - eapply gap_ends; eauto.
Qed.
Lemma numeral_reads at_ w t v : numeral w t v -> scalar_reads at_ w t (Some v) after_number.
Proof.
  intros H. destruct (H false (mkp None [] false) None []) as (h0 & k0 & T0 & _). destruct (token_first _ _ _ _ _ _ T0) as (c0 & w0 & E & S1).
  exists c0, w0. split; [exact E|]. split; [exact S1|]. intros uni p f an child s g rest SI FS FO HA HC MF TR DP NC NI.
  destruct (H uni p f an) as (h1 & k1 & TK & KC & KS & KQ & KF & EV & SE).
  exists (scalar_event p f an t (EvLazy (Ok v))). split; [right; exists v; split; reflexivity|].
  rewrite all_app. eapply goes_to0; [eapply token_runs; eauto; [eapply sits_ok; eauto|apply SI]|]. intros s1 T1.
  pose proof (number_first _ _ _ _ TR MF) as EN.
  assert (DG : deep p (g ++ rest)) by (intros E0; apply app_eq_nil in E0; apply DP, E0).
  destruct (Z.eq_dec (cz (first (g ++ rest))) 47) as [E47|N47].
  - assert (G : exists x, g = 47 :: x).
    { destruct g as [|c g]; cbn [app first cz plain] in E47; [|exists g; congruence]. pose proof (trailing_settled _ _ _ _ TR) as S. destruct rest as [|c rest]; [discriminate E47|]. cbn in E47, S. lia. }
    destruct G as (x & ->). cbn [app first] in *. rewrite all_cons.
    eapply goes_to0 with (P := Tok p k1 (HSlash (scalar_event p f an t (EvLazy (Ok v))))) (q1 := all (x ++ rest)).
    + eapply (tok_go uni p k1 h1 s1 47 _ _ k1); [eapply sits_ok; eauto|exact T1| |exact KQ|exact KF]. rewrite (SE (plain 47) eq_refl). unfold number_end. rewrite EV. reflexivity.
    + intros s2 T2. eapply slash_here; eauto.
  - eapply to_after; [eapply (emits_here uni p k1 h1 s1 _ k1 (g ++ rest) T1); eauto; rewrite (SE _ EN), number_emits by exact N47; rewrite EV; reflexivity|].
    intros s2 q2 H2. eapply done_here; eauto. exact bare_none.
Qed.
