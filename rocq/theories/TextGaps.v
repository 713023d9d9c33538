(** Positions of the text reader's machine in a text, and how it gets over white space and comments. *)
From Coq Require Import String.
From Verif Require Import Base BaseFacts CoreModel BinReaderModel SymbolsModel TextNumbers TextWriterModel TextReaderModel TextReaderFacts TextReaderNest TextReaderChunks TextWalk TextTokens TextQuoted TextSymbols.
From Verif Require Import TextRoundTripSpec TextGrammar.
Local Open Scope Z_scope.

(** * Walks to a state and a rest of the text *)
Definition to (uni : bool) (s : tcore) (q : list ch) (evs : list event) (Y : tcore -> list ch -> Prop) : Prop :=
  exists s' q', walk uni s q evs s' q' /\ Y s' q'.
Lemma to_here uni s q (Y : tcore -> list ch -> Prop) : Y s q -> to uni s q [] Y.
Proof. intros H. exists s, q. split; [constructor|exact H]. Qed.
Lemma to_then uni s q e1 (X Y : tcore -> list ch -> Prop) e2 : to uni s q e1 X -> (forall s1 q1, X s1 q1 -> to uni s1 q1 e2 Y) -> to uni s q (e1 ++ e2) Y.
Proof. intros (s1 & q1 & W & H) K. destruct (K s1 q1 H) as (s2 & q2 & W2 & H2). exists s2, q2. split; [|exact H2]. eapply walk_app; eassumption. Qed.
Lemma to_quiet uni s q (X Y : tcore -> list ch -> Prop) e : to uni s q [] X -> (forall s1 q1, X s1 q1 -> to uni s1 q1 e Y) -> to uni s q e Y.
Proof. intros A B. exact (to_then uni s q [] X Y e A B). Qed.
Lemma to_after uni s q (X Y : tcore -> list ch -> Prop) e : to uni s q e X -> (forall s1 q1, X s1 q1 -> to uni s1 q1 [] Y) -> to uni s q e Y.
Proof. intros A B. rewrite <- (app_nil_r e). exact (to_then uni s q e X Y [] A B). Qed.
Lemma to_weaken uni s q e (X Y : tcore -> list ch -> Prop) : to uni s q e X -> (forall s' q', X s' q' -> Y s' q') -> to uni s q e Y.
Proof. intros (s' & q' & W & H) K. exists s', q'. auto. Qed.
Lemma to_goes uni s q e (P : tcore -> Prop) q' (Y : tcore -> list ch -> Prop) : goes uni s q e P q' -> (forall s', P s' -> Y s' q') -> to uni s q e Y.
Proof. intros (s' & W & H) K. exists s', q'. auto. Qed.
Lemma goes_to uni s q e1 (P : tcore -> Prop) q1 e2 (Y : tcore -> list ch -> Prop) : goes uni s q e1 P q1 -> (forall s1, P s1 -> to uni s1 q1 e2 Y) -> to uni s q (e1 ++ e2) Y.
Proof. intros (s1 & W & H) K. destruct (K s1 H) as (s2 & q2 & W2 & H2). exists s2, q2. split; [|exact H2]. eapply walk_app; eassumption. Qed.
Lemma goes_to0 uni s q (P : tcore -> Prop) q1 e (Y : tcore -> list ch -> Prop) : goes uni s q [] P q1 -> (forall s1, P s1 -> to uni s1 q1 e Y) -> to uni s q e Y.
Proof. intros A B. exact (goes_to uni s q [] P q1 e Y A B). Qed.
Lemma to_via uni s q s1 q1 e (Y : tcore -> list ch -> Prop) : move uni s q None s1 q1 -> to uni s1 q1 e Y -> to uni s q e Y.
Proof. intros M (s' & q' & W & H). exists s', q'. split; [|exact H]. exact (w_move uni s q None s1 q1 e s' q' M W). Qed.
Lemma to_move uni s q ev s' q' (Y : tcore -> list ch -> Prop) : move uni s q ev s' q' -> Y s' q' -> to uni s q (event_list ev) Y.
Proof. intros M H. exists s', q'. split; [apply w_step; exact M|exact H]. Qed.

(** * Before a rest of the text *)
Definition first (l : text) : ch := match l with [] => Eof | c :: _ => plain c end.
Definition after (l : text) : list ch := match l with [] => [] | _ :: r => map plain r ++ [Eof] end.
Definition all (l : text) : list ch := map plain l ++ [Eof].
Lemma all_first l : all l = first l :: after l.
Proof. destruct l; reflexivity. Qed.
Lemma all_cons c l : all (c :: l) = plain c :: all l.
Proof. reflexivity. Qed.
Lemma all_app a b : all (a ++ b) = map plain a ++ all b.
Proof. unfold all. now rewrite map_app, <- app_assoc. Qed.
Definition flags (p : place) (child : option tctx) (cm fl : bool) : Prop :=
  p_stack p = [] -> cm = true /\ pending child = None \/ cm = false /\ fl = true.
Inductive Here (p : place) (child : option tctx) (dlm : bool) (l : text) : tcore -> list ch -> Prop :=
| here_at cm fl : (is_ws (cz (first l)) = true -> flags p child cm fl) -> Here p child dlm l (core p child dlm cm fl (PTop (Some (first l)))) (after l)
| here_none cm fl : flags p child cm fl -> Here p child dlm l (core p child dlm cm fl (PTop None)) (all l)
| here_read cm fl : flags p child cm fl -> Here p child dlm l (core p child dlm cm fl (PRead KTop cm fl)) (all l)
| here_over fl : l = [] -> pending child = None -> Here p child dlm l (core p child dlm true fl (PRead KTop true fl)) [].
Definition deep (p : place) (l : text) : Prop := l = [] -> p_stack p = [].

Lemma here_char uni p child dlm c r s q : Here p child dlm (c :: r) s q -> goes uni s q [] (At p child dlm (plain c)) (map plain r ++ [Eof]).
Proof.
  assert (R : forall cm fl, goes uni (core p child dlm cm fl (PRead KTop cm fl)) (plain c :: map plain r ++ [Eof]) [] (At p child dlm (plain c)) (map plain r ++ [Eof])).
  { intros cm fl. eapply (goes_move _ _ _ None); [eapply m_read0; reflexivity|]. exists cm, fl. reflexivity. }
  intros [cm fl F|cm fl F|cm fl F|fl E PN].
  - apply goes_here. exists cm, fl. reflexivity.
  - eapply goes_via; [eapply m_top; reflexivity|]. apply R.
  - apply R.
  - discriminate E.
Qed.
Lemma ws_read uni p child dlm cm fl w l : is_ws w = true -> flags p child cm fl ->
  to uni (core p child dlm cm fl (PTop (Some (plain w)))) (all l) [] (Here p child dlm l).
Proof. intros W F. eapply (to_move _ _ _ None); [eapply m_top; [reflexivity|apply top_ws; exact W]|]. apply here_read. exact F. Qed.
Lemma here_blank uni p child dlm w l s q : is_ws w = true -> Here p child dlm (w :: l) s q -> to uni s q [] (Here p child dlm l).
Proof.
  intros W.
  assert (R : forall cm fl, flags p child cm fl -> to uni (core p child dlm cm fl (PRead KTop cm fl)) (plain w :: all l) [] (Here p child dlm l)).
  { intros cm fl F. eapply to_via; [eapply m_read0; reflexivity|]. now apply ws_read. }
  intros [cm fl F|cm fl F|cm fl F|fl E PN].
  - apply ws_read; [exact W|apply F; exact W].
  - eapply to_via; [eapply m_top; reflexivity|]. now apply R.
  - now apply R.
  - discriminate E.
Qed.
Lemma here_blanks uni p child dlm ws l : Forall (fun c => is_ws c = true) ws -> forall s q, Here p child dlm (ws ++ l) s q -> to uni s q [] (Here p child dlm l).
Proof.
  induction 1 as [|w ws W F IH]; intros s q H; cbn [app] in H; [now apply to_here|].
  eapply to_quiet; [eapply here_blank; [exact W|exact H]|]. exact IH.
Qed.
Lemma blank_ws c : blank c <-> is_ws c = true.
Proof. unfold blank, is_ws, mem, c_ws. cbn [In existsb]. lia. Qed.
Lemma blanks_ws ws : blanks ws -> Forall (fun c => is_ws c = true) ws.
Proof. intros F. eapply Forall_impl; [|exact F]. intros c. apply blank_ws. Qed.

(** * Comments *)

(** What there is before a comment: nothing, or a symbol whose role is not known yet. *)
Definition kind : Type := option (option token * list token * symv).
Definition shape (kd : kind) (k : tctx) : Prop :=
  exists ln sf, match kd with
                | None => k = mkk None [] false [] None None false ln sf false
                | Some (f, an, sv) => k = mkk f an false [] None (Some sv) false ln sf false
                end.
Definition shaped (kd : kind) (child : option tctx) : Prop := match child with Some k => shape kd k | None => kd = None end.
Definition sayable (uni : bool) (p : place) (kd : kind) : Prop :=
  match kd with Some (f, an, sv) => p_type p = Some TSexp -> exists ev, symbol_event (penv uni p) (kid f an) sv = Ok ev | None => True end.
Lemma shaped_none : shaped None None. Proof. reflexivity. Qed.
Lemma shaped_bare child : shaped None child <-> bare child.
Proof.
  split.
  - destruct child as [k|]; [intros (ln & sf & ->); right; eauto|intros _; now left].
  - intros [->|(ln & sf & ->)]; [reflexivity|exists ln, sf; reflexivity].
Qed.
Lemma shape_line kd k b : shape kd k -> shape kd (set_line b k).
Proof. intros (ln & sf & E). exists b, sf. destruct kd as [[[f an] sv]|]; subst k; reflexivity. Qed.
Lemma shape_quoted kd k : shape kd k -> k_quoted k = false.
Proof. intros (ln & sf & E). destruct kd as [[[f an] sv]|]; subst k; reflexivity. Qed.
Lemma shape_self kd k b : shape kd k -> shape kd (set_type None (set_self b k)) /\ set_type None (set_self b k) = set_self b k.
Proof. intros (ln & sf & E). split; [exists ln, b|]; destruct kd as [[[f an] sv]|]; subst k; reflexivity. Qed.

(** In a token, whatever came before it. *)
Definition InTok (p : place) (k : tctx) (dlm fl : bool) (h : hs) (s : tcore) : Prop := exists cm, s = core p (Some k) dlm cm fl (PRead (KTok h) false fl).
Definition cf (p : place) (k : tctx) : bool := can_flush (core p None false false false (PTop None)) k.
Lemma take_tok uni p k dlm h cm fl c h' k' u : send (penv uni p) h c k = Ok (TGo h', k', u) -> k_quoted k' = false ->
  take uni (core p (Some k) dlm cm fl (PRead (KTok h) false fl)) (KTok h) c = Ok (core p (Some k') dlm cm (cf p k') (PRead (KTok h') false (cf p k')), None, u).
Proof.
  intros S Q. unfold take. cbn [core t_child]. fold (core p (Some k) dlm cm fl (PRead (KTok h) false fl)).
  change (env_of uni (core p (Some k) dlm cm fl (PRead (KTok h) false fl))) with (penv uni p). rewrite S. cbn [bind handled].
  unfold token_pc. rewrite Q. reflexivity.
Qed.
Lemma tok_next uni p k dlm fl h s z q h' k' : InTok p k dlm fl h s -> send (penv uni p) h (plain z) k = Ok (TGo h', k', []) -> k_quoted k' = false ->
  goes uni s (plain z :: q) [] (InTok p k' dlm (cf p k') h') q.
Proof.
  intros (cm & ->) S Q. eapply (goes_move _ _ _ None); [eapply m_read0; [reflexivity|exact (take_tok uni p k dlm h cm fl (plain z) h' k' [] S Q)]|]. exists cm. reflexivity.
Qed.
Lemma tok_again uni p k dlm fl h s z q h' k' : InTok p k dlm fl h s -> send (penv uni p) h (plain z) k = Ok (TGo h', k', [z]) -> k_quoted k' = false ->
  goes uni s (plain z :: q) [] (InTok p k' dlm (cf p k') h') (plain z :: q).
Proof.
  intros (cm & ->) S Q. eapply (goes_move _ _ _ None); [change (plain z :: q) with (map plain [z] ++ q) at 2; eapply m_read; [reflexivity|exact (take_tok uni p k dlm h cm fl (plain z) h' k' [z] S Q)]|]. exists cm. reflexivity.
Qed.

(** The two comment handlers up to where the comment ends. *)
Lemma line_run uni p k dlm w b : Forall (fun c => c <> 10 /\ c <> 13) b -> k_quoted k = false -> forall s q, InTok p k dlm (cf p k) (HLine w) s ->
  goes uni s (map plain b ++ q) [] (InTok p k dlm (cf p k) (HLine w)) q.
Proof.
  intros F Q. induction F as [|c b (H1 & H2) F IH]; intros s q T; cbn [map app]; [now apply goes_here|].
  eapply goes_quiet; [eapply tok_next; [exact T| |exact Q]|]; [|intros s1 T1; exact (IH s1 q T1)].
  unfold send, is_newline. cbn [cz plain is_eof]. replace ((c =? 13) || (c =? 10) || false) with false by lia. reflexivity.
Qed.
Lemma block_run uni p k dlm w b : k_quoted k = false -> forall star s q,
  (forall u v, (if star : bool then 42 :: b else b) <> u ++ [42; 47] ++ v) -> InTok p k dlm (cf p k) (HBlock w star) s ->
  goes uni s (map plain b ++ plain 42 :: q) [] (InTok p k dlm (cf p k) (HBlock w true)) q.
Proof.
  intros Q. induction b as [|c b IH]; intros star s q N T; cbn [map app].
  - eapply goes_weaken; [eapply tok_next; [exact T| |exact Q]|intros s' H; exact H]. unfold send. cbn [cz plain]. rewrite andb_false_r. reflexivity.
  - assert (E : star && (c =? 47) = false).
    { destruct star; [|reflexivity]. apply Z.eqb_neq. intros ->. exact (N [] b eq_refl). }
    eapply goes_quiet; [eapply (tok_next uni p k dlm _ (HBlock w star) s c _ (HBlock w (c =? 42)) k T); [|exact Q]|].
    + unfold send. cbn [cz plain]. rewrite E. reflexivity.
    + intros s1 T1. eapply (IH (c =? 42)); [|exact T1]. intros u v E1. destruct (Z.eqb_spec c 42) as [->|NE].
      * destruct star; [exact (N (42 :: u) v (f_equal (cons 42) E1))|exact (N u v E1)].
      * destruct star; [exact (N (42 :: c :: u) v (f_equal (fun x => 42 :: c :: x) E1))|exact (N (c :: u) v (f_equal (cons c) E1))].
Qed.

Definition or_new (child : option tctx) : tctx := match child with Some k => k | None => child_new end.
Lemma top_slash uni s : top uni s (Some (plain 47)) =
  (let s1 := with_flags s (t_complete s) false in
   let* h := match t_type s with Some TSexp => let* p := pending_value (env_of uni s) s in Ok (HSexpSlash None p) | _ => Ok (HComm0 None) end in
   Ok (with_pc (with_child s1 (Some (or_new (t_child s)))) (token_pc (with_child s1 (Some (or_new (t_child s)))) h false (or_new (t_child s))), None)).
Proof. destruct s as [ty st chd fd dl co flu pc]. unfold top. cbn [t_type t_child t_delim]. destruct ty as [[]|]; reflexivity. Qed.
(** From the slash into the comment. *)
Lemma into_comment uni p kd child dlm z s q : shaped kd child -> sayable uni p kd -> z = 47 \/ z = 42 -> At p child dlm (plain 47) s ->
  goes uni s (plain z :: q) [] (fun s' => exists k, shape kd k /\ k_line k = (z =? 47) /\ InTok p k dlm (cf p k) (if z =? 47 then HLine None else HBlock None false) s') q.
Proof.
  intros SH SA HZ (cm & fl & ->).
  assert (K0 : exists k0, shape kd k0 /\ match child with Some k => k | None => child_new end = k0).
  { destruct child as [k|]; [exists k; auto|]. exists child_new. split; [|reflexivity]. cbn in SH. subst kd. exists false, false. reflexivity. }
  destruct K0 as (k0 & SK & EK).
  assert (C0 : forall s1 q1, InTok p k0 dlm (cf p k0) (HComm0 None) s1 \/ InTok p k0 dlm false (HComm0 None) s1 ->
    goes uni s1 (plain z :: q1) [] (fun s' => exists k, shape kd k /\ k_line k = (z =? 47) /\ InTok p k dlm (cf p k) (if z =? 47 then HLine None else HBlock None false) s') q1).
  { intros s1 q1 T. assert (T' : exists f1, InTok p k0 dlm f1 (HComm0 None) s1) by (destruct T; eauto). destruct T' as (f1 & T').
    destruct HZ as [->| ->].
    - eapply goes_weaken; [eapply (tok_next uni p k0 dlm f1 (HComm0 None) s1 47 q1 (HLine None) (set_line true k0) T'); [reflexivity|]|].
      + exact (shape_quoted _ _ (shape_line kd k0 true SK)).
      + intros s' H. exists (set_line true k0). split; [now apply shape_line|]. split; [reflexivity|exact H].
    - eapply goes_weaken; [eapply (tok_next uni p k0 dlm f1 (HComm0 None) s1 42 q1 (HBlock None false) (if k_line k0 then set_line false k0 else k0) T'); [reflexivity|]|].
      + destruct (k_line k0); [exact (shape_quoted _ _ (shape_line kd k0 false SK))|exact (shape_quoted _ _ SK)].
      + intros s' H. exists (if k_line k0 then set_line false k0 else k0). split; [destruct (k_line k0); [now apply shape_line|exact SK]|]. split; [|exact H].
        destruct (k_line k0) eqn:E; [reflexivity|exact E]. }
  assert (Q0 : k_quoted k0 = false) by exact (shape_quoted _ _ SK).
  destruct (p_type p) as [[]|] eqn:PT.
  12: { (* in an s-expression *)
    assert (PV : exists ev, pending_value (penv uni p) (core p child dlm cm fl (PTop (Some (plain 47)))) = Ok ev).
    { unfold pending_value, core. cbn [t_child t_type]. destruct child as [k|]; [|eauto]. cbn [shaped] in SH. destruct SH as (ln & sf & SH). destruct kd as [[[f an] sv]|]; subst k; cbn [k_pend k_val k_field]; [|eauto].
      cbn [sayable] in SA. destruct (SA PT) as (ev & EV). rewrite PT. rewrite (symbol_event_of (penv uni p) (mkk f an false [] None (Some sv) false ln sf false) f an sv eq_refl eq_refl), EV. cbn [bind]. eauto. }
    destruct PV as (ev & PV).
    eapply goes_via with (s1 := core p (Some k0) dlm cm false (PRead (KTok (HSexpSlash None ev)) false false)) (q1 := plain z :: q).
    { eapply m_top; [reflexivity|]. rewrite top_slash. cbn [core t_type t_child]. rewrite PT. fold (core p child dlm cm fl (PTop (Some (plain 47)))).
      change (env_of uni (core p child dlm cm fl (PTop (Some (plain 47))))) with (penv uni p). rewrite PV. cbn [bind]. unfold or_new. rewrite EK. unfold token_pc. rewrite Q0. reflexivity. }
    eapply goes_quiet.
    - eapply (tok_again uni p k0 dlm false (HSexpSlash None ev) _ z q (HComm0 None) k0); [exists cm; reflexivity| |exact Q0].
      unfold send, putting_back, unread. cbn [cz plain bind]. replace ((z =? 42) || (z =? 47)) with true by lia. reflexivity.
    - intros s1 T1. apply C0. left. exact T1. }
  all: (eapply goes_via with (s1 := core p (Some k0) dlm cm false (PRead (KTok (HComm0 None)) false false)) (q1 := plain z :: q);
    [eapply m_top; [reflexivity|]; rewrite top_slash; cbn [core t_type t_child]; rewrite PT; cbn [bind]; unfold or_new; rewrite EK; unfold token_pc; rewrite Q0; reflexivity
    |apply C0; right; exists cm; reflexivity]).
Qed.

(** The comment is over. *)
Lemma comment_over uni p kd k dlm fl h c s q l : place_ok p -> shape kd k -> InTok p k dlm fl h s -> (c = Eof -> fl = true) ->
  send (penv uni p) h c k = back (set_self true k) -> cz c <> 58 -> stop_ok p c q ->
  (k_line k = true /\ (is_ws (cz c) = true \/ c = Eof) \/ k_line k = false /\ c <> Eof) -> q = match c with Eof => [] | _ => all l end -> deep p l -> (c = Eof -> l = []) ->
  to uni s (c :: q) [] (fun s' q' => exists k', shape kd k' /\ Here p (Some k') dlm l s' q').
Proof.
  intros PO SK (cm & ->) FE SE NC ST LN EQ DP EL. destruct (shape_self kd k true SK) as (SK' & ET).
  set (k' := set_self true k) in *. rewrite ET in SK'.
  assert (LK : k_line k' = k_line k) by reflexivity.
  assert (T : take uni (core p (Some k) dlm cm fl (PRead (KTok h) false fl)) (KTok h) c = Ok (after_back (core p (Some k) dlm cm fl (PRead (KTok h) false fl)) k' c, None, [])).
  { unfold take. cbn [core t_child]. change (env_of uni _) with (penv uni p). rewrite SE. reflexivity. }
  assert (M : forall s1, after_back (core p (Some k) dlm cm fl (PRead (KTok h) false fl)) k' c = s1 -> move uni (core p (Some k) dlm cm fl (PRead (KTok h) false fl)) (c :: q) None s1 q).
  { intros s1 <-. destruct c as [z e g|].
    - destruct ST as (-> & ->). eapply m_read0; [reflexivity|exact T].
    - destruct ST as (_ & ->). rewrite (FE eq_refl) in *. eapply m_flush; [reflexivity|exact T]. }
  assert (AB : after_back (core p (Some k) dlm cm fl (PRead (KTok h) false fl)) k' c =
    let s := core p (Some k') dlm false (cf p k') (PRead (KTok h) false fl) in
    if p_field p then with_pc s (PRead KTop false (cf p k'))
    else match kd with
         | Some _ => let s := with_flags s false (match p_stack p with [] => true | _ => false end) in
                     if k_line k' then with_pc s (PTop (Some c)) else with_pc s (PRead KTop false (match p_stack p with [] => true | _ => false end))
         | None => let cp := (match p_stack p with [] => true | _ => false end) in
                   with_pc (with_flags s cp (cf p k')) (PRead KTop cp (cf p k'))
         end).
  { unfold after_back. rewrite ET. cbv zeta. change (can_flush (core p (Some k) dlm cm fl (PRead (KTok h) false fl)) k') with (cf p k').
    destruct p as [pt pst pf]. unfold core, with_pc, with_flags, with_child, at_top. cbn [t_type t_stack t_field t_delim t_complete t_flush t_child p_type p_stack p_field].
    destruct pf; [replace ((cz c =? 58) || negb (k_self k')) with false by (cbn; lia); reflexivity|].
    destruct SK' as (ln & sf & SK'). destruct kd as [[[f an] sv]|]; rewrite SK'; cbn [k_pend k_self k_line negb orb].
    - rewrite SK' in LK. replace sf with true in * by (unfold k' in SK'; destruct k; cbn in SK'; now injection SK'). cbn [negb orb]. destruct ln; reflexivity.
    - replace sf with true in * by (unfold k' in SK'; destruct k; cbn in SK'; now injection SK'). cbn [decorated k_annot k_field andb negb]. rewrite andb_true_r. destruct pst; reflexivity. }
  specialize (M _ AB). cbv zeta in M. clear AB T SE.
  assert (TOP : p_field p = true -> p_stack p <> []). { intros PF SP. destruct (PO SP) as (_ & X). congruence. }
  destruct (p_field p) eqn:PF.
  - eapply (to_move _ _ _ None); [exact M|]. exists k'. split; [exact SK'|]. subst q. destruct c as [z e g|].
    + apply (here_read p (Some k') dlm l false (cf p k')). intros SP. exfalso. exact (TOP eq_refl SP).
    + exfalso. destruct ST as (SP & _). exact (TOP eq_refl SP).
  - destruct kd as [[[f an] sv]|].
    + rewrite LK in M. destruct LN as [(LN & WS)|(LN & NE)]; rewrite LN in M.
      * eapply to_via; [exact M|]. destruct c as [z e g|].
        -- destruct ST as (-> & ->). destruct WS as [WS|WS]; [|discriminate]. subst q. eapply to_weaken.
           ++ apply ws_read with (child := Some k') (dlm := dlm) (cm := false) (fl := match p_stack p with [] => true | _ => false end); [exact WS|]. intros SP. right. rewrite SP. auto.
           ++ intros s' q' H. exists k'. auto.
        -- apply to_here. exists k'. split; [exact SK'|]. rewrite (EL eq_refl). subst q. apply (here_at p (Some k') dlm [] false). discriminate.
      * eapply (to_move _ _ _ None); [exact M|]. exists k'. split; [exact SK'|]. subst q. destruct c as [z e g|]; [|congruence].
        apply (here_read p (Some k') dlm l false). intros SP. right. rewrite SP. auto.
    + eapply (to_move _ _ _ None); [exact M|]. exists k'. split; [exact SK'|]. destruct SK' as (ln & sf & SK').
      subst q. destruct c as [z e g|].
      * apply (here_read p (Some k') dlm l). intros SP. left. rewrite SP. split; [reflexivity|]. rewrite SK'. reflexivity.
      * destruct ST as (SP & _). rewrite SP. apply (here_over p (Some k') dlm l); [exact (EL eq_refl)|rewrite SK'; reflexivity].
Qed.

(** * Gaps *)
Lemma shaped_some kd k : shape kd k -> shaped kd (Some k). Proof. intros H. exact H. Qed.
Lemma line_rest uni p kd k dlm b n l s : place_ok p -> shape kd k -> deep p l -> Forall (fun c => c <> 10 /\ c <> 13) b -> n = 10 \/ n = 13 -> k_line k = true ->
  InTok p k dlm (cf p k) (HLine None) s -> to uni s (all (b ++ n :: l)) [] (fun s' q' => exists child', shaped kd child' /\ Here p child' dlm l s' q').
Proof.
  intros PO SK DP FB HN LK T2. rewrite all_app, all_cons.
  eapply goes_to0; [eapply line_run; [exact FB|exact (shape_quoted _ _ SK)|exact T2]|]. intros s3 T3.
  eapply to_weaken; [eapply (comment_over uni p kd k dlm (cf p k) (HLine None) (plain n) s3 _ l PO SK T3)|].
  - discriminate.
  - unfold send, is_newline, comment_done. cbn [cz plain is_eof]. replace ((n =? 13) || (n =? 10) || false) with true by lia. reflexivity.
  - cbn. lia.
  - split; reflexivity.
  - left. split; [exact LK|]. left. destruct HN as [->| ->]; reflexivity.
  - reflexivity.
  - exact DP.
  - discriminate.
  - intros s' q' (k' & SK' & HH). exists (Some k'). auto.
Qed.
Lemma block_rest uni p kd k dlm b l s : place_ok p -> shape kd k -> deep p l -> (forall u v, b <> u ++ [42; 47] ++ v) -> k_line k = false ->
  InTok p k dlm (cf p k) (HBlock None false) s -> to uni s (all (b ++ 42 :: 47 :: l)) [] (fun s' q' => exists child', shaped kd child' /\ Here p child' dlm l s' q').
Proof.
  intros PO SK DP FB LK T2. rewrite all_app, !all_cons.
  eapply goes_to0; [eapply (block_run uni p k dlm None b (shape_quoted _ _ SK) false); [exact FB|exact T2]|]. intros s3 T3.
  eapply to_weaken; [eapply (comment_over uni p kd k dlm (cf p k) (HBlock None true) (plain 47) s3 _ l PO SK T3)|].
  - discriminate.
  - reflexivity.
  - cbn. lia.
  - split; reflexivity.
  - right. split; [exact LK|discriminate].
  - reflexivity.
  - exact DP.
  - discriminate.
  - intros s' q' (k' & SK' & HH). exists (Some k'). auto.
Qed.
Lemma comment_line uni p kd child dlm b n l s q : place_ok p -> shaped kd child -> sayable uni p kd -> deep p l ->
  Forall (fun c => c <> 10 /\ c <> 13) b -> n = 10 \/ n = 13 -> Here p child dlm (47 :: 47 :: b ++ n :: l) s q ->
  to uni s q [] (fun s' q' => exists child', shaped kd child' /\ Here p child' dlm l s' q').
Proof.
  intros PO SH SA DP FB HN H. eapply goes_to0; [eapply here_char; exact H|]. intros s1 A1. cbn [map app].
  eapply goes_to0; [exact (into_comment uni p kd child dlm 47 s1 _ SH SA (or_introl eq_refl) A1)|]. intros s2 (k & SK & LK & T2).
  exact (line_rest uni p kd k dlm b n l s2 PO SK DP FB HN LK T2).
Qed.
Lemma comment_block uni p kd child dlm b l s q : place_ok p -> shaped kd child -> sayable uni p kd -> deep p l ->
  (forall u v, b <> u ++ [42; 47] ++ v) -> Here p child dlm (47 :: 42 :: b ++ 42 :: 47 :: l) s q ->
  to uni s q [] (fun s' q' => exists child', shaped kd child' /\ Here p child' dlm l s' q').
Proof.
  intros PO SH SA DP FB H. eapply goes_to0; [eapply here_char; exact H|]. intros s1 A1. cbn [map app].
  eapply goes_to0; [exact (into_comment uni p kd child dlm 42 s1 _ SH SA (or_intror eq_refl) A1)|]. intros s2 (k & SK & LK & T2).
  exact (block_rest uni p kd k dlm b l s2 PO SK DP FB LK T2).
Qed.
Lemma deep_cons p c l : deep p (c :: l). Proof. discriminate. Qed.
Theorem gap_here uni p kd g l : place_ok p -> sayable uni p kd -> deep p l -> gap g -> forall child dlm s q, shaped kd child ->
  Here p child dlm (g ++ l) s q -> to uni s q [] (fun s' q' => exists child', shaped kd child' /\ Here p child' dlm l s' q').
Proof.
  intros PO SA DP G. 
  assert (DG : forall g', deep p (g' ++ l)) by (intros g' E; apply app_eq_nil in E; apply DP, E).
  induction G as [|c g B G IH|b n g FB HN G IH|b g FB G IH]; intros child dlm s q SH H.
  - apply to_here. exists child. auto.
  - cbn [app] in H. eapply to_quiet; [eapply here_blank; [apply blank_ws; exact B|exact H]|]. intros s1 q1 H1. now apply (IH child).
  - replace ((txt "//" ++ b ++ n :: g) ++ l) with (47 :: 47 :: b ++ n :: (g ++ l)) in H by (rewrite <- !app_assoc; reflexivity).
    eapply to_quiet; [exact (comment_line uni p kd child dlm b n (g ++ l) s q PO SH SA (DG g) FB HN H)|]. intros s1 q1 (child' & SH' & H1). now apply (IH child').
  - replace ((txt "/*" ++ b ++ txt "*/" ++ g) ++ l) with (47 :: 42 :: b ++ 42 :: 47 :: (g ++ l)) in H by (rewrite <- !app_assoc; reflexivity).
    eapply to_quiet; [exact (comment_block uni p kd child dlm b (g ++ l) s q PO SH SA (DG g) FB H)|]. intros s1 q1 (child' & SH' & H1). now apply (IH child').
Qed.
(** A comment that the end of the text ends. *)
Definition plain_kind (kd : kind) : Prop := match kd with Some (f, an, _) => f = None /\ an = [] | None => True end.
Lemma line_flush p kd k : p_stack p = [] -> shape kd k -> plain_kind kd -> k_line k = true -> cf p k = true.
Proof.
  intros SP (ln & sf & E) PK LK. unfold cf, can_flush, at_top, core. cbn [t_stack t_field]. rewrite SP. cbn [andb].
  destruct kd as [[[f an] sv]|]; [destruct PK as (-> & ->)|]; subst k; cbn in LK; subst ln; reflexivity.
Qed.
Lemma line_open uni p kd k dlm b s : place_ok p -> p_stack p = [] -> shape kd k -> plain_kind kd -> k_line k = true -> Forall (fun c => c <> 10 /\ c <> 13) b ->
  InTok p k dlm (cf p k) (HLine None) s -> to uni s (map plain b ++ [Eof]) [] (fun s' q' => exists child', shaped kd child' /\ Here p child' dlm [] s' q').
Proof.
  intros PO SP SK PK LK FB T2.
  eapply goes_to0; [eapply line_run; [exact FB|exact (shape_quoted _ _ SK)|exact T2]|]. intros s3 T3.
  eapply to_weaken; [eapply (comment_over uni p kd k dlm (cf p k) (HLine None) Eof s3 _ [] PO SK T3)|].
  - intros _. exact (line_flush p kd k SP SK PK LK).
  - reflexivity.
  - cbn. lia.
  - split; [exact SP|reflexivity].
  - left. auto.
  - reflexivity.
  - intros _. exact SP.
  - reflexivity.
  - intros s' q' (k' & SK' & HH). exists (Some k'). auto.
Qed.
Theorem open_here uni p kd o child dlm s q : place_ok p -> p_stack p = [] -> plain_kind kd -> open_comment o -> shaped kd child ->
  Here p child dlm o s q -> to uni s q [] (fun s' q' => exists child', shaped kd child' /\ Here p child' dlm [] s' q').
Proof.
  intros PO SP PK (b & -> & FB) SH H. assert (SA : sayable uni p kd). { destruct kd as [[[f an] sv]|]; [|exact Logic.I]. intros PT. destruct (PO SP) as (X & _). congruence. }
  eapply goes_to0; [eapply here_char; exact H|]. intros s1 A1. cbn [map app].
  eapply goes_to0; [exact (into_comment uni p kd child dlm 47 s1 _ SH SA (or_introl eq_refl) A1)|]. intros s2 (k & SK & LK & T2).
  eapply line_open; eauto.
Qed.
