(** How the text reader's machine gets from one token to the next: white space, the characters of a
    token, and the character after it. *)
From Verif Require Import Base BaseFacts CoreModel BinReaderModel TextNumbers TextWriterModel TextReaderModel TextReaderFacts TextReaderNest TextReaderChunks TextWalk.
Local Open Scope Z_scope.

(** Where the machine is: the container, those around it, and whether a field name is expected. *)
Record place := mkp { p_type : option iontype; p_stack : list (option iontype * bool); p_field : bool }.
Definition place_ok (p : place) : Prop := p_stack p = [] -> p_type p = None /\ p_field p = false.
Definition penv (uni : bool) (p : place) : tenv := mkenv uni (p_type p) (zlen (p_stack p)).
Definition core (p : place) (child : option tctx) (dlm cm fl : bool) (pc : tpc) : tcore :=
  mkt (p_type p) (p_stack p) child (p_field p) dlm cm fl pc.

(** At the head of the loop with the character [c]. *)
Definition At (p : place) (child : option tctx) (dlm : bool) (c : ch) (s : tcore) : Prop :=
  exists cm fl, s = core p child dlm cm fl (PTop (Some c)).
(** In an unquoted token. *)
Definition Tok (p : place) (k : tctx) (h : hs) (s : tcore) : Prop :=
  exists cm fl, s = core p (Some k) false cm fl (PRead (KTok h) false fl) /\ (p_stack p = [] -> fl = true).
(** In quoted text, between two code points. *)
Definition Code (p : place) (k : tctx) (h : hs) (cs : cps) (s : tcore) : Prop :=
  exists cm fl, s = core p (Some k) false cm fl (PRead (KCode cs h) false false).
(** Between tokens. *)
Definition Idle (p : place) (child : option tctx) (dlm : bool) (s : tcore) : Prop :=
  exists cm fl,
    (p_stack p = [] -> (cm = true /\ pending child = None) \/ (cm = false /\ fl = true)) /\
    (s = core p child dlm cm fl (PTop None) \/ s = core p child dlm cm fl (PRead KTop cm fl) \/
     exists w, is_ws w = true /\ s = core p child dlm cm fl (PTop (Some (plain w)))).

(** A walk to some state with a property. *)
Definition goes (uni : bool) (s : tcore) (q : list ch) (evs : list event) (P : tcore -> Prop) (q' : list ch) : Prop :=
  exists s', walk uni s q evs s' q' /\ P s'.
Lemma goes_here uni s q (P : tcore -> Prop) : P s -> goes uni s q [] P q.
Proof. intros H. exists s. split; [constructor|exact H]. Qed.
Lemma goes_then uni s q e1 (P R : tcore -> Prop) q1 e2 q2 : goes uni s q e1 P q1 -> (forall s1, P s1 -> goes uni s1 q1 e2 R q2) ->
  goes uni s q (e1 ++ e2) R q2.
Proof. intros (s1 & W & H) K. destruct (K s1 H) as (s2 & W2 & H2). exists s2. split; [|exact H2]. eapply walk_app; eassumption. Qed.
Lemma goes_quiet uni s q (P R : tcore -> Prop) q1 e2 q2 : goes uni s q [] P q1 -> (forall s1, P s1 -> goes uni s1 q1 e2 R q2) ->
  goes uni s q e2 R q2.
Proof. intros A B. exact (goes_then uni s q [] P R q1 e2 q2 A B). Qed.
Lemma goes_quiet_r uni s q (P R : tcore -> Prop) q1 e q2 : goes uni s q e P q1 -> (forall s1, P s1 -> goes uni s1 q1 [] R q2) ->
  goes uni s q e R q2.
Proof. intros A B. rewrite <- (app_nil_r e). exact (goes_then uni s q e P R q1 [] q2 A B). Qed.
Lemma goes_move uni s q ev s' q' (P : tcore -> Prop) : move uni s q ev s' q' -> P s' -> goes uni s q (event_list ev) P q'.
Proof. intros M H. exists s'. split; [apply w_step; exact M|exact H]. Qed.
Lemma goes_via uni s q s1 q1 e (P : tcore -> Prop) q2 : move uni s q None s1 q1 -> goes uni s1 q1 e P q2 -> goes uni s q e P q2.
Proof. intros M (s' & W & H). exists s'. split; [|exact H]. exact (w_move uni s q None s1 q1 e s' q2 M W). Qed.
Lemma goes_weaken uni s q e (P R : tcore -> Prop) q' : goes uni s q e P q' -> (forall s', P s' -> R s') -> goes uni s q e R q'.
Proof. intros (s' & W & H) K. exists s'. auto. Qed.

Lemma m_read0 uni s k cm fl z q s' ev : t_pc s = PRead k cm fl -> take uni s k (plain z) = Ok (s', ev, []) -> move uni s (plain z :: q) ev s' q.
Proof. intros P T. exact (m_read uni s k cm fl z q s' ev [] P T). Qed.

(** The character after a token: at the end of the text only outside all containers. *)
Definition stop_ok (p : place) (c : ch) (q : list ch) : Prop :=
  match c with Eof => p_stack p = [] /\ q = [] | Ch _ e g => e = false /\ g = false end.
Lemma stop_plain p c q : stop_ok p c q -> c <> Eof -> c = plain (cz c).
Proof. destruct c as [z e g|]; [|congruence]. intros [-> ->] _. reflexivity. Qed.

(** * White space *)
Lemma is_ws_cases w : is_ws w = true -> w = 32 \/ w = 9 \/ w = 11 \/ w = 12 \/ w = 10 \/ w = 13.
Proof. unfold is_ws, mem, c_ws. cbn [existsb]. lia. Qed.
Lemma top_ws uni s w : is_ws w = true -> top uni s (Some (plain w)) = Ok (with_pc s (PRead KTop (t_complete s) (t_flush s)), None).
Proof.
  intros H. unfold top. cbn [cz plain is_eof].
  assert (E : is_end (t_type s) (plain w) = false).
  { unfold is_end, end_char. cbn [cz plain]. apply is_ws_cases in H. destruct (t_type s) as [[]|]; try reflexivity; lia. }
  assert (D : is_delim (t_type s) (plain w) = false).
  { unfold is_delim. cbn [cz plain]. apply is_ws_cases in H. replace (w =? 44) with false by lia. apply andb_false_r. }
  fold (plain w). rewrite E, D, H. reflexivity.
Qed.

Lemma read_ws uni p child dlm cm fl ws stop q : place_ok p -> (p_stack p = [] -> (cm = true /\ pending child = None) \/ (cm = false /\ fl = true)) ->
  Forall (fun c => is_ws c = true) ws -> stop_ok p stop q ->
  goes uni (core p child dlm cm fl (PRead KTop cm fl)) (map plain ws ++ stop :: q) [] (At p child dlm stop) q.
Proof.
  intros PO HF W ST. induction W as [|w ws Hw W IH]; cbn [map app].
  - assert (A : At p child dlm stop (core p child dlm cm fl (PTop (Some stop)))) by (exists cm, fl; reflexivity).
    destruct stop as [z e g|].
    + cbn in ST. destruct ST as [-> ->]. fold (plain z).
      eapply (goes_move _ _ _ None); [eapply m_read0; reflexivity|]. exact A.
    + cbn in ST. destruct ST as [SP ->]. specialize (HF SP). destruct (PO SP) as (PT & PF).
      destruct HF as [[-> PN]|[-> ->]].
      * eapply (goes_move _ _ _ None); [eapply m_done; [reflexivity|exact PT|exact PN]|]. exact A.
      * eapply (goes_move _ _ _ None); [eapply m_flush; reflexivity|]. exact A.
  - eapply goes_via; [eapply m_read0; reflexivity|]. eapply goes_via; [|exact IH].
    eapply m_top; [reflexivity|]. apply top_ws. exact Hw.
Qed.
Lemma idle_ws uni p child dlm s ws stop q : place_ok p -> Idle p child dlm s ->
  Forall (fun c => is_ws c = true) ws -> stop_ok p stop q ->
  goes uni s (map plain ws ++ stop :: q) [] (At p child dlm stop) q.
Proof.
  intros PO (cm & fl & HF & HS) W ST. pose proof (read_ws uni p child dlm cm fl ws stop q PO HF W ST) as R.
  destruct HS as [->|[->|(w & Hw & ->)]]; [|exact R|].
  - eapply goes_via; [|exact R]. eapply m_top; reflexivity.
  - eapply goes_via; [|exact R]. eapply m_top; [reflexivity|]. apply top_ws. exact Hw.
Qed.

(** * Tokens without quotes *)

(** A context that lets the end of the text end the token. *)
Definition flushy (k : tctx) : bool := match k_type k with Some t => is_numeric t || is_text t | None => false end.
Lemma flushy_flush p k dlm cm fl pc ch : place_ok p -> flushy k = true -> p_stack p = [] -> can_flush (core p ch dlm cm fl pc) k = true.
Proof.
  intros PO F SP. destruct (PO SP) as (_ & PF). unfold can_flush, core, at_top. cbn [t_stack t_field]. rewrite SP, PF. cbn [andb negb].
  unfold flushy in F. destruct (k_type k) as [t|]; [|discriminate]. rewrite andb_true_r, F. reflexivity.
Qed.

Inductive hrun (v : tenv) : hs -> tctx -> list Z -> hs -> tctx -> Prop :=
| h_nil h k : hrun v h k [] h k
| h_cons h k z l h1 k1 h2 k2 : send v h (plain z) k = Ok (TGo h1, k1, []) -> k_quoted k1 = false -> flushy k1 = true ->
    hrun v h1 k1 l h2 k2 -> hrun v h k (z :: l) h2 k2
| h_back h k z l h1 k1 h2 k2 : send v h (plain z) k = Ok (TGo h1, k1, [z]) -> k_quoted k1 = false -> flushy k1 = true ->
    hrun v h1 k1 (z :: l) h2 k2 -> hrun v h k (z :: l) h2 k2.
Lemma hrun_app v h k l1 h1 k1 l2 h2 k2 : hrun v h k l1 h1 k1 -> hrun v h1 k1 l2 h2 k2 -> hrun v h k (l1 ++ l2) h2 k2.
Proof. induction 1; intros R; [exact R| |]; cbn [app]; [eapply h_cons; eauto|eapply h_back; eauto; apply IHhrun; exact R]. Qed.
Lemma hrun_one v h k z h1 k1 : send v h (plain z) k = Ok (TGo h1, k1, []) -> k_quoted k1 = false -> flushy k1 = true -> hrun v h k [z] h1 k1.
Proof. intros. eapply h_cons; eauto. constructor. Qed.

Lemma take_go uni p k h cm fl fl' c h' k' u : send (penv uni p) h c k = Ok (TGo h', k', u) -> k_quoted k' = false ->
  take uni (core p (Some k) false cm fl (PRead (KTok h) false fl')) (KTok h) c =
  Ok (core p (Some k') false cm (can_flush (core p None false false false (PTop None)) k')
        (PRead (KTok h') false (can_flush (core p None false false false (PTop None)) k')), None, u).
Proof.
  intros S Q. unfold take. cbn [core t_child]. fold (core p (Some k) false cm fl (PRead (KTok h) false fl')).
  change (env_of uni (core p (Some k) false cm fl (PRead (KTok h) false fl'))) with (penv uni p). rewrite S. cbn [bind handled].
  unfold token_pc. rewrite Q. reflexivity.
Qed.
Lemma tok_go uni p k h s z q h' k' : place_ok p -> Tok p k h s -> send (penv uni p) h (plain z) k = Ok (TGo h', k', []) ->
  k_quoted k' = false -> flushy k' = true -> goes uni s (plain z :: q) [] (Tok p k' h') q.
Proof.
  intros PO (cm & fl & -> & HF) S Q F.
  eapply (goes_move _ _ _ None).
  - eapply m_read0; [reflexivity|]. exact (take_go uni p k h cm fl fl (plain z) h' k' [] S Q).
  - exists cm, (can_flush (core p None false false false (PTop None)) k'). split; [reflexivity|]. intros SP. now apply flushy_flush.
Qed.
Lemma tok_back uni p k h s z q h' k' : place_ok p -> Tok p k h s -> send (penv uni p) h (plain z) k = Ok (TGo h', k', [z]) ->
  k_quoted k' = false -> flushy k' = true -> goes uni s (plain z :: q) [] (Tok p k' h') (plain z :: q).
Proof.
  intros PO (cm & fl & -> & HF) S Q F.
  eapply (goes_move _ _ _ None).
  - change (plain z :: q) with (map plain [z] ++ q) at 2. eapply m_read; [reflexivity|]. exact (take_go uni p k h cm fl fl (plain z) h' k' [z] S Q).
  - exists cm, (can_flush (core p None false false false (PTop None)) k'). split; [reflexivity|]. intros SP. now apply flushy_flush.
Qed.
Lemma hrun_goes uni p h k l h' k' : place_ok p -> hrun (penv uni p) h k l h' k' -> forall s q, Tok p k h s ->
  goes uni s (map plain l ++ q) [] (Tok p k' h') q.
Proof.
  intros PO R. induction R as [h k|h k z l h1 k1 h2 k2 S Q F R IH|h k z l h1 k1 h2 k2 S Q F R IH]; intros s q T; cbn [map app].
  - now apply goes_here.
  - eapply goes_quiet; [eapply tok_go; eassumption|]. intros s1 T1. now apply IH.
  - eapply goes_quiet; [eapply tok_back; eassumption|]. intros s1 T1. exact (IH s1 q T1).
Qed.

(** The token ends with an event. *)
Lemma take_emits uni p k h cm fl fl' c ev k' : send (penv uni p) h c k = Ok (TEv ev None, k', []) -> k_comp k' = false ->
  is_container_start ev = false ->
  take uni (core p (Some k) false cm fl (PRead (KTok h) false fl')) (KTok h) c =
  Ok (core p None (is_delimited (p_type p)) (match p_stack p with [] => true | _ => false end) false
        (if k_self k' then PRead KTop (match p_stack p with [] => true | _ => false end) false else PTop (Some c)), Some ev, []).
Proof.
  intros S C N. unfold take. cbn [core t_child]. fold (core p (Some k) false cm fl (PRead (KTok h) false fl')).
  change (env_of uni (core p (Some k) false cm fl (PRead (KTok h) false fl'))) with (penv uni p). rewrite S. cbn [bind handled].
  unfold after_event. rewrite C. cbn [bind]. rewrite N. destruct (k_self k'); reflexivity.
Qed.
Lemma tok_emits uni p k h s c q ev k' : Tok p k h s -> send (penv uni p) h c k = Ok (TEv ev None, k', []) -> k_comp k' = false ->
  k_self k' = false -> is_container_start ev = false -> stop_ok p c q ->
  goes uni s (c :: q) [ev] (At p None (is_delimited (p_type p)) c) q.
Proof.
  intros (cm & fl & -> & HF) S C SF N ST. pose proof (take_emits uni p k h cm fl fl c ev k' S C N) as T. rewrite SF in T.
  assert (A : At p None (is_delimited (p_type p)) c (core p None (is_delimited (p_type p)) (match p_stack p with [] => true | _ => false end) false (PTop (Some c)))) by (eexists; eexists; reflexivity).
  destruct c as [z e g|].
  - destruct ST as [-> ->]. fold (plain z) in *. eapply (goes_move _ _ _ (Some ev) _ _ _); [|exact A]. eapply m_read0; [reflexivity|exact T].
  - destruct ST as [SP ->]. rewrite (HF SP) in *. eapply (goes_move _ _ _ (Some ev) _ _ _); [|exact A]. eapply m_flush; [reflexivity|exact T].
Qed.
Lemma tok_emits_self uni p k h s z q ev k' : Tok p k h s -> send (penv uni p) h (plain z) k = Ok (TEv ev None, k', []) -> k_comp k' = false ->
  k_self k' = true -> is_container_start ev = false ->
  goes uni s (plain z :: q) [ev] (Idle p None (is_delimited (p_type p))) q.
Proof.
  intros (cm & fl & -> & HF) S C SF N. pose proof (take_emits uni p k h cm fl fl (plain z) ev k' S C N) as T. rewrite SF in T.
  eapply (goes_move _ _ _ (Some ev)); [eapply m_read0; [reflexivity|exact T]|].
  eexists _, _. split; [|right; left; reflexivity]. intros ->. left. auto.
Qed.

(** * The start of a value *)
Definition kid (f : option token) (an : list token) : tctx := mkk f an false [] None None false false false false.
(** What a comment leaves behind: nothing that matters. *)
Definition bare (child : option tctx) : Prop := child = None \/ exists ln sf, child = Some (mkk None [] false [] None None false ln sf false).
Definition child_of (child : option tctx) (f : option token) (an : list token) : Prop :=
  child = Some (kid f an) \/ bare child /\ f = None /\ an = [].
Lemma bare_none : bare None. Proof. now left. Qed.
Lemma child_none : child_of None None []. Proof. right. split; [exact bare_none|]. split; reflexivity. Qed.
Definition starts (z : Z) : bool :=
  negb (is_ws z || (z =? 47) || (z =? 58) || (z =? 125) || (z =? 93) || (z =? 41) || (z =? 44)).
Lemma starts_top uni p child z cm fl pc : starts z = true ->
  is_end (p_type p) (plain z) || is_delim (p_type p) (plain z) || is_eof (plain z) = false /\ is_ws z = false /\ (z =? 47) = false /\
  pending_value (penv uni p) (core p child false cm fl pc) = pending_value (penv uni p) (core p child false cm fl pc).
Proof.
  unfold starts. intros H. split; [|split; [destruct (is_ws z); [discriminate|reflexivity]|split; [lia|reflexivity]]].
  unfold is_end, is_delim, end_char. cbn [cz plain is_eof]. rewrite orb_false_r.
  destruct (p_type p) as [[]|]; cbn [is_delimited andb]; lia.
Qed.
Lemma child_pending child f an : child_of child f an -> pending child = None.
Proof. intros [->|([->|(ln & sf & ->)] & _)]; reflexivity. Qed.
Lemma child_start child f an : child_of child f an ->
  (if decorated child then match child with Some k => k | None => child_new end else child_new) = kid f an.
Proof. intros [->|([->|(ln & sf & ->)] & -> & ->)]; [|reflexivity|reflexivity]. destruct an, f; reflexivity. Qed.

(** [top] on the first character of a value or field name. *)
Lemma top_value uni p child f an z cm fl h k u : child_of child f an -> starts z = true -> (z =? 91) || (z =? 40) = false ->
  (if p_field p then start_field (penv uni p) z (kid f an) else start_value (penv uni p) z (kid f an)) = Ok (TGo h, k, u) ->
  top uni (core p child false cm fl (PTop (Some (plain z)))) (Some (plain z)) =
  Ok (core p (Some k) false cm (negb (p_field p))
        (if k_quoted k || ((z =? 34) || (z =? 39)) then PRead (KCode (CStart [] false) h) false false else PRead (KTok h) false (negb (p_field p))), None).
Proof.
  intros HC HS HB HV. destruct (starts_top uni p child z cm fl (PTop None) HS) as (E & W & SL & _).
  unfold top. cbn [core t_type t_child t_field t_delim cz plain]. fold (plain z). rewrite E, W, SL.
  cbn [with_flags core t_type t_stack t_child t_field t_delim t_complete t_flush t_pc].
  rewrite (child_pending _ _ _ HC). rewrite (child_start _ _ _ HC).
  change (mkenv uni (p_type p) (t_depth (core p child false cm fl (PTop (Some (plain z)))))) with (penv uni p).
  assert (G : (let* (t, k0, _) := (if p_field p then start_field (penv uni p) z (kid f an) else start_value (penv uni p) z (kid f an)) in
     match t with
             | TGo h =>
               let s := with_flags (with_child (core p child false cm false (PTop (Some (plain z)))) (Some k0)) cm (negb (p_field p)) in
               if (z =? 91) || (z =? 40) then
                 let* (t, k, _) := send (penv uni p) h Eof k0 in
                 match t with
                 | TEv ev comp => let* s' := after_event s k ev comp None in Ok (s', Some ev)
                 | _ => Err TypeError
                 end
               else Ok (with_pc s (token_pc s h ((z =? 34) || (z =? 39)) k0), None)
             | _ => Err TypeError
             end) =
     Ok (core p (Some k) false cm (negb (p_field p))
        (if k_quoted k || ((z =? 34) || (z =? 39)) then PRead (KCode (CStart [] false) h) false false else PRead (KTok h) false (negb (p_field p))), None)).
  { rewrite HV. cbn [bind]. cbv zeta. rewrite HB. unfold token_pc. destruct (k_quoted k || _); reflexivity. }
  exact G.
Qed.

Lemma begin_tok uni p child f an z s q h k : place_ok p -> At p child false (plain z) s -> child_of child f an -> starts z = true ->
  (z =? 91) || (z =? 40) = false -> (z =? 34) || (z =? 39) = false ->
  (if p_field p then start_field (penv uni p) z (kid f an) else start_value (penv uni p) z (kid f an)) = Ok (TGo h, k, []) -> k_quoted k = false ->
  goes uni s q [] (Tok p k h) q.
Proof.
  intros PO (cm & fl & ->) HC HS HB HQ HV KQ. pose proof (top_value uni p child f an z cm fl h k [] HC HS HB HV) as T.
  rewrite KQ, HQ in T. cbn [orb] in T.
  eapply (goes_move _ _ _ None); [eapply m_top; [reflexivity|exact T]|]. exists cm, (negb (p_field p)). split; [reflexivity|].
  intros SP. destruct (PO SP) as (_ & ->). reflexivity.
Qed.
Lemma begin_code uni p child f an z s q h k : place_ok p -> At p child false (plain z) s -> child_of child f an -> starts z = true ->
  (z =? 91) || (z =? 40) = false -> k_quoted k || ((z =? 34) || (z =? 39)) = true ->
  (if p_field p then start_field (penv uni p) z (kid f an) else start_value (penv uni p) z (kid f an)) = Ok (TGo h, k, []) ->
  goes uni s q [] (Code p k h (CStart [] false)) q.
Proof.
  intros PO (cm & fl & ->) HC HS HB HQ HV. pose proof (top_value uni p child f an z cm fl h k [] HC HS HB HV) as T.
  rewrite HQ in T.
  eapply (goes_move _ _ _ None); [eapply m_top; [reflexivity|exact T]|]. exists cm, (negb (p_field p)). reflexivity.
Qed.

(** * A whole token without quotes that is a value *)

(** What follows a value: white space, then a character; the first of these ends any token. *)
Definition follows (p : place) (ws : list Z) (stop : ch) (q : list ch) : Prop :=
  Forall (fun c => is_ws c = true) ws /\ is_ws (cz stop) = false /\ cz stop <> 47 /\ cz stop <> 58 /\ stop_ok p stop q /\
  match ws with w :: _ => ends (plain w) = true | [] => ends stop = true end.
Lemma follows_first p ws stop q : follows p ws stop q -> exists c rest, map plain ws ++ stop :: q = c :: rest /\ ends c = true /\ cz c <> 47 /\ cz c <> 58 /\
  escaped c = false.
Proof.
  intros (W & N & S & C & ST & E). destruct ws as [|w ws].
  - exists stop, q. split; [reflexivity|]. repeat split; auto. destruct stop as [z e g|]; [destruct ST as [-> _]|]; reflexivity.
  - exists (plain w), (map plain ws ++ stop :: q). inversion W; subst. apply is_ws_cases in H1. repeat split; auto; cbn; lia.
Qed.

Lemma tok_value uni p k h s ev k' ws stop q : place_ok p -> Tok p k h s ->
  (forall c, ends c = true -> cz c <> 47 -> cz c <> 58 -> send (penv uni p) h c k = Ok (TEv ev None, k', [])) ->
  k_comp k' = false -> k_self k' = false -> is_container_start ev = false -> follows p ws stop q ->
  goes uni s (map plain ws ++ stop :: q) [ev] (At p None (is_delimited (p_type p)) stop) q.
Proof.
  intros PO T S C SF N FL. pose proof (follows_first _ _ _ _ FL) as (c0 & rest & E & E1 & E2 & E3 & _). destruct FL as (W & NW & N1 & N2 & ST & EN).
  destruct ws as [|w ws].
  - cbn [map app] in *. injection E as <- <-. exact (tok_emits uni p k h s stop q ev k' T (S stop E1 E2 E3) C SF N ST).
  - cbn [map app] in *. injection E as <- <-. destruct T as (cm & fl & -> & HF).
    pose proof (take_emits uni p k h cm fl fl (plain w) ev k' (S _ E1 E2 E3) C N) as T. rewrite SF in T.
    eapply (goes_then _ _ _ [ev] (Idle p None (is_delimited (p_type p))) _ _ []).
    + eapply (goes_move _ _ _ (Some ev)); [eapply m_read0; [reflexivity|exact T]|].
      eexists _, _. split; [|right; right; exists w; split; [now inversion W|reflexivity]]. intros ->. left. auto.
    + intros s1 I. apply idle_ws; [exact PO|exact I|now inversion W|exact ST].
Qed.

Definition scalar_event (p : place) (f : option token) (an : list token) (t : iontype) (x : evalue) : event :=
  mkev EScalar (Some t) x f an (Some (zlen (p_stack p))).
Definition plain_token (w : list Z) (t : iontype) (x : evalue) : Prop :=
  forall uni p f an, exists c0 rest h0 k0 h1 k1,
    w = c0 :: rest /\ starts c0 = true /\ (c0 =? 91) || (c0 =? 40) = false /\ (c0 =? 34) || (c0 =? 39) = false /\
    start_value (penv uni p) c0 (kid f an) = Ok (TGo h0, k0, []) /\ k_quoted k0 = false /\
    hrun (penv uni p) h0 k0 rest h1 k1 /\
    (forall c, ends c = true -> cz c <> 47 -> cz c <> 58 -> send (penv uni p) h1 c k1 = Ok (TEv (scalar_event p f an t x) None, k1, [])) /\
    k_comp k1 = false /\ k_self k1 = false.

(** Reading a value: from its first character to the character after it. *)
Definition reads (w : list Z) (t : iontype) (x : evalue) : Prop :=
  exists c0 rest, w = c0 :: rest /\ starts c0 = true /\
  forall uni p child f an s ws stop q, place_ok p -> p_field p = false -> At p child false (plain c0) s -> child_of child f an -> follows p ws stop q ->
    goes uni s (map plain rest ++ map plain ws ++ stop :: q) [scalar_event p f an t x] (At p None (is_delimited (p_type p)) stop) q.

Lemma plain_reads w t x : plain_token w t x -> reads w t x.
Proof.
  intros H. destruct (H false (mkp None [] false) None []) as (c0 & rest & _ & _ & _ & _ & E & S1 & _).
  exists c0, rest. split; [exact E|]. split; [exact S1|]. intros uni p child f an s ws stop q PO PF HA HC FL.
  destruct (H uni p f an) as (c1 & rest1 & h0 & k0 & h1 & k1 & E1 & S & B & Q & SV & KQ & R & SE & KC & KS).
  rewrite E in E1. injection E1 as <- <-.
  eapply goes_quiet.
  - eapply (begin_tok uni p child f an c0 s _ h0 k0); eauto. rewrite PF. exact SV.
  - intros s1 T1. eapply goes_quiet; [eapply hrun_goes; eassumption|]. intros s2 T2.
    eapply tok_value; eauto.
Qed.
