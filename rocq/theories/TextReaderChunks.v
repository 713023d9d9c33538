(** The text reader does not care how the input is cut into pieces. *)
From Verif Require Import Base BaseFacts CoreModel BinReaderModel SymbolsModel TextNumbers TextWriterModel TextReaderModel
  TextReaderFacts TextReaderNest.
Local Open Scope Z_scope.

(** More input behind what is in the queue. *)
Definition ext (r : tr) (y : list Z) : tr := mktr (tr_core r) (tr_q r ++ y) (tr_skip_depth r) (tr_skipping r).
Lemma ext_nil r : ext r [] = r.
Proof. destruct r. unfold ext. cbn. now rewrite app_nil_r. Qed.
Lemma ext_app r x y : ext (ext r x) y = ext r (x ++ y).
Proof. unfold ext. cbn. now rewrite app_assoc. Qed.

Definition ext_res (y : list Z) (x : res (tr * option event)) : res (tr * option event) :=
  match x with Ok (r, ev) => Ok (ext r y, ev) | Err e => Err e end.

(** A step that does not find the queue empty is the same with more input behind. *)
Definition fed (r : tr) : Prop := match t_pc (tr_core r) with PTop _ => True | PRead _ _ _ => tr_q r <> [] | PWait _ _ _ => False end.
Lemma delegate_ext uni r d y : fed r ->
  delegate uni (tr_core r) (tr_q r ++ y) d =
  match delegate uni (tr_core r) (tr_q r) d with Ok (s, q, ev) => Ok (s, q ++ y, ev) | Err e => Err e end.
Proof.
  unfold fed, delegate. destruct (t_pc (tr_core r)) as [oc|k c f|k c f]; intros F.
  - destruct (top uni (tr_core r) oc) as [[s ev]|e]; reflexivity.
  - destruct (tr_q r) as [|z q]; [congruence|]. cbn [app]. destruct (take uni (tr_core r) k (plain z)) as [[[s ev] u]|e]; [|reflexivity].
    cbn [bind]. now rewrite app_assoc.
  - contradiction.
Qed.
Lemma skip_step_ext uni r d y : fed r -> skip_step uni (ext r y) d = ext_res y (skip_step uni r d).
Proof.
  intros F. unfold skip_step. cbn [tr_core tr_q tr_skipping tr_skip_depth ext]. rewrite (delegate_ext uni r d y F).
  destruct (delegate uni (tr_core r) (tr_q r) d) as [[[s q] ev]|e]; [|reflexivity]. cbn [bind]. cbv zeta.
  destruct (tr_skipping r || _).
  - destruct ev as [ev|]; [|reflexivity]. destruct (ev_type ev); try reflexivity. destruct (ev_depth ev) as [n|]; [|reflexivity].
    destruct (n <=? tr_skip_depth r); reflexivity.
  - reflexivity.
Qed.
Definition skips (d : option devent) : bool := match d with Some DSkip => true | _ => false end.
(** A request other than data only sets the skipping flag, unless data was asked for. *)
Definition asked (r : tr) (d : option devent) : tr := mktr (tr_core r) (tr_q r) (tr_skip_depth r) (tr_skipping r || skips d).
Lemma skip_step_asked uni r d : waiting (tr_core r) = false -> skip_step uni r d = skip_step uni (asked r d) None.
Proof.
  intros W. unfold skip_step. cbn [tr_core tr_q tr_skipping tr_skip_depth asked]. unfold skips.
  replace (delegate uni (tr_core r) (tr_q r) None) with (delegate uni (tr_core r) (tr_q r) d).
  - rewrite orb_false_r. reflexivity.
  - unfold delegate, waiting in *. destruct (t_pc (tr_core r)); [reflexivity|reflexivity|discriminate].
Qed.
Lemma steps_asked uni r d x : waiting (tr_core r) = false -> steps uni r d x -> steps uni (asked r d) None x.
Proof.
  intros W S. inversion S; subst; rewrite (skip_step_asked uni r d W) in *.
  - now apply steps_err.
  - now apply steps_event.
  - eapply steps_go; eassumption.
Qed.

(** The reader ran out of input: it gave a signal and waits. *)
Definition resumed (r : tr) : tr :=
  match t_pc (tr_core r) with
  | PWait k c f => mktr (with_pc (tr_core r) (PRead k c f)) (tr_q r) (tr_skip_depth r) (tr_skipping r)
  | _ => r
  end.

(** Running out of input while skipping never looks like the end of the stream. *)
Lemma out_of_input uni r st k c f : tr_ok false r st -> t_pc (tr_core r) = PRead k c f -> tr_q r = [] ->
  skip_step uni r None =
  Ok (mktr (with_pc (tr_core r) (PWait k c f)) [] (tr_skip_depth r) (tr_skipping r), Some (signal c)).
Proof.
  intros [CO DE SK] Ep Eq. unfold skip_step. cbv zeta. unfold delegate. rewrite Ep, Eq. cbn [bind]. rewrite orb_false_r.
  destruct (tr_skipping r) eqn:Es.
  - destruct (co_complete _ _ _ CO eq_refl) as (_ & H); [now apply SK|]. rewrite Ep in H. cbn in H. subst c. reflexivity.
  - destruct c; reflexivity.
Qed.

(** The key lemma: running on a piece of the input, then on the rest, is running on the whole. *)
Lemma steps_ext uni r x : steps uni r None x -> forall st y, tr_ok false r st -> waiting (tr_core r) = false -> y <> [] ->
  match x with
  | Err e => steps uni (ext r y) None (Err e)
  | Ok (r', ev) =>
    if waiting (tr_core r')
    then (exists c, ev = signal c) /\ tr_q r' = [] /\ (exists st', tr_ok false r' st') /\
         forall z, steps uni (ext (resumed r') y) None z -> steps uni (ext r y) None z
    else steps uni (ext r y) None (Ok (ext r' y, ev))
  end.
Proof.
  intros S. remember None as d eqn:Hd. induction S as [r d e E|r d r' ev E|r d r' x E S IH]; intros st y TO W Y; subst d.
  - assert (fed r \/ exists k c f, t_pc (tr_core r) = PRead k c f /\ tr_q r = []) as [F|(k & c & f & Ep & Eq)].
    { unfold fed, waiting in *. destruct (t_pc (tr_core r)) as [|k c f|]; auto; [|discriminate]. destruct (tr_q r); [right; eauto|left; discriminate]. }
    + apply steps_err. now rewrite (skip_step_ext uni r None y F), E.
    + rewrite (out_of_input uni r st k c f TO Ep Eq) in E. discriminate.
  - assert (fed r \/ exists k c f, t_pc (tr_core r) = PRead k c f /\ tr_q r = []) as [F|(k & c & f & Ep & Eq)].
    { unfold fed, waiting in *. destruct (t_pc (tr_core r)) as [|k c f|]; auto; [|discriminate]. destruct (tr_q r); [right; eauto|left; discriminate]. }
    + destruct (waiting (tr_core r')) eqn:W'.
      * exfalso. unfold skip_step in E. cbv zeta in E. apply bind_ok in E. destruct E as ([[s q] e] & Ed & E).
        assert (tr_core r' = s).
        { repeat match type of E with
          | (match ?x with _ => _ end) = Ok _ => destruct x; try discriminate
          | Ok _ = Ok _ => injection E as <- _; reflexivity
          end. }
        subst s. destruct (delegate_cases _ _ _ _ _ _ _ Ed) as [(A & _)|(k & c & f & _ & _ & [(Ep & Eq & _)|(Ep & _)])].
        -- congruence.
        -- unfold fed in F. rewrite Ep in F. contradiction.
        -- unfold fed in F. rewrite Ep in F. contradiction.
      * apply steps_event. now rewrite (skip_step_ext uni r None y F), E.
    + pose proof E as E0. rewrite (out_of_input uni r st k c f TO Ep Eq) in E. injection E as <- <-. cbn [waiting tr_core with_pc t_pc].
      destruct (skip_step_ok false uni r st None _ _ TO ltac:(discriminate) ltac:(discriminate) E0) as (st' & TO' & _).
      split; [eauto|]. split; [reflexivity|]. split; [eauto|]. intros z Sz.
      unfold resumed in Sz. cbn [tr_core with_pc t_pc tr_q tr_skip_depth tr_skipping] in Sz.
      replace (ext r y) with (ext (mktr (with_pc (with_pc (tr_core r) (PWait k c f)) (PRead k c f)) [] (tr_skip_depth r) (tr_skipping r)) y); [exact Sz|].
      unfold ext. cbn [tr_core tr_q tr_skip_depth tr_skipping]. rewrite Eq. f_equal. rewrite <- Ep. destruct (tr_core r); reflexivity.
  - assert (F : fed r).
    { unfold fed, waiting in *. destruct (t_pc (tr_core r)) as [|k c f|] eqn:Ep; auto; [|discriminate]. intros Eq.
      rewrite (out_of_input uni r st k c f TO Ep Eq) in E. discriminate. }
    destruct (skip_step_ok false uni r st None _ _ TO ltac:(discriminate) ltac:(discriminate) E) as (st' & TO' & _).
    destruct (skip_step_go _ _ _ _ E) as (W' & _).
    specialize (IH eq_refl st' y TO' W' Y).
    assert (G : forall z, steps uni (ext r' y) None z -> steps uni (ext r y) None z).
    { intros z Sz. eapply steps_go; [|exact Sz]. now rewrite (skip_step_ext uni r None y F), E. }
    destruct x as [[r2 ev]|e]; [|now apply G].
    destruct (waiting (tr_core r2)); [|now apply G].
    destruct IH as (I1 & I2 & I3 & I4). repeat split; auto.
Qed.

Lemma steps_ok uni fl r d x : steps uni r d x -> forall st, tr_ok fl r st ->
  (d = Some DSkip -> fl = false -> st <> []) -> (fl = false -> d = Some DNext -> waiting (tr_core r) = false) ->
  match x with
  | Ok (r', ev) => exists st1 st', tr_ok fl r' st' /\ is_stream_signal (ev_type ev) = waiting (tr_core r') /\ text_nest fl st1 ev st' /\
      (tr_skipping r = false -> d <> Some DSkip -> st1 = st)
  | Err _ => True
  end.
Proof.
  induction 1 as [r d e E|r d r' ev E|r d r' x E S IH]; intros st TO DS DN; [exact Logic.I| |].
  - destruct (skip_step_ok fl uni r st d _ _ TO DS DN E) as (st' & TO' & SW & st1 & TN & H). exists st1, st'. auto.
  - destruct (skip_step_ok fl uni r st d _ _ TO DS DN E) as (st' & TO' & H).
    specialize (IH st' TO' (fun H => ltac:(discriminate H)) (fun _ H => ltac:(discriminate H))).
    destruct x as [[r2 ev]|e]; [|exact Logic.I]. destruct IH as (st1 & st2 & T2 & W2 & N2 & H2). exists st1, st2. split; [exact T2|]. split; [exact W2|]. split; [exact N2|]. intros A B. rewrite <- (H A B). apply H2; [|discriminate].
    revert E A B. clear. unfold skip_step. cbv zeta. intros E A B. apply bind_ok in E. destruct E as ([[s q] e] & Ed & E).
    replace (tr_skipping r || match d with Some DSkip => true | _ => false end) with false in E.
    + injection E as <- _. reflexivity.
    + rewrite A. destruct d as [[]|]; auto; congruence.
Qed.

(** ** Feeding *)

Definition pieces (cs : list (list Z)) : Prop := Forall (fun c => c <> []) cs.

(** Between requests. *)
Definition resting (r : tr) (last : event) : Prop :=
  waiting (tr_core r) = false /\ is_stream_signal (ev_type last) = false /\
  exists st0 st, tr_ok false r st /\ text_nest false st0 last st.

Definition outcome (uni : bool) (x : res (tr * event)) (a : res event * treader * list (list Z)) : Prop :=
  match x with
  | Err e => exists t' cs', a = (Err e, t', cs')
  | Ok (r, ev) =>
    if is_stream_signal (ev_type ev)
    then a = (let '(y, t') := text_drain flushes uni (TAt r ev) ev in (y, t', []))
    else exists r2 cs2, a = (Ok ev, TAt r2 ev, cs2) /\ r = ext r2 (concat cs2) /\ pieces cs2 /\ resting r2 ev
  end.

Lemma feed_signal uni r ev c cs : is_stream_signal (ev_type ev) = true ->
  text_feed uni (TAt r ev) ev (c :: cs) =
  match text_send uni (TAt r ev) (DData c) with
  | (Ok ev', t') => text_feed uni t' ev' cs
  | (Err e, t') => (Err e, t', cs)
  end.
Proof. intros H. cbn [text_feed]. now rewrite H. Qed.
Lemma feed_event uni t ev cs : is_stream_signal (ev_type ev) = false -> text_feed uni t ev cs = (Ok ev, t, cs).
Proof. intros H. destruct cs; cbn [text_feed]; now rewrite H. Qed.

Lemma feed_spec uni cs : pieces cs -> forall r st x X, tr_ok false r st -> waiting (tr_core r) = false ->
  steps uni r None x -> steps uni (ext r (concat cs)) None X ->
  match x with
  | Err e => X = Err e
  | Ok (r', ev) => outcome uni X (text_feed uni (TAt r' ev) ev cs)
  end.
Proof.
  induction 1 as [|c cs Hc Hcs IH]; intros r st x X TO W S SX.
  - cbn [concat] in SX. rewrite ext_nil in SX. rewrite (steps_det _ _ _ _ SX _ S). destruct x as [[r' ev]|e]; [|reflexivity].
    destruct (steps_ok _ _ _ _ _ S st TO ltac:(discriminate) ltac:(discriminate)) as (st1 & st' & TO' & SW & TN & _).
    unfold outcome. destruct (is_stream_signal (ev_type ev)) eqn:Es.
    + cbn [text_feed]. now rewrite Es.
    + exists r', []. cbn [concat]. rewrite ext_nil, feed_event by exact Es. split; [reflexivity|]. split; [reflexivity|]. split; [constructor|].
      split; [now rewrite <- SW|]. split; [exact Es|]. exists st1, st'. auto.
  - cbn [concat] in SX.
    assert (Y : c ++ concat cs <> []) by (destruct c; [congruence|discriminate]).
    pose proof (steps_ext uni r x S st (c ++ concat cs) TO W Y) as SE.
    destruct x as [[r' ev]|e]; [|exact (steps_det _ _ _ _ SX _ SE)].
    destruct (steps_ok _ _ _ _ _ S st TO ltac:(discriminate) ltac:(discriminate)) as (st1 & st' & TO' & SW & TN & _).
    destruct (waiting (tr_core r')) eqn:W'.
    + destruct SE as ((cm & ->) & Eq & (st2 & TO2) & SE).
      rewrite feed_signal by exact SW.
      destruct (t_pc (tr_core r')) as [|k co f|k co f] eqn:Ep; unfold waiting in W'; rewrite Ep in W'; try discriminate.
      (* the reader gets the piece *)
      set (r2 := mktr (with_pc (tr_core r') (PRead k co f)) c (tr_skip_depth r') (tr_skipping r')).
      assert (TS : text_send uni (TAt r' (signal cm)) (DData c) =
        match run (steps_fuel r' (Some (DData c))) uni r' (Some (DData c)) with
        | Ok (r3, ev) => (Ok ev, TAt r3 ev)
        | Err e => (Err e, TDead)
        end).
      { unfold text_send, text_protocol_check. destruct c as [|z c]; [congruence|]. destruct cm; reflexivity. }
      rewrite TS.
      assert (Efirst : skip_step uni r' (Some (DData c)) = Ok (r2, None)).
      { unfold skip_step, delegate. cbv zeta. rewrite Ep, Eq. destruct c as [|z c]; [congruence|]. cbn [bind app]. rewrite orb_false_r.
        unfold r2. destruct (tr_skipping r'); reflexivity. }
      destruct (steps_total uni r2 None) as (x2 & S2).
      assert (S' : steps uni r' (Some (DData c)) x2) by (eapply steps_go; eassumption).
      rewrite (steps_run _ _ _ _ S').
      assert (TO3 : tr_ok false r2 st2).
      { destruct (skip_step_ok false uni r' st2 (Some (DData c)) r2 None TO2 ltac:(discriminate) ltac:(discriminate) Efirst) as (st3 & T3 & H3).
        destruct T3 as [A1 A2 A3]. destruct TO2 as [[B1 B2 B3 B4 B5 B6] C2 C3].
        constructor; [|exact C2|exact C3]. constructor; unfold r2; cbn [tr_core t_type t_stack t_field t_child t_pc t_complete with_pc pc_kont pc_complete]; auto.
        - rewrite Ep in B4. exact B4.
        - discriminate.
        - rewrite Ep in B6. exact B6. }
      assert (SX2 : steps uni (ext r2 (concat cs)) None X).
      { destruct (steps_total uni (ext r2 (concat cs)) None) as (X2 & SX2).
        assert (SX3 : steps uni (ext r (c ++ concat cs)) None X2).
        { apply SE. unfold resumed. rewrite Ep, Eq.
          replace (ext (mktr (with_pc (tr_core r') (PRead k co f)) [] (tr_skip_depth r') (tr_skipping r')) (c ++ concat cs))
            with (ext r2 (concat cs)); [exact SX2|]. reflexivity. }
        rewrite (steps_det _ _ _ _ SX _ SX3). exact SX2. }
      specialize (IH r2 st2 x2 X TO3 eq_refl S2 SX2). destruct x2 as [[r3 ev3]|e3]; [exact IH|].
      subst X. cbn. eauto.
    + rewrite (steps_det _ _ _ _ SX _ SE). unfold outcome. rewrite SW.
      exists r', (c :: cs). rewrite feed_event by exact SW. split; [reflexivity|]. split; [reflexivity|]. split; [now constructor|].
      split; [exact W'|]. split; [exact SW|]. exists st1, st'. auto.
Qed.

(** One request. *)
Lemma next_spec uni r last cs d : pieces cs -> resting r last ->
  match text_protocol_check last d with
  | Err e => text_next uni (TAt r last) cs d = (Err e, TDead, cs)
  | Ok _ => forall X, steps uni (asked (ext r (concat cs)) (Some d)) None X -> outcome uni X (text_next uni (TAt r last) cs d)
  end.
Proof.
  intros P (W & NS & st0 & st & TO & TN). unfold text_next, text_send.
  destruct (text_protocol_check last d) as [[]|e] eqn:PC; [|reflexivity]. intros X SX.
  assert (D : d = DNext \/ d = DSkip).
  { unfold text_protocol_check in PC. rewrite NS in PC. destruct d; auto. discriminate. }
  assert (DS : Some d = Some DSkip -> st <> []).
  { intros [= ->]. unfold text_protocol_check in PC. rewrite NS in PC. cbn [bind] in PC.
    pose proof (nest_depth _ _ _ _ TN) as ND. pose proof (nest_skippable _ _ _ _ TN) as SK. unfold skippable in SK.
    destruct (ev_depth last) as [n|] eqn:En.
    - apply (SK n eq_refl). destruct (Z.eq_dec n 0) as [->|N]; [|now left]. right.
      destruct (ev_type last); try discriminate; reflexivity.
    - destruct (ev_type last); try contradiction; discriminate. }
  destruct (steps_total uni r (Some d)) as (x & S). rewrite (steps_run _ _ _ _ S).
  apply (steps_asked _ _ _ _ W) in S.
  assert (TO1 : tr_ok false (asked r (Some d)) st).
  { destruct TO as [A1 A2 A3]. constructor; auto. cbn [asked tr_skipping]. intros H Hf. apply orb_true_iff in H.
    destruct H as [H|H]; [now apply A3|]. destruct D as [->| ->]; [discriminate|]. now apply DS. }
  pose proof (feed_spec uni cs P (asked r (Some d)) st x X TO1 W S SX) as FS.
  destruct x as [[r' ev]|e].
  - exact FS.
  - subst X. cbn. eauto.
Qed.

Theorem session_chunks uni reqs : forall r1 r2 last cs1 cs2, pieces cs1 -> pieces cs2 -> resting r1 last -> resting r2 last ->
  ext r1 (concat cs1) = ext r2 (concat cs2) ->
  text_session uni (TAt r1 last) cs1 reqs = text_session uni (TAt r2 last) cs2 reqs.
Proof.
  induction reqs as [|d reqs IH]; intros r1 r2 last cs1 cs2 P1 P2 R1 R2 E; [reflexivity|].
  cbn [text_session]. pose proof (next_spec uni r1 last cs1 d P1 R1) as N1. pose proof (next_spec uni r2 last cs2 d P2 R2) as N2.
  destruct (text_protocol_check last d) as [[]|e]; [|now rewrite N1, N2].
  destruct (steps_total uni (asked (ext r1 (concat cs1)) (Some d)) None) as (X & SX).
  specialize (N1 X SX). rewrite E in SX. specialize (N2 X SX). unfold outcome in N1, N2.
  destruct X as [[r ev]|e].
  - destruct (is_stream_signal (ev_type ev)) eqn:Es.
    + rewrite N1, N2. reflexivity.
    + destruct N1 as (a1 & c1 & -> & E1 & Q1 & S1). destruct N2 as (a2 & c2 & -> & E2 & Q2 & S2).
      rewrite (IH a1 a2 ev c1 c2 Q1 Q2 S1 S2); [reflexivity|congruence].
  - destruct N1 as (t1 & c1 & ->). destruct N2 as (t2 & c2 & ->). reflexivity.
Qed.

Lemma tr_new_ok : tr_ok false tr_new [].
Proof.
  constructor; [|cbn; lia|discriminate]. constructor; cbn; auto; try discriminate.
  - constructor.
  - congruence.
Qed.

(** From the start. *)
Theorem chunks_irrelevant uni cs1 cs2 reqs : pieces cs1 -> pieces cs2 -> concat cs1 = concat cs2 ->
  text_session uni text_reader_new cs1 reqs = text_session uni text_reader_new cs2 reqs.
Proof.
  intros P1 P2 E. destruct reqs as [|d reqs]; [reflexivity|]. cbn [text_session]. unfold text_next, text_send, text_reader_new.
  destruct d; try reflexivity.
  destruct (steps_total uni tr_new (Some DNext)) as (x & S). rewrite (steps_run _ _ _ _ S).
  apply (steps_asked uni tr_new _ _ eq_refl) in S. change (asked tr_new (Some DNext)) with tr_new in S.
  destruct (steps_total uni (ext tr_new (concat cs1)) None) as (X & SX).
  pose proof (feed_spec uni cs1 P1 tr_new [] x X tr_new_ok eq_refl S SX) as F1. rewrite E in SX.
  pose proof (feed_spec uni cs2 P2 tr_new [] x X tr_new_ok eq_refl S SX) as F2.
  destruct x as [[r' ev']|e]; [|reflexivity]. unfold outcome in F1, F2. destruct X as [[r ev]|e].
  - destruct (is_stream_signal (ev_type ev)) eqn:Es.
    + rewrite F1, F2. reflexivity.
    + destruct F1 as (a1 & c1 & -> & E1 & Q1 & S1). destruct F2 as (a2 & c2 & -> & E2 & Q2 & S2).
      rewrite (session_chunks uni reqs a1 a2 ev c1 c2 Q1 Q2 S1 S2); [reflexivity|congruence].
  - destruct F1 as (t1 & c1 & ->). destruct F2 as (t2 & c2 & ->). reflexivity.
Qed.
