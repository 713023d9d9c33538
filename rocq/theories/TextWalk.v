(** Runs of the text reader over a whole text: the moves of the container generators, composed, and
    what a session of NEXT requests returns for such a run. *)
From Verif Require Import Base BaseFacts CoreModel BinReaderModel TextNumbers TextWriterModel TextReaderModel TextReaderFacts TextReaderNest TextReaderChunks.
Local Open Scope Z_scope.

(** One move of the delegate: the text that is left ends with the end-of-file marker. *)
Inductive move (uni : bool) : tcore -> list ch -> option event -> tcore -> list ch -> Prop :=
| m_top s q c s' ev : t_pc s = PTop c -> top uni s c = Ok (s', ev) -> move uni s q ev s' q
| m_read s k cm fl z q s' ev u : t_pc s = PRead k cm fl -> take uni s k (plain z) = Ok (s', ev, u) ->
    move uni s (plain z :: q) ev s' (map plain u ++ q)
| m_flush s k s' ev : t_pc s = PRead k false true -> take uni s k Eof = Ok (s', ev, []) -> move uni s [Eof] ev s' []
| m_done s fl : t_pc s = PRead KTop true fl -> t_type s = None -> pending (t_child s) = None ->
    move uni s [Eof] None (with_pc s (PTop (Some Eof))) [].
Definition event_list (ev : option event) : list event := match ev with Some e => [e] | None => [] end.
Inductive walk (uni : bool) : tcore -> list ch -> list event -> tcore -> list ch -> Prop :=
| w_nil s q : walk uni s q [] s q
| w_move s q ev s1 q1 evs s2 q2 : move uni s q ev s1 q1 -> walk uni s1 q1 evs s2 q2 ->
    walk uni s q (event_list ev ++ evs) s2 q2.
Lemma w_step uni s q ev s' q' : move uni s q ev s' q' -> walk uni s q (event_list ev) s' q'.
Proof. intros H. rewrite <- (app_nil_r (event_list ev)). eapply w_move; [exact H|constructor]. Qed.
Lemma walk_app uni s q e1 s1 q1 e2 s2 q2 : walk uni s q e1 s1 q1 -> walk uni s1 q1 e2 s2 q2 -> walk uni s q (e1 ++ e2) s2 q2.
Proof. induction 1; intros H2; [exact H2|]. rewrite <- app_assoc. eapply w_move; eauto. Qed.
Lemma walk_quiet uni s q s1 q1 e2 s2 q2 : walk uni s q [] s1 q1 -> walk uni s1 q1 e2 s2 q2 -> walk uni s q e2 s2 q2.
Proof. intros A B. exact (walk_app _ _ _ _ _ _ _ _ _ A B). Qed.
Lemma walk_quiet_r uni s q s1 q1 e s2 q2 : walk uni s q e s1 q1 -> walk uni s1 q1 [] s2 q2 -> walk uni s q e s2 q2.
Proof. intros A B. rewrite <- (app_nil_r e). exact (walk_app _ _ _ _ _ _ _ _ _ A B). Qed.

(** * From walks to sessions *)

Definition ended (s : tcore) : Prop := t_pc s = PTop (Some Eof) /\ t_type s = None /\ pending (t_child s) = None.
(** Or a comment was ended by the end of the text. *)
Definition finished (s : tcore) : Prop := ended s \/ exists fl, t_pc s = PRead KTop true fl.

Lemma top_eof uni s : ended s -> top uni s (Some Eof) = Ok (with_pc s (PRead KTop true false), None).
Proof.
  intros (_ & T & P). unfold top, is_end, is_delim, end_char, is_delimited. rewrite T. cbn [cz is_eof andb orb].
  unfold pending_value, pending in *. destruct (t_child s) as [k|]; [rewrite P|]; reflexivity.
Qed.

Lemma plain_skip_step uni s q d s' q' ev x : delegate uni s q x = Ok (s', q', ev) -> x <> Some DSkip ->
  exists d', skip_step uni (mktr s q d false) x = Ok (mktr s' q' d' false, ev).
Proof.
  intros H N. unfold skip_step. cbn [tr_skipping tr_core tr_q tr_skip_depth orb]. rewrite H. cbn [bind].
  destruct x as [[]|]; try congruence; eauto.
Qed.

(** Nothing is left but the marker, and it has been sent. *)
Lemma walk_end uni s evs sf : walk uni s [] evs sf [] -> finished sf -> forall d,
  match evs with
  | [] => exists rw, steps uni (mktr s [] d false) None (Ok (rw, stream_end_event))
  | e :: evs' => exists s' d', steps uni (mktr s [] d false) None (Ok (mktr s' [] d' false, e)) /\ walk uni s' [] evs' sf []
  end.
Proof.
  intros W F. remember ([] : list ch) as q eqn:Q. rewrite Q in W at 2. revert Q.
  assert (G : forall s q evs s' q', walk uni s q evs s' q' -> q = [] -> q' = [] -> finished s' -> forall d,
  match evs with
  | [] => exists rw, steps uni (mktr s [] d false) None (Ok (rw, stream_end_event))
  | e :: evs' => exists s1 d', steps uni (mktr s [] d false) None (Ok (mktr s1 [] d' false, e)) /\ walk uni s1 [] evs' s' []
  end).
  { clear. induction 1 as [s q|s q ev s1 q1 evs s2 q2 M W IH]; intros Q Q' F d.
    - destruct F as [F|(fl & P)].
      2: { assert (D2 : delegate uni s [] None = Ok (with_pc s (PWait KTop true fl), [], Some stream_end_event)) by (unfold delegate; rewrite P; reflexivity).
           destruct (plain_skip_step uni _ [] d _ _ _ None D2 ltac:(discriminate)) as (d2 & S2). eexists. eapply steps_event. exact S2. }
      pose proof (top_eof uni s F) as T. destruct F as (P & _).
      assert (D1 : delegate uni s [] None = Ok (with_pc s (PRead KTop true false), [], None)) by (unfold delegate; rewrite P, T; reflexivity).
      destruct (plain_skip_step uni s [] d _ _ _ None D1 ltac:(discriminate)) as (d1 & S1).
      assert (D2 : delegate uni (with_pc s (PRead KTop true false)) [] None =
        Ok (with_pc (with_pc s (PRead KTop true false)) (PWait KTop true false), [], Some stream_end_event)) by reflexivity.
      destruct (plain_skip_step uni _ [] d1 _ _ _ None D2 ltac:(discriminate)) as (d2 & S2).
      eexists. eapply steps_go; [exact S1|]. eapply steps_event. exact S2.
    - destruct M as [s q c s1 ev HP HT|s k cm fl z q s1 ev u HP HT|s k s1 ev HP HT|s fl HP HT HN]; try discriminate Q. subst q q2.
      assert (D : delegate uni s [] None = Ok (s1, [], ev)) by (unfold delegate; rewrite HP, HT; reflexivity).
      destruct (plain_skip_step uni s [] d _ _ _ None D ltac:(discriminate)) as (d1 & S1).
      destruct ev as [e|]; cbn [event_list app].
      + exists s1, d1. split; [|exact W]. eapply steps_event. exact S1.
      + specialize (IH eq_refl eq_refl F d1). destruct evs as [|e evs].
        * destruct IH as (rw & S). exists rw. eapply steps_go; eassumption.
        * destruct IH as (s' & d' & S & W'). exists s', d'. split; [|exact W']. eapply steps_go; eassumption. }
  intros Q. subst q. exact (G s [] evs sf [] W eq_refl eq_refl F).
Qed.

Lemma walk_stuck uni s Q evs s' Q' k cm fl : walk uni s Q evs s' Q' -> Q = [] -> t_pc s = PRead k cm fl -> evs = [].
Proof.
  intros W E P. destruct W as [s Q|s Q ev s2 Q2 evs s3 Q3 M W]; [reflexivity|].
  destruct M as [s Q c s2 ev HP HT|s k' cm' fl' z Q s2 ev u HP HT|s k' s2 ev HP HT|s fl' HP HT HN]; try discriminate E.
  rewrite P in HP. discriminate HP.
Qed.
Lemma walk_finished uni s Q evs s' Q' : walk uni s Q evs s' Q' -> Q = [] -> finished s -> evs = [].
Proof.
  intros W E [F|(fl & P)]; [|eapply walk_stuck; eassumption]. pose proof (top_eof uni s F) as T. destruct F as (P & _).
  destruct W as [s Q|s Q ev s2 Q2 evs s3 Q3 M W]; [reflexivity|].
  destruct M as [s Q c s2 ev HP HT|s k' cm' fl' z Q s2 ev u HP HT|s k' s2 ev HP HT|s fl' HP HT HN]; try discriminate E.
  rewrite P in HP. injection HP as <-. rewrite T in HT. injection HT as <- <-. cbn [event_list app].
  eapply walk_stuck; [exact W|exact E|reflexivity].
Qed.

(** What one request finds, when the marker is still to come: an event or STREAM_END, or a request for
    data, answered with NEXT. *)
Lemma plain_cons_inv q z Q : map plain q ++ [Eof] = plain z :: Q -> exists q', q = z :: q' /\ Q = map plain q' ++ [Eof].
Proof. destruct q as [|a q]; cbn [map app]; intros H; [discriminate|]. injection H as -> <-. eauto. Qed.
Lemma plain_eof_inv q : map plain q ++ [Eof] = [Eof] -> q = [].
Proof. destruct q as [|a q]; [reflexivity|discriminate]. Qed.

Definition asks (uni : bool) (r : tr) (rw : tr) : Prop := steps uni r None (Ok (rw, incomplete_event)).
Lemma walk_first uni s Q evs sf : walk uni s Q evs sf [] -> finished sf -> forall q d, Q = map plain q ++ [Eof] ->
  match evs with
  | [] => (exists rw, steps uni (mktr s q d false) None (Ok (rw, stream_end_event))) \/
          (exists rw rw', asks uni (mktr s q d false) rw /\ steps uni rw (Some DNext) (Ok (rw', stream_end_event)))
  | e :: evs' =>
    (exists s' q' d', steps uni (mktr s q d false) None (Ok (mktr s' q' d' false, e)) /\ walk uni s' (map plain q' ++ [Eof]) evs' sf []) \/
    (exists rw s' d', asks uni (mktr s q d false) rw /\ steps uni rw (Some DNext) (Ok (mktr s' [] d' false, e)) /\ walk uni s' [] evs' sf [])
  end.
Proof.
  intros W F. remember ([] : list ch) as q0 eqn:E0. revert E0 F.
  induction W as [s Q|s Q ev s1 Q1 evs s2 q2 M W IH]; intros E0 F q d HQ.
  - subst. destruct q; discriminate.
  - subst q2. specialize (IH eq_refl F).
    destruct M as [s Q c s1 ev HP HT|s k cm fl z Q s1 ev u HP HT|s k s1 ev HP HT|s fl HP HT HN].
    + (* the head of the loop *)
      subst Q. assert (D : delegate uni s q None = Ok (s1, q, ev)) by (unfold delegate; rewrite HP, HT; reflexivity).
      destruct (plain_skip_step uni s q d _ _ _ None D ltac:(discriminate)) as (d1 & S1).
      destruct ev as [e|]; cbn [event_list app].
      * left. exists s1, q, d1. split; [eapply steps_event; exact S1|exact W].
      * specialize (IH q d1 eq_refl). destruct evs as [|e evs].
        -- destruct IH as [(rw & S)|(rw & rw' & S & S')]; [left; exists rw; eapply steps_go; eassumption|].
           right. exists rw, rw'. split; [|exact S']. unfold asks in *. eapply steps_go; eassumption.
        -- destruct IH as [(s' & q' & d' & S & W')|(rw & s' & d' & S & S' & W')].
           ++ left. exists s', q', d'. split; [|exact W']. eapply steps_go; eassumption.
           ++ right. exists rw, s', d'. split; [|auto]. unfold asks in *. eapply steps_go; eassumption.
    + (* a character *)
      symmetry in HQ. apply plain_cons_inv in HQ. destruct HQ as (q' & -> & ->).
      assert (D : delegate uni s (z :: q') None = Ok (s1, u ++ q', ev)) by (unfold delegate; rewrite HP, HT; reflexivity).
      destruct (plain_skip_step uni s (z :: q') d _ _ _ None D ltac:(discriminate)) as (d1 & S1).
      rewrite app_assoc, <- map_app in W, IH.
      destruct ev as [e|]; cbn [event_list app].
      * left. exists s1, (u ++ q'), d1. split; [eapply steps_event; exact S1|exact W].
      * specialize (IH (u ++ q') d1 eq_refl). destruct evs as [|e evs].
        -- destruct IH as [(rw & S)|(rw & rw' & S & S')]; [left; exists rw; eapply steps_go; eassumption|].
           right. exists rw, rw'. split; [|exact S']. unfold asks in *. eapply steps_go; eassumption.
        -- destruct IH as [(s' & q2 & d' & S & W')|(rw & s' & d' & S & S' & W')].
           ++ left. exists s', q2, d'. split; [|exact W']. eapply steps_go; eassumption.
           ++ right. exists rw, s', d'. split; [|auto]. unfold asks in *. eapply steps_go; eassumption.
    + (* the marker, after INCOMPLETE *)
      symmetry in HQ. apply plain_eof_inv in HQ. subst q.
      assert (D : delegate uni s [] None = Ok (with_pc s (PWait k false true), [], Some incomplete_event)) by (unfold delegate; rewrite HP; reflexivity).
      destruct (plain_skip_step uni s [] d _ _ _ None D ltac:(discriminate)) as (d1 & S1).
      set (rw := mktr (with_pc s (PWait k false true)) [] d1 false) in *.
      assert (A : asks uni (mktr s [] d false) rw) by (apply steps_event; exact S1).
      assert (Ht : take uni (with_pc s (PWait k false true)) k Eof = Ok (s1, ev, [])).
      { rewrite <- HT. unfold take. destruct k; try reflexivity. }
      assert (D2 : delegate uni (with_pc s (PWait k false true)) [] (Some DNext) = Ok (s1, [], ev)).
      { unfold delegate. cbn [with_pc t_pc]. fold (with_pc s (PWait k false true)). rewrite Ht. reflexivity. }
      destruct (plain_skip_step uni _ [] d1 _ _ _ _ D2 ltac:(discriminate)) as (d2 & S2). fold rw in S2.
      destruct ev as [e|]; cbn [event_list app].
      * right. exists rw, s1, d2. split; [exact A|]. split; [apply steps_event; exact S2|exact W].
      * pose proof (walk_end _ _ _ _ W F d2) as WE. destruct evs as [|e evs].
        -- destruct WE as (rw' & S). right. exists rw, rw'. split; [exact A|]. eapply steps_go; eassumption.
        -- destruct WE as (s' & d' & S & W'). right. exists rw, s', d'. split; [exact A|]. split; [eapply steps_go; eassumption|exact W'].
    + (* the end of the stream *)
      symmetry in HQ. apply plain_eof_inv in HQ. subst q. cbn [event_list app].
      assert (EV : evs = []).
      { assert (FF : finished (with_pc s (PTop (Some Eof)))) by (left; repeat split; assumption).
        exact (walk_finished _ _ _ _ _ _ W eq_refl FF). }
      subst evs. left.
      assert (D : delegate uni s [] None = Ok (with_pc s (PWait KTop true fl), [], Some stream_end_event)) by (unfold delegate; rewrite HP; reflexivity).
      destruct (plain_skip_step uni s [] d _ _ _ None D ltac:(discriminate)) as (d1 & S1).
      eexists. apply steps_event. exact S1.
Qed.

Lemma walk_awake uni s Q evs s' Q' : walk uni s Q evs s' Q' -> finished s' -> waiting s = false.
Proof.
  induction 1 as [s Q|s Q ev s1 Q1 evs s2 q2 M W IH]; intros F.
  - destruct F as [(P & _)|(fl & P)]; unfold waiting; now rewrite P.
  - unfold waiting. inversion M; subst; match goal with H : t_pc s = _ |- _ => now rewrite H end.
Qed.

Lemma next_check last : is_stream_signal (ev_type last) = false -> text_protocol_check last DNext = Ok tt.
Proof.
  intros H. unfold text_protocol_check. rewrite H. cbn [bind]. destruct (ev_depth last) as [[| |]|]; try reflexivity.
  destruct (ev_type last); reflexivity.
Qed.

Lemma next_asked uni s q d x : waiting s = false -> steps uni (mktr s q d false) None x -> steps uni (mktr s q d false) (Some DNext) x.
Proof.
  intros A S. destruct (steps_total uni (mktr s q d false) (Some DNext)) as (y & Y).
  pose proof (steps_asked uni (mktr s q d false) (Some DNext) y A Y) as Y'. unfold asked in Y'. cbn [tr_core tr_q tr_skip_depth tr_skipping skips orb] in Y'.
  rewrite (steps_det _ _ _ _ S _ Y'). exact Y.
Qed.

(** The session: the events of the walk, then the end. *)
Theorem walk_session uni : forall evs s Q sf q d last n, walk uni s Q evs sf [] -> finished sf ->
  (Q = map plain q ++ [Eof] \/ Q = [] /\ q = []) -> is_stream_signal (ev_type last) = false ->
  Forall (fun e => is_stream_signal (ev_type e) = false) evs -> (List.length evs < n)%nat ->
  text_session uni (TAt (mktr s q d false) last) [] (repeat DNext n) = (evs, SEnd).
Proof.
  induction evs as [|e evs IH]; intros s Q sf q d last n W F HQ NS FE L; (destruct n as [|n]; [inversion L|]); cbn [repeat text_session].
  - assert (N : exists t', text_next uni (TAt (mktr s q d false) last) [] DNext = (Ok stream_end_event, t', [])).
    { unfold text_next, text_send. rewrite (next_check last NS).
      destruct HQ as [HQ|[-> ->]].
      - destruct (walk_first uni s Q [] sf W F q d HQ) as [(rw & S)|(rw & rw' & S & S')].
        + apply (next_asked _ _ _ _ _ (walk_awake _ _ _ _ _ _ W F)) in S. rewrite (steps_run _ _ _ _ S). cbn. eauto.
        + unfold asks in S. apply (next_asked _ _ _ _ _ (walk_awake _ _ _ _ _ _ W F)) in S. rewrite (steps_run _ _ _ _ S).
          cbn [text_feed incomplete_event ev_type is_stream_signal flushes text_drain text_send text_protocol_check ev_depth bind].
          rewrite (steps_run _ _ _ _ S'). cbn. eauto.
      - destruct (walk_end uni s [] sf W F d) as (rw & S). apply (next_asked _ _ _ _ _ (walk_awake _ _ _ _ _ _ W F)) in S. rewrite (steps_run _ _ _ _ S).
        cbn. eauto. }
    destruct N as (t' & ->). reflexivity.
  - inversion FE as [|? ? NE FE']; subst. cbn [List.length] in L.
    assert (N : exists s' Q' q' d', text_next uni (TAt (mktr s q d false) last) [] DNext = (Ok e, TAt (mktr s' q' d' false) e, []) /\
      walk uni s' Q' evs sf [] /\ (Q' = map plain q' ++ [Eof] \/ Q' = [] /\ q' = [])).
    { unfold text_next, text_send. rewrite (next_check last NS).
      destruct HQ as [HQ|[-> ->]].
      - destruct (walk_first uni s Q (e :: evs) sf W F q d HQ) as [(s' & q' & d' & S & W')|(rw & s' & d' & S & S' & W')].
        + apply (next_asked _ _ _ _ _ (walk_awake _ _ _ _ _ _ W F)) in S. rewrite (steps_run _ _ _ _ S).
          rewrite (feed_event uni _ e [] NE). exists s', (map plain q' ++ [Eof]), q', d'. auto.
        + unfold asks in S. apply (next_asked _ _ _ _ _ (walk_awake _ _ _ _ _ _ W F)) in S. rewrite (steps_run _ _ _ _ S).
          cbn [text_feed incomplete_event ev_type is_stream_signal flushes text_drain text_send text_protocol_check ev_depth bind].
          rewrite (steps_run _ _ _ _ S'). cbn [text_drain]. rewrite NE. exists s', [], [], d'. auto.
      - destruct (walk_end uni s (e :: evs) sf W F d) as (s' & d' & S & W'). apply (next_asked _ _ _ _ _ (walk_awake _ _ _ _ _ _ W F)) in S. rewrite (steps_run _ _ _ _ S).
        rewrite (feed_event uni _ e [] NE). exists s', [], [], d'. auto. }
    destruct N as (s' & Q' & q' & d' & -> & W' & HQ').
    assert (T : match ev_type e with EStreamEnd => ([], SEnd) | _ => let '(evs0, st) := text_session uni (TAt (mktr s' q' d' false) e) [] (repeat DNext n) in (e :: evs0, st) end
      = let '(evs0, st) := text_session uni (TAt (mktr s' q' d' false) e) [] (repeat DNext n) in (e :: evs0, st)) by (destruct (ev_type e); try reflexivity; discriminate).
    rewrite T. rewrite (IH s' Q' sf q' d' e n W' F HQ' NE FE' ltac:(lia)). reflexivity.
Qed.

(** From a new reader. *)
Definition reader_start : tcore := with_pc core_new (PRead KTop true false).
Theorem walk_whole uni text evs sf cs n : walk uni reader_start (map plain text ++ [Eof]) evs sf [] -> finished sf ->
  Forall (fun e => is_stream_signal (ev_type e) = false) evs -> (List.length evs < n)%nat -> pieces cs -> concat cs = text ->
  text_session uni text_reader_new cs (repeat DNext n) = (evs, SEnd).
Proof.
  intros W F FE L P C.
  destruct text as [|z text].
  { assert (cs = []) by (destruct P as [|c cs Hc P]; [reflexivity|]; cbn [concat] in C; destruct c; [congruence|discriminate]). subst cs.
    assert (EV : evs = []).
    { pose proof (walk_first _ _ _ _ _ W F [] 0 eq_refl) as H. destruct evs as [|e evs]; [reflexivity|].
      assert (S0 : steps uni (mktr reader_start [] 0 false) None (Ok (mktr (with_pc reader_start (PWait KTop true false)) [] 0 false, stream_end_event))) by (apply steps_event; reflexivity).
      inversion FE; subst. destruct H as [(s' & q' & d' & S & _)|(rw & s' & d' & S & _)].
      - pose proof (steps_det _ _ _ _ S _ S0) as X. injection X as _ _ _ ->. discriminate.
      - unfold asks in S. pose proof (steps_det _ _ _ _ S _ S0) as X. discriminate X. }
    subst evs. destruct n as [|n]; [inversion L|]. reflexivity. }
  rewrite (chunks_irrelevant uni cs [z :: text] (repeat DNext n) P); [|constructor; [discriminate|constructor]|cbn [concat]; now rewrite app_nil_r].
  destruct n as [|n]; [inversion L|]. cbn [repeat text_session].
  set (r1 := mktr (with_pc reader_start (PWait KTop true false)) [] 0 false).
  set (r2 := mktr reader_start (z :: text) 0 false).
  assert (E1 : steps uni tr_new (Some DNext) (Ok (r1, stream_end_event))) by (eapply steps_go; [reflexivity|]; apply steps_event; reflexivity).
  assert (N : text_next uni text_reader_new [z :: text] DNext = text_next uni (TAt r2 version_marker_event) [] DNext).
  { unfold text_next at 1. unfold text_send at 1. unfold text_reader_new. rewrite (steps_run _ _ _ _ E1).
    rewrite feed_signal by reflexivity.
    unfold text_send at 1. cbn [text_protocol_check stream_end_event ev_type is_stream_signal bind ev_depth].
    unfold text_next. unfold text_send. cbn [text_protocol_check version_marker_event ev_type is_stream_signal bind ev_depth].
    destruct (steps_total uni r2 None) as (X & SX).
    assert (S1 : steps uni r1 (Some (DData (z :: text))) X) by (eapply steps_go; [reflexivity|exact SX]).
    assert (S2 : steps uni r2 (Some DNext) X) by (apply next_asked; [reflexivity|exact SX]).
    rewrite (steps_run _ _ _ _ S1), (steps_run _ _ _ _ S2). destruct X as [[r' ev]|e]; reflexivity. }
  rewrite N. pose proof (walk_session uni evs reader_start (map plain (z :: text) ++ [Eof]) sf (z :: text) 0 version_marker_event (S n) W F (or_introl eq_refl) eq_refl FE L) as G.
  cbn [repeat text_session] in G. exact G.
Qed.
