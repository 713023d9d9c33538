(** The managed reader over the text reader gives the user's view of a text. *)
From Verif Require Import Base BaseFacts CoreModel BinWriterModel BinReaderModel SymbolsModel ManagedModel Cursor ManagedSpec ManagedReaderFacts ManagedReaderProofs ManagedSessions MultimapModel SimpleionModel SimpleionProofs LoadSpec LoadProofs TextNumbers TextWriterModel
  TextReaderModel TextReaderFacts TextReaderNest TextReaderChunks TextReaderErrors TextReaderTrace TextWalk TextValueModel TextManaged TextServes.
Local Open Scope Z_scope.

Section OVER.
Variable uni : bool.
Variable cat : catalog.
Definition answered : Type := (res mevent * tmreader * list (list Z))%type.
Definition finish (N fuel : nat) (mr : tmreader) (ev : mevent) (cs : list (list Z)) : answered :=
  match cs with [] => let '(x, t') := tm_drain N fuel uni cat mr ev in (x, t', []) | _ => tm_feed fuel uni cat mr ev cs end.
Definition go (f N fuel : nat) (mr : tmreader) (d : devent) (cs : list (list Z)) : answered :=
  match tmreader_send f uni cat mr d with (Ok ev, mr') => finish N fuel mr' ev cs | (Err e, mr') => (Err e, mr', cs) end.
Definition onward (f N fuel : nat) (m : mstate) (ev : event) (t : treader) (cs : list (list Z)) : answered :=
  match mr_step cat m ev with
  | Err e => (Err e, (m, TDead), cs)
  | Ok (m', None) => (Ok (mkme ev (ms_table m')), (m', t), cs)
  | Ok (m', Some d') => go f N fuel (m', t) d' cs
  end.

Lemma finish_plain N fuel mr ev cs : is_stream_signal (ev_type (me_ev ev)) = false -> finish N fuel mr ev cs = (Ok ev, mr, cs).
Proof. intros H. unfold finish. destruct cs; [destruct N; cbn [tm_drain]; rewrite H; reflexivity|cbn [tm_feed]; rewrite H; reflexivity]. Qed.
Lemma feed_finish fuel mr ev cs : tm_feed fuel uni cat mr ev cs = finish fuel fuel mr ev cs.
Proof. unfold finish. destruct cs as [|c cs]; [|reflexivity]. cbn [tm_feed]. destruct (is_stream_signal (ev_type (me_ev ev))) eqn:E; [reflexivity|]. destruct fuel; cbn [tm_drain]; rewrite E; reflexivity. Qed.
Lemma next_go fuel mr cs d : tm_next fuel uni cat mr cs d = go fuel fuel fuel mr d cs.
Proof. unfold tm_next, go. destruct (tmreader_send fuel uni cat mr d) as [[ev|e] mr']; [apply feed_finish|reflexivity]. Qed.
Lemma send_onward f N fuel m t d ev t' cs : text_send uni t d = (Ok ev, t') -> nonsignal ev -> go (S f) N fuel (m, t) d cs = onward f N fuel m ev t' cs.
Proof.
  intros E H. unfold go, onward. cbn [tmreader_send fst snd]. rewrite E. destruct (mr_step cat m ev) as [[m' [d'|]]|x]; try reflexivity. apply finish_plain. exact H.
Qed.
Lemma send_signal f N fuel m t d ev t' cs : text_send uni t d = (Ok ev, t') -> constant ev -> is_stream_signal (ev_type ev) = true -> go (S f) N fuel (m, t) d cs = finish N fuel (m, t') (mkme ev (ms_table m)) cs.
Proof. intros E C H. unfold go. cbn [tmreader_send fst snd]. rewrite E, (signal_step cat m ev (C H)). reflexivity. Qed.

(** One request of the text reader is part of one of the managed reader. *)
Definition same_answer (f N fuel : nat) (m : mstate) (a : res event * treader * list (list Z)) (b : answered) : Prop :=
  match a with
  | (Ok ev, t', cs') =>
    if is_stream_signal (ev_type ev) then exists tb mr cs2, b = (Ok (mkme stream_end_event tb), mr, cs2)
    else exists f' N', (f <= f')%nat /\ (N - flushes <= N')%nat /\ b = onward f' N' fuel m ev t' cs'
  | (Err _, _, _) => True
  end.
Lemma drain_same f m : forall n t ev N, sane t -> constant ev -> is_stream_signal (ev_type ev) = true -> (n <= N)%nat ->
  match text_drain n uni t ev with
  | (Ok ev', t') => if is_stream_signal (ev_type ev') then exists tb mr, tm_drain N (S f) uni cat (m, t) (mkme ev (ms_table m)) = (Ok (mkme stream_end_event tb), mr)
                    else exists N', (N - n <= N')%nat /\ (let '(x, y) := tm_drain N (S f) uni cat (m, t) (mkme ev (ms_table m)) in (x, y, [])) = onward f N' (S f) m ev' t' []
  | (Err _, _) => True
  end.
Proof.
  induction n as [|n IH]; intros t ev N SA CE SG L; destruct (CE SG) as [-> | ->]; cbn [text_drain stream_end_event incomplete_event ev_type is_stream_signal]; try exact Logic.I.
  - destruct N; cbn; eauto.
  - destruct N; cbn; eauto.
  - destruct N as [|N]; [lia|]. cbn [tm_drain me_ev ev_type is_stream_signal]. destruct (text_send uni t DNext) as [[e1|x] t1] eqn:TS; [|exact Logic.I].
    destruct (sane_send _ _ _ _ _ SA TS) as (SA1 & C1). destruct (is_stream_signal (ev_type e1)) eqn:S1.
    + specialize (IH t1 e1 N SA1 C1 S1 ltac:(lia)). destruct (text_drain n uni t1 e1) as [[e2|x] t2]; [|exact Logic.I].
      cbn [tmreader_send fst snd]. rewrite TS, (signal_step cat m e1 (C1 S1)). destruct (is_stream_signal (ev_type e2)); [exact IH|].
      destruct IH as (N' & LN & E). exists N'. split; [lia|exact E].
    + replace (text_drain n uni t1 e1) with (Ok e1, t1) by (destruct n; cbn [text_drain]; rewrite S1; reflexivity). rewrite S1. exists N. split; [lia|].
      rewrite <- (send_onward f N (S f) m t DNext e1 t1 [] TS S1). unfold go. destruct (tmreader_send (S f) uni cat (m, t) DNext) as [[e2|x] t2]; reflexivity.
Qed.
Lemma feed_same f m : forall cs t ev N, sane t -> constant ev -> is_stream_signal (ev_type ev) = true -> (flushes <= N)%nat -> (flushes <= S f)%nat ->
  same_answer f (Nat.min N (S f)) (S f) m (text_feed uni t ev cs) (finish N (S f) (m, t) (mkme ev (ms_table m)) cs).
Proof.
  assert (G : forall cs t ev, sane t -> constant ev -> is_stream_signal (ev_type ev) = true -> (flushes <= S f)%nat ->
    same_answer f (S f) (S f) m (text_feed uni t ev cs) (tm_feed (S f) uni cat (m, t) (mkme ev (ms_table m)) cs)).
  { induction cs as [|c cs IH]; intros t ev SA CE SG L; cbn [text_feed tm_feed me_ev]; rewrite SG.
    - pose proof (drain_same f m flushes t ev (S f) SA CE SG L) as D. destruct (text_drain flushes uni t ev) as [[e1|x] t1]; [|exact Logic.I]. unfold same_answer. destruct (is_stream_signal (ev_type e1)).
      + destruct D as (tb & mr & ->). eauto.
      + destruct D as (N' & LN & E). exists f, N'. split; [lia|]. split; [lia|]. exact E.
    - destruct (text_send uni t (DData c)) as [[e1|x] t1] eqn:TS; [|exact Logic.I]. destruct (sane_send _ _ _ _ _ SA TS) as (SA1 & C1).
      change (match tmreader_send (S f) uni cat (m, t) (DData c) with (Ok ev2, mrA) => tm_feed (S f) uni cat mrA ev2 cs | (Err e2, mrB) => (Err e2, mrB, cs) end) with (tm_next (S f) uni cat (m, t) cs (DData c)). rewrite next_go.
      destruct (is_stream_signal (ev_type e1)) eqn:S1.
      + rewrite (send_signal f (S f) (S f) m t (DData c) e1 t1 cs TS C1 S1). rewrite <- feed_finish. exact (IH t1 e1 SA1 C1 S1 L).
      + rewrite (send_onward f (S f) (S f) m t (DData c) e1 t1 cs TS S1). rewrite (feed_event uni t1 e1 cs S1). unfold same_answer. rewrite S1. exists f, (S f). split; [lia|]. split; [lia|reflexivity]. }
  intros cs t ev N SA CE SG LN L. unfold finish. destruct cs as [|c cs].
  - cbn [text_feed]. rewrite SG. pose proof (drain_same f m flushes t ev N SA CE SG LN) as D. destruct (text_drain flushes uni t ev) as [[e1|x] t1]; [|exact Logic.I]. unfold same_answer. destruct (is_stream_signal (ev_type e1)).
    + destruct D as (tb & mr & ->). eauto.
    + destruct D as (N' & LN' & E). exists f, N'. split; [lia|]. split; [lia|]. exact E.
  - specialize (G (c :: cs) t ev SA CE SG L). unfold same_answer in *. destruct (text_feed uni t ev (c :: cs)) as [[[e1|x] t1] cs1]; [|exact Logic.I]. destruct (is_stream_signal (ev_type e1)); [exact G|].
    destruct G as (f' & N' & F1 & F2 & E). exists f', N'. split; [exact F1|]. split; [lia|exact E].
Qed.
Lemma next_same f N F m t cs d : sane t -> (flushes <= N)%nat -> (flushes <= S F)%nat ->
  same_answer (Nat.min f F) (Nat.min N (S F)) (S F) m (text_next uni t cs d) (go (S f) N (S F) (m, t) d cs).
Proof.
  intros SA LN LF. unfold text_next. destruct (text_send uni t d) as [[e|x] t1] eqn:TS; [|exact Logic.I]. destruct (sane_send _ _ _ _ _ SA TS) as (SA1 & C1). destruct (is_stream_signal (ev_type e)) eqn:S1.
  - rewrite (send_signal f N (S F) m t d e t1 cs TS C1 S1). pose proof (feed_same F m cs t1 e N SA1 C1 S1 LN LF) as H.
    unfold same_answer in *. destruct (text_feed uni t1 e cs) as [[[e1|x] t2] cs1]; [|exact Logic.I]. destruct (is_stream_signal (ev_type e1)); [exact H|].
    destruct H as (f' & N' & F1 & F2 & E). exists f', N'. split; [lia|]. split; [lia|exact E].
  - rewrite (send_onward f N (S F) m t d e t1 cs TS S1), (feed_event uni t1 e cs S1). unfold same_answer. rewrite S1. exists f, N. split; [lia|]. split; [lia|reflexivity].
Qed.

(** * Over a cursor *)
Lemma skip_after_start m ev m' : mr_step cat m ev = Ok (m', Some DSkip) -> ev_type ev = EContainerStart.
Proof.
  unfold mr_step. intros E. destruct (ms_proc m) as [p|].
  - destruct (is_stream_signal (ev_type ev)); [discriminate|]. apply bind_ok in E. destruct E as (r & L & E). destruct r as [d p'|t]; [|discriminate]. injection E as <- ->.
    unfold lp_step in L. destruct (lp_skip p); [discriminate|]. destruct (ev_type ev) eqn:T; try reflexivity; exfalso; destruct (lp_mode p);
      repeat first [discriminate | apply bind_ok in L; destruct L as (? & _ & L) | match type of L with context [match ?x with _ => _ end] => destruct x end].
  - repeat first [discriminate | match type of E with (let* _ := _ in _) = _ => apply bind_ok in E; destruct E as (? & _ & E) end | match type of E with context [match ?x with _ => _ end] => destruct x end].
Qed.
Definition may_skip (d : devent) (t : treader) (n : Z) : Prop := d = DSkip -> exists r last, t = TAt r last /\ ev_type last = EContainerStart /\ ev_depth last = Some (n - 1).
Definition presents (o : outcome_) (x : answered) : Prop :=
  match o with
  | Yield u m c => exists r e cs n, x = (Ok u, (m, TAt r e), cs) /\ me_ev u = e /\ tserves uni (TAt r e) cs c /\ sane (TAt r e) /\ placed n c
  | Finish => exists t mr cs, x = (Ok (mkme stream_end_event t), mr, cs)
  | Fail e => exists mr cs, x = (Err e, mr, cs)
  end.
Lemma served t cs c n d ev c' : tserves uni t cs c -> sane t -> placed n c -> may_skip d t n -> request c d = Some (ev, c') ->
  exists r' cs' n', text_next uni t cs d = (Ok ev, TAt r' ev, cs') /\ tserves uni (TAt r' ev) cs' c' /\ sane (TAt r' ev) /\ placed n' c' /\ (ev_type ev = EContainerStart -> ev_depth ev = Some (n' - 1)).
Proof.
  intros SV SA PL MS RQ. destruct d as [| |x]; cbn [request] in RQ; [| |discriminate].
  - destruct (tserves_next uni t cs c ev c' SV RQ) as (r' & cs' & E & SV'). destruct (placed_next _ _ _ _ PL RQ) as (n' & PL' & ST). exists r', cs', n'.
    split; [exact E|]. split; [exact SV'|]. split; [exact (proj1 (next_result _ _ _ _ _ _ _ SA E))|]. split; [exact PL'|]. intros T. destruct (ST T) as (D & ->). rewrite D. f_equal. lia.
  - destruct (MS eq_refl) as (r & last & -> & T & D). destruct (tserves_skip uni r last cs c n ev c' SV PL T D RQ) as (r' & cs' & E & SV'). destruct (placed_skip _ _ _ _ PL RQ) as (n' & PL' & ST). exists r', cs', n'.
    split; [exact E|]. split; [exact SV'|]. split; [exact (proj1 (next_result _ _ _ _ _ _ _ SA E))|]. split; [exact PL'|]. congruence.
Qed.
Lemma runs_presents m c d o k : runs cat m c d o k -> forall t cs n f N F, tserves uni t cs c -> sane t -> placed n c -> may_skip d t n ->
  (k <= f)%nat -> (flushes * k <= N)%nat -> (flushes * k <= S F)%nat -> presents o (go f N (S F) (m, t) d cs).
Proof.
  induction 1 as [m c d ev c' m' RQ NS ST|m c d ev c' m' d' o k RQ NS ST R IH|m c d ev c' e RQ NS ST|m c NX]; intros t cs n f N F SV SA PL MS Lf LN LF;
    (destruct f as [|f]; [lia|]); unfold flushes in *.
  1-3: destruct (served t cs c n d ev c' SV SA PL MS RQ) as (r' & cs' & n' & E & SV' & SA' & PL' & SK); pose proof (next_same f N F m t cs d SA ltac:(unfold flushes; lia) ltac:(unfold flushes; lia)) as A; rewrite E in A; unfold same_answer in A; rewrite NS in A;
    destruct A as (f' & N' & Af & AN & ->); unfold onward; rewrite ST; unfold flushes in *.
  - cbn [presents]. exists r', ev, cs', n'. auto.
  - apply (IH (TAt r' ev) cs' n' f' N' F); auto; try lia. intros ->. exists r', ev. pose proof (skip_after_start _ _ _ ST) as T. auto.
  - cbn [presents]. eauto.
  - destruct (tserves_end uni t cs c SV NX) as (t' & cs' & E). pose proof (next_same f N F m t cs DNext SA ltac:(unfold flushes; lia) ltac:(unfold flushes; lia)) as A. rewrite E in A. unfold same_answer in A.
    cbn [stream_end_event ev_type is_stream_signal] in A. exact A.
Qed.

(** * Everything the user sees *)
Lemma text_feeds F us : forall table d rc uc fin t cs n, us = remaining uc -> views cat table d rc uc fin -> tserves uni t cs rc -> sane t -> placed n rc ->
  (flushes * S (cursor_weight rc) <= S F)%nat -> feeds (text_feeder_next (S F) uni cat) ((quiet table, t), cs) us fin.
Proof.
  induction us as [|u us IH]; intros table d rc uc fin t cs n HU V SV SA PL L; pose proof (user_request cat table d rc uc fin DNext V (or_introl eq_refl)) as UR; pose proof (remaining_next uc) as RM;
    (assert (MS : may_skip DNext t n) by (intros X; discriminate X)); cbn [feeds]; unfold text_feeder_next; cbn [fst snd]; rewrite next_go.
  - destruct (cursor_next uc) as [[u uc']|]; [congruence|]. specialize (UR eq_refl). destruct fin as [| |e]; [exact UR| |]; destruct UR as (k & LK & R); pose proof (runs_presents _ _ _ _ _ R t cs n (S F) (S F) F SV SA PL MS ltac:(unfold flushes in *; lia) ltac:(unfold flushes in *; lia) ltac:(unfold flushes in *; lia)) as P; cbn [presents] in P.
    + destruct P as (tb & mr & cs' & ->). eauto.
    + destruct P as (mr & cs' & ->). reflexivity.
  - destruct (cursor_next uc) as [[u' uc']|]; [|congruence]. rewrite RM in HU. injection HU as -> HU. destruct UR as (table' & d' & rc' & k & LK & R & V' & W).
    pose proof (runs_presents _ _ _ _ _ R t cs n (S F) (S F) F SV SA PL MS ltac:(unfold flushes in *; lia) ltac:(unfold flushes in *; lia) ltac:(unfold flushes in *; lia)) as P. cbn [presents] in P.
    destruct P as (r & e & cs' & n' & -> & _ & SV' & SA' & PL'). eexists. split; [reflexivity|]. apply (IH table' d' rc' uc' fin (TAt r e) cs' n'); auto. unfold flushes in *. lia.
Qed.
End OVER.

(** From a text: what the user sees of its trees. *)
Theorem text_view uni cat cs ts sf us fin fuel : pieces cs -> walk uni reader_start (map plain (concat cs) ++ [Eof]) (flat_map flatten ts) sf [] -> finished sf -> Forall (shaped 0) ts ->
  user_view cat system_table ts = (us, fin) -> (flushes * S (weights ts) <= fuel)%nat ->
  feeds (text_feeder_next fuel uni cat) (tmreader_new, cs) (flat_map flatten us) fin.
Proof.
  intros P W F SH UV L. destruct fuel as [|fuel]; [unfold flushes in L; lia|].
  assert (NS : Forall nonsignal (flat_map flatten ts)).
  { apply Forall_flat_map. apply Forall_forall. intros t I. rewrite Forall_forall in SH. eapply nonsignal_app. exact (shaped_passed (-1) t 0 (SH t I) ltac:(lia)). }
  assert (RM : remaining (mkcur ts []) = flat_map flatten ts) by (unfold remaining; cbn [c_here c_open flat_map]; apply app_nil_r).
  apply (text_feeds uni cat fuel (flat_map flatten us) system_table 0 (mkcur ts []) (mkcur us []) fin text_reader_new cs 0).
  - unfold remaining. cbn [c_here c_open flat_map]. symmetry. apply app_nil_r.
  - constructor; assumption.
  - eapply ts_new; [exact P|rewrite RM; exact W|exact F|rewrite RM; exact NS].
  - exact sane_new.
  - constructor. exact SH.
  - unfold cursor_weight. cbn [c_here c_open fold_right]. rewrite Nat.add_0_r. exact L.
Qed.
