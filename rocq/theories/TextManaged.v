(** The managed reader over the text reader, for events it hands on. *)
From Verif Require Import Base BaseFacts CoreModel BinWriterModel BinReaderModel SymbolsModel ManagedModel ManagedReaderFacts MultimapModel SimpleionModel SimpleionProofs TextWriterModel
  TextReaderModel TextReaderFacts TextReaderNest TextReaderChunks TextReaderErrors TextReaderTrace TextValueModel.
Local Open Scope Z_scope.

Definition constant (e : event) : Prop := is_stream_signal (ev_type e) = true -> e = stream_end_event \/ e = incomplete_event.
Definition sane (t : treader) : Prop := exists fl last st, state_ok fl last t st /\ has_depth (match last with Some e => e | None => stream_end_event end).
Lemma sane_new : sane text_reader_new.
Proof. exists false, None, []. split; [repeat split|]. intros E. discriminate E. Qed.
Lemma sane_send uni t d e t' : sane t -> text_send uni t d = (Ok e, t') -> sane t' /\ constant e.
Proof.
  intros (fl & last & st & SO & HD) E.
  destruct (send_state uni fl last t st d e t' SO) as (st1 & st' & SO' & TN & _); [|exact E|].
  - intros S. destruct last as [l|]; [apply HD; exact S|discriminate].
  - split.
    + exists (fl || flush_request last d), (Some e), st'. split; [exact SO'|]. intros S. destruct (new_event_depth _ _ _ _ TN S) as (n & N & _). eauto.
    + intros S. destruct TN; try discriminate S; auto.
Qed.

Section OVER.
Variable uni : bool.
Variable cat : catalog.
Variable m : mstate.
Let tag (e : event) : mevent := mkme e (ms_table m).
Definition handed_on (e : event) : Prop := mr_step cat m e = Ok (m, None).
Lemma signal_on e : constant e -> is_stream_signal (ev_type e) = true -> handed_on e.
Proof. intros C S. apply signal_step. destruct (C S); auto. Qed.

Lemma send_on f t d e t' : text_send uni t d = (Ok e, t') -> handed_on e -> tmreader_send (S f) uni cat (m, t) d = (Ok (tag e), (m, t')).
Proof. intros E H. cbn [tmreader_send fst snd]. rewrite E, H. reflexivity. Qed.

(** An event handed on, or the end. *)
Definition shown (e : event) : Prop := e = stream_end_event \/ is_stream_signal (ev_type e) = false /\ handed_on e.
Lemma drain_on f : forall n t ev ev' t' N, sane t -> constant ev -> text_drain n uni t ev = (Ok ev', t') -> shown ev' -> (n <= N)%nat ->
  tm_drain N (S f) uni cat (m, t) (tag ev) = (Ok (tag ev'), (m, t')).
Proof.
  induction n as [|n IH]; intros t ev ev' t' N SA CE E SH LE; cbn [text_drain] in E; destruct N as [|N]; cbn [tm_drain tag me_ev me_table];
    (destruct (is_stream_signal (ev_type ev)) eqn:S; [|injection E as -> ->; try rewrite S; reflexivity]); destruct (CE S) as [-> | ->]; cbn [stream_end_event incomplete_event ev_type is_stream_signal] in *;
    try discriminate; try (injection E as <- <-; reflexivity); try lia.
  destruct (text_send uni t DNext) as [[e1|x] t1] eqn:TS; [|discriminate]. destruct (sane_send _ _ _ _ _ SA TS) as (SA1 & C1).
  assert (H1 : handed_on e1).
  { destruct (is_stream_signal (ev_type e1)) eqn:S1; [apply signal_on; assumption|]. assert (e1 = ev') as -> by (destruct n; cbn [text_drain] in E; rewrite S1 in E; injection E as -> _; reflexivity).
    destruct SH as [->|[_ H]]; [discriminate S1|exact H]. }
  rewrite (send_on f _ _ _ _ TS H1). apply (IH t1 e1); try assumption. lia.
Qed.
Lemma feed_on f : forall cs t ev ev' t' cs', sane t -> constant ev -> text_feed uni t ev cs = (Ok ev', t', cs') -> shown ev' -> (2 <= f)%nat ->
  tm_feed (S f) uni cat (m, t) (tag ev) cs = (Ok (tag ev'), (m, t'), cs').
Proof.
  induction cs as [|c cs IH]; intros t ev ev' t' cs' SA CE E SH LE; cbn [text_feed tm_feed tag me_ev me_table] in *; destruct (is_stream_signal (ev_type ev)) eqn:S;
    try (injection E as <- <- <-; reflexivity).
  - destruct (text_drain flushes uni t ev) as [x t1] eqn:D. injection E as -> -> <-. fold (tag ev). rewrite (drain_on f flushes t ev ev' t' (Datatypes.S f) SA CE D SH); [reflexivity|unfold flushes; lia].
  - destruct (text_send uni t (DData c)) as [[e1|x] t1] eqn:TS; [|discriminate]. destruct (sane_send _ _ _ _ _ SA TS) as (SA1 & C1).
    assert (H1 : handed_on e1).
    { destruct (is_stream_signal (ev_type e1)) eqn:S1; [apply signal_on; assumption|]. assert (e1 = ev') as -> by (destruct cs; cbn [text_feed] in E; rewrite S1 in E; injection E as -> _; reflexivity).
      destruct SH as [->|[_ H]]; [discriminate S1|exact H]. }
    rewrite (send_on f _ _ _ _ TS H1). apply (IH t1 e1); assumption.
Qed.
Lemma next_on f t cs ev t' cs' : sane t -> text_next uni t cs DNext = (Ok ev, t', cs') -> shown ev -> (2 <= f)%nat ->
  tm_next (S f) uni cat (m, t) cs DNext = (Ok (tag ev), (m, t'), cs').
Proof.
  intros SA E SH LE. unfold text_next in E. destruct (text_send uni t DNext) as [[e1|x] t1] eqn:TS; [|discriminate]. destruct (sane_send _ _ _ _ _ SA TS) as (SA1 & C1).
  assert (H1 : handed_on e1).
  { destruct (is_stream_signal (ev_type e1)) eqn:S1; [apply signal_on; assumption|]. assert (e1 = ev) as -> by (destruct cs; cbn [text_feed] in E; rewrite S1 in E; injection E as -> _; reflexivity).
    destruct SH as [->|[_ H]]; [discriminate S1|exact H]. }
  unfold tm_next. rewrite (send_on f _ _ _ _ TS H1). apply feed_on; assumption.
Qed.
End OVER.

(** An event answered by a request for the next one: the version marker. *)
Section SWALLOW.
Variable uni : bool.
Variable cat : catalog.
Variables m m1 : mstate.
Let tag (e : event) : mevent := mkme e (ms_table m1).
Variable f : nat.
Hypothesis enough : (8 <= f)%nat.
Variable mark : event.
Hypothesis mark_event : is_stream_signal (ev_type mark) = false.
Hypothesis swallowed : mr_step cat m mark = Ok (m1, Some DNext).

Definition continue (r : res mevent * tmreader) (cs : list (list Z)) : res mevent * tmreader * list (list Z) :=
  match r with (Ok u, t) => tm_feed (S f) uni cat t u cs | (Err e, t) => (Err e, t, cs) end.
Lemma marked_send k t d t' : text_send uni t d = (Ok mark, t') -> tmreader_send (S k) uni cat (m, t) d = tmreader_send k uni cat (m1, t') DNext.
Proof. intros E. cbn [tmreader_send fst snd]. rewrite E, swallowed. reflexivity. Qed.
(** The first answer after the marker. *)
Lemma after_mark k t cs ev t' cs' : (1 <= k)%nat -> sane t -> text_next uni t cs DNext = (Ok ev, t', cs') -> shown cat m1 ev ->
  exists e1 t1, tmreader_send k uni cat (m1, t) DNext = (Ok (tag e1), (m1, t1)) /\ sane t1 /\ constant e1 /\ text_feed uni t1 e1 cs = (Ok ev, t', cs').
Proof.
  intros K SA E SH. unfold text_next in E. destruct (text_send uni t DNext) as [[e1|x] t1] eqn:TS; [|discriminate]. destruct (sane_send _ _ _ _ _ SA TS) as (SA1 & C1).
  assert (H1 : handed_on cat m1 e1).
  { destruct (is_stream_signal (ev_type e1)) eqn:S1; [apply signal_on; assumption|]. assert (e1 = ev) as -> by (destruct cs; cbn [text_feed] in E; rewrite S1 in E; injection E as -> _; reflexivity).
    destruct SH as [->|[_ H]]; [discriminate S1|exact H]. }
  exists e1, t1. destruct k as [|k]; [lia|]. split; [apply send_on; assumption|]. auto.
Qed.
Lemma drain_mark ev t' : shown cat m1 ev -> forall n t e0 tm N, sane t -> constant e0 -> text_drain n uni t e0 = (Ok mark, tm) -> text_next uni tm [] DNext = (Ok ev, t', []) -> is_stream_signal (ev_type e0) = true ->
  (n + 3 <= N)%nat -> tm_drain N (S f) uni cat (m, t) (mkme e0 (ms_table m)) = (Ok (tag ev), (m1, t')).
Proof.
  intros SH. induction n as [|n IH]; intros t e0 tm N SA CE E NX S LE; cbn [text_drain] in E; rewrite S in E; destruct (CE S) as [-> | ->]; cbn [stream_end_event incomplete_event ev_type is_stream_signal] in *;
    try discriminate; try (injection E as <- <-; discriminate mark_event); try lia.
  destruct N as [|N]; [lia|]. cbn [tm_drain me_ev me_table incomplete_event ev_type is_stream_signal].
  destruct (text_send uni t DNext) as [[e1|x] t1] eqn:TS; [|discriminate]. destruct (sane_send _ _ _ _ _ SA TS) as (SA1 & C1).
  destruct (is_stream_signal (ev_type e1)) eqn:S1.
  - rewrite (send_on _ _ _ f _ _ _ _ TS (signal_on _ _ _ C1 S1)). apply (IH t1 e1 tm); try assumption. lia.
  - assert (e1 = mark /\ t1 = tm) as (-> & ->) by (destruct n; cbn [text_drain] in E; rewrite S1 in E; injection E as -> ->; auto).
    rewrite (marked_send f _ _ _ TS). destruct (after_mark f tm [] ev t' [] ltac:(lia) SA1 NX SH) as (e2 & t2 & -> & SA2 & C2 & FE).
    destruct (is_stream_signal (ev_type e2)) eqn:S2.
    + cbn [text_feed] in FE. rewrite S2 in FE. destruct (text_drain flushes uni t2 e2) as [x t3] eqn:D. injection FE as -> ->. apply (drain_on uni cat m1 f flushes); try assumption. unfold flushes. lia.
    + cbn [text_feed] in FE. rewrite S2 in FE. injection FE as -> ->. destruct N; cbn [tm_drain tag me_ev]; rewrite S2; reflexivity.
Qed.
Lemma feed_mark ev t' cs' : shown cat m1 ev -> forall cs t e0 tm csm, sane t -> constant e0 -> text_feed uni t e0 cs = (Ok mark, tm, csm) -> text_next uni tm csm DNext = (Ok ev, t', cs') -> is_stream_signal (ev_type e0) = true ->
  tm_feed (S f) uni cat (m, t) (mkme e0 (ms_table m)) cs = (Ok (tag ev), (m1, t'), cs').
Proof.
  intros SH. induction cs as [|c cs IH]; intros t e0 tm csm SA CE E NX S; cbn [text_feed tm_feed me_ev me_table] in *; rewrite S in *.
  - destruct (text_drain flushes uni t e0) as [x tx] eqn:D. injection E as -> -> <-.
    assert (cs' = []) as ->. { unfold text_next in NX. destruct (text_send uni tm DNext) as [[e1|y] t1]; [|discriminate]. cbn [text_feed] in NX. destruct (is_stream_signal (ev_type e1)); [destruct (text_drain flushes uni t1 e1)|]; injection NX as _ _ <-; reflexivity. }
    rewrite (drain_mark ev t' SH flushes t e0 tm (Datatypes.S f)); try assumption; [reflexivity|unfold flushes; lia].
  - destruct (text_send uni t (DData c)) as [[e1|x] t1] eqn:TS; [|discriminate]. destruct (sane_send _ _ _ _ _ SA TS) as (SA1 & C1).
    destruct (is_stream_signal (ev_type e1)) eqn:S1.
    + rewrite (send_on _ _ _ f _ _ _ _ TS (signal_on _ _ _ C1 S1)). apply (IH t1 e1 tm csm); assumption.
    + assert (e1 = mark /\ t1 = tm /\ cs = csm) as (-> & -> & ->) by (destruct cs; cbn [text_feed] in E; rewrite S1 in E; injection E as -> -> <-; auto).
      rewrite (marked_send f _ _ _ TS). destruct (after_mark f tm csm ev t' cs' ltac:(lia) SA1 NX SH) as (e2 & t2 & -> & SA2 & C2 & FE).
      apply (feed_on uni cat m1 f csm t2 e2); try assumption. lia.
Qed.
Lemma next_mark t cs tm csm ev t' cs' : sane t -> text_next uni t cs DNext = (Ok mark, tm, csm) -> text_next uni tm csm DNext = (Ok ev, t', cs') -> shown cat m1 ev ->
  tm_next (S f) uni cat (m, t) cs DNext = (Ok (tag ev), (m1, t'), cs').
Proof.
  intros SA E NX SH. unfold text_next in E. destruct (text_send uni t DNext) as [[e1|x] t1] eqn:TS; [|discriminate]. destruct (sane_send _ _ _ _ _ SA TS) as (SA1 & C1). unfold tm_next.
  destruct (is_stream_signal (ev_type e1)) eqn:S1.
  - rewrite (send_on _ _ _ f _ _ _ _ TS (signal_on _ _ _ C1 S1)). eapply feed_mark; eassumption.
  - assert (e1 = mark /\ t1 = tm /\ cs = csm) as (-> & -> & ->) by (destruct cs; cbn [text_feed] in E; rewrite S1 in E; injection E as -> -> <-; auto).
    rewrite (marked_send f _ _ _ TS). destruct (after_mark f tm csm ev t' cs' ltac:(lia) SA1 NX SH) as (e2 & t2 & -> & SA2 & C2 & FE).
    apply (feed_on uni cat m1 f csm t2 e2); try assumption. lia.
Qed.
End SWALLOW.

(** Sessions of NEXT requests. *)
Lemma drain_result uni : forall n t e e' t', sane t -> constant e -> text_drain n uni t e = (Ok e', t') -> sane t' /\ (is_stream_signal (ev_type e') = true -> e' = stream_end_event).
Proof.
  induction n as [|n IH]; intros t e e' t' SA CE E; cbn [text_drain] in E; (destruct (is_stream_signal (ev_type e)) eqn:S; [|injection E as <- <-; rewrite S; split; [exact SA|discriminate]]);
    destruct (CE S) as [-> | ->]; cbn [stream_end_event incomplete_event ev_type is_stream_signal] in *; try discriminate; try (injection E as <- <-; auto).
  destruct (text_send uni t DNext) as [[e1|x] t1] eqn:TS; [|discriminate]. destruct (sane_send _ _ _ _ _ SA TS) as (SA1 & C1). exact (IH t1 e1 e' t' SA1 C1 E).
Qed.
Lemma feed_result uni : forall cs t e e' t' cs', sane t -> constant e -> text_feed uni t e cs = (Ok e', t', cs') -> sane t' /\ (is_stream_signal (ev_type e') = true -> e' = stream_end_event).
Proof.
  induction cs as [|c cs IH]; intros t e e' t' cs' SA CE E; cbn [text_feed] in E; (destruct (is_stream_signal (ev_type e)) eqn:S; [|injection E as <- <- <-; rewrite S; split; [exact SA|discriminate]]).
  - destruct (text_drain flushes uni t e) as [x t1] eqn:D. injection E as -> -> <-. exact (drain_result _ _ _ _ _ _ SA CE D).
  - destruct (text_send uni t (DData c)) as [[e1|x] t1] eqn:TS; [|discriminate]. destruct (sane_send _ _ _ _ _ SA TS) as (SA1 & C1). exact (IH t1 e1 e' t' cs' SA1 C1 E).
Qed.
Lemma next_result uni t cs d e' t' cs' : sane t -> text_next uni t cs d = (Ok e', t', cs') -> sane t' /\ (is_stream_signal (ev_type e') = true -> e' = stream_end_event).
Proof.
  intros SA E. unfold text_next in E. destruct (text_send uni t d) as [[e1|x] t1] eqn:TS; [|discriminate]. destruct (sane_send _ _ _ _ _ SA TS) as (SA1 & C1). exact (feed_result _ _ _ _ _ _ _ SA1 C1 E).
Qed.

Definition value_event (cat : catalog) (m : mstate) (e : event) : Prop := is_stream_signal (ev_type e) = false /\ handed_on cat m e.
Lemma session_first uni t cs e evs n : text_session uni t cs (repeat DNext (S n)) = (e :: evs, SEnd) -> exists t' cs', text_next uni t cs DNext = (Ok e, t', cs') /\ text_session uni t' cs' (repeat DNext n) = (evs, SEnd).
Proof.
  cbn [repeat text_session]. destruct (text_next uni t cs DNext) as [[[ev|x] t'] cs'] eqn:N; [|discriminate]. destruct (text_session uni t' cs' (repeat DNext n)) as [evs' st] eqn:R.
  intros H. assert (ev = e /\ evs' = evs /\ st = SEnd) as (-> & -> & ->) by (destruct (ev_type ev); try discriminate; injection H as -> -> ->; auto). eauto.
Qed.
Lemma session_last uni t cs n : sane t -> text_session uni t cs (repeat DNext (S n)) = ([], SEnd) -> exists t' cs', text_next uni t cs DNext = (Ok stream_end_event, t', cs').
Proof.
  intros SA. cbn [repeat text_session]. destruct (text_next uni t cs DNext) as [[[ev|x] t'] cs'] eqn:N; [|discriminate]. destruct (text_session uni t' cs' (repeat DNext n)) as [evs' st] eqn:R.
  intros H. assert (T : ev_type ev = EStreamEnd) by (destruct (ev_type ev); try discriminate; reflexivity). destruct (next_result _ _ _ _ _ _ _ SA N) as (_ & C). rewrite T in C. rewrite (C eq_refl). eauto.
Qed.
Lemma session_on uni cat m f evs : (2 <= f)%nat -> forall t cs, sane t -> text_session uni t cs (repeat DNext (length evs + 1)) = (evs, SEnd) -> Forall (value_event cat m) evs ->
  serves (text_feeder_next (S f) uni cat) ((m, t), cs) (map (fun e => mkme e (ms_table m)) evs).
Proof.
  intros LE. induction evs as [|e evs IH]; intros t cs SA E V; cbn [map serves].
  - cbn [length plus] in E. destruct (session_last _ _ _ _ SA E) as (t' & cs' & N). exists (mkme stream_end_event (ms_table m)), ((m, t'), cs'). split; [|reflexivity].
    unfold text_feeder_next. cbn [fst snd]. rewrite (next_on uni cat m f t cs stream_end_event t' cs' SA N (or_introl eq_refl) LE). reflexivity.
  - cbn [length plus] in E. destruct (session_first _ _ _ _ _ _ E) as (t' & cs' & N & R). exists ((m, t'), cs'). inversion V as [|? ? V1 V2]; subst. split.
    + unfold text_feeder_next. cbn [fst snd]. rewrite (next_on uni cat m f t cs e t' cs' SA N (or_intror V1) LE). reflexivity.
    + apply IH; [exact (proj1 (next_result _ _ _ _ _ _ _ SA N))|exact R|exact V2].
Qed.
Lemma session_mark uni cat m m1 f mark evs : (8 <= f)%nat -> is_stream_signal (ev_type mark) = false -> mr_step cat m mark = Ok (m1, Some DNext) -> forall t cs, sane t ->
  text_session uni t cs (repeat DNext (S (length evs + 1))) = (mark :: evs, SEnd) -> Forall (value_event cat m1) evs ->
  serves (text_feeder_next (S f) uni cat) ((m, t), cs) (map (fun e => mkme e (ms_table m1)) evs).
Proof.
  intros LE ME SW t cs SA E V. destruct (session_first _ _ _ _ _ _ E) as (tm & csm & N & R). pose proof (proj1 (next_result _ _ _ _ _ _ _ SA N)) as SM. destruct evs as [|e evs]; cbn [map serves].
  - cbn [length plus] in R. destruct (session_last _ _ _ _ SM R) as (t' & cs' & N'). exists (mkme stream_end_event (ms_table m1)), ((m1, t'), cs'). split; [|reflexivity].
    unfold text_feeder_next. cbn [fst snd]. rewrite (next_mark uni cat m m1 f LE mark ME SW t cs tm csm stream_end_event t' cs' SA N N' (or_introl eq_refl)). reflexivity.
  - cbn [length plus] in R. destruct (session_first _ _ _ _ _ _ R) as (t' & cs' & N' & R'). inversion V as [|? ? V1 V2]; subst. exists ((m1, t'), cs'). split.
    + unfold text_feeder_next. cbn [fst snd]. rewrite (next_mark uni cat m m1 f LE mark ME SW t cs tm csm e t' cs' SA N N' (or_intror V1)). reflexivity.
    + apply session_on; [lia|exact (proj1 (next_result _ _ _ _ _ _ _ SM N'))|exact R'|exact V2].
Qed.
