(** Loading Ion text ends: used for C79. *)
From Verif Require Import Base BaseFacts CoreModel BinWriterModel BinReaderModel SymbolsModel SymbolsProofs ManagedModel Cursor ManagedReaderFacts MultimapModel SimpleionModel TextNumbers TextWriterModel TextReaderModel TextReaderFacts TextReaderNest TextReaderChunks TextReaderErrors TextReaderTrace TextValueModel TextValuesKept TextManaged TextServes TextManagedReads Props_BinLoadErrors Props_TextLoadErrors TextEnds TextFinish.
Local Open Scope Z_scope.
Local Open Scope list_scope.

(** * Events that open a symbol table *)
Definition opens_table (e : event) : Prop :=
  ev_type e = EContainerStart /\ ev_ion_type e = Some TStruct /\ ev_depth e = Some 0 /\
  exists a l, ev_annot e = a :: l /\ (tk_text a = Some TEXT_ION_SYMBOL_TABLE \/ (tk_text a = None /\ tk_sid a = Some 3)).

Lemma is_text_eq (t : option text) x : ManagedModel.is_text t x = true -> t = Some x.
Proof. destruct t as [t|]; [|discriminate]. cbn. intros H. apply zlist_eqb_eq in H. now subst. Qed.
Lemma system_sid s t : get_sid system_table s None = Some t -> tk_text t = Some TEXT_ION_SYMBOL_TABLE -> s = 3.
Proof.
  unfold get_sid. intros H E. destruct (s =? 0) eqn:Z0; [injection H as <-; discriminate E|]. apply Z.eqb_neq in Z0.
  destruct (s - 1 <? 0) eqn:LO; [discriminate|]. apply Z.ltb_ge in LO. cbn [orb] in H. destruct (zlen (st_syms system_table) <? s) eqn:HI; [discriminate|]. apply Z.ltb_ge in HI.
  change (zlen (st_syms system_table)) with 9 in HI. assert (D : s = 1 \/ s = 2 \/ s = 3 \/ s = 4 \/ s = 5 \/ s = 6 \/ s = 7 \/ s = 8 \/ s = 9) by lia.
  repeat (destruct D as [-> |D]; [try reflexivity; exfalso; cbn in H; injection H as <-; discriminate E|]). subst s. exfalso; cbn in H; injection H as <-; discriminate E.
Qed.
Lemma system_name a r : resolve_token system_table a = Ok r -> ManagedModel.is_text (tk_text r) TEXT_ION_SYMBOL_TABLE = true ->
  tk_text a = Some TEXT_ION_SYMBOL_TABLE \/ (tk_text a = None /\ tk_sid a = Some 3).
Proof.
  unfold resolve_token. intros E I. apply is_text_eq in I. destruct (tk_text a) as [x|] eqn:T; [injection E as <-; left; rewrite <- T; exact I|]. right. split; [reflexivity|].
  destruct (tk_sid a) as [s|]; [|discriminate]. destruct (get_sid system_table s None) as [t|] eqn:G; [|discriminate]. injection E as <-. now rewrite (system_sid _ _ G I).
Qed.
(** Until such an event comes the managed reader keeps the system table. *)
Lemma quiet_steps cat e m' o : mr_step cat mstate_new e = Ok (m', o) -> ~ opens_table e -> m' = mstate_new /\ (o = None \/ o = Some DNext).
Proof.
  intros E N. destruct (ev_depth e) as [[|p|p]|] eqn:D; unfold mr_step in E; cbn [ms_proc mstate_new] in E; rewrite D in E; try (injection E as <- <-; auto).
  destruct (ev_type e) eqn:T.
  all: try (destruct (is_version_1_0 e); [injection E as <- <-; now auto|discriminate]).
  all: try (destruct (ev_ion_type e) as [[]|] eqn:I; destruct (ev_annot e) as [|a l] eqn:A; try (injection E as <- <-; now auto);
    try (destruct (symbol_value e) as [[t|]|x]; cbn [bind] in E; [|injection E as <- <-; now auto|discriminate];
         destruct (resolve_token (ms_table mstate_new) t) as [r|x]; cbn [bind] in E; [|discriminate]; destruct (ManagedModel.is_text _ _); injection E as <- <-; now auto)).
  destruct (resolve_token _ a) as [r|x] eqn:R; cbn [bind] in E; [|discriminate]. destruct (ManagedModel.is_text (tk_text r) TEXT_ION_SYMBOL_TABLE) eqn:X; [|injection E as <- <-; now auto].
  exfalso. apply N. repeat split; auto. exists a, l. split; [exact A|]. exact (system_name _ _ R X).
Qed.

(** * What the text reader still answers: [n] requests at most, no symbol table *)
Fixpoint ending (uni : bool) (n : nat) (t : treader) (cs : list (list Z)) : Prop :=
  match n with
  | O => False
  | S n => match text_next uni t cs DNext with
           | (Ok e, t', cs') => ev_type e = EStreamEnd \/ (~ opens_table e /\ ending uni n t' cs')
           | (Err x, _, _) => x <> OutOfFuel
           end
  end.
Lemma session_ending uni n : forall t cs, snd (text_session uni t cs (repeat DNext n)) <> SMore -> snd (text_session uni t cs (repeat DNext n)) <> SExc OutOfFuel ->
  (forall e, In e (fst (text_session uni t cs (repeat DNext n))) -> ~ opens_table e) -> ending uni n t cs.
Proof.
  induction n as [|n IH]; intros t cs A B C; [exact (A eq_refl)|]. cbn [repeat text_session ending] in *. destruct (text_next uni t cs DNext) as [[[e|x] t'] cs']; [|intros ->; apply B; reflexivity].
  specialize (IH t' cs'). destruct (text_session uni t' cs' (repeat DNext n)) as [evs st].
  destruct (ev_type e) eqn:T; try (now left); right; (split; [apply C; now left|apply IH; [exact A|exact B|intros e' I; apply C; now right]]).
Qed.

Section OVER.
Variables (uni : bool) (cat : catalog).
Hypothesis NC : no_empty_name cat.
Notation go := (go uni cat).
Notation finish := (finish uni cat).
Notation onward := (onward uni cat).

(** ** Errors of the text reader reach the user *)
Lemma drain_fails f m e t2 : e <> OutOfFuel -> forall n t ev N, sane t -> constant ev -> is_stream_signal (ev_type ev) = true -> (n <= N)%nat ->
  text_drain n uni t ev = (Err e, t2) -> fst (tm_drain N (S f) uni cat (m, t) (mkme ev (ms_table m))) = Err e.
Proof.
  intros NE. induction n as [|n IH]; intros t ev N SA CE SG L E; destruct (CE SG) as [-> | ->]; cbn [text_drain stream_end_event incomplete_event ev_type is_stream_signal] in E; try discriminate.
  - congruence.
  - destruct N as [|N]; [lia|]. cbn [tm_drain me_ev incomplete_event ev_type is_stream_signal]. cbn [tmreader_send fst snd]. destruct (text_send uni t DNext) as [[e1|x] t1] eqn:TS; [|injection E as -> ->; reflexivity].
    destruct (sane_send _ _ _ _ _ SA TS) as (SA1 & C1). destruct (is_stream_signal (ev_type e1)) eqn:S1.
    + rewrite (signal_step cat m e1 (C1 S1)). apply (IH t1 e1); auto. lia.
    + replace (text_drain n uni t1 e1) with (Ok e1, t1) in E by (destruct n; cbn [text_drain]; rewrite S1; reflexivity). discriminate.
Qed.
Lemma feed_fails f m e t2 cs2 : e <> OutOfFuel -> (flushes <= S f)%nat -> forall cs t ev N, sane t -> constant ev -> is_stream_signal (ev_type ev) = true -> (flushes <= N)%nat ->
  text_feed uni t ev cs = (Err e, t2, cs2) -> fst (fst (finish N (S f) (m, t) (mkme ev (ms_table m)) cs)) = Err e.
Proof.
  intros NE L. assert (G : forall cs t ev, sane t -> constant ev -> is_stream_signal (ev_type ev) = true ->
    text_feed uni t ev cs = (Err e, t2, cs2) -> fst (fst (tm_feed (S f) uni cat (m, t) (mkme ev (ms_table m)) cs)) = Err e).
  { induction cs as [|c cs IH]; intros t ev SA CE SG E; cbn [text_feed tm_feed me_ev] in *; rewrite SG in *.
    - destruct (text_drain flushes uni t ev) as [x t'] eqn:D. injection E as -> -> <-. pose proof (drain_fails f m e t2 NE flushes t ev (S f) SA CE SG L D) as R. destruct (tm_drain _ _ _ _ _ _) as [y t3]. exact R.
    - destruct (text_send uni t (DData c)) as [[e1|x] t1] eqn:TS.
      + destruct (sane_send _ _ _ _ _ SA TS) as (SA1 & C1). change (match tmreader_send (S f) uni cat (m, t) (DData c) with (Ok ev2, mrA) => tm_feed (S f) uni cat mrA ev2 cs | (Err e2, mrB) => (Err e2, mrB, cs) end) with (tm_next (S f) uni cat (m, t) cs (DData c)). rewrite next_go.
        destruct (is_stream_signal (ev_type e1)) eqn:S1.
        * rewrite (send_signal uni cat f (S f) (S f) m t (DData c) e1 t1 cs TS C1 S1). rewrite <- feed_finish. exact (IH t1 e1 SA1 C1 S1 E).
        * rewrite (feed_event uni t1 e1 cs S1) in E. discriminate.
      + injection E as -> -> ->. cbn [tmreader_send fst snd]. rewrite TS. reflexivity. }
  intros cs t ev N SA CE SG LN E. unfold TextManagedReads.finish. destruct cs as [|c cs]; [|exact (G _ _ _ SA CE SG E)].
  cbn [text_feed] in E. rewrite SG in E. destruct (text_drain flushes uni t ev) as [x t'] eqn:D. injection E as -> -> <-. pose proof (drain_fails f m e t2 NE flushes t ev N SA CE SG LN D) as R. destruct (tm_drain _ _ _ _ _ _) as [y t3]. exact R.
Qed.
Lemma next_fails f N F m t cs d e t2 cs2 : sane t -> (flushes <= N)%nat -> (flushes <= S F)%nat -> e <> OutOfFuel ->
  text_next uni t cs d = (Err e, t2, cs2) -> fst (fst (go (S f) N (S F) (m, t) d cs)) = Err e.
Proof.
  intros SA LN LF NE E. unfold text_next in E. destruct (text_send uni t d) as [[e1|x] t1] eqn:TS.
  - destruct (sane_send _ _ _ _ _ SA TS) as (SA1 & C1). destruct (is_stream_signal (ev_type e1)) eqn:S1.
    + rewrite (send_signal uni cat f N (S F) m t d e1 t1 cs TS C1 S1). exact (feed_fails F m e t2 cs2 NE LF cs t1 e1 N SA1 C1 S1 LN E).
    + rewrite (feed_event uni t1 e1 cs S1) in E. discriminate.
  - injection E as -> -> ->. unfold TextManagedReads.go. cbn [tmreader_send fst snd]. rewrite TS. reflexivity.
Qed.

(** ** Facts about one raw request *)
Lemma next_kept t cs d e t' cs' : alive t -> text_next uni t cs d = (Ok e, t', cs') -> alive t' /\ kept e.
Proof.
  assert (D : forall n t ev e t', alive t -> kept ev -> text_drain n uni t ev = (Ok e, t') -> alive t' /\ kept e).
  { induction n as [|n IH]; intros t0 ev e0 t0' A K E; cbn [text_drain] in E; (destruct (is_stream_signal (ev_type ev)) eqn:SG; [|injection E as <- <-; split; assumption]); destruct (ev_type ev) eqn:T; try discriminate SG; try discriminate E; try (injection E as <- <-; split; [exact A|exact Logic.I]).
    pose proof (send_listed uni t0 DNext A) as S. destruct (text_send uni t0 DNext) as [[e1|x] t1]; [|discriminate]. destruct S as (A1 & K1). exact (IH _ _ _ _ A1 K1 E). }
  assert (G : forall l0 t ev e t' cs', alive t -> kept ev -> text_feed uni t ev l0 = (Ok e, t', cs') -> alive t' /\ kept e).
  { induction l0 as [|c l IH]; intros t0 ev e0 t0' l' A K E; cbn [text_feed] in E; (destruct (is_stream_signal (ev_type ev)) eqn:SG; [|injection E as <- <- <-; split; assumption]).
    - destruct (text_drain flushes uni t0 ev) as [x t1] eqn:X. injection E as -> -> <-. exact (D _ _ _ _ _ A K X).
    - pose proof (send_listed uni t0 (DData c) A) as S. destruct (text_send uni t0 (DData c)) as [[e1|x] t1]; [|discriminate]. destruct S as (A1 & K1). exact (IH _ _ _ _ _ A1 K1 E). }
  intros A E. unfold text_next in E. pose proof (send_listed uni t d A) as S. destruct (text_send uni t d) as [[e1|x] t1]; [|discriminate]. destruct S as (A1 & K1). exact (G _ _ _ _ _ _ A1 K1 E).
Qed.
Lemma exception_settled x : text_load_exception x -> x <> OutOfFuel.
Proof. intros H ->. exact H. Qed.

(** ** One request of the managed reader *)
Definition well (t : treader) : Prop := sane t /\ alive t.
Definition runs_on (n : nat) (mr : tmreader) (cs : list (list Z)) : Prop := fst mr = mstate_new /\ well (snd mr) /\ ending uni n (snd mr) cs.
Definition answers_with (n : nat) (a : res mevent * tmreader * list (list Z)) : Prop :=
  match a with
  | (Ok u, mr, cs) => ev_type (me_ev u) = EStreamEnd \/ (exists n', (n' < n)%nat /\ runs_on n' mr cs)
  | (Err x, _, _) => x <> OutOfFuel
  end.
Lemma request_answers : forall n t cs f N F, well t -> ending uni n t cs -> (n <= f)%nat -> (n <= F)%nat -> (flushes * n <= N)%nat -> (flushes * n <= S F)%nat ->
  answers_with n (go f N (S F) (mstate_new, t) DNext cs).
Proof.
  induction n as [|n IH]; intros t cs f N F (SA & AL) E Lf LF LN LS; [contradiction|]. destruct f as [|f]; [lia|]. cbn [ending] in E. unfold flushes in *.
  pose proof (next_same uni cat f N F mstate_new t cs DNext SA ltac:(unfold flushes; lia) ltac:(unfold flushes; lia)) as R.
  pose proof (fun e t2 cs2 => next_fails f N F mstate_new t cs DNext e t2 cs2 SA ltac:(unfold flushes; lia) ltac:(unfold flushes; lia)) as X.
  destruct (text_next uni t cs DNext) as [[[e|x] t'] cs'] eqn:TN.
  - unfold same_answer in R. destruct (next_result _ _ _ _ _ _ _ SA TN) as (SA' & SE). destruct (next_kept _ _ _ _ _ _ AL TN) as (AL' & K). destruct (is_stream_signal (ev_type e)) eqn:SG.
    + destruct R as (tb & mr & cs2 & ->). left. reflexivity.
    + destruct E as [E|(NT & E)]; [rewrite E in SG; discriminate|]. destruct R as (f' & N' & F1 & F2 & ->). unfold TextManagedReads.onward. unfold flushes in *.
      pose proof (listed_mr cat mstate_new e NC K) as LM. destruct (mr_step cat mstate_new e) as [[m' o]|x] eqn:ST; [|exact (exception_settled _ LM)].
      destruct (quiet_steps _ _ _ _ ST NT) as (-> & [-> | ->]).
      * right. exists n. split; [lia|]. split; [reflexivity|]. split; [split; assumption|exact E].
      * assert (G : answers_with n (go f' N' (S F) (mstate_new, t') DNext cs')) by (apply IH; [split; assumption|exact E|lia|lia|lia|lia]).
        revert G. unfold answers_with. destruct (go f' N' (S F) (mstate_new, t') DNext cs') as [[[u|x] mr] cs2]; [|auto]. intros [G|(n' & L & G)]; [now left|right; exists n'; split; [lia|exact G]].
  - specialize (X x t' cs' E eq_refl). unfold answers_with. destruct (go (S f) N (S F) (mstate_new, t) DNext cs) as [[y mr] cs2]. cbn [fst] in X. rewrite X. exact E.
Qed.

(** ** After the end of the stream nothing is answered *)
Definition reached (mr : tmreader) (u : mevent) : Prop := exists r e, snd mr = TAt r e /\ (ev_type (me_ev u) = EStreamEnd -> ev_type e = EStreamEnd).
Lemma send_reached fuel : forall mr d u mr', tmreader_send fuel uni cat mr d = (Ok u, mr') -> reached mr' u.
Proof.
  induction fuel as [|f IH]; intros mr d u mr' E; cbn [tmreader_send] in E; [discriminate|]. destruct (text_send uni (snd mr) d) as [[ev|x] r'] eqn:TS; [|discriminate].
  destruct (send_run _ _ _ _ _ TS) as (r0 & r1 & -> & _). destruct (mr_step cat (fst mr) ev) as [[m' [d'|]]|x]; [exact (IH _ _ _ _ E)| |discriminate]. injection E as <- <-. exists r1, ev. auto.
Qed.
Lemma drain_reached fuel : forall n mr ev u mr', reached mr ev -> tm_drain n fuel uni cat mr ev = (Ok u, mr') -> reached mr' u.
Proof.
  induction n as [|n IH]; intros mr ev u mr' R E; cbn [tm_drain] in E; (destruct (is_stream_signal (ev_type (me_ev ev))) eqn:SG; [|injection E as <- <-; exact R]); destruct (ev_type (me_ev ev)) eqn:T; try discriminate SG; try discriminate E;
    try (injection E as <- <-; destruct R as (r & e & A & B); exists r, e; split; [exact A|intros _; exact (B T)]).
  destruct (tmreader_send fuel uni cat mr DNext) as [[ev'|x] t'] eqn:TS; [|discriminate]. exact (IH _ _ _ _ (send_reached _ _ _ _ _ TS) E).
Qed.
Lemma feed_reached fuel : forall cs mr ev u mr' cs', reached mr ev -> tm_feed fuel uni cat mr ev cs = (Ok u, mr', cs') -> reached mr' u.
Proof.
  induction cs as [|c cs IH]; intros mr ev u mr' cs' R E; cbn [tm_feed] in E; (destruct (is_stream_signal (ev_type (me_ev ev))) eqn:SG; [|injection E as <- <- <-; exact R]).
  - destruct (tm_drain fuel fuel uni cat mr ev) as [x t'] eqn:D. injection E as -> -> <-. exact (drain_reached _ _ _ _ _ _ R D).
  - destruct (tmreader_send fuel uni cat mr (DData c)) as [[ev'|x] t'] eqn:TS; [|discriminate]. exact (IH _ _ _ _ _ (send_reached _ _ _ _ _ TS) E).
Qed.
Lemma next_reached fuel s u s' : text_feeder_next fuel uni cat s = Ok (u, s') -> reached (fst s') u.
Proof.
  unfold text_feeder_next, tm_next. destruct (tmreader_send fuel uni cat (fst s) DNext) as [[ev|x] t'] eqn:TS; [|discriminate].
  destruct (tm_feed fuel uni cat t' ev (snd s)) as [[[u'|x] mr'] cs'] eqn:FD; [|discriminate]. intros [= <- <-]. exact (feed_reached _ _ _ _ _ _ _ (send_reached _ _ _ _ _ TS) FD).
Qed.
Lemma after_the_end fuel s r e : snd (fst s) = TAt r e -> ev_type e = EStreamEnd -> text_feeder_next (S fuel) uni cat s = Err TypeError.
Proof.
  intros A T. destruct s as [[m t] cs]. cbn [fst snd] in A. subst t. unfold text_feeder_next, tm_next. cbn [fst snd tmreader_send text_send]. unfold text_protocol_check. rewrite T. cbn [is_stream_signal bind]. reflexivity.
Qed.

(** ** Loading *)
Definition loads_on (n : nat) (until : evtype) {A} (r : res (A * text_feeder)) : Prop :=
  match r with
  | Ok (_, (mr, cs)) => until = EStreamEnd \/ exists n', (n' < n)%nat /\ runs_on n' mr cs
  | Err x => x <> OutOfFuel
  end.
Lemma loads_more n n' until A (r : res (A * text_feeder)) : (n' <= n)%nat -> loads_on n' until r -> loads_on n until r.
Proof. intros L. destruct r as [[a [mr cs]]|x]; [|auto]. intros [H|(k & B & H)]; [now left|right; exists k; split; [lia|exact H]]. Qed.
Lemma load_ends F : forall g n mr cs until out, (until = EStreamEnd \/ until = EContainerEnd) -> runs_on n mr cs -> (n < g)%nat -> (n <= F)%nat -> (flushes * n <= S F)%nat ->
  loads_on n until (load_into g (text_feeder_next (S F) uni cat) (mr, cs) until out).
Proof.
  induction g as [|g IH]; intros n mr cs until out U (M & W & E) Lg LF LS; [lia|]. cbn [load_into].
  assert (Pn : (0 < n)%nat) by (destruct n; [contradiction E|lia]).
  pose proof (next_says uni cat NC (S F) (mr, cs) (proj2 W)) as TOLD.
  pose proof (request_answers n (snd mr) cs (S F) (S F) F W E ltac:(lia) LF LS LS) as A. rewrite <- M in A. replace (fst mr, snd mr) with mr in A by (destruct mr; reflexivity). rewrite <- next_go in A.
  pose proof (fun u s' => next_reached (S F) (mr, cs) u s') as RE. unfold text_feeder_next at 1. unfold text_feeder_next at 1 in TOLD. unfold text_feeder_next at 1 in RE. cbn [fst snd] in *.
  destruct (tm_next (S F) uni cat mr cs DNext) as [[[u|x] mr1] cs1]; [|exact A]. cbn [bind]. specialize (RE u (mr1, cs1) eq_refl). cbn [next_told] in TOLD. destruct TOLD as (_ & K).
  cbn [answers_with] in A. destruct A as [T|(n1 & L1 & R1)].
  - (* the end of the stream *)
    destruct U as [-> | ->]; rewrite T; cbn [is_until]; [now left|]. destruct RE as (r & e & A & B). cbn [fst] in A. destruct g as [|g]; [lia|]. cbn [load_into].
    rewrite (after_the_end F (mr1, cs1) r e A (B T)). discriminate.
  - destruct (is_until (ev_type (me_ev u)) until); [right; exists n1; split; [exact L1|exact R1]|].
    assert (REST : forall m mr2 cs2 out', (m < n)%nat -> runs_on m mr2 cs2 -> loads_on n until (load_into g (text_feeder_next (S F) uni cat) (mr2, cs2) until out')).
    { intros m mr2 cs2 out' Lm R2. unfold flushes in *. apply (loads_more n m); [lia|]. apply IH; [exact U|exact R2|lia|lia|lia]. }
    destruct (ev_type (me_ev u)) eqn:T; try (apply (REST n1); assumption).
    + pose proof (listed_scalar u K) as W1. destruct (load_scalar u) as [v|x]; [|exact (exception_settled _ W1)]. cbn [bind]. pose proof (of_within _ (within_add out u v)) as W2. destruct (target_add out u v) as [o|x]; [|exact (exception_settled _ W2)]. cbn [bind]. apply (REST n1); assumption.
    + destruct (ev_ion_type (me_ev u)) as [t|]; [|discriminate]. cbn [bind]. pose proof (of_within _ (within_tokens (me_table u) (ev_annot (me_ev u)))) as W1. fold (me_annotations u) in W1. destruct (me_annotations u) as [an|x]; [|exact (exception_settled _ W1)]. cbn [bind].
      pose proof (IH n1 mr1 cs1 EContainerEnd (target_new t) (or_intror eq_refl) R1 ltac:(unfold flushes in *; lia) ltac:(unfold flushes in *; lia) ltac:(unfold flushes in *; lia)) as LI.
      destruct (load_into g (text_feeder_next (S F) uni cat) (mr1, cs1) EContainerEnd (target_new t)) as [[inner [mr2 cs2]]|x]; [|exact LI]. cbn [bind loads_on] in *. destruct LI as [LI|(n2 & L2 & R2)]; [discriminate|].
      pose proof (of_within _ (within_add out u (target_value t an inner))) as W2. destruct (target_add out u _) as [o|x]; [|exact (exception_settled _ W2)]. cbn [bind]. apply (REST n2); [lia|exact R2].
Qed.
Theorem load_text_ends fuel n cs : ending uni n text_reader_new cs -> (n < fuel)%nat -> (flushes * n <= fuel)%nat -> load_text fuel uni cat cs <> Err OutOfFuel.
Proof.
  intros E L LS. destruct fuel as [|F]; [lia|]. unfold load_text.
  pose proof (load_ends F (S F) n tmreader_new cs EStreamEnd (OnList []) (or_introl eq_refl) (conj eq_refl (conj (conj sane_new keeping_new) E)) L ltac:(lia) LS) as R.
  unfold tmreader_new in *. destruct (load_into _ _ _ _ _) as [[[l|l] s]|x]; cbn [bind loads_on] in *; [discriminate|discriminate|congruence].
Qed.
End OVER.
