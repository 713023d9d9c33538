(** The text reader as a cursor over the trees of a text: NEXT, and SKIP right after the start of a
    container, in any pieces of input. *)
From Verif Require Import Base BaseFacts CoreModel BinReaderModel Cursor ManagedReaderFacts ManagedSessions TextNumbers TextWriterModel TextReaderModel TextReaderFacts TextReaderNest TextReaderChunks TextReaderTrace TextWalk.
Local Open Scope Z_scope.

(** * After the end of the text no container ends *)
Definition spent (s : tcore) : Prop := match t_pc s with PTop (Some c) => cz c = -1 | PTop None | PRead _ _ _ => True | PWait _ _ _ => False end.
Definition no_end (ev : option event) : Prop := match ev with Some e => ev_type e <> EContainerEnd | None => True end.

Lemma token_spent s s' h b k : spent (with_pc s (token_pc s' h b k)).
Proof. unfold spent, token_pc, with_pc. cbn [t_pc]. destruct (k_quoted k || b); exact Logic.I. Qed.
Lemma after_event_spent s k ev comp c s' : match c with Some c => cz c = -1 | None => True end -> after_event s k ev comp c = Ok s' -> spent s'.
Proof.
  intros C E. unfold after_event in E. apply bind_ok in E. destruct E as ([[next child] self] & _ & E). destruct (is_container_start ev).
  - destruct next; [discriminate|]. destruct (ev_ion_type ev); [|discriminate]. injection E as <-. cbn. exact C.
  - destruct self; [injection E as <-; exact Logic.I|]. destruct next as [h|], child as [k'|]; injection E as <-; try (apply token_spent); cbn; exact C.
Qed.
Lemma after_back_spent s k c : cz c = -1 -> spent (after_back s k c).
Proof.
  intros C. unfold after_back. repeat match goal with |- context [if ?b then _ else _] => destruct b | |- context [match ?x with Some _ => _ | None => _ end] => destruct x end; try exact Logic.I; cbn; exact C.
Qed.
Lemma handled_spent s c a s' ev u : cz c = -1 -> handled s c a = Ok (s', ev, u) -> spent s'.
Proof.
  intros C E. destruct a as [[t k] u0]. unfold handled in E. destruct t as [e comp|h|].
  - apply bind_ok in E. destruct E as (s1 & A & E). injection E as <- <- <-. exact (after_event_spent _ _ _ _ (Some c) _ C A).
  - injection E as <- <- <-. apply token_spent.
  - injection E as <- <- <-. apply after_back_spent. exact C.
Qed.
Lemma event_no_end st e : event_ok st e -> ev_type e <> EContainerEnd.
Proof. intros [(t & v & f & an & -> & _)|[(t & f & an & -> & _)|(_ & ->)]]; discriminate. Qed.
Lemma handled_no_end st s c a s' ev u : ans_ok st a -> handled s c a = Ok (s', ev, u) -> no_end ev.
Proof.
  intros A E. destruct a as [[t k] u0]. destruct A as (_ & A). unfold handled in E. destruct t as [e comp|h|].
  - apply bind_ok in E. destruct E as (s1 & _ & E). injection E as <- <- <-. cbn. exact (event_no_end _ _ (proj1 A)).
  - injection E as <- <- <-. exact Logic.I.
  - injection E as <- <- <-. exact Logic.I.
Qed.
Lemma cp_end uni cs c u : cp_step uni cs (-1) = Ok (CDone c u) -> u = [] -> cz c = -1.
Proof.
  destruct cs as [esc low|h|esc low num|e]; cbn [cp_step]; unfold escape_done; intros E U.
  - change (is_low (-1)) with false in E. change (is_high (-1)) with false in E. change (-1 =? 92) with false in E. change (-1 =? 13) with false in E. cbv iota in E. destruct low; [discriminate|]. injection E as <- _. reflexivity.
  - change (is_low (-1)) with false in E. discriminate.
  - change ((-1 =? 117) && uni) with false in E. change (-1 =? 120) with false in E. change ((-1 =? 85) && uni) with false in E. change (mem (-1) c_escapes) with false in E. change (-1 =? 13) with false in E. change (-1 =? 10) with false in E.
    change (is_hex (-1)) with false in E. cbn [negb] in E. destruct (last esc 0 =? 92); [destruct low; discriminate|discriminate].
  - injection E as _ <-. discriminate U.
Qed.
Lemma take_spent uni s st k c s' ev : core_ok true s st -> pc_kont (t_pc s) = k -> cz c = -1 -> take uni s k c = Ok (s', ev, []) -> spent s' /\ no_end ev.
Proof.
  intros CO PK C E. pose proof (co_child _ _ _ CO) as CH. pose proof (co_kont _ _ _ CO) as K. rewrite PK in K. pose proof (co_stack _ _ _ CO) as B1.
  destruct k as [| |h|cs h]; cbn [take] in E.
  - injection E as <- <-. split; [exact C|exact Logic.I].
  - rewrite C in E. change (-1 =? 58) with false in E. discriminate.
  - destruct (t_child s) as [x|]; [|discriminate]. apply bind_ok in E. destruct E as (a & Ea & E). split; [exact (handled_spent _ _ _ _ _ _ C E)|].
    exact (handled_no_end st _ _ _ _ _ _ (send_ok st (env_of uni s) (env_of_ok uni s st B1) h c x CH K a Ea) E).
  - destruct (t_child s) as [x|] eqn:Ex; [|discriminate]. apply bind_ok in E. destruct E as (r & Er & E). rewrite C in Er. destruct r as [cs' u'|c' u'].
    + injection E as <- <- _. split; exact Logic.I.
    + apply bind_ok in E. destruct E as (a & Ea & E). apply bind_ok in E. destruct E as ([[s1 ev1] u1] & Eh & E). injection E as <- <- U. apply app_eq_nil in U. destruct U as (_ & U).
      pose proof (cp_end _ _ _ _ Er U) as C'. split; [exact (handled_spent _ _ _ _ _ _ C' Eh)|].
      exact (handled_no_end st _ _ _ _ _ _ (send_ok st (env_of uni s) (env_of_ok uni s st B1) h c' x CH K a Ea) Eh).
Qed.
Lemma symbol_no_end uni st s k p e : core_ok true s st -> t_child s = Some k -> symbol_event (env_of uni s) k p = Ok e -> ev_type e <> EContainerEnd.
Proof.
  intros CO CH E. unfold symbol_event in E. destruct p as [cs|t|l]; try (injection E as <-; discriminate). destruct (k_annot k); [|discriminate]. destruct (e_depth (env_of uni s) =? 0); [|discriminate]. destruct (zlist_eqb l _); [|discriminate].
  injection E as <-. discriminate.
Qed.
Lemma top_spent uni s st oc s' ev : core_ok true s st -> match oc with Some c => cz c = -1 | None => True end -> top uni s oc = Ok (s', ev) -> spent s' /\ no_end ev.
Proof.
  intros CO C E. unfold top in E. cbv zeta in E. destruct oc as [c|]; [|injection E as <- <-; split; exact Logic.I].
  assert (IE : is_end (t_type s) c = false) by (unfold is_end, end_char; rewrite C; destruct (t_type s) as [[]|]; reflexivity).
  assert (ID : is_delim (t_type s) c = false) by (unfold is_delim; rewrite C; apply andb_false_r). rewrite IE, ID, C in E. cbn [orb] in E. destruct (is_eof c).
  - apply bind_ok in E. destruct E as (p & Ep & E). destruct p as [e|]; [|injection E as <- <-; split; exact Logic.I]. injection E as <- <-. split; [exact C|]. unfold pending_value in Ep. destruct (t_child s) as [k|] eqn:Ek; [|discriminate].
    destruct (k_pend k) as [p|] eqn:Ex; [|discriminate]. destruct (k_val k); [|discriminate].
    assert (Ep' : symbol_event (env_of uni s) k p = Ok e).
    { repeat match type of Ep with (match ?x with _ => _ end) = _ => destruct x; try discriminate | (let* _ := ?x in _) = _ => destruct x; [cbn [bind] in Ep; congruence|discriminate] end. }
    exact (symbol_no_end _ _ _ _ _ _ CO Ek Ep').
  - change (is_ws (-1)) with false in E. change (-1 =? 47) with false in E. change (-1 =? 58) with false in E. change ((-1 =? 91) || (-1 =? 40)) with false in E. cbv iota in E.
    change (t_delim (with_flags s (t_complete s) false)) with (t_delim s) in E. destruct (t_delim s); [discriminate|].
    change (t_child (with_flags s (t_complete s) false)) with (t_child s) in E. change (t_field (with_flags s (t_complete s) false)) with (t_field s) in E.
    destruct (pending (t_child s)) as [p|] eqn:P.
    + destruct (t_child s) as [k|] eqn:Ek; [|discriminate P]. destruct (t_field s); [destruct p; discriminate|]. apply bind_ok in E. destruct E as (e & Ee & E). injection E as <- <-. split; [exact C|]. exact (symbol_no_end _ _ _ _ _ _ CO Ek Ee).
    + assert (G : forall k0 : tctx, (let* (p0, _) := (if t_field s then start_field (env_of uni s) (-1) k0 else start_value (env_of uni s) (-1) k0) in let (t, k) := p0 in
        match t with TGo h => Ok (with_pc (with_flags (with_child (with_flags s (t_complete s) false) (Some k)) (t_complete s) (negb (t_field s))) (token_pc (with_flags (with_child (with_flags s (t_complete s) false) (Some k)) (t_complete s) (negb (t_field s))) h ((-1 =? 34) || (-1 =? 39)) k), None) | _ => Err TypeError end) = Ok (s', ev) -> spent s' /\ no_end ev).
      { intros k0 X. apply bind_ok in X. destruct X as ([[t k] u] & _ & X). destruct t; try discriminate. injection X as <- <-. split; [apply token_spent|exact Logic.I]. }
      destruct (t_child s); exact (G _ E).
Qed.
Lemma spent_walk uni s Q evs sf Q' : walk uni s Q evs sf Q' -> Q = [] -> forall st, core_ok true s st -> spent s -> Forall (fun e => ev_type e <> EContainerEnd) evs.
Proof.
  induction 1 as [s Q|s Q ev s1 Q1 evs s2 Q2 M W IH]; intros E st CO SP; [constructor|].
  destruct M as [s Q c s1 ev HP HT|s k cm fl z Q s1 ev u HP HT|s k s1 ev HP HT|s fl HP HT HN]; try discriminate E.
  assert (C : match c with Some c => cz c = -1 | None => True end) by (unfold spent in SP; rewrite HP in SP; destruct c; exact SP).
  destruct (top_spent uni s st c s1 ev CO C HT) as (SP1 & NE).
  pose proof (top_ok true uni s st c s1 ev CO ltac:(discriminate) HT) as T. destruct ev as [e|]; cbn [event_list app].
  - destruct T as (st' & CO' & _). constructor; [exact NE|]. exact (IH E st' CO' SP1).
  - exact (IH E st T SP1).
Qed.

(** * Skipping over a walk *)
Lemma core_flush s st : core_ok false s st -> core_ok true s st.
Proof. intros [B1 B2 B3 B4 B5 B6]. constructor; auto; discriminate. Qed.
Definition passed (n : Z) (e : event) : Prop := is_stream_signal (ev_type e) = false /\ (ev_type e = EContainerEnd -> exists k, ev_depth e = Some k /\ n < k).
Lemma pass_step uni s q n s' q' ev : delegate uni s q None = Ok (s', q', ev) -> match ev with Some e => passed n e | None => True end ->
  skip_step uni (mktr s q n true) None = Ok (mktr s' q' n true, None).
Proof.
  intros D P. unfold skip_step. cbn [tr_skipping tr_core tr_q tr_skip_depth orb]. rewrite D. cbn [bind]. destruct ev as [e|]; [|reflexivity]. destruct P as (S & C). destruct (ev_type e); try discriminate S; try reflexivity.
  destruct (C eq_refl) as (k & -> & L). destruct (Z.leb_spec k n); [lia|reflexivity].
Qed.
Lemma stop_step uni s q n s' q' f m : delegate uni s q None = Ok (s', q', Some f) -> ev_type f = EContainerEnd -> ev_depth f = Some m -> m <= n ->
  skip_step uni (mktr s q n true) None = Ok (mktr s' q' n false, Some f).
Proof.
  intros D T DE L. unfold skip_step. cbn [tr_skipping tr_core tr_q tr_skip_depth orb]. rewrite D. cbn [bind]. rewrite T, DE. destruct (Z.leb_spec m n); [reflexivity|lia].
Qed.
Lemma event_split {A} ev (evs es : list A) f rest : (match ev with Some e => [e] | None => [] end) ++ evs = es ++ f :: rest ->
  ev = None /\ evs = es ++ f :: rest \/ es = [] /\ ev = Some f /\ evs = rest \/ exists e es', ev = Some e /\ es = e :: es' /\ evs = es' ++ f :: rest.
Proof.
  destruct ev as [e|]; cbn [app]; [|auto]. destruct es as [|e' es]; cbn [app]; intros [= -> ->]; [auto|]. right. right. exists e', es. auto.
Qed.
Lemma walk_skips uni s Q evs sf Q' : walk uni s Q evs sf Q' -> Q' = [] -> finished sf -> forall q n st es f m rest, Q = map plain q ++ [Eof] -> evs = es ++ f :: rest -> core_ok false s st ->
  Forall (passed n) es -> ev_type f = EContainerEnd -> ev_depth f = Some m -> m <= n ->
  exists s' q', steps uni (mktr s q n true) None (Ok (mktr s' q' n false, f)) /\ walk uni s' (map plain q' ++ [Eof]) rest sf [].
Proof.
  induction 1 as [s Q|s Q ev s1 Q1 evs s2 Q2 M W IH]; intros E0 F q n st es f m rest HQ HE CO P T DE L; [destruct es; discriminate HE|]. subst Q2. specialize (IH eq_refl F).
  assert (GO : forall q1, Q1 = map plain q1 ++ [Eof] -> delegate uni s q None = Ok (s1, q1, ev) ->
    exists s' q', steps uni (mktr s q n true) None (Ok (mktr s' q' n false, f)) /\ walk uni s' (map plain q' ++ [Eof]) rest s2 []).
  { intros q1 HQ1 D. pose proof (delegate_ok false uni s st q None s1 q1 ev CO ltac:(discriminate) D) as DO.
    destruct (event_split _ _ _ _ _ HE) as [(-> & HE')|[(-> & -> & ->)|(e & es' & -> & -> & HE')]].
    - destruct (IH q1 n st es f m rest HQ1 HE' DO P T DE L) as (s' & q' & S & W'). exists s', q'. split; [|exact W']. eapply steps_go; [exact (pass_step uni s q n s1 q1 None D Logic.I)|exact S].
    - exists s1, q1. split; [apply steps_event; exact (stop_step uni s q n s1 q1 f m D T DE L)|]. rewrite <- HQ1. exact W.
    - pose proof (Forall_inv P) as P1. pose proof (Forall_inv_tail P) as P2. destruct DO as (st' & CO' & _). destruct (IH q1 n st' es' f m rest HQ1 HE' CO' P2 T DE L) as (s' & q' & S & W'). exists s', q'. split; [|exact W'].
      eapply steps_go; [exact (pass_step uni s q n s1 q1 (Some e) D P1)|exact S]. }
  destruct M as [s Q c s1 ev HP HT|s k cm fl z Q s1 ev u HP HT|s k s1 ev HP HT|s fl HP HT HN].
  - apply (GO q HQ). unfold delegate. rewrite HP, HT. reflexivity.
  - symmetry in HQ. apply plain_cons_inv in HQ. destruct HQ as (q' & -> & ->). apply (GO (u ++ q')); [rewrite map_app, <- app_assoc; reflexivity|]. unfold delegate. rewrite HP, HT. reflexivity.
  - exfalso. pose proof (core_flush _ _ CO) as CT. destruct (take_spent uni s st k Eof s1 ev CT ltac:(rewrite HP; reflexivity) eq_refl HT) as (SP & NE).
    pose proof (take_ok true uni s st k Eof s1 ev [] (core_base _ _ _ CT) (co_child _ _ _ CT) ltac:(pose proof (co_kont _ _ _ CT) as K; rewrite HP in K; exact K) ltac:(discriminate) ltac:(discriminate) HT) as TK.
    assert (NE2 : Forall (fun e => ev_type e <> EContainerEnd) (event_list ev ++ evs)).
    { destruct ev as [e|]; cbn [event_list app]; [destruct TK as (st' & TK & _); constructor; [exact NE|exact (spent_walk _ _ _ _ _ _ W eq_refl st' TK SP)]|exact (spent_walk _ _ _ _ _ _ W eq_refl st TK SP)]. }
    rewrite HE in NE2. apply Forall_app in NE2. destruct NE2 as (_ & NE2). inversion NE2; subst. congruence.
  - exfalso. cbn [event_list app] in HE. assert (FF : finished (with_pc s (PTop (Some Eof)))) by (left; repeat split; assumption).
    rewrite (walk_finished _ _ _ _ _ _ W eq_refl FF) in HE. destruct es; discriminate HE.
Qed.
(** The rest of a walk whose marker has been sent has no ends. *)
Lemma walk_first_flush uni s Q evs sf : walk uni s Q evs sf [] -> finished sf -> forall q d st, Q = map plain q ++ [Eof] -> core_ok false s st -> Forall (fun e => is_stream_signal (ev_type e) = false) evs ->
  match evs with
  | [] => (exists rw, steps uni (mktr s q d false) None (Ok (rw, stream_end_event))) \/
          (exists rw rw', asks uni (mktr s q d false) rw /\ steps uni rw (Some DNext) (Ok (rw', stream_end_event)))
  | e :: evs' =>
    (exists s' q' d', steps uni (mktr s q d false) None (Ok (mktr s' q' d' false, e)) /\ walk uni s' (map plain q' ++ [Eof]) evs' sf []) \/
    (exists rw s' d', asks uni (mktr s q d false) rw /\ steps uni rw (Some DNext) (Ok (mktr s' [] d' false, e)) /\ walk uni s' [] evs' sf [] /\ Forall (fun e => ev_type e <> EContainerEnd) (e :: evs'))
  end.
Proof.
  intros W F q d st HQ CO NS.
  assert (G : forall s Q evs s' Q', walk uni s Q evs s' Q' -> Q' = [] -> finished s' -> forall q d st, Q = map plain q ++ [Eof] -> core_ok false s st ->
    Forall (fun e => ev_type e <> EContainerEnd) evs \/ exists e, hd_error evs = Some e /\ exists s1 q1 d1, steps uni (mktr s q d false) None (Ok (mktr s1 q1 d1 false, e))).
  { clear. induction 1 as [s Q|s Q ev s1 Q1 evs s2 Q2 M W IH]; intros E0 F q d st HQ CO; [left; constructor|]. specialize (IH E0 F).
    assert (GO : forall q1, Q1 = map plain q1 ++ [Eof] -> delegate uni s q None = Ok (s1, q1, ev) ->
      Forall (fun e => ev_type e <> EContainerEnd) (event_list ev ++ evs) \/ exists e, hd_error (event_list ev ++ evs) = Some e /\ exists s1 q1 d1, steps uni (mktr s q d false) None (Ok (mktr s1 q1 d1 false, e))).
    { intros q1 HQ1 D. pose proof (delegate_ok false uni s st q None s1 q1 ev CO ltac:(discriminate) D) as DO. destruct (plain_skip_step uni s q d _ _ _ None D ltac:(discriminate)) as (d1 & S1). destruct ev as [e|]; cbn [event_list app].
      - right. exists e. split; [reflexivity|]. exists s1, q1, d1. apply steps_event. exact S1.
      - destruct (IH q1 d1 st HQ1 DO) as [H|(e & HE & s3 & q3 & d3 & S)]; [left; exact H|]. right. exists e. split; [exact HE|]. exists s3, q3, d3. eapply steps_go; eassumption. }
    destruct M as [s Q c s1 ev HP HT|s k cm fl z Q s1 ev u HP HT|s k s1 ev HP HT|s fl HP HT HN].
    - apply (GO q HQ). unfold delegate. rewrite HP, HT. reflexivity.
    - symmetry in HQ. apply plain_cons_inv in HQ. destruct HQ as (q' & -> & ->). apply (GO (u ++ q')); [rewrite map_app, <- app_assoc; reflexivity|]. unfold delegate. rewrite HP, HT. reflexivity.
    - left. pose proof (core_flush _ _ CO) as CT. destruct (take_spent uni s st k Eof s1 ev CT ltac:(rewrite HP; reflexivity) eq_refl HT) as (SP & NE).
      pose proof (take_ok true uni s st k Eof s1 ev [] (core_base _ _ _ CT) (co_child _ _ _ CT) ltac:(pose proof (co_kont _ _ _ CT) as K; rewrite HP in K; exact K) ltac:(discriminate) ltac:(discriminate) HT) as TK.
      destruct ev as [e|]; cbn [event_list app]; [destruct TK as (st' & TK & _); constructor; [exact NE|exact (spent_walk _ _ _ _ _ _ W eq_refl st' TK SP)]|exact (spent_walk _ _ _ _ _ _ W eq_refl st TK SP)].
    - left. subst Q2. cbn [event_list app]. assert (FF : finished (with_pc s (PTop (Some Eof)))) by (left; repeat split; assumption). rewrite (walk_finished _ _ _ _ _ _ W eq_refl FF). constructor. }
  pose proof (walk_first uni s Q evs sf W F q d HQ) as H. destruct evs as [|e evs]; [exact H|]. destruct H as [H|(rw & s' & d' & A & S & W')]; [left; exact H|].
  destruct (G s Q (e :: evs) sf [] W eq_refl F q d st HQ CO) as [NE|(e' & HE & s1 & q1 & d1 & S1)].
  - right. exists rw, s', d'. auto.
  - exfalso. injection HE as <-. unfold asks in A. pose proof (steps_det _ _ _ _ S1 _ A) as X. injection X as _ ->. inversion NS as [|? ? N1 N2]; subst. discriminate N1.
Qed.

(** * The reader over a cursor *)
Definition nonsignal (e : event) : Prop := is_stream_signal (ev_type e) = false.
Inductive tserves (uni : bool) : treader -> list (list Z) -> cursor event -> Prop :=
| ts_new cs c sf : pieces cs -> walk uni reader_start (map plain (concat cs) ++ [Eof]) (remaining c) sf [] -> finished sf -> Forall nonsignal (remaining c) ->
    tserves uni text_reader_new cs c
| ts_read r last cs c s q d sf : pieces cs -> resting r last -> ext r (concat cs) = mktr s q d false -> walk uni s (map plain q ++ [Eof]) (remaining c) sf [] -> finished sf ->
    Forall nonsignal (remaining c) -> (forall k, ev_type last = EContainerStart -> ev_depth last = Some k -> d = k) -> tserves uni (TAt r last) cs c
| ts_flush s d last c sf : nonsignal last -> walk uni s [] (remaining c) sf [] -> finished sf -> Forall nonsignal (remaining c) ->
    Forall (fun e => ev_type e <> EContainerEnd) (remaining c) -> tserves uni (TAt (mktr s [] d false) last) [] c.

Lemma start_ok : tr_ok false (mktr reader_start [] 0 false) [].
Proof.
  constructor; [|cbn; lia|discriminate]. constructor; cbn; auto; try discriminate.
  - constructor.
  - congruence.
Qed.
(** What the next request does while there is text left. *)
Definition reading (uni : bool) (t : treader) (cs : list (list Z)) (s : tcore) (q : list Z) (d : Z) : Prop :=
  (exists st, core_ok false s st) /\ waiting s = false /\ forall X, steps uni (mktr s q d false) None X -> outcome uni X (text_next uni t cs DNext).
Lemma new_reading uni cs : pieces cs -> reading uni text_reader_new cs reader_start (concat cs) 0.
Proof.
  intros P. split; [exists []; destruct start_ok as [C _ _]; exact C|]. split; [reflexivity|]. intros X SX.
  set (r1 := mktr (with_pc reader_start (PWait KTop true false)) [] 0 false).
  assert (E1 : steps uni tr_new (Some DNext) (Ok (r1, stream_end_event))) by (eapply steps_go; [reflexivity|]; apply steps_event; reflexivity).
  assert (S0 : steps uni (mktr reader_start [] 0 false) None (Ok (r1, stream_end_event))) by (apply steps_event; reflexivity).
  unfold text_next, text_send, text_reader_new. rewrite (steps_run _ _ _ _ E1).
  exact (feed_spec uni cs P (mktr reader_start [] 0 false) [] (Ok (r1, stream_end_event)) X start_ok eq_refl S0 SX).
Qed.
Lemma rest_reading uni r last cs s q d : pieces cs -> resting r last -> ext r (concat cs) = mktr s q d false -> reading uni (TAt r last) cs s q d.
Proof.
  intros P R E. pose proof R as (W & NS & st0 & st & TO & TN). assert (EC : tr_core r = s) by (unfold ext in E; congruence).
  split; [exists st; destruct TO as [C _ _]; rewrite <- EC; exact C|]. split; [rewrite <- EC; exact W|]. intros X SX.
  pose proof (next_spec uni r last cs DNext P R) as N. rewrite (next_check last NS) in N. apply N. rewrite E. unfold asked. cbn [tr_core tr_q tr_skip_depth tr_skipping skips orb]. exact SX.
Qed.
Lemma start_depth uni s q d x s' q' d' e : steps uni (mktr s q d false) x (Ok (mktr s' q' d' false, e)) -> x <> Some DSkip -> forall k, ev_type e = EContainerStart -> ev_depth e = Some k -> d' = k.
Proof.
  intros S NX k T D. destruct (run_no_skip _ _ _ _ _ S eq_refl NX) as (_ & Q). cbn [tr_skip_depth] in Q. unfold boundary in Q. rewrite T, D in Q. exact Q.
Qed.
Lemma reading_next uni t cs s q d c sf e c' : reading uni t cs s q d -> walk uni s (map plain q ++ [Eof]) (remaining c) sf [] -> finished sf -> Forall nonsignal (remaining c) ->
  cursor_next c = Some (e, c') -> exists r' cs', text_next uni t cs DNext = (Ok e, TAt r' e, cs') /\ tserves uni (TAt r' e) cs' c'.
Proof.
  intros ((st & CO) & WT & R) W F NS N. pose proof (remaining_next c) as RM. rewrite N in RM. rewrite RM in W, NS.
  pose proof (Forall_inv NS) as NE. pose proof (Forall_inv_tail NS) as NS'.
  destruct (walk_first_flush uni s _ _ sf W F q d st eq_refl CO NS) as [(s' & q' & d' & S & W')|(rw & s' & d' & A & S & W' & NO)].
  - specialize (R _ S). unfold outcome in R. rewrite NE in R. destruct R as (r2 & cs2 & E & X & P & RS). exists r2, cs2. split; [exact E|].
    eapply ts_read; [exact P|exact RS|symmetry; exact X|exact W'|exact F|exact NS'|]. eapply start_depth; [exact S|discriminate].
  - unfold asks in A. specialize (R _ A). unfold outcome in R. cbn [incomplete_event ev_type is_stream_signal] in R.
    cbn [flushes text_drain incomplete_event ev_type is_stream_signal text_send text_protocol_check ev_depth bind] in R. rewrite (steps_run _ _ _ _ S) in R. rewrite NE in R.
    exists (mktr s' [] d' false), []. split; [exact R|]. exact (ts_flush uni s' d' e c' sf NE W' F NS' (Forall_inv_tail NO)).
Qed.
Lemma reading_end uni t cs s q d c sf : reading uni t cs s q d -> walk uni s (map plain q ++ [Eof]) (remaining c) sf [] -> finished sf ->
  cursor_next c = None -> exists t' cs', text_next uni t cs DNext = (Ok stream_end_event, t', cs').
Proof.
  intros ((st & CO) & WT & R) W F N. pose proof (remaining_next c) as RM. rewrite N in RM. rewrite RM in W.
  destruct (walk_first_flush uni s _ _ sf W F q d st eq_refl CO ltac:(constructor)) as [(rw & S)|(rw & rw' & A & S)].
  - specialize (R _ S). cbn in R. eauto.
  - unfold asks in A. specialize (R _ A). unfold outcome in R. cbn [incomplete_event ev_type is_stream_signal] in R.
    cbn [flushes text_drain incomplete_event ev_type is_stream_signal text_send text_protocol_check ev_depth bind] in R. rewrite (steps_run _ _ _ _ S) in R. cbn in R. eauto.
Qed.
Theorem tserves_next uni t cs c e c' : tserves uni t cs c -> cursor_next c = Some (e, c') ->
  exists r' cs', text_next uni t cs DNext = (Ok e, TAt r' e, cs') /\ tserves uni (TAt r' e) cs' c'.
Proof.
  intros SV N. destruct SV as [cs c sf P W F NS|r last cs c s q d sf P R E W F NS DP|s d last c sf NL W F NS NO].
  - exact (reading_next uni _ cs _ _ _ c sf e c' (new_reading uni cs P) W F NS N).
  - exact (reading_next uni _ cs _ _ _ c sf e c' (rest_reading uni r last cs s q d P R E) W F NS N).
  - pose proof (remaining_next c) as RM. rewrite N in RM. rewrite RM in W, NS, NO. destruct (walk_end uni s _ sf W F d) as (s' & d' & S & W').
    apply (next_asked _ _ _ _ _ (walk_awake _ _ _ _ _ _ W F)) in S. exists (mktr s' [] d' false), []. pose proof (Forall_inv NS) as NE. split.
    + unfold text_next, text_send. rewrite (next_check last NL), (steps_run _ _ _ _ S). apply feed_event. exact NE.
    + exact (ts_flush uni s' d' e c' sf NE W' F (Forall_inv_tail NS) (Forall_inv_tail NO)).
Qed.
Theorem tserves_end uni t cs c : tserves uni t cs c -> cursor_next c = None -> exists t' cs', text_next uni t cs DNext = (Ok stream_end_event, t', cs').
Proof.
  intros SV N. destruct SV as [cs c sf P W F NS|r last cs c s q d sf P R E W F NS DP|s d last c sf NL W F NS NO].
  - exact (reading_end uni _ cs _ _ _ c sf (new_reading uni cs P) W F N).
  - exact (reading_end uni _ cs _ _ _ c sf (rest_reading uni r last cs s q d P R E) W F N).
  - pose proof (remaining_next c) as RM. rewrite N in RM. rewrite RM in W. destruct (walk_end uni s _ sf W F d) as (rw & S).
    apply (next_asked _ _ _ _ _ (walk_awake _ _ _ _ _ _ W F)) in S. unfold text_next, text_send. rewrite (next_check last NL), (steps_run _ _ _ _ S). cbn. eauto.
Qed.

(** Depths. *)
Inductive placed : Z -> cursor event -> Prop :=
| placed_top ts : Forall (shaped 0) ts -> placed 0 (mkcur ts [])
| placed_in d ks f r o : placed d (mkcur r o) -> 0 <= d -> Forall (shaped (d + 1)) ks -> ev_type f = EContainerEnd -> ev_depth f = Some d -> placed (d + 1) (mkcur ks ((f, r) :: o)).
Lemma placed_nonneg d c : placed d c -> 0 <= d.
Proof. induction 1; lia. Qed.
Lemma placed_tail d t ts o : placed d (mkcur (t :: ts) o) -> shaped d t /\ placed d (mkcur ts o).
Proof.
  intros P. inversion P as [ts' F|d' ks f r o' P' D F T DE]; subst; split; try (exact (Forall_inv F)).
  - constructor. exact (Forall_inv_tail F).
  - constructor; auto. exact (Forall_inv_tail F).
Qed.
Lemma placed_next d c e c' : placed d c -> cursor_next c = Some (e, c') -> exists d', placed d' c' /\ (ev_type e = EContainerStart -> ev_depth e = Some d /\ d' = d + 1).
Proof.
  intros P N. destruct c as [here o]. unfold cursor_next in N. cbn [c_here c_open] in N. destruct here as [|[x|s ks f] ts].
  - destruct o as [|[f r] o]; [discriminate|]. injection N as <- <-. inversion P as [|d' ks f' r' o' P' D F T DE]; subst. exists d'. split; [exact P'|congruence].
  - injection N as <- <-. destruct (placed_tail _ _ _ _ P) as ((DE & T) & P'). exists d. split; [exact P'|]. intros E. destruct T as [T|[T _]]; congruence.
  - injection N as <- <-. pose proof (placed_nonneg _ _ P) as D0. destruct (placed_tail _ _ _ _ P) as ((T & D & TF & DF & _ & _ & KK) & P'). apply shaped_kids in KK. exists (d + 1). split; [constructor; auto|auto].
Qed.
Lemma placed_skip d c e c' : placed d c -> cursor_skip c = Some (e, c') -> exists d', placed d' c' /\ ev_type e = EContainerEnd.
Proof.
  intros P N. destruct c as [here o]. unfold cursor_skip in N. cbn [c_open] in N. destruct o as [|[f r] o]; [discriminate|]. injection N as <- <-.
  inversion P as [|d' ks f' r' o' P' D F T DE]; subst. eauto.
Qed.
Lemma shaped_passed n t : forall d, shaped d t -> n < d -> Forall (passed n) (flatten t).
Proof.
  induction t as [e|s ks f IH] using tree_induction; intros d SH L; cbn [flatten].
  - destruct SH as (D & T). repeat constructor; destruct T as [T|[T _]]; try (rewrite T; reflexivity); rewrite T; discriminate.
  - destruct SH as (T & D & TF & DF & _ & _ & KK). apply shaped_kids in KK. constructor; [split; rewrite T; [reflexivity|discriminate]|]. apply Forall_app. split.
    + apply Forall_flat_map. apply Forall_forall. intros k I. rewrite Forall_forall in IH, KK. exact (IH k I (d + 1) (KK k I) ltac:(lia)).
    + constructor; [|constructor]. split; [rewrite TF; reflexivity|]. intros _. exists d. auto.
Qed.
Lemma nonsignal_app n (l : list event) : Forall (passed n) l -> Forall nonsignal l.
Proof. induction 1 as [|e l (P & _) _ IH]; constructor; auto. Qed.

Theorem tserves_skip uni r last cs c d e c' : tserves uni (TAt r last) cs c -> placed d c -> ev_type last = EContainerStart -> ev_depth last = Some (d - 1) -> cursor_skip c = Some (e, c') ->
  exists r' cs', text_next uni (TAt r last) cs DSkip = (Ok e, TAt r' e, cs') /\ tserves uni (TAt r' e) cs' c'.
Proof.
  intros SV PL T DL N. destruct c as [here o]. unfold cursor_skip in N. cbn [c_open] in N. destruct o as [|[f rr] o]; [discriminate|]. injection N as -> <-.
  inversion PL as [|d0 ks f' r' o' P' D0 FK TF DF]; subst. replace (d0 + 1 - 1) with d0 in DL by lia.
  assert (RM : remaining (mkcur here ((e, rr) :: o)) = flat_map flatten here ++ e :: remaining (mkcur rr o)) by reflexivity.
  assert (PS : Forall (passed d0) (flat_map flatten here)).
  { apply Forall_flat_map. apply Forall_forall. intros k I. rewrite Forall_forall in FK. exact (shaped_passed d0 k (d0 + 1) (FK k I) ltac:(lia)). }
  remember (mkcur here ((e, rr) :: o)) as c eqn:Ec. remember (TAt r last) as t eqn:Et.
  destruct SV as [cs c sf P W F NS|r1 last1 cs c s q d sf P R E W F NS DP|s d last1 c sf NL W F NS NO]; [discriminate Et| |].
  - injection Et as -> ->. subst c. rewrite RM in W, NS. specialize (DP d0 T DL). subst d. pose proof R as (WT & NL & st0 & st & TO & TN).
    assert (EC : tr_core r = s) by (unfold ext in E; congruence). assert (CO : core_ok false s st) by (destruct TO as [C _ _]; rewrite <- EC; exact C).
    destruct (walk_skips uni s _ _ sf [] W eq_refl F q d0 st _ _ _ _ eq_refl eq_refl CO PS TF DF ltac:(lia)) as (s' & q' & S & W').
    pose proof (next_spec uni r last cs DSkip P R) as NX.
    assert (PC : text_protocol_check last DSkip = Ok tt) by (unfold text_protocol_check; rewrite T, DL; cbn [is_stream_signal bind]; destruct d0; reflexivity).
    rewrite PC in NX. rewrite E in NX. specialize (NX _ S). unfold outcome in NX. rewrite TF in NX. cbn [is_stream_signal] in NX.
    destruct NX as (r2 & cs2 & EX & X & P2 & RS). exists r2, cs2. split; [exact EX|]. apply Forall_app in NS. destruct NS as (_ & NS).
    eapply ts_read; [exact P2|exact RS|symmetry; exact X|exact W'|exact F|exact (Forall_inv_tail NS)|]. intros k B. congruence.
  - exfalso. subst c. rewrite RM in NO. apply Forall_app in NO. destruct NO as (_ & NO). exact (Forall_inv NO TF).
Qed.
