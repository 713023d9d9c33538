(** As TextFinish, with requests of any kind - NEXT, SKIP or data - in any order: used for C79. *)
From Verif Require Import Base BaseFacts CoreModel BinReaderModel TextNumbers TextWriterModel TextReaderModel TextReaderFacts TextReaderNest TextReaderChunks TextReaderErrors TextReaderTrace TextEnds TextFinish.
Local Open Scope Z_scope.

(** * One request *)
(** One resumption: what the delegate did; an event is handed on as it is or swallowed. *)
Lemma whole_step uni r d r' ev : skip_step uni r d = Ok (r', ev) ->
  exists e0, delegate uni (tr_core r) (tr_q r) d = Ok (tr_core r', tr_q r', e0) /\ (ev <> None -> e0 = ev).
Proof.
  unfold skip_step. cbv zeta. intros E. apply bind_ok in E. destruct E as ([[s q] e] & Ed & E). exists e. rewrite Ed.
  destruct (tr_skipping r || _).
  - destruct e as [e|]; [|injection E as <- <-; auto].
    destruct (ev_type e); try discriminate; try (injection E as <- <-; split; [reflexivity|congruence]).
    destruct (ev_depth e); [|discriminate]. destruct (_ <=? _); injection E as <- <-; split; congruence || reflexivity.
  - injection E as <- <-. auto.
Qed.
Notation W r := (weight (tr_core r) (tr_q r)) (only parsing).
(** With the data still coming: the reader waits with nothing in hand, or the work left is less. *)
Lemma asks_before uni r d x : steps uni r d x -> forall r' e, x = Ok (r', e) -> code_ok (tr_core r) ->
  waiting (tr_core r) = false -> arrived r r' /\ code_ok (tr_core r').
Proof.
  induction 1 as [r d e E|r d r1 ev E|r d r1 x E S IH]; intros r' e' X C NW; [discriminate| |].
  - injection X as <- <-. destruct (whole_step _ _ _ _ _ E) as (e0 & Ed & K). rewrite (K ltac:(discriminate)) in Ed. pose proof (delegate_code _ _ _ _ _ _ _ C Ed) as C'.
    split; [|auto]. destruct (delegate_cases _ _ _ _ _ _ _ Ed) as [(A & B & _)|(k & c & f & Es & _ & [(P & Q & Q')|(P & Q)])].
    + right. split; [exact A|]. apply B, NW.
    + left. rewrite Es. split; [reflexivity|exact Q'].
    + unfold waiting in NW. rewrite P in NW. discriminate.
  - subst x. destruct (whole_step _ _ _ _ _ E) as (e0 & Ed & _). pose proof (delegate_code _ _ _ _ _ _ _ C Ed) as C'.
    destruct (skip_step_go _ _ _ _ E) as (A & B & _). destruct (IH r' e' eq_refl C' A) as (R & C2).
    split; [|auto]. destruct R as [R|(R1 & R2)]; [left; exact R|right; split; [exact R1|]]. specialize (B NW). lia.
Qed.
(** When data arrives. *)
Lemma asks_data uni r c x : steps uni r (Some (DData c)) x -> forall r' e, x = Ok (r', e) -> code_ok (tr_core r) ->
  c <> [] -> waiting (tr_core r) = true -> tr_q r = [] ->
  ((waiting (tr_core r') = true /\ tr_q r' = []) \/ (waiting (tr_core r') = false /\ (W r' < 16 * List.length c + 21)%nat)) /\
  code_ok (tr_core r').
Proof.
  intros S r' e X C NC WT Q. subst x.
  assert (D : exists s1, delegate uni (tr_core r) [] (Some (DData c)) = Ok (s1, c, None) /\ waiting s1 = false /\ code_ok s1).
  { unfold delegate. unfold waiting in WT. unfold code_ok in C. destruct (t_pc (tr_core r)) as [|k cc f|k cc f] eqn:Ep; try discriminate.
    destruct c as [|z l]; [congruence|]. eexists. split; [reflexivity|]. split; [reflexivity|]. exact C. }
  destruct D as (s1 & D & W1 & C1).
  inversion S as [? ? e0 E|? ? r1 ev E|? ? r1 x E S1]; subst.
  - destruct (whole_step uni r (Some (DData c)) _ _ E) as (e0 & Ed & K). rewrite (K ltac:(discriminate)) in Ed. rewrite Q, D in Ed. congruence.
  - destruct (whole_step uni r (Some (DData c)) _ _ E) as (e0 & Ed & _). rewrite Q, D in Ed. injection Ed as E1 E2 _.
    rewrite E1 in W1, C1. destruct (asks_before uni r1 None _ S1 r' e eq_refl C1 W1) as (R & C2).
    split; [|auto]. destruct R as [R|(R1 & R2)]; [left; exact R|right; split; [exact R1|]].
    pose proof (rank_le (tr_core r1)). unfold weight in *. rewrite <- E2 in R2. lia.
Qed.
(** With no data left. *)
Lemma asks_end uni r d x : steps uni r d x -> forall r' e, x = Ok (r', e) -> (forall c, d <> Some (DData c)) -> code_ok (tr_core r) ->
  late (tr_core r) -> tr_q r = [] ->
  tr_q r' = [] /\ late (tr_core r') /\ code_ok (tr_core r') /\ (tail (tr_core r') <= tail (tr_core r))%nat /\
  (waiting (tr_core r') = false -> (tail (tr_core r') < tail (tr_core r))%nat).
Proof.
  induction 1 as [r d e E|r d r1 ev E|r d r1 x E S IH]; intros r' e' X ND C L Q; [discriminate| |].
  - injection X as <- <-.
    destruct (whole_step _ _ _ _ _ E) as (e0 & Ed & K). rewrite (K ltac:(discriminate)) in Ed. pose proof (delegate_code _ _ _ _ _ _ _ C Ed) as C'. rewrite Q in Ed.
    destruct (delegate_end uni _ d _ _ _ L C ND Ed) as (A1 & A2 & A3 & A4).
    repeat split; auto. intros Wt. apply A4; [exact Wt|discriminate].
  - subst x.
    destruct (whole_step _ _ _ _ _ E) as (e0 & Ed & _). pose proof (delegate_code _ _ _ _ _ _ _ C Ed) as C'. rewrite Q in Ed.
    destruct (delegate_end uni _ d _ _ _ L C ND Ed) as (A1 & A2 & A3 & _).
    destruct (IH r' e' eq_refl ltac:(discriminate) C' A2 A1) as (B1 & B2 & B3 & B5 & B6).
    repeat split; auto; [lia|]. intros Wt. specialize (B6 Wt). lia.
Qed.

(** * Sessions *)
Record alive (r : tr) (last : event) : Prop := mkalive {
  a_state : exists fl st, state_ok fl (Some last) (TAt r last) st;
  a_depth : has_depth last;
  a_code : code_ok (tr_core r);
  a_queue : waiting (tr_core r) = true -> tr_q r = [];
}.
Lemma alive_signal r last : alive r last -> is_stream_signal (ev_type last) = waiting (tr_core r).
Proof. intros [(fl & st & S) _ _ _]. exact (proj1 (proj2 (proj2 S))). Qed.
Lemma alive_send uni r last d e t' : alive r last -> text_send uni (TAt r last) d = (Ok e, t') ->
  exists r', t' = TAt r' e /\ steps uni r (Some d) (Ok (r', e)) /\ alive r' e.
Proof.
  intros L E. destruct (send_run _ _ _ _ _ E) as (r0 & r' & -> & ST & H).
  destruct H as [(H & _)|(la & H & P)]; [discriminate|]. injection H as <- <-. exists r'. split; [reflexivity|]. split; [exact ST|].
  pose proof (alive_signal _ _ L) as SG. destruct L as [(fl & st & S) LD C Q].
  assert (LD' : is_stream_signal (ev_type last) = false -> exists n, ev_depth last = Some n) by exact LD.
  destruct (send_state uni fl (Some last) _ st d e _ S LD' E) as (st1 & st' & S' & TN & _).
  assert (X : code_ok (tr_core r') /\ (waiting (tr_core r') = true -> tr_q r' = [])).
  { destruct (waiting (tr_core r)) eqn:Wt.
    - destruct d as [| |c].
      + destruct (asks_end _ _ _ _ ST r' e eq_refl ltac:(discriminate) C (live_waits _ Wt) (Q eq_refl)) as (A1 & _ & A2 & _). auto.
      + unfold text_protocol_check in P. rewrite SG in P. destruct (ev_type last); discriminate.
      + assert (NC : c <> []).
        { intros ->. unfold text_protocol_check in P. rewrite SG in P. cbn [bind] in P. discriminate. }
        destruct (asks_data _ _ _ _ ST r' e eq_refl C NC Wt (Q eq_refl)) as (A & A1). split; [exact A1|]. intros w.
        destruct A as [(_ & A)|(A & _)]; [exact A|congruence].
    - assert (forall c, d <> DData c) by (intros c ->; unfold text_protocol_check in P; rewrite SG in P; discriminate).
      destruct (asks_before _ _ _ _ ST r' e eq_refl C Wt) as (A & A1). split; [exact A1|]. intros w.
      destruct A as [(_ & A)|(A & _)]; [exact A|congruence]. }
  destruct X as (X1 & X3). constructor; auto.
  - eauto.
  - intros N. destruct (new_event_depth _ _ _ _ TN N) as (m & Em & _). eauto.
Qed.

Lemma drains uni n : forall r ev e t', alive r ev -> waiting (tr_core r) = true -> text_drain n uni (TAt r ev) ev = (Ok e, t') ->
  e = stream_end_event \/ (exists r', t' = TAt r' e /\ alive r' e /\ waiting (tr_core r') = false /\ tr_q r' = [] /\ late (tr_core r') /\ (tail (tr_core r') < tail (tr_core r))%nat).
Proof.
  induction n as [|n IH]; intros r ev e t' L Wt E; cbn [text_drain] in E; rewrite (alive_signal _ _ L), Wt in E.
  - destruct (ev_type ev); try discriminate; injection E as <- _; now left.
  - destruct (ev_type ev) eqn:Et; try (injection E as <- _; now left).
    destruct (text_send uni (TAt r ev) DNext) as [[e1|x] t1] eqn:Es; [|discriminate].
    destruct (alive_send _ _ _ _ _ _ L Es) as (r1 & -> & ST & L1).
    pose proof (a_code _ _ L) as C. pose proof (a_queue _ _ L Wt) as Q.
    destruct (asks_end _ _ _ _ ST r1 e1 eq_refl ltac:(discriminate) C (live_waits _ Wt) Q) as (A1 & A2 & _ & A3 & A4).
    destruct (waiting (tr_core r1)) eqn:W1.
    + destruct (IH r1 e1 e t' L1 W1 E) as [H|(r' & B1 & B2 & B3 & B4 & B5 & B6)]; [now left|right]. exists r'. repeat split; auto; try lia; apply B2.
    + assert (Eq : (Ok e1, TAt r1 e1) = (Ok e, t')).
      { rewrite <- E. destruct n; cbn [text_drain]; rewrite (alive_signal _ _ L1), W1; reflexivity. }
      injection Eq as <- <-. right. exists r1. split; [reflexivity|]. split; [exact L1|]. auto.
Qed.
Lemma feeds uni cs : forall r ev e t' cs', alive r ev -> pieces cs -> waiting (tr_core r) = true -> text_feed uni (TAt r ev) ev cs = (Ok e, t', cs') ->
  e = stream_end_event \/ (exists r', t' = TAt r' e /\ alive r' e /\ waiting (tr_core r') = false /\ pieces cs' /\
    ((left_over r' cs' < left_over r cs)%nat \/ at_end 1 r' cs')).
Proof.
  induction cs as [|c cs IH]; intros r ev e t' cs' L P Wt E; cbn [text_feed] in E; rewrite (alive_signal _ _ L), Wt in E.
  - destruct (text_drain flushes uni (TAt r ev) ev) as [x t1] eqn:Ed. injection E as -> <- <-.
    destruct (drains _ _ _ _ _ _ L Wt Ed) as [H|(r' & A1 & A2 & A3 & A4 & A5 & A6)]; [now left|right].
    exists r'. split; [exact A1|]. split; [exact A2|]. split; [exact A3|]. split; [constructor|]. right.
    split; [reflexivity|]. split; [exact A4|]. split; [exact A5|]. revert A6. unfold tail at 2.
    destruct (t_pc (tr_core r)) as [|[]|[]]; try (destruct (pending _)); lia.
  - inversion P as [|? ? Pc Pcs]; subst.
    destruct (text_send uni (TAt r ev) (DData c)) as [[e1|x] t1] eqn:Es; [|discriminate].
    destruct (alive_send _ _ _ _ _ _ L Es) as (r1 & -> & ST & L1).
    pose proof (a_code _ _ L) as C. pose proof (a_queue _ _ L Wt) as Q.
    destruct (asks_data _ _ _ _ ST r1 e1 eq_refl C Pc Wt Q) as (A & _).
    assert (LC : (List.length (concat (c :: cs)) = List.length c + List.length (concat cs))%nat) by (cbn [concat]; apply app_length).
    assert (L0 : (1 <= List.length c)%nat) by (destruct c; [congruence|cbn; lia]).
    destruct (waiting (tr_core r1)) eqn:W1.
    + destruct (IH r1 e1 e t' cs' L1 Pcs W1 E) as [H|(r' & B1 & B2 & B3 & B4 & B5)]; [now left|right].
      exists r'. repeat (split; [assumption|]). destruct B5 as [B5|B5]; [left|now right].
      destruct A as [(_ & A)|(A & _)]; [|congruence].
      assert (W r1 = 0)%nat.
      { unfold weight. rewrite A. unfold waiting in W1. unfold rank. destruct (t_pc (tr_core r1)) as [|k ? ?|]; try discriminate. reflexivity. }
      unfold left_over in *. lia.
    + assert (Eq : (Ok e1, TAt r1 e1, cs) = (Ok e, t', cs')).
      { rewrite <- E. destruct cs; cbn [text_feed]; rewrite (alive_signal _ _ L1), W1; reflexivity. }
      injection Eq as <- <- <-. right. exists r1. split; [reflexivity|]. split; [exact L1|]. split; [exact W1|]. split; [exact Pcs|]. left.
      destruct A as [(A & _)|(_ & A)]; [congruence|]. unfold left_over. lia.
Qed.
Lemma feeds_quiet uni r e cs : alive r e -> waiting (tr_core r) = false -> text_feed uni (TAt r e) e cs = (Ok e, TAt r e, cs).
Proof. intros L Wt. destruct cs; cbn [text_feed]; rewrite (alive_signal _ _ L), Wt; reflexivity. Qed.
(** A request with data still coming. *)
Lemma request_before uni q r r0 e0 cs e t' cs' : steps uni r (Some q) (Ok (r0, e0)) -> code_ok (tr_core r) -> waiting (tr_core r) = false ->
  alive r0 e0 -> pieces cs -> text_feed uni (TAt r0 e0) e0 cs = (Ok e, t', cs') ->
  e = stream_end_event \/ (exists r', t' = TAt r' e /\ alive r' e /\ waiting (tr_core r') = false /\ pieces cs' /\
    ((left_over r' cs' < left_over r cs)%nat \/ at_end 1 r' cs')).
Proof.
  intros ST C NW L0 P E. destruct (asks_before _ _ _ _ ST r0 e0 eq_refl C NW) as (A & _).
  destruct A as [(A1 & A2)|(A1 & A2)].
  - destruct (feeds _ _ _ _ _ _ _ L0 P A1 E) as [H|(r' & B1 & B2 & B3 & B4 & B5)]; [now left|right]. exists r'. repeat (split; [assumption|]).
    destruct B5 as [B5|B5]; [left|now right]. unfold left_over in *. rewrite (waiting_zero _ A1 A2) in B5. lia.
  - rewrite (feeds_quiet _ _ _ _ L0 A1) in E. injection E as <- <- <-. right. exists r0. split; [reflexivity|]. split; [exact L0|]. split; [exact A1|]. split; [exact P|].
    left. unfold left_over. lia.
Qed.
Lemma no_data_now uni r last c e t' : alive r last -> waiting (tr_core r) = false -> text_send uni (TAt r last) (DData c) = (Ok e, t') -> False.
Proof.
  intros L NW E. destruct (send_run _ _ _ _ _ E) as (r0 & r' & _ & _ & [(H & _)|(la & H & P)]); [discriminate|]. injection H as _ <-.
  unfold text_protocol_check in P. rewrite (alive_signal _ _ L), NW in P. discriminate.
Qed.
Lemma requests_end uni n : forall r last, alive r last -> waiting (tr_core r) = false -> at_end n r [] ->
  forall qs, (n < List.length qs)%nat -> snd (text_session uni (TAt r last) [] qs) <> SMore.
Proof.
  induction n as [n IH] using lt_wf_ind. intros r last L NW (_ & Q & LT & T) qs M. destruct qs as [|q qs]; [cbn in M; lia|]. cbn [List.length text_session] in *. unfold text_next.
  destruct (text_send uni (TAt r last) q) as [[e1|x] t1] eqn:Es; [|discriminate].
  assert (ND : forall c, Some q <> Some (DData c)) by (intros c [= ->]; exact (no_data_now _ _ _ _ _ _ L NW Es)).
  destruct (alive_send _ _ _ _ _ _ L Es) as (r1 & -> & ST & L1).
  destruct (asks_end _ _ _ _ ST r1 e1 eq_refl ND (a_code _ _ L) LT Q) as (A1 & A2 & _ & A3 & A4).
  destruct (text_feed uni (TAt r1 e1) e1 []) as [[[e|x] t'] cs'] eqn:Ef; [|discriminate].
  assert (R : e = stream_end_event \/ exists r', t' = TAt r' e /\ cs' = [] /\ alive r' e /\ waiting (tr_core r') = false /\ tr_q r' = [] /\ late (tr_core r') /\ (tail (tr_core r') < tail (tr_core r))%nat).
  { destruct (waiting (tr_core r1)) eqn:W1.
    - cbn [text_feed] in Ef. rewrite (alive_signal _ _ L1), W1 in Ef. destruct (text_drain _ _ _ _) as [y t2] eqn:Ed. injection Ef as -> -> <-.
      destruct (drains _ _ _ _ _ _ L1 W1 Ed) as [H|(r' & B1 & B2 & B3 & B4 & B5 & B6)]; [now left|right]. exists r'. repeat (split; [assumption||reflexivity|]). lia.
    - rewrite (feeds_quiet _ _ _ _ L1 W1) in Ef. injection Ef as <- <- <-. right. exists r1. repeat (split; [assumption||reflexivity|]). exact (A4 eq_refl). }
  destruct R as [-> |(r' & -> & -> & L' & W' & Q' & LT' & T')]; [discriminate|].
  assert (N : snd (text_session uni (TAt r' e) [] qs) <> SMore).
  { apply (IH (tail (tr_core r')) ltac:(lia) r' e L' W'); [split; [reflexivity|]; split; [exact Q'|]; split; [exact LT'|lia]|lia]. }
  destruct (ev_type e); try discriminate; destruct (text_session uni _ _ qs); exact N.
Qed.
Lemma requests_before uni qs : forall r last cs, alive r last -> waiting (tr_core r) = false -> pieces cs -> (left_over r cs + 2 < List.length qs)%nat ->
  snd (text_session uni (TAt r last) cs qs) <> SMore.
Proof.
  induction qs as [|q qs IH]; intros r last cs L NW P B; [cbn in B; lia|]. cbn [List.length text_session] in *. unfold text_next.
  destruct (text_send uni (TAt r last) q) as [[e1|x] t1] eqn:Es; [|discriminate].
  destruct (alive_send _ _ _ _ _ _ L Es) as (r1 & -> & ST & L1).
  destruct (text_feed uni (TAt r1 e1) e1 cs) as [[[e|x] t'] cs'] eqn:Ef; [|discriminate].
  destruct (request_before _ _ _ _ _ _ _ _ _ ST (a_code _ _ L) NW L1 P Ef) as [-> |(r' & -> & L' & W' & P' & R)]; [discriminate|].
  assert (N : snd (text_session uni (TAt r' e) cs' qs) <> SMore).
  { destruct R as [R|R]; [apply IH; auto; lia|]. destruct R as (-> & R). apply (requests_end uni 1); [exact L'|exact W'|split; [reflexivity|exact R]|lia]. }
  destruct (ev_type e); try discriminate; destruct (text_session uni _ cs' _); exact N.
Qed.
Theorem requesting_ends uni cs qs : pieces cs -> (37 * List.length (concat cs) + 16 <= List.length qs)%nat ->
  snd (text_session uni text_reader_new cs qs) <> SMore.
Proof.
  intros P B. destruct qs as [|q qs]; [cbn in B; lia|]. cbn [List.length text_session] in *. unfold text_next.
  destruct (text_send uni text_reader_new q) as [[e1|x] t1] eqn:Es; [|discriminate].
  destruct (send_run _ _ _ _ _ Es) as (r0 & r1 & -> & ST & H). destruct H as [(H & ->)|(la & H & _)]; [|discriminate]. injection H as <-.
  assert (C0 : code_ok (tr_core tr_new)) by exact Logic.I.
  assert (L1 : alive r1 e1).
  { destruct (send_state uni _ None _ [] DNext e1 _ state_new ltac:(discriminate) Es) as (st1 & st' & S' & TN & _).
    destruct (asks_before _ _ _ _ ST r1 e1 eq_refl C0 eq_refl) as (A & A1).
    constructor; auto.
    - eauto.
    - intros N. destruct (new_event_depth _ _ _ _ TN N) as (m & Em & _). eauto.
    - intros w. destruct A as [(_ & A)|(A & _)]; [exact A|congruence]. }
  destruct (text_feed uni (TAt r1 e1) e1 cs) as [[[e|x] t'] cs'] eqn:Ef; [|discriminate].
  destruct (request_before _ _ _ _ _ _ _ _ _ ST C0 eq_refl L1 P Ef) as [-> |(r' & -> & L' & W' & P' & R)]; [discriminate|].
  assert (W0 : left_over tr_new cs = (12 + 37 * List.length (concat cs))%nat) by reflexivity.
  assert (N : snd (text_session uni (TAt r' e) cs' qs) <> SMore).
  { destruct R as [R|R]; [apply requests_before; auto; lia|]. destruct R as (-> & R). apply (requests_end uni 1); [exact L'|exact W'|split; [reflexivity|exact R]|lia]. }
  destruct (ev_type e); try discriminate; destruct (text_session uni _ cs' _); exact N.
Qed.
