(** How much work the text reader can do before and after the end of the data: used for C79. *)
From Verif Require Import Base BaseFacts CoreModel BinReaderModel TextNumbers TextWriterModel TextReaderModel TextReaderFacts TextReaderNest TextReaderChunks TextReaderErrors TextReaderTrace TextEnds.
Local Open Scope Z_scope.

(** * The states at the end of the data *)

(** A code point is never read past the end of the data. *)
Definition code_ok (s : tcore) : Prop :=
  match t_pc s with PRead (KCode _ _) _ f | PWait (KCode _ _) _ f => f = false | _ => True end.
(** No character of the data is left. *)
Definition late (s : tcore) : Prop := match t_pc s with PTop (Some (Ch _ _ _)) => False | _ => True end.
(** How many events can come. *)
Definition tail (s : tcore) : nat :=
  match t_pc s with
  | PTop _ | PRead KTop _ _ | PWait KTop _ _ => match pending (t_child s) with Some _ => 1 | None => 0 end
  | _ => 2
  end.

Lemma token_code s s' h b k : code_ok (with_pc s (token_pc s' h b k)).
Proof. unfold token_pc. destruct (_ || _); cbn; auto. Qed.
Ltac opens := repeat match goal with
  | H : (let* _ := ?x in _) = Ok _ |- _ => let E := fresh "E" in destruct x eqn:E; cbn [bind] in H; [|discriminate]
  | H : (match ?x with _ => _ end) = Ok _ |- _ => destruct x eqn:?; try discriminate
  | H : illegal = Ok _ |- _ => discriminate
  | H : Ok _ = Ok _ |- _ => injection H; clear H; intros; subst
  end.
Lemma after_event_code s k ev comp c s' : after_event s k ev comp c = Ok s' -> code_ok s'.
Proof.
  unfold after_event. intros E. opens; cbn; auto; apply token_code.
Qed.
Lemma after_back_code s k c : code_ok (after_back s k c).
Proof. unfold after_back. cbv zeta. repeat match goal with |- code_ok (if ?b then _ else _) => destruct b | |- code_ok (match ?b with _ => _ end) => destruct b end; cbn; auto. Qed.
Lemma handled_code s c a s' ev u : handled s c a = Ok (s', ev, u) -> code_ok s'.
Proof.
  unfold handled. destruct a as [[t k] v]. intros E. destruct t; cbv zeta in E.
  - apply bind_ok in E as (x & Ex & E). injection E as <- _ _. eapply after_event_code, Ex.
  - injection E as <- _ _. apply token_code.
  - injection E as <- _ _. apply after_back_code.
Qed.
Lemma take_code uni s k c s' ev u : take uni s k c = Ok (s', ev, u) -> code_ok s'.
Proof.
  destruct k; cbn [take]; intros E.
  - injection E as <- _ _. cbn. exact Logic.I.
  - opens. cbn. exact Logic.I.
  - destruct (t_child s); [|discriminate]. apply bind_ok in E as (a & _ & E). eapply handled_code, E.
  - destruct (t_child s); [|discriminate]. apply bind_ok in E as (r & _ & E). destruct r.
    + injection E as <- _ _. reflexivity.
    + apply bind_ok in E as (a & _ & E). apply bind_ok in E as ([[s1 ev1] u1] & Eh & E). injection E as <- _ _. eapply handled_code, Eh.
Qed.
Lemma top_code uni s oc s' ev : top uni s oc = Ok (s', ev) -> code_ok s'.
Proof.
  unfold top. cbv zeta. intros E. opens; try exact Logic.I; try apply token_code; try (eapply after_event_code; eassumption).
Qed.
Lemma delegate_code uni s q d s' q' ev : code_ok s -> delegate uni s q d = Ok (s', q', ev) -> code_ok s'.
Proof.
  unfold delegate. intros C E. destruct (t_pc s) as [oc|k c f|k c f] eqn:Ep.
  - apply bind_ok in E as ([s1 e1] & Et & E). injection E as <- _ _. eapply top_code, Et.
  - destruct q.
    + injection E as <- _ _. unfold code_ok in *. rewrite Ep in C. exact C.
    + apply bind_ok in E as ([[s1 e1] u] & Et & E). injection E as <- _ _. eapply take_code, Et.
  - destruct d as [[| |[|]]|].
    + destruct f; [|discriminate]. apply bind_ok in E as ([[s1 e1] u] & Et & E). injection E as <- _ _. eapply take_code, Et.
    + injection E as <- _ _. exact C.
    + injection E as <- _ _. exact C.
    + injection E as <- _ _. unfold code_ok in *. rewrite Ep in C. exact C.
    + injection E as <- _ _. exact C.
Qed.

(** ** One step at the end of the data *)
Lemma top_end uni s oc s' ev : late s -> t_pc s = PTop oc -> top uni s oc = Ok (s', ev) ->
  late s' /\ (tail s' <= tail s)%nat /\ (ev <> None -> (tail s' < tail s)%nat).
Proof.
  intros L Ep E. unfold late in L. rewrite Ep in L. unfold tail. rewrite Ep.
  destruct oc as [[z e g|]|]; [contradiction| |].
  - unfold top in E. cbv zeta in E.
    assert (N1 : is_end (t_type s) Eof = false) by (unfold is_end, end_char; destruct (t_type s) as [[]|]; reflexivity).
    assert (N2 : is_delim (t_type s) Eof = false) by (unfold is_delim; cbn; apply andb_false_r).
    rewrite N1, N2 in E. cbn [orb is_eof] in E. apply bind_ok in E as (p & P & E). destruct p.
    + injection E as <- <-. cbn. split; [exact Logic.I|]. unfold pending_value in P. unfold pending. destruct (t_child s) as [k|]; [|discriminate]. destruct (k_pend k); [|discriminate]. split; lia.
    + injection E as <- <-. cbn. split; [exact Logic.I|]. split; [lia|congruence].
  - injection E as <- <-. cbn. split; [exact Logic.I|]. split; [lia|congruence].
Qed.
Lemma after_event_end s k ev comp s' : to_end (TEv ev comp) -> after_event s k ev comp (Some Eof) = Ok s' -> late s' /\ (tail s' <= 1)%nat.
Proof.
  intros T. unfold after_event. intros E. cbv zeta in E.
  assert (P : forall x : option tctx, (match pending x with Some _ => 1 | None => 0 end <= 1)%nat) by (intros x; destruct (pending x); lia).
  apply bind_ok in E as ([[next child] self] & En & E).
  destruct (is_container_start ev).
  { destruct next; [discriminate|]. destruct (ev_ion_type ev); [|discriminate]. injection E as <-. split; [exact Logic.I|]. cbn. lia. }
  assert (next = None) as ->.
  { destruct (k_comp k).
    - destruct comp as [[h k']|]; [|discriminate]. injection En as <- _ _. cbn in T. destruct h; [contradiction|reflexivity].
    - injection En as <- _ _. reflexivity. }
  destruct self; injection E as <-; (split; [exact Logic.I|apply P]).
Qed.
Lemma after_back_end s k : late (after_back s k Eof) /\ (tail (after_back s k Eof) <= 1)%nat.
Proof.
  assert (P : forall x : option tctx, (match pending x with Some _ => 1 | None => 0 end <= 1)%nat) by (intros x; destruct (pending x); lia).
  unfold after_back. cbv zeta. repeat match goal with |- late (if ?b then _ else _) /\ _ => destruct b | |- late (match ?b with _ => _ end) /\ _ => destruct b end; (split; [exact Logic.I|apply P]).
Qed.
Lemma token_end s h b k : late (with_pc s (token_pc s h b k)) /\ tail (with_pc s (token_pc s h b k)) = 2%nat.
Proof. unfold token_pc. destruct (_ || _); split; cbn; auto. Qed.

Lemma take_end uni s k c s' ev u : t_pc s = PWait k c true \/ t_pc s = PRead k c true -> code_ok s -> take uni s k Eof = Ok (s', ev, u) ->
  u = [] /\ late s' /\ (tail s' <= tail s)%nat /\ (ev <> None -> (tail s' < tail s)%nat).
Proof.
  intros Ep C E.
  assert (TS : tail s = (match k with KTop => match pending (t_child s) with Some _ => 1 | None => 0 end | _ => 2 end)%nat).
  { unfold tail. destruct Ep as [-> | ->]; reflexivity. }
  destruct k; cbn [take] in E.
  - injection E as <- <- <-. rewrite TS. cbn. split; [reflexivity|]. split; [exact Logic.I|]. split; [lia|congruence].
  - discriminate.
  - rewrite TS. destruct (t_child s) as [kk|]; [|discriminate]. apply bind_ok in E as ([[t k] v] & Es & E).
    pose proof (end_send _ _ _ _ _ _ Es) as T. pose proof (send_back _ _ _ _ _ Es) as B. cbn [back_ok] in B.
    assert (v = []) as -> by (destruct B as [B|((z & e & g & B & _) & _)]; [exact B|discriminate]).
    unfold handled in E. destruct t; cbv zeta in E.
    + apply bind_ok in E as (x & Ex & E). injection E as <- <- <-. destruct (after_event_end _ _ _ _ _ T Ex) as (A1 & A2). split; [reflexivity|]. split; [exact A1|]. split; lia.
    + injection E as <- <- <-. destruct (token_end (with_flags (with_child s (Some k)) (t_complete s) (can_flush s k)) h0 false k) as (A1 & A2).
      split; [reflexivity|]. split; [exact A1|]. rewrite A2. split; [lia|congruence].
    + injection E as <- <- <-. destruct (after_back_end s k) as (A1 & A2). split; [reflexivity|]. split; [exact A1|]. split; [lia|congruence].
  - unfold code_ok in C. destruct Ep as [Ep|Ep]; rewrite Ep in C; discriminate.
Qed.
(** [d] carries no data. *)
Lemma delegate_end uni s d s' q' ev : late s -> code_ok s -> (forall c, d <> Some (DData c)) -> delegate uni s [] d = Ok (s', q', ev) ->
  q' = [] /\ late s' /\ (tail s' <= tail s)%nat /\ (waiting s' = false -> ev <> None -> (tail s' < tail s)%nat).
Proof.
  unfold delegate. intros L C D E. destruct (t_pc s) as [oc|k c f|k c f] eqn:Ep.
  - apply bind_ok in E as ([s1 e1] & Et & E). injection E as <- <- <-. destruct (top_end _ _ _ _ _ L Ep Et) as (A1 & A2 & A3). auto.
  - injection E as <- <- <-. split; [reflexivity|]. split; [exact Logic.I|]. unfold tail. rewrite Ep. cbn. split; [lia|discriminate].
  - destruct d as [[| |l]|].
    + destruct f; [|discriminate]. apply bind_ok in E as ([[s1 e1] u] & Et & E). injection E as <- <- <-.
      destruct (take_end uni s k c s1 e1 u (or_introl Ep) C Et) as (-> & A1 & A2 & A3). auto.
    + injection E as <- <- <-. split; [reflexivity|]. split; [exact L|]. split; [lia|]. unfold waiting. rewrite Ep. discriminate.
    + destruct (D l eq_refl).
    + injection E as <- <- <-. split; [reflexivity|]. split; [exact L|]. split; [lia|]. unfold waiting. rewrite Ep. discriminate.
Qed.

(** * One request *)
Lemma plain_step uni r d r' ev : tr_skipping r = false -> d <> Some DSkip -> skip_step uni r d = Ok (r', ev) ->
  delegate uni (tr_core r) (tr_q r) d = Ok (tr_core r', tr_q r', ev) /\ tr_skipping r' = false.
Proof.
  intros A B. unfold skip_step. cbv zeta. intros E. apply bind_ok in E. destruct E as ([[s q] e] & Ed & E).
  replace (tr_skipping r || match d with Some DSkip => true | _ => false end) with false in E.
  - injection E as <- <-. auto.
  - rewrite A. destruct d as [[]|]; auto; congruence.
Qed.
Notation W r := (weight (tr_core r) (tr_q r)) (only parsing).
Definition arrived (r r' : tr) : Prop :=
  (waiting (tr_core r') = true /\ tr_q r' = []) \/ (waiting (tr_core r') = false /\ (W r' < W r)%nat).
(** With the data still coming: the reader waits with nothing in hand, or the work left is less. *)
Lemma steps_before uni r d x : steps uni r d x -> forall r' e, x = Ok (r', e) -> tr_skipping r = false -> d <> Some DSkip -> code_ok (tr_core r) ->
  waiting (tr_core r) = false -> arrived r r' /\ code_ok (tr_core r') /\ tr_skipping r' = false.
Proof.
  induction 1 as [r d e E|r d r1 ev E|r d r1 x E S IH]; intros r' e' X NS ND C NW; [discriminate| |].
  - injection X as <- <-. destruct (plain_step _ _ _ _ _ NS ND E) as (Ed & NS'). pose proof (delegate_code _ _ _ _ _ _ _ C Ed) as C'.
    split; [|auto]. destruct (delegate_cases _ _ _ _ _ _ _ Ed) as [(A & B & _)|(k & c & f & Es & _ & [(P & Q & Q')|(P & Q)])].
    + right. split; [exact A|]. apply B, NW.
    + left. rewrite Es. split; [reflexivity|exact Q'].
    + unfold waiting in NW. rewrite P in NW. discriminate.
  - subst x. destruct (plain_step _ _ _ _ _ NS ND E) as (Ed & NS'). pose proof (delegate_code _ _ _ _ _ _ _ C Ed) as C'.
    destruct (skip_step_go _ _ _ _ E) as (A & B & _). destruct (IH r' e' eq_refl NS' ltac:(discriminate) C' A) as (R & C2 & N2).
    split; [|auto]. destruct R as [R|(R1 & R2)]; [left; exact R|right; split; [exact R1|]]. specialize (B NW). lia.
Qed.
(** When data arrives. *)
Lemma steps_data uni r c x : steps uni r (Some (DData c)) x -> forall r' e, x = Ok (r', e) -> tr_skipping r = false -> code_ok (tr_core r) ->
  c <> [] -> waiting (tr_core r) = true -> tr_q r = [] ->
  ((waiting (tr_core r') = true /\ tr_q r' = []) \/ (waiting (tr_core r') = false /\ (W r' < 16 * List.length c + 21)%nat)) /\
  code_ok (tr_core r') /\ tr_skipping r' = false.
Proof.
  intros S r' e X NS C NC WT Q. subst x.
  assert (D : exists s1, delegate uni (tr_core r) [] (Some (DData c)) = Ok (s1, c, None) /\ waiting s1 = false /\ code_ok s1).
  { unfold delegate. unfold waiting in WT. unfold code_ok in C. destruct (t_pc (tr_core r)) as [|k cc f|k cc f] eqn:Ep; try discriminate.
    destruct c as [|z l]; [congruence|]. eexists. split; [reflexivity|]. split; [reflexivity|]. exact C. }
  destruct D as (s1 & D & W1 & C1).
  inversion S as [? ? e0 E|? ? r1 ev E|? ? r1 x E S1]; subst.
  - destruct (plain_step uni r (Some (DData c)) _ _ NS ltac:(discriminate) E) as (Ed & _). rewrite Q, D in Ed. congruence.
  - destruct (plain_step uni r (Some (DData c)) _ _ NS ltac:(discriminate) E) as (Ed & NS1). rewrite Q, D in Ed. injection Ed as E1 E2.
    rewrite E1 in W1, C1. destruct (steps_before uni r1 None _ S1 r' e eq_refl NS1 ltac:(discriminate) C1 W1) as (R & C2 & N2).
    split; [|auto]. destruct R as [R|(R1 & R2)]; [left; exact R|right; split; [exact R1|]].
    pose proof (rank_le (tr_core r1)). unfold weight in *. rewrite <- E2 in R2. lia.
Qed.
(** With no data left. *)
Lemma steps_end uni r d x : steps uni r d x -> forall r' e, x = Ok (r', e) -> tr_skipping r = false -> d = None \/ d = Some DNext -> code_ok (tr_core r) ->
  late (tr_core r) -> tr_q r = [] ->
  tr_q r' = [] /\ late (tr_core r') /\ code_ok (tr_core r') /\ tr_skipping r' = false /\ (tail (tr_core r') <= tail (tr_core r))%nat /\
  (waiting (tr_core r') = false -> (tail (tr_core r') < tail (tr_core r))%nat).
Proof.
  induction 1 as [r d e E|r d r1 ev E|r d r1 x E S IH]; intros r' e' X NS ND C L Q; [discriminate| |].
  - injection X as <- <-. assert (ND' : d <> Some DSkip) by (destruct ND; subst; discriminate).
    destruct (plain_step _ _ _ _ _ NS ND' E) as (Ed & NS'). pose proof (delegate_code _ _ _ _ _ _ _ C Ed) as C'. rewrite Q in Ed.
    destruct (delegate_end uni _ d _ _ _ L C ltac:(intros ? ->; destruct ND; discriminate) Ed) as (A1 & A2 & A3 & A4).
    repeat split; auto. intros Wt. apply A4; [exact Wt|discriminate].
  - subst x. assert (ND' : d <> Some DSkip) by (destruct ND; subst; discriminate).
    destruct (plain_step _ _ _ _ _ NS ND' E) as (Ed & NS'). pose proof (delegate_code _ _ _ _ _ _ _ C Ed) as C'. rewrite Q in Ed.
    destruct (delegate_end uni _ d _ _ _ L C ltac:(intros ? ->; destruct ND; discriminate) Ed) as (A1 & A2 & A3 & _).
    destruct (IH r' e' eq_refl NS' (or_introl eq_refl) C' A2 A1) as (B1 & B2 & B3 & B4 & B5 & B6).
    repeat split; auto; [lia|]. intros Wt. specialize (B6 Wt). lia.
Qed.

(** * Sessions *)
Record live (r : tr) (last : event) : Prop := mklive {
  l_state : exists fl st, state_ok fl (Some last) (TAt r last) st;
  l_depth : has_depth last;
  l_skip : tr_skipping r = false;
  l_code : code_ok (tr_core r);
  l_queue : waiting (tr_core r) = true -> tr_q r = [];
}.
Lemma live_signal r last : live r last -> is_stream_signal (ev_type last) = waiting (tr_core r).
Proof. intros [(fl & st & S) _ _ _ _]. exact (proj1 (proj2 (proj2 S))). Qed.
Lemma live_waits s : waiting s = true -> late s.
Proof. unfold waiting, late. destruct (t_pc s) as [|k c f|k c f]; try discriminate. intros _. exact Logic.I. Qed.
Lemma live_send uni r last d e t' : live r last -> (d = DNext \/ exists c, d = DData c) -> text_send uni (TAt r last) d = (Ok e, t') ->
  exists r', t' = TAt r' e /\ steps uni r (Some d) (Ok (r', e)) /\ live r' e.
Proof.
  intros L D E. destruct (send_run _ _ _ _ _ E) as (r0 & r' & -> & ST & H).
  destruct H as [(H & _)|(la & H & P)]; [discriminate|]. injection H as <- <-. exists r'. split; [reflexivity|]. split; [exact ST|].
  pose proof (live_signal _ _ L) as SG. destruct L as [(fl & st & S) LD NS C Q].
  assert (LD' : is_stream_signal (ev_type last) = false -> exists n, ev_depth last = Some n) by exact LD.
  destruct (send_state uni fl (Some last) _ st d e _ S LD' E) as (st1 & st' & S' & TN & _).
  assert (X : code_ok (tr_core r') /\ tr_skipping r' = false /\ (waiting (tr_core r') = true -> tr_q r' = [])).
  { destruct (waiting (tr_core r)) eqn:Wt.
    - destruct D as [-> |(c & ->)].
      + destruct (steps_end _ _ _ _ ST r' e eq_refl NS (or_intror eq_refl) C (live_waits _ Wt) (Q eq_refl)) as (A1 & _ & A2 & A3 & _). auto.
      + assert (NC : c <> []).
        { intros ->. unfold text_protocol_check in P. rewrite SG in P. cbn [bind] in P. discriminate. }
        destruct (steps_data _ _ _ _ ST r' e eq_refl NS C NC Wt (Q eq_refl)) as (A & A1 & A2). split; [exact A1|]. split; [exact A2|]. intros w.
        destruct A as [(_ & A)|(A & _)]; [exact A|congruence].
    - destruct D as [-> |(c & ->)].
      + destruct (steps_before _ _ _ _ ST r' e eq_refl NS ltac:(discriminate) C Wt) as (A & A1 & A2). split; [exact A1|]. split; [exact A2|]. intros w.
        destruct A as [(_ & A)|(A & _)]; [exact A|congruence].
      + unfold text_protocol_check in P. rewrite SG in P. discriminate. }
  destruct X as (X1 & X2 & X3). constructor; auto.
  - eauto.
  - intros N. destruct (new_event_depth _ _ _ _ TN N) as (m & Em & _). eauto.
Qed.

Definition left_over (r : tr) (cs : list (list Z)) : nat := (W r + 37 * List.length (concat cs))%nat.
(** Nothing left, and at most [n] events. *)
Definition at_end (n : nat) (r : tr) (cs : list (list Z)) : Prop := cs = [] /\ tr_q r = [] /\ late (tr_core r) /\ (tail (tr_core r) <= n)%nat.
Lemma drained uni n : forall r ev e t', live r ev -> waiting (tr_core r) = true -> text_drain n uni (TAt r ev) ev = (Ok e, t') ->
  e = stream_end_event \/ (exists r', t' = TAt r' e /\ live r' e /\ waiting (tr_core r') = false /\ tr_q r' = [] /\ late (tr_core r') /\ (tail (tr_core r') < tail (tr_core r))%nat).
Proof.
  induction n as [|n IH]; intros r ev e t' L Wt E; cbn [text_drain] in E; rewrite (live_signal _ _ L), Wt in E.
  - destruct (ev_type ev); try discriminate; injection E as <- _; now left.
  - destruct (ev_type ev) eqn:Et; try (injection E as <- _; now left).
    destruct (text_send uni (TAt r ev) DNext) as [[e1|x] t1] eqn:Es; [|discriminate].
    destruct (live_send _ _ _ _ _ _ L (or_introl eq_refl) Es) as (r1 & -> & ST & L1).
    pose proof (l_skip _ _ L) as NS. pose proof (l_code _ _ L) as C. pose proof (l_queue _ _ L Wt) as Q.
    destruct (steps_end _ _ _ _ ST r1 e1 eq_refl NS (or_intror eq_refl) C (live_waits _ Wt) Q) as (A1 & A2 & _ & _ & A3 & A4).
    destruct (waiting (tr_core r1)) eqn:W1.
    + destruct (IH r1 e1 e t' L1 W1 E) as [H|(r' & B1 & B2 & B3 & B4 & B5 & B6)]; [now left|right]. exists r'. repeat split; auto; try lia; apply B2.
    + assert (Eq : (Ok e1, TAt r1 e1) = (Ok e, t')).
      { rewrite <- E. destruct n; cbn [text_drain]; rewrite (live_signal _ _ L1), W1; reflexivity. }
      injection Eq as <- <-. right. exists r1. split; [reflexivity|]. split; [exact L1|]. auto.
Qed.
Lemma fed uni cs : forall r ev e t' cs', live r ev -> pieces cs -> waiting (tr_core r) = true -> text_feed uni (TAt r ev) ev cs = (Ok e, t', cs') ->
  e = stream_end_event \/ (exists r', t' = TAt r' e /\ live r' e /\ waiting (tr_core r') = false /\ pieces cs' /\
    ((left_over r' cs' < left_over r cs)%nat \/ at_end 1 r' cs')).
Proof.
  induction cs as [|c cs IH]; intros r ev e t' cs' L P Wt E; cbn [text_feed] in E; rewrite (live_signal _ _ L), Wt in E.
  - destruct (text_drain flushes uni (TAt r ev) ev) as [x t1] eqn:Ed. injection E as -> <- <-.
    destruct (drained _ _ _ _ _ _ L Wt Ed) as [H|(r' & A1 & A2 & A3 & A4 & A5 & A6)]; [now left|right].
    exists r'. split; [exact A1|]. split; [exact A2|]. split; [exact A3|]. split; [constructor|]. right.
    split; [reflexivity|]. split; [exact A4|]. split; [exact A5|]. revert A6. unfold tail at 2.
    destruct (t_pc (tr_core r)) as [|[]|[]]; try (destruct (pending _)); lia.
  - inversion P as [|? ? Pc Pcs]; subst.
    destruct (text_send uni (TAt r ev) (DData c)) as [[e1|x] t1] eqn:Es; [|discriminate].
    destruct (live_send _ _ _ _ _ _ L ltac:(eauto) Es) as (r1 & -> & ST & L1).
    pose proof (l_skip _ _ L) as NS. pose proof (l_code _ _ L) as C. pose proof (l_queue _ _ L Wt) as Q.
    destruct (steps_data _ _ _ _ ST r1 e1 eq_refl NS C Pc Wt Q) as (A & _).
    assert (LC : (List.length (concat (c :: cs)) = List.length c + List.length (concat cs))%nat) by (cbn [concat]; apply app_length).
    assert (L0 : (1 <= List.length c)%nat) by (destruct c; [congruence|cbn; lia]).
    destruct (waiting (tr_core r1)) eqn:W1.
    + destruct (IH r1 e1 e t' cs' L1 Pcs W1 E) as [H|(r' & B1 & B2 & B3 & B4 & B5)]; [now left|right].
      exists r'. repeat (split; [assumption|]). destruct B5 as [B5|B5]; [left|now right].
      destruct A as [(_ & A)|(A & _)]; [|congruence].
      assert (W r1 = 0)%nat.
      { unfold weight. rewrite A. unfold waiting in W1. unfold rank. destruct (t_pc (tr_core r1)) as [|k ? ?|]; try discriminate. reflexivity. }
      unfold left_over in *. lia.
    + assert (Eq : (Ok e1, TAt r1 e1, cs) = (Ok e, t', cs')).
      { rewrite <- E. destruct cs; cbn [text_feed]; rewrite (live_signal _ _ L1), W1; reflexivity. }
      injection Eq as <- <- <-. right. exists r1. split; [reflexivity|]. split; [exact L1|]. split; [exact W1|]. split; [exact Pcs|]. left.
      destruct A as [(A & _)|(_ & A)]; [congruence|]. unfold left_over. lia.
Qed.
Lemma feed_quiet uni r e cs : live r e -> waiting (tr_core r) = false -> text_feed uni (TAt r e) e cs = (Ok e, TAt r e, cs).
Proof. intros L Wt. destruct cs; cbn [text_feed]; rewrite (live_signal _ _ L), Wt; reflexivity. Qed.
Lemma waiting_zero r : waiting (tr_core r) = true -> tr_q r = [] -> W r = 0%nat.
Proof. intros Wt Q. unfold weight. rewrite Q. unfold waiting in Wt. unfold rank. destruct (t_pc (tr_core r)) as [|k ? ?|]; try discriminate. reflexivity. Qed.

(** A NEXT with data still coming. *)
Lemma next_before uni r r0 e0 cs e t' cs' : steps uni r (Some DNext) (Ok (r0, e0)) -> tr_skipping r = false -> code_ok (tr_core r) -> waiting (tr_core r) = false ->
  live r0 e0 -> pieces cs -> text_feed uni (TAt r0 e0) e0 cs = (Ok e, t', cs') ->
  e = stream_end_event \/ (exists r', t' = TAt r' e /\ live r' e /\ waiting (tr_core r') = false /\ pieces cs' /\
    ((left_over r' cs' < left_over r cs)%nat \/ at_end 1 r' cs')).
Proof.
  intros ST NS C NW L0 P E. destruct (steps_before _ _ _ _ ST r0 e0 eq_refl NS ltac:(discriminate) C NW) as (A & _).
  destruct A as [(A1 & A2)|(A1 & A2)].
  - destruct (fed _ _ _ _ _ _ _ L0 P A1 E) as [H|(r' & B1 & B2 & B3 & B4 & B5)]; [now left|right]. exists r'. repeat (split; [assumption|]).
    destruct B5 as [B5|B5]; [left|now right]. unfold left_over in *. rewrite (waiting_zero _ A1 A2) in B5. lia.
  - rewrite (feed_quiet _ _ _ _ L0 A1) in E. injection E as <- <- <-. right. exists r0. split; [reflexivity|]. split; [exact L0|]. split; [exact A1|]. split; [exact P|].
    left. unfold left_over. lia.
Qed.
Lemma session_end uni n : forall r last, live r last -> waiting (tr_core r) = false -> at_end n r [] -> (forall m, (n < m)%nat -> snd (text_session uni (TAt r last) [] (repeat DNext m)) <> SMore).
Proof.
  induction n as [n IH] using lt_wf_ind. intros r last L NW (_ & Q & LT & T) m M. destruct m as [|m]; [lia|]. cbn [repeat text_session]. unfold text_next.
  destruct (text_send uni (TAt r last) DNext) as [[e1|x] t1] eqn:Es; [|discriminate].
  destruct (live_send _ _ _ _ _ _ L (or_introl eq_refl) Es) as (r1 & -> & ST & L1).
  destruct (steps_end _ _ _ _ ST r1 e1 eq_refl (l_skip _ _ L) (or_intror eq_refl) (l_code _ _ L) LT Q) as (A1 & A2 & _ & _ & A3 & A4).
  destruct (text_feed uni (TAt r1 e1) e1 []) as [[[e|x] t'] cs'] eqn:Ef; [|discriminate].
  assert (R : e = stream_end_event \/ exists r', t' = TAt r' e /\ cs' = [] /\ live r' e /\ waiting (tr_core r') = false /\ tr_q r' = [] /\ late (tr_core r') /\ (tail (tr_core r') < tail (tr_core r))%nat).
  { destruct (waiting (tr_core r1)) eqn:W1.
    - cbn [text_feed] in Ef. rewrite (live_signal _ _ L1), W1 in Ef. destruct (text_drain _ _ _ _) as [y t2] eqn:Ed. injection Ef as -> -> <-.
      destruct (drained _ _ _ _ _ _ L1 W1 Ed) as [H|(r' & B1 & B2 & B3 & B4 & B5 & B6)]; [now left|right]. exists r'. repeat (split; [assumption||reflexivity|]). lia.
    - rewrite (feed_quiet _ _ _ _ L1 W1) in Ef. injection Ef as <- <- <-. right. exists r1. repeat (split; [assumption||reflexivity|]). exact (A4 eq_refl). }
  destruct R as [-> |(r' & -> & -> & L' & W' & Q' & LT' & T')]; [discriminate|].
  destruct (ev_type e); try discriminate; match goal with |- context [text_session uni ?t ?c ?q] =>
    assert (N : snd (text_session uni t c q) <> SMore) by
      (apply (IH (tail (tr_core r')) ltac:(lia) r' e L' W'); [split; [reflexivity|]; split; [exact Q'|]; split; [exact LT'|lia]|lia]);
    destruct (text_session uni t c q); exact N end.
Qed.
Lemma session_ends uni n : forall r last cs, live r last -> waiting (tr_core r) = false -> pieces cs -> (left_over r cs + 2 < n)%nat ->
  snd (text_session uni (TAt r last) cs (repeat DNext n)) <> SMore.
Proof.
  induction n as [|n IH]; intros r last cs L NW P B; [lia|]. cbn [repeat text_session]. unfold text_next.
  destruct (text_send uni (TAt r last) DNext) as [[e1|x] t1] eqn:Es; [|discriminate].
  destruct (live_send _ _ _ _ _ _ L (or_introl eq_refl) Es) as (r1 & -> & ST & L1).
  destruct (text_feed uni (TAt r1 e1) e1 cs) as [[[e|x] t'] cs'] eqn:Ef; [|discriminate].
  destruct (next_before _ _ _ _ _ _ _ _ ST (l_skip _ _ L) (l_code _ _ L) NW L1 P Ef) as [-> |(r' & -> & L' & W' & P' & R)]; [discriminate|].
  assert (N : snd (text_session uni (TAt r' e) cs' (repeat DNext n)) <> SMore).
  { destruct R as [R|R]; [apply IH; auto; lia|]. destruct R as (-> & R). apply (session_end uni 1); [exact L'|exact W'|split; [reflexivity|exact R]|lia]. }
  destruct (ev_type e); try discriminate; destruct (text_session uni _ cs' _); exact N.
Qed.
Theorem reading_ends uni cs n : pieces cs -> (37 * List.length (concat cs) + 16 <= n)%nat ->
  snd (text_session uni text_reader_new cs (repeat DNext n)) <> SMore.
Proof.
  intros P B. destruct n as [|n]; [lia|]. cbn [repeat text_session]. unfold text_next.
  destruct (text_send uni text_reader_new DNext) as [[e1|x] t1] eqn:Es; [|discriminate].
  destruct (send_run _ _ _ _ _ Es) as (r0 & r1 & -> & ST & H). destruct H as [(H & _)|(la & H & _)]; [|discriminate]. injection H as <-.
  assert (C0 : code_ok (tr_core tr_new)) by exact Logic.I.
  assert (L1 : live r1 e1).
  { destruct (send_state uni _ None _ [] DNext e1 _ state_new ltac:(discriminate) Es) as (st1 & st' & S' & TN & _).
    destruct (steps_before _ _ _ _ ST r1 e1 eq_refl eq_refl ltac:(discriminate) C0 eq_refl) as (A & A1 & A2).
    constructor; auto.
    - eauto.
    - intros N. destruct (new_event_depth _ _ _ _ TN N) as (m & Em & _). eauto.
    - intros w. destruct A as [(_ & A)|(A & _)]; [exact A|congruence]. }
  destruct (text_feed uni (TAt r1 e1) e1 cs) as [[[e|x] t'] cs'] eqn:Ef; [|discriminate].
  destruct (next_before _ _ _ _ _ _ _ _ ST eq_refl C0 eq_refl L1 P Ef) as [-> |(r' & -> & L' & W' & P' & R)]; [discriminate|].
  assert (W0 : left_over tr_new cs = (12 + 37 * List.length (concat cs))%nat) by reflexivity.
  assert (N : snd (text_session uni (TAt r' e) cs' (repeat DNext n)) <> SMore).
  { destruct R as [R|R]; [apply session_ends; auto; lia|]. destruct R as (-> & R). apply (session_end uni 1); [exact L'|exact W'|split; [reflexivity|exact R]|lia]. }
  destruct (ev_type e); try discriminate; destruct (text_session uni _ cs' _); exact N.
Qed.

(** * A text without stars and backslashes *)
Definition free (z : Z) : Prop := z <> 42 /\ z <> 92.
Definition tame_cps (cs : cps) : Prop := match cs with CEsc _ _ _ => False | CHigh h => is_high h = true | _ => True end.
Definition tame_pc (p : tpc) : Prop :=
  match p with
  | PRead (KTok h) _ _ | PWait (KTok h) _ _ => tame h
  | PRead (KCode cs h) _ _ | PWait (KCode cs h) _ _ => tame h /\ tame_cps cs
  | _ => True
  end.
Notation tame_core s := (tame_pc (t_pc s)) (only parsing).
Lemma token_tame s h b k : tame h -> tame_pc (token_pc s h b k).
Proof. intros H. unfold token_pc. destruct (_ || _); cbn; auto. Qed.
Lemma after_event_tame s k ev comp c s' : to_tame (TEv ev comp) -> after_event s k ev comp c = Ok s' -> tame_core s'.
Proof.
  intros T. unfold after_event. intros E. cbv zeta in E. apply bind_ok in E as ([[next child] self] & En & E).
  destruct (is_container_start ev).
  { destruct next; [discriminate|]. destruct (ev_ion_type ev); [|discriminate]. injection E as <-. exact Logic.I. }
  destruct self; [injection E as <-; exact Logic.I|]. destruct next as [h|]; [|injection E as <-; exact Logic.I].
  assert (TH : tame h).
  { destruct (k_comp k); [|discriminate]. destruct comp as [[h' k']|]; [|discriminate]. inversion En; subst; exact T. }
  destruct child; injection E as <-; [|exact Logic.I]. cbn [with_pc t_pc]. apply token_tame, TH.
Qed.
Lemma after_back_tame s k c : tame_core (after_back s k c).
Proof. unfold after_back. cbv zeta. repeat match goal with |- context [if ?b then _ else _] => destruct b | |- context [match ?b with _ => _ end] => destruct b end; exact Logic.I. Qed.
Lemma handled_tame v s h c k a s' ev u : tame h -> free (cz c) -> send v h c k = Ok a -> handled s c a = Ok (s', ev, u) ->
  tame_core s' /\ Forall free u.
Proof.
  intros TH F Es E. destruct a as [[t k'] w]. assert (T : to_tame t) by (eapply (tame_send v h c k TH (proj1 F)), Es).
  assert (U : Forall free w).
  { destruct (send_back _ _ _ _ _ Es) as [-> |((z & e & g & -> & ->) & _)]; [constructor|]. constructor; [exact F|constructor]. }
  unfold handled in E. destruct t; cbv zeta in E.
  - apply bind_ok in E as (x & Ex & E). injection E as <- _ <-. split; [|exact U]. eapply after_event_tame; [exact T|exact Ex].
  - injection E as <- _ <-. split; [|exact U]. cbn [with_pc t_pc]. apply token_tame, T.
  - injection E as <- _ <-. split; [|exact U]. apply after_back_tame.
Qed.
Lemma combined_free h l : is_high h = true -> is_low l = true -> free (combine_surrogates h l).
Proof.
  unfold is_high, is_low, combine_surrogates, free. rewrite Z.shiftl_mul_pow2 by lia. change (2 ^ 10) with 1024. lia.
Qed.
Lemma cp_tame uni cs z r : tame_cps cs -> free z -> cp_step uni cs z = Ok r ->
  match r with CMore cs' u => tame_cps cs' /\ u = [] | CDone c u => free (cz c) /\ (u = [] \/ u = [z]) end.
Proof.
  intros T F E. destruct cs; cbn [cp_step] in E; [| |destruct T|].
  - destruct (is_low z); [discriminate|]. destruct (is_high z) eqn:H; [destruct low; [discriminate|injection E as <-; split; [exact H|reflexivity]]|].
    destruct (z =? 92) eqn:N; [apply Z.eqb_eq in N; destruct (proj2 F N)|]. destruct low; [discriminate|].
    destruct (z =? 13); injection E as <-; [split; [exact Logic.I|reflexivity]|]. split; [exact F|now left].
  - destruct (is_low z) eqn:L; [|discriminate]. injection E as <-. split; [apply combined_free; assumption|now left].
  - injection E as <-. split; [split; discriminate|]. destruct (z =? 10); auto.
Qed.
Lemma take_tame uni s k c s' ev u : tame_pc (PRead k false false) -> free (cz c) -> take uni s k c = Ok (s', ev, u) -> tame_core s' /\ Forall free u.
Proof.
  intros T F E. destruct k; cbn [take tame_pc] in *.
  - injection E as <- _ <-. split; [exact Logic.I|constructor].
  - opens. split; [exact Logic.I|constructor].
  - destruct (t_child s); [|discriminate]. apply bind_ok in E as (a & Es & E). eapply handled_tame; eassumption.
  - destruct T as (T1 & T2). destruct (t_child s); [|discriminate]. apply bind_ok in E as (r & Er & E). apply (cp_tame _ _ _ _ T2 F) in Er. destruct r as [cs' w|c' w].
    + destruct Er as (T' & ->). injection E as <- _ <-. cbn. split; [auto|constructor].
    + destruct Er as (F' & W'). apply bind_ok in E as (a & Es & E). apply bind_ok in E as ([[s1 ev1] u1] & Eh & E). injection E as <- _ <-.
      destruct (handled_tame _ _ _ _ _ _ _ _ _ T1 F' Es Eh) as (A1 & A2). split; [exact A1|]. apply Forall_app. split; [exact A2|].
      destruct W' as [-> | ->]; [constructor|]. constructor; [exact F|constructor].
Qed.
Lemma start_value_tame v z k : gives to_tame (start_value v z k). Proof. unfold start_value. gp. Qed.
Lemma start_field_tame v z k : gives to_tame (start_field v z k). Proof. unfold start_field. gp. Qed.
Lemma top_tame uni s oc s' ev : top uni s oc = Ok (s', ev) -> tame_core s'.
Proof.
  unfold top. cbv zeta. intros E. destruct oc as [c|]; [|injection E as <- _; exact Logic.I].
  destruct (is_end (t_type s) c || is_delim (t_type s) c || is_eof c).
  { apply bind_ok in E as (p & _ & E). opens; exact Logic.I. }
  destruct (is_ws (cz c)); [injection E as <- _; exact Logic.I|].
  destruct (cz c =? 47).
  { apply bind_ok in E as (h & Eh & E). injection E as <- _. cbn [with_pc t_pc]. apply token_tame. opens; exact Logic.I. }
  destruct (t_delim _); [discriminate|].
  match type of E with match ?a with _ => _ end = _ => destruct a as [p|]; [match type of E with match ?a with _ => _ end = _ => destruct a as [k|] end|] end.
  - opens; exact Logic.I.
  - apply bind_ok in E as ([[t k] w] & Es & E).
    assert (T : to_tame t) by (destruct (t_field _); [eapply start_field_tame, Es|eapply start_value_tame, Es]).
    destruct t as [| h |]; try discriminate. cbv zeta in E. destruct (_ || _).
    + apply bind_ok in E as ([[t2 k2] w2] & Es2 & E). assert (T2 : to_tame t2) by (eapply (tame_send _ h Eof k T); [discriminate|exact Es2]).
      destruct t2; try discriminate. apply bind_ok in E as (x & Ex & E). injection E as <- _. eapply after_event_tame; [exact T2|exact Ex].
    + injection E as <- _. cbn [with_pc t_pc]. apply token_tame, T.
  - apply bind_ok in E as ([[t k] w] & Es & E).
    assert (T : to_tame t) by (destruct (t_field _); [eapply start_field_tame, Es|eapply start_value_tame, Es]).
    destruct t as [| h |]; try discriminate. cbv zeta in E. destruct (_ || _).
    + apply bind_ok in E as ([[t2 k2] w2] & Es2 & E). assert (T2 : to_tame t2) by (eapply (tame_send _ h Eof k T); [discriminate|exact Es2]).
      destruct t2; try discriminate. apply bind_ok in E as (x & Ex & E). injection E as <- _. eapply after_event_tame; [exact T2|exact Ex].
    + injection E as <- _. cbn [with_pc t_pc]. apply token_tame, T.
Qed.
Definition free_data (d : option devent) : Prop := match d with Some (DData c) => Forall free c | _ => True end.
Lemma delegate_tame uni s q d s' q' ev : tame_core s -> Forall free q -> free_data d -> delegate uni s q d = Ok (s', q', ev) -> tame_core s' /\ Forall free q'.
Proof.
  unfold delegate. intros T Q D E. destruct (t_pc s) as [oc|k c f|k c f] eqn:Ep.
  - apply bind_ok in E as ([s1 e1] & Et & E). injection E as <- <- _. split; [eapply top_tame, Et|exact Q].
  - destruct q as [|z q].
    + injection E as <- <- _. split; [exact T|constructor].
    + apply bind_ok in E as ([[s1 e1] u] & Et & E). injection E as <- <- _. inversion Q; subst.
      destruct (take_tame uni s k (plain z) s1 e1 u) as (A & B); [exact T|assumption|exact Et|]. split; [exact A|]. apply Forall_app. auto.
  - destruct d as [[| |[|x l]]|].
    + destruct f; [|discriminate]. apply bind_ok in E as ([[s1 e1] u] & Et & E). injection E as <- <- _.
      destruct (take_tame uni s k Eof s1 e1 u) as (A & B); [exact T|split; discriminate|exact Et|]. split; [exact A|]. apply Forall_app. auto.
    + injection E as <- <- _. rewrite Ep. auto.
    + injection E as <- <- _. rewrite Ep. auto.
    + injection E as <- <- _. split; [exact T|]. apply Forall_app. auto.
    + injection E as <- <- _. rewrite Ep. auto.
Qed.

(** ** The reader does not ask for the end more than three times *)
Definition comment (h : hs) : bool := match h with HComm0 _ | HLine _ | HBlock _ _ | HSexpSlash _ _ | HSlash _ => true | _ => false end.
Lemma calm h : tame h -> comment h = false -> plain_handler h. Proof. destruct h; intros T C; try discriminate C; exact T. Qed.
Lemma calm_plain h : plain_handler h -> comment h = false. Proof. destruct h; intros P; try reflexivity; destruct P. Qed.
Definition klevel (k : kont) (complete : bool) : nat :=
  match k with
  | KTop => if complete then 0 else 1
  | KTok h => if comment h then 3 else 2
  | _ => 1
  end.
Definition level (s : tcore) : nat :=
  match t_pc s with PTop (Some _) => 0 | PTop None => 1 | PRead k c _ | PWait k c _ => klevel k c end.
Lemma top_level uni s oc s' : late s -> t_pc s = PTop oc -> top uni s oc = Ok (s', None) -> (level s' <= level s)%nat.
Proof.
  intros L Ep E. unfold late in L. rewrite Ep in L. unfold level at 2. rewrite Ep.
  destruct oc as [[z e g|]|]; [contradiction| |].
  - unfold top in E. cbv zeta in E.
    assert (N1 : is_end (t_type s) Eof = false) by (unfold is_end, end_char; destruct (t_type s) as [[]|]; reflexivity).
    assert (N2 : is_delim (t_type s) Eof = false) by (unfold is_delim; cbn; apply andb_false_r).
    rewrite N1, N2 in E. cbn [orb is_eof] in E. apply bind_ok in E as (p & P & E). destruct p; [discriminate|].
    injection E as <-. cbn. lia.
  - injection E as <-. cbn. destruct (t_complete s); lia.
Qed.
Lemma back_level s k : (level (after_back s k Eof) <= 1)%nat.
Proof. unfold after_back. cbv zeta. repeat match goal with |- context [if ?b then _ else _] => destruct b | |- context [match ?b with Some _ => _ | None => _ end] => destruct b end; cbn; repeat match goal with |- context [if ?b then _ else _] => destruct b end; lia. Qed.
Lemma take_level uni s k c s' u : t_pc s = PWait k c true -> code_ok s -> tame_core s -> take uni s k Eof = Ok (s', None, u) -> (klevel k c <> 0)%nat ->
  (level s' < klevel k c)%nat.
Proof.
  intros Ep C T E NZ. rewrite Ep in T. destruct k; cbn [take] in E.
  - injection E as <- _. cbn in *. destruct c; [congruence|]. lia.
  - discriminate.
  - cbn [tame_pc] in T. destruct (t_child s) as [kk|]; [|discriminate]. apply bind_ok in E as ([[t k] v] & Es & E).
    unfold handled in E. destruct t; cbv zeta in E.
    + apply bind_ok in E as (x & Ex & E). discriminate.
    + injection E as <- _. pose proof (line_send _ _ _ T _ _ _ Es) as P. cbn [to_plain] in P.
      assert (CH : comment h = true).
      { destruct (comment h) eqn:CH; [reflexivity|]. pose proof (rest_send _ _ _ (calm _ T CH) _ _ _ Es) as R. destruct R. }
      unfold klevel. rewrite CH. unfold level, token_pc. cbn [with_pc t_pc]. destruct (_ || _); cbn; [lia|]. rewrite (calm_plain _ P). lia.
    + injection E as <- _. pose proof (back_level s k). unfold klevel. destruct (comment h); lia.
  - unfold code_ok in C. rewrite Ep in C. discriminate.
Qed.
Lemma delegate_level uni s d s' q' ev : late s -> code_ok s -> tame_core s -> (forall c, d <> Some (DData c)) -> delegate uni s [] d = Ok (s', q', ev) ->
  (ev = None \/ waiting s' = true) -> (level s' <= level s)%nat /\ (waiting s = true -> d = Some DNext -> level s <> 0%nat -> (level s' < level s)%nat).
Proof.
  unfold delegate. intros L C T D E V. destruct (t_pc s) as [oc|k c f|k c f] eqn:Ep.
  - apply bind_ok in E as ([s1 e1] & Et & E). injection E as <- <- <-.
    destruct V as [-> |V]; [|rewrite (top_awake _ _ _ _ _ Et) in V; discriminate].
    split; [exact (top_level _ _ _ _ L Ep Et)|]. unfold waiting. rewrite Ep. discriminate.
  - injection E as <- <- <-. unfold level. rewrite Ep. cbn [with_pc t_pc]. split; [lia|]. unfold waiting. rewrite Ep. discriminate.
  - assert (LV : level s = klevel k c) by (unfold level; now rewrite Ep).
    destruct d as [[| |l]|].
    + destruct f; [|discriminate]. apply bind_ok in E as ([[s1 e1] u] & Et & E). injection E as <- <- <-.
      destruct V as [-> |V]; [|rewrite (take_awake _ _ _ _ _ _ _ Et) in V; discriminate].
      destruct (Nat.eq_dec (klevel k c) 0) as [Z|Z].
      * split; [|congruence]. rewrite LV, Z. destruct k; cbn in Z; [|congruence|destruct (comment h); discriminate|discriminate].
        cbn [take] in Et. injection Et as <- _. cbn. lia.
      * rewrite LV. pose proof (take_level _ _ _ _ _ _ Ep C ltac:(rewrite Ep; exact T) Et Z). split; [lia|]. intros _ _ _. exact H.
    + injection E as <- <- <-. split; [lia|]. discriminate.
    + destruct (D l eq_refl).
    + injection E as <- <- <-. split; [lia|]. discriminate.
Qed.
Definition tamed (r : tr) : Prop := tame_core (tr_core r) /\ Forall free (tr_q r).
Lemma steps_tame uni r d x : steps uni r d x -> forall r' e, x = Ok (r', e) -> tr_skipping r = false -> d <> Some DSkip -> free_data d -> tamed r -> tamed r'.
Proof.
  induction 1 as [r d e E|r d r1 ev E|r d r1 x E S IH]; intros r' e' X NS ND D (T & Q); [discriminate| |].
  - injection X as <- <-. destruct (plain_step _ _ _ _ _ NS ND E) as (Ed & _). exact (delegate_tame _ _ _ _ _ _ _ T Q D Ed).
  - subst x. destruct (plain_step _ _ _ _ _ NS ND E) as (Ed & NS'). apply (IH r' e' eq_refl NS' ltac:(discriminate) Logic.I). exact (delegate_tame _ _ _ _ _ _ _ T Q D Ed).
Qed.
Lemma steps_level uni r d x : steps uni r d x -> forall r' e, x = Ok (r', e) -> tr_skipping r = false -> d = None \/ d = Some DNext -> code_ok (tr_core r) ->
  tamed r -> late (tr_core r) -> tr_q r = [] -> waiting (tr_core r') = true ->
  (level (tr_core r') <= level (tr_core r))%nat /\
  (waiting (tr_core r) = true -> d = Some DNext -> level (tr_core r) <> 0%nat -> (level (tr_core r') < level (tr_core r))%nat) /\
  (exists k c f, t_pc (tr_core r') = PWait k c f /\ e = signal c).
Proof.
  induction 1 as [r d e E|r d r1 ev E|r d r1 x E S IH]; intros r' e' X NS ND C T L Q Wt; [discriminate| |].
  - injection X as <- <-. assert (ND' : d <> Some DSkip) by (destruct ND; subst; discriminate).
    assert (NN : forall c, d <> Some (DData c)) by (intros ? ->; destruct ND; discriminate).
    destruct (plain_step _ _ _ _ _ NS ND' E) as (Ed & NS'). rewrite Q in Ed.
    destruct (delegate_level uni _ d _ _ _ L C (proj1 T) NN Ed (or_intror Wt)) as (A1 & A2). split; [exact A1|]. split; [exact A2|].
    destruct (delegate_cases _ _ _ _ _ _ _ Ed) as [(A & _)|(k & c & f & Es & Ev & _)]; [congruence|].
    exists k, c, f. rewrite Es. split; [reflexivity|]. congruence.
  - subst x. assert (ND' : d <> Some DSkip) by (destruct ND; subst; discriminate).
    assert (NN : forall c, d <> Some (DData c)) by (intros ? ->; destruct ND; discriminate).
    destruct (plain_step _ _ _ _ _ NS ND' E) as (Ed & NS').
    pose proof (delegate_code _ _ _ _ _ _ _ C Ed) as C'.
    assert (T' : tamed r1) by (exact (delegate_tame uni _ _ d _ _ _ (proj1 T) (proj2 T) ltac:(destruct ND; subst; exact Logic.I) Ed)).
    rewrite Q in Ed. destruct (delegate_level uni _ d _ _ _ L C (proj1 T) NN Ed (or_introl eq_refl)) as (A1 & A2).
    destruct (delegate_end uni _ d _ _ _ L C NN Ed) as (B1 & B2 & _).
    destruct (IH r' e' eq_refl NS' (or_introl eq_refl) C' T' B2 B1 Wt) as (I1 & I2 & I3).
    split; [lia|]. split; [|exact I3]. intros X1 X2 X3. specialize (A2 X1 X2 X3). lia.
Qed.

Lemma live_error uni r last d e t' : live r last -> (d = DNext \/ exists c, d = DData c) -> text_send uni (TAt r last) d = (Err e, t') -> e <> OutOfFuel.
Proof.
  intros [(fl & st & S) _ NS _ _] D E. unfold text_send in E. destruct (text_protocol_check last d) as [[]|x] eqn:P.
  - destruct (run _ uni r (Some d)) as [[r' ev]|x] eqn:R; [discriminate|]. injection E as <- _.
    destruct S as (_ & TO & _). apply tr_ok_flush in TO.
    assert (ST : steps uni r (Some d) (Err x)) by (rewrite <- R; apply run_steps).
    destruct (steps_safe uni true r (Some d) _ ST st TO ltac:(discriminate) ltac:(discriminate)) as [A|(_ & _ & [A|A])].
    + intros ->. unfold safe, known_exception in A. cbn in A. intuition discriminate.
    + congruence.
    + injection A as ->. destruct D as [D|(c & D)]; discriminate.
  - injection E as <- _. unfold text_protocol_check in P. intros ->.
    destruct D as [-> |(c & ->)]; destruct (is_stream_signal (ev_type last)); destruct (ev_type last); cbn in P; try discriminate; try (destruct c; try discriminate);
      destruct (ev_depth last) as [[]|]; discriminate.
Qed.
Lemma steps_signal uni r d x : steps uni r d x -> forall r' e, x = Ok (r', e) -> tr_skipping r = false -> d <> Some DSkip -> waiting (tr_core r') = true ->
  exists k c f, t_pc (tr_core r') = PWait k c f /\ e = signal c.
Proof.
  induction 1 as [r d e E|r d r1 ev E|r d r1 x E S IH]; intros r' e' X NS ND Wt; [discriminate| |].
  - injection X as <- <-. destruct (plain_step _ _ _ _ _ NS ND E) as (Ed & _).
    destruct (delegate_cases _ _ _ _ _ _ _ Ed) as [(A & _)|(k & c & f & Es & Ev & _)]; [congruence|].
    exists k, c, f. rewrite Es. split; [reflexivity|]. congruence.
  - subst x. destruct (plain_step _ _ _ _ _ NS ND E) as (_ & NS'). exact (IH r' e' eq_refl NS' ltac:(discriminate) Wt).
Qed.
Definition signalled (r : tr) (e : event) : Prop := exists k c f, t_pc (tr_core r) = PWait k c f /\ e = signal c.
Lemma level_most s : (level s <= 3)%nat.
Proof. unfold level, klevel. destruct (t_pc s) as [[]|[] c f|[] c f]; try (destruct (comment h)); try destruct c; lia. Qed.
Lemma drain_answers uni n : forall r ev, live r ev -> tamed r -> waiting (tr_core r) = true -> signalled r ev -> (level (tr_core r) <= n)%nat ->
  match text_drain n uni (TAt r ev) ev with
  | (Ok e, t') => e = stream_end_event \/ exists r', t' = TAt r' e /\ tamed r'
  | (Err e, _) => e <> OutOfFuel
  end.
Proof.
  induction n as [|n IH]; intros r ev L T Wt (k & c & f & Ep & ->) B; cbn [text_drain]; rewrite (live_signal _ _ L), Wt.
  - destruct c; [cbn; now left|]. exfalso. unfold level in B. rewrite Ep in B. destruct k; cbn in B; try lia. destruct (comment h); lia.
  - destruct c; [cbn; now left|]. change (ev_type (signal false)) with EIncomplete. cbv iota.
    destruct (text_send uni (TAt r (signal false)) DNext) as [[e1|x] t1] eqn:Es; [|exact (live_error _ _ _ _ _ _ L (or_introl eq_refl) Es)].
    destruct (live_send _ _ _ _ _ _ L (or_introl eq_refl) Es) as (r1 & -> & ST & L1).
    pose proof (l_skip _ _ L) as NS. pose proof (l_code _ _ L) as C. pose proof (l_queue _ _ L Wt) as Q.
    pose proof (steps_tame _ _ _ _ ST r1 e1 eq_refl NS ltac:(discriminate) Logic.I T) as T1.
    destruct (waiting (tr_core r1)) eqn:W1.
    + destruct (steps_level _ _ _ _ ST r1 e1 eq_refl NS (or_intror eq_refl) C T (live_waits _ Wt) Q W1) as (_ & A & SG).
      apply IH; auto. assert (NZ : level (tr_core r) <> 0%nat).
      { unfold level. rewrite Ep. destruct k; cbn; try lia. destruct (comment h); lia. }
      specialize (A Wt eq_refl NZ). lia.
    + assert (Eq : text_drain n uni (TAt r1 e1) e1 = (Ok e1, TAt r1 e1)).
      { destruct n; cbn [text_drain]; rewrite (live_signal _ _ L1), W1; reflexivity. }
      rewrite Eq. right. eauto.
Qed.
Lemma feed_answers uni cs : forall r ev, live r ev -> tamed r -> pieces cs -> Forall free (concat cs) -> (waiting (tr_core r) = true -> signalled r ev) ->
  match text_feed uni (TAt r ev) ev cs with
  | (Ok e, t', cs') => e = stream_end_event \/ (exists r', t' = TAt r' e /\ tamed r') /\ pieces cs' /\ Forall free (concat cs')
  | (Err e, _, _) => e <> OutOfFuel
  end.
Proof.
  induction cs as [|c cs IH]; intros r ev L T P F SG.
  - destruct (waiting (tr_core r)) eqn:Wt.
    + cbn [text_feed]. rewrite (live_signal _ _ L), Wt. pose proof (drain_answers uni flushes r ev L T Wt (SG eq_refl) (level_most _)) as D.
      destruct (text_drain _ _ _ _) as [[e|x] t']; [|exact D]. destruct D as [D|D]; [now left|right]. split; [exact D|]. split; constructor.
    + rewrite (feed_quiet _ _ _ _ L Wt). right. split; [eauto|]. split; constructor.
  - destruct (waiting (tr_core r)) eqn:Wt.
    + cbn [text_feed]. rewrite (live_signal _ _ L), Wt. inversion P as [|? ? Pc Pcs]; subst. cbn [concat] in F. apply Forall_app in F as (Fc & Fcs).
      destruct (text_send uni (TAt r ev) (DData c)) as [[e1|x] t1] eqn:Es; [|exact (live_error _ _ _ _ _ _ L ltac:(eauto) Es)].
      destruct (live_send _ _ _ _ _ _ L ltac:(eauto) Es) as (r1 & -> & ST & L1).
      pose proof (l_skip _ _ L) as NS.
      pose proof (steps_tame _ _ _ _ ST r1 e1 eq_refl NS ltac:(discriminate) Fc T) as T1.
      apply IH; auto. intros W1. exact (steps_signal _ _ _ _ ST r1 e1 eq_refl NS ltac:(discriminate) W1).
    + rewrite (feed_quiet _ _ _ _ L Wt). right. split; [eauto|]. split; assumption.
Qed.
Lemma session_answers uni n : forall r last cs, live r last -> tamed r -> pieces cs -> Forall free (concat cs) ->
  snd (text_session uni (TAt r last) cs (repeat DNext n)) <> SExc OutOfFuel.
Proof.
  induction n as [|n IH]; intros r last cs L T P F; [discriminate|]. cbn [repeat text_session]. unfold text_next.
  destruct (text_send uni (TAt r last) DNext) as [[e1|x] t1] eqn:Es.
  2: { pose proof (live_error _ _ _ _ _ _ L (or_introl eq_refl) Es). cbn. congruence. }
  destruct (live_send _ _ _ _ _ _ L (or_introl eq_refl) Es) as (r1 & -> & ST & L1). pose proof (l_skip _ _ L) as NS.
  pose proof (steps_tame _ _ _ _ ST r1 e1 eq_refl NS ltac:(discriminate) Logic.I T) as T1.
  pose proof (feed_answers uni cs r1 e1 L1 T1 P F (fun W1 => steps_signal _ _ _ _ ST r1 e1 eq_refl NS ltac:(discriminate) W1)) as A.
  destruct (text_feed uni (TAt r1 e1) e1 cs) as [[[e|x] t'] cs'] eqn:Ef; [|cbn; congruence].
  destruct A as [-> |((r' & -> & T') & P' & F')]; [discriminate|].
  destruct (is_stream_signal (ev_type e)) eqn:SG.
  - (* the feeder only returns STREAM_END among the signals *)
    assert (V : ev_type e = EStreamEnd).
    { clear - Ef SG. revert r1 e1 Ef. assert (D : forall m t ev t', text_drain m uni t ev = (Ok e, t') -> ev_type e = EStreamEnd).
      { induction m as [|m IHm]; intros t ev t' H; cbn [text_drain] in H; destruct (is_stream_signal (ev_type ev)) eqn:X; [|congruence| |congruence].
        - destruct (ev_type ev); try discriminate; injection H as <- _; reflexivity.
        - destruct (ev_type ev); try (injection H as <- _; reflexivity). destruct (text_send uni t DNext) as [[|] ?]; [eapply IHm, H|discriminate]. }
      assert (G : forall l t ev t' l', text_feed uni t ev l = (Ok e, t', l') -> ev_type e = EStreamEnd).
      { induction l as [|c l IHl]; intros t ev t' l' H; cbn [text_feed] in H; destruct (is_stream_signal (ev_type ev)) eqn:X; [|congruence| |congruence].
        - destruct (text_drain flushes uni t ev) as [y t2] eqn:Z. injection H as -> _ _. eapply D, Z.
        - destruct (text_send uni t (DData c)) as [[|] ?]; [eapply IHl, H|discriminate]. }
      intros r1 e1 Ef. eapply G, Ef. }
    rewrite V. discriminate.
  - destruct (waiting (tr_core r1)) eqn:W1.
    + destruct (fed _ _ _ _ _ _ _ L1 P W1 Ef) as [-> |(r2 & E2 & L2 & _)]; [discriminate|]. injection E2 as <-.
      pose proof (IH r' e cs' L2 T' P' F') as N. destruct (ev_type e); try discriminate; destruct (text_session uni _ cs' _); exact N.
    + rewrite (feed_quiet _ _ _ _ L1 W1) in Ef. assert (e = e1 /\ cs' = cs /\ r' = r1) as (-> & -> & ->) by (repeat split; congruence).
      pose proof (IH r1 e1 cs L1 T' P' F') as N. destruct (ev_type e1); try discriminate; destruct (text_session uni _ cs _); exact N.
Qed.
Theorem reading_answers uni cs n : pieces cs -> Forall free (concat cs) ->
  snd (text_session uni text_reader_new cs (repeat DNext n)) <> SExc OutOfFuel.
Proof.
  intros P F. destruct n as [|n]; [discriminate|]. cbn [repeat text_session]. unfold text_next.
  assert (C0 : code_ok (tr_core tr_new)) by exact Logic.I.
  destruct (text_send uni text_reader_new DNext) as [[e1|x] t1] eqn:Es.
  2: { unfold text_send in Es. cbn [text_reader_new] in Es. destruct (run _ uni tr_new (Some DNext)) as [[? ?]|y] eqn:R; [discriminate|]. injection Es as <- _.
       assert (ST : steps uni tr_new (Some DNext) (Err y)) by (rewrite <- R; apply run_steps).
       destruct (steps_safe uni true tr_new (Some DNext) _ ST [] (tr_ok_flush _ _ _ tr_new_ok) ltac:(discriminate) ltac:(discriminate)) as [A|(_ & _ & [A|A])]; [|discriminate|discriminate].
       cbn. intros [= ->]. unfold safe, known_exception in A. cbn in A. intuition discriminate. }
  destruct (send_run _ _ _ _ _ Es) as (r0 & r1 & -> & ST & H). destruct H as [(H & _)|(la & H & _)]; [|discriminate]. injection H as <-.
  destruct (steps_before _ _ _ _ ST r1 e1 eq_refl eq_refl ltac:(discriminate) C0 eq_refl) as (A0 & A1 & A2).
  assert (L1 : live r1 e1).
  { destruct (send_state uni _ None _ [] DNext e1 _ state_new ltac:(discriminate) Es) as (st1 & st' & S' & TN & _).
    constructor; auto.
    - eauto.
    - intros N. destruct (new_event_depth _ _ _ _ TN N) as (m & Em & _). eauto.
    - intros w. destruct A0 as [(_ & A)|(A & _)]; [exact A|congruence]. }
  assert (T1 : tamed r1) by (apply (steps_tame _ _ _ _ ST r1 e1 eq_refl eq_refl ltac:(discriminate) Logic.I); split; [exact Logic.I|constructor]).
  pose proof (feed_answers uni cs r1 e1 L1 T1 P F (fun W1 => steps_signal _ _ _ _ ST r1 e1 eq_refl eq_refl ltac:(discriminate) W1)) as A.
  destruct (text_feed uni (TAt r1 e1) e1 cs) as [[[e|x] t'] cs'] eqn:Ef; [|cbn; congruence].
  destruct A as [-> |((r' & -> & T') & P' & F')]; [discriminate|].
  destruct (is_stream_signal (ev_type e)) eqn:SG.
  - (* the feeder only returns STREAM_END among the signals *)
    assert (V : ev_type e = EStreamEnd).
    { clear - Ef SG. revert r1 e1 Ef. assert (D : forall m t ev t', text_drain m uni t ev = (Ok e, t') -> ev_type e = EStreamEnd).
      { induction m as [|m IHm]; intros t ev t' H; cbn [text_drain] in H; destruct (is_stream_signal (ev_type ev)) eqn:X; [|congruence| |congruence].
        - destruct (ev_type ev); try discriminate; injection H as <- _; reflexivity.
        - destruct (ev_type ev); try (injection H as <- _; reflexivity). destruct (text_send uni t DNext) as [[|] ?]; [eapply IHm, H|discriminate]. }
      assert (G : forall l t ev t' l', text_feed uni t ev l = (Ok e, t', l') -> ev_type e = EStreamEnd).
      { induction l as [|c l IHl]; intros t ev t' l' H; cbn [text_feed] in H; destruct (is_stream_signal (ev_type ev)) eqn:X; [|congruence| |congruence].
        - destruct (text_drain flushes uni t ev) as [y t2] eqn:Z. injection H as -> _ _. eapply D, Z.
        - destruct (text_send uni t (DData c)) as [[|] ?]; [eapply IHl, H|discriminate]. }
      intros r1 e1 Ef. eapply G, Ef. }
    rewrite V. discriminate.
  - destruct (waiting (tr_core r1)) eqn:W1.
    + destruct (fed _ _ _ _ _ _ _ L1 P W1 Ef) as [-> |(r2 & E2 & L2 & _)]; [discriminate|]. injection E2 as <-.
      pose proof (session_answers uni n r' e cs' L2 T' P' F') as N. destruct (ev_type e); try discriminate; destruct (text_session uni _ cs' _); exact N.
    + rewrite (feed_quiet _ _ _ _ L1 W1) in Ef. assert (e = e1 /\ cs' = cs /\ r' = r1) as (-> & -> & ->) by (repeat split; congruence).
      pose proof (session_answers uni n r1 e1 cs L1 T' P' F') as N. destruct (ev_type e1); try discriminate; destruct (text_session uni _ cs _); exact N.
Qed.
