(** Proofs of the reader theorems that follow from the machine lemmas. *)
From Verif Require Import Base BaseFacts FieldsModel FieldsFacts BufferModel CoreModel BinReaderModel
  BinReaderSpec BinReaderSim BinReaderNest BinReaderRun BinReaderSession.

(** * Chunking *)

(** The input is neither malformed nor misused by the requests. *)
Definition well_formed (bs : list Z) (reqs : list devent) : Prop :=
  forall e, snd (spec_read bs reqs) <> PBad e.

Lemma chunking_irrelevant a b reqs : chunks_ok a -> chunks_ok b -> concat a = concat b ->
  well_formed (concat a) reqs -> session reader_new a reqs = session reader_new b reqs.
Proof.
  intros A B E W. pose proof (session_meets_spec a reqs A) as M. pose proof (session_meets_spec b reqs B) as N.
  rewrite <- E in N. unfold session_matches, well_formed in *.
  destruct (snd (spec_read (concat a) reqs)); try congruence. exfalso. eapply W; reflexivity.
Qed.

Lemma chunking_prefix a b reqs : chunks_ok a -> chunks_ok b -> concat a = concat b ->
  exists n, firstn n (fst (session reader_new a reqs)) = fst (spec_read (concat a) reqs) /\
            firstn n (fst (session reader_new b reqs)) = fst (spec_read (concat a) reqs).
Proof.
  intros A B E. exists (length (fst (spec_read (concat a) reqs))).
  assert (G : forall c, chunks_ok c -> concat c = concat a ->
     firstn (length (fst (spec_read (concat a) reqs))) (fst (session reader_new c reqs)) = fst (spec_read (concat a) reqs)).
  { intros c C Ec. pose proof (session_meets_spec c reqs C) as M. rewrite Ec in M. unfold session_matches in M.
    destruct (snd (spec_read (concat a) reqs)); try (rewrite M; apply firstn_all).
    destruct M as [[l M] _]. rewrite M, firstn_app, Nat.sub_diag, firstn_all. apply app_nil_r. }
  split; apply G; auto.
Qed.

Definition one_by_one (bs : list Z) : list (list Z) := map (fun b => [b]) bs.
Lemma one_by_one_concat bs : concat (one_by_one bs) = bs.
Proof. induction bs as [|b r IH]; [reflexivity|]. cbn. f_equal. exact IH. Qed.
Lemma one_by_one_ok bs : octets bs -> chunks_ok (one_by_one bs).
Proof.
  intros H. induction H; cbn; constructor; auto. split; [discriminate|]. constructor; auto.
Qed.
Lemma one_by_one_singles bs : singles (one_by_one bs).
Proof. induction bs; cbn; constructor; auto. Qed.

Lemma one_by_one_exact bs n : octets bs ->
  session reader_new (one_by_one bs) (repeat DNext n) =
  (fst (spec_read bs (repeat DNext n)),
   match snd (spec_read bs (repeat DNext n)) with
   | PMore => SMore | PEnd => SEnd | PCut => SExc TypeError | PBad e => SExc e end).
Proof.
  intros O. pose proof (session_meets_spec _ (repeat DNext n) (one_by_one_ok bs O)) as M.
  rewrite one_by_one_concat in M. unfold session_matches in M.
  destruct (snd (spec_read bs (repeat DNext n))); try exact M.
  apply M. split; [apply one_by_one_singles|]. clear. induction n; cbn; constructor; auto.
Qed.

(** * Termination *)

(** [n] internal transitions lead from the state to an answer. *)
Inductive transitions : rstate -> option devent -> nat -> res (rstate * event) -> Prop :=
| tr_error s inp e : step s inp = Err e -> transitions s inp 1 (Err e)
| tr_event s inp s' ev : step s inp = Ok (s', Some ev) -> transitions s inp 1 (Ok (s', ev))
| tr_go s inp s' n r : step s inp = Ok (s', None) -> transitions s' None n r -> transitions s inp (S n) r.

Lemma run_transitions fuel s inp : run fuel s inp <> Err OutOfFuel ->
  exists n, (n <= fuel)%nat /\ transitions s inp n (run fuel s inp).
Proof.
  revert s inp. induction fuel as [|fuel IH]; intros s inp H; cbn [run] in *; [congruence|].
  destruct (step s inp) as [[s' [ev|]]|e] eqn:E.
  - exists 1%nat. split; [lia|]. apply tr_event; auto.
  - destruct (IH s' None H) as (n & L & T). exists (S n). split; [lia|]. eapply tr_go; eauto.
  - exists 1%nat. split; [lia|]. apply tr_error; auto.
Qed.

Lemma linear_time s inp :
  exists n r, transitions s inp n r /\
    (n <= 6 * (length (aq_data (r_q s)) + length (data_of inp)) + 12)%nat /\ r <> Err OutOfFuel.
Proof.
  pose proof (run_enough s inp) as NF. destruct (run_transitions _ _ _ NF) as (n & L & T).
  exists n, (run (steps_fuel s inp) s inp). split; [exact T|]. split; [|exact NF].
  unfold steps_fuel in L. destruct inp as [[| |d]|]; cbn [data_of length] in *; lia.
Qed.

Lemma send_answers r d : fst (reader_send r d) <> Err OutOfFuel.
Proof.
  assert (G : forall s d, fst (match run (steps_fuel s (Some d)) s (Some d) with
     | Ok (s', ev) => (Ok ev, RAt s' ev) | Err e => (Err e, RDead) end) <> Err OutOfFuel).
  { intros s d0. pose proof (run_enough s (Some d0)) as NF. destruct (run _ s _) as [[s' ev]|e]; cbn; congruence. }
  destruct r as [s|s last|]; cbn [reader_send]; [|destruct (protocol_check last d) as [u|e] eqn:E|discriminate].
  - destruct d; try discriminate. apply G.
  - apply G.
  - cbn [fst]. intros H. injection H as ->. unfold protocol_check in E.
    destruct (is_stream_signal _), d; cbn [bind] in E; try discriminate; try (destruct d; cbn [bind] in E; try discriminate);
      destruct (ev_depth last) as [[]|]; try discriminate; destruct (ev_type last); discriminate.
Qed.

(** * Protocol *)

(** The answers to a series of sends, and the reader after it. *)
Fixpoint history (r : reader) (ds : list devent) : list (res event) * reader :=
  match ds with
  | [] => ([], r)
  | d :: ds' => let '(x, r') := reader_send r d in
                let '(xs, r'') := history r' ds' in (x :: xs, r'')
  end.

Lemma history_dead ds : exists n, history RDead ds = (repeat (Err StopIteration) n, RDead).
Proof.
  induction ds as [|d ds [n H]]; [exists O; reflexivity|]. exists (S n). cbn [history reader_send]. rewrite H. reflexivity.
Qed.

Lemma send_state r d : match reader_send r d with
  | (Ok ev, r') => exists s, r' = RAt s ev
  | (Err _, r') => r' = RDead end.
Proof.
  destruct r as [s|s last|]; cbn [reader_send].
  - destruct d; try reflexivity. destruct (run _ s _) as [[s' ev]|e]; eauto.
  - destruct (protocol_check last d); [|reflexivity]. destruct (run _ s _) as [[s' ev]|e]; eauto.
  - reflexivity.
Qed.

(** After a history that ends with the event [ev], the open containers are [st]. *)
Definition after (ds : list devent) (ev : event) (st : list iontype) (r : reader) : Prop :=
  exists evs, history reader_new ds = (map Ok (evs ++ [ev]), r) /\ nested [] (evs ++ [ev]) st.

Lemma history_snoc ds : forall r st evs ev r', reader_nest r st -> history r ds = (map Ok (evs ++ [ev]), r') ->
  exists s, r' = RAt s ev.
Proof.
  induction ds as [|d ds IH]; intros r st evs ev r' N H; cbn [history] in H.
  - injection H as H _. destruct evs; discriminate.
  - pose proof (send_state r d) as S. pose proof (reader_send_nest r d st N) as N'.
    destruct (reader_send r d) as [[x|x] r1].
    + destruct (history r1 ds) as [xs r2] eqn:E. destruct S as [s ->]. destruct N' as (st' & _ & N2).
      destruct evs as [|e0 evs].
      * cbn in H. injection H as -> Hx ->. subst xs. destruct ds as [|d' ds'].
        -- cbn in E. injection E as <-. eauto.
        -- cbn [history] in E. destruct (reader_send (RAt s ev) d') as [y ry]. destruct (history ry ds') as [ys ry']. discriminate.
      * cbn in H. injection H as -> Hx ->. subst xs. eapply IH; eauto.
    + subst r1. destruct (history_dead ds) as [n Hn]. rewrite Hn in H. destruct evs; cbn in H; discriminate.
Qed.

Lemma protocol_enforced ds ev st r : after ds ev st r ->
  let bad e d := reader_send r d = (Err e, RDead) in
  (is_stream_signal (ev_type ev) = true ->
     bad TypeError DNext /\ bad TypeError DSkip /\ bad ValueError (DData []) /\
     forall d, d <> [] -> forall e, reader_send r (DData d) = (Err e, RDead) ->
        exists s, r = RAt s ev /\ run (steps_fuel s (Some (DData d))) s (Some (DData d)) = Err e) /\
  (is_stream_signal (ev_type ev) = false ->
     (forall d, bad TypeError (DData d)) /\ (st = [] -> bad TypeError DSkip)).
Proof.
  intros (evs & H & N) bad. destruct (history_snoc ds reader_new [] evs ev r reader_new_nest H) as [s ->].
  assert (NS : exists st0, nest_step st0 ev st).
  { clear -N. remember [] as s0 eqn:E. clear E. revert s0 N. induction evs as [|e evs IH]; intros s0 N.
    - inversion N as [|? ? ? ? ? A B]; subst. inversion B; subst. eauto.
    - inversion N; subst. eauto. }
  destruct NS as [st0 NS]. split; intros S; unfold bad; cbn [reader_send].
  - split; [unfold protocol_check; rewrite S; reflexivity|]. split; [unfold protocol_check; rewrite S; reflexivity|].
    split; [unfold protocol_check; rewrite S; reflexivity|]. intros d Hd e. rewrite protocol_data by auto.
    intros X. exists s. split; [reflexivity|]. destruct (run _ s _) as [[s' ev']|e']; congruence.
  - split; [intros d; unfold protocol_check; rewrite S; reflexivity|]. intros ->.
    rewrite (protocol_skip ev st0 [] NS S). reflexivity.
Qed.
