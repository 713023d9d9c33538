(** Conversations with the text reader: nesting, answers, SKIP. *)
From Verif Require Import Base BaseFacts CoreModel BinReaderModel SymbolsModel TextNumbers TextWriterModel TextReaderModel
  TextReaderFacts TextReaderNest TextReaderChunks TextReaderErrors.
Local Open Scope Z_scope.

(** * Specification *)

(** A conversation: what was sent and what was answered, nothing raised. *)
Inductive exchange (uni : bool) : treader -> list (devent * event) -> treader -> Prop :=
| ex_nil t : exchange uni t [] t
| ex_cons t d e t1 l t2 : text_send uni t d = (Ok e, t1) -> exchange uni t1 l t2 -> exchange uni t ((d, e) :: l) t2.

Lemma exchange_cons uni t d e l t2 : exchange uni t ((d, e) :: l) t2 -> exists t1, text_send uni t d = (Ok e, t1) /\ exchange uni t1 l t2.
Proof. intros H. inversion H; subst. eauto. Qed.
Lemma exchange_done uni t t2 : exchange uni t [] t2 -> t2 = t.
Proof. intros H. now inversion H. Qed.

(** NEXT in answer to INCOMPLETE says that there is no more data. *)
Definition incomplete (e : event) : bool := match ev_type e with EIncomplete => true | _ => false end.
Definition flush_request (last : option event) (d : devent) : bool :=
  match last, d with Some e, DNext => incomplete e | _, _ => false end.
Fixpoint flushed_from (last : option event) (l : list (devent * event)) : bool :=
  match l with [] => false | (d, e) :: l' => flush_request last d || flushed_from (Some e) l' end.
Definition flushed (l : list (devent * event)) : bool := flushed_from None l.

(** The stack of open containers through a conversation. *)
Fixpoint nested_from (fl : bool) (last : option event) (st : list iontype) (l : list (devent * event)) : Prop :=
  match l with
  | [] => True
  | (d, e) :: l' =>
    exists st', text_nest (fl || flush_request last d) st e st' /\ nested_from (fl || flush_request last d) (Some e) st' l'
  end.
Definition nested (l : list (devent * event)) : Prop := nested_from false None [] l.

(** The container event reported last. *)
Definition boundary (e : event) : option event :=
  match ev_type e with EContainerStart | EContainerEnd => Some e | _ => None end.
Fixpoint last_boundary (b : option event) (l : list (devent * event)) : option event :=
  match l with [] => b | (_, e) :: l' => last_boundary (match boundary e with Some e => Some e | None => b end) l' end.

(** The conversation of somebody who skips: the events passed over are not reported, so the next
    request is not needed either; data that is asked for must still be given. *)
Fixpoint skip_view (d : devent) (l : list (devent * event)) : list (devent * event) :=
  match l with
  | [] => []
  | (_, e) :: l' =>
    match l' with
    | [] => [(d, e)]
    | (d', _) :: _ => if incomplete e then (d, e) :: skip_view d' l' else skip_view d l'
    end
  end.

(** [e] ends a container at depth at most [k]. *)
Definition closes (k : Z) (e : event) : bool :=
  match ev_type e, ev_depth e with EContainerEnd, Some n => n <=? k | _, _ => false end.
Definition stream_end (e : event) : bool := match ev_type e with EStreamEnd => true | _ => false end.

(** * Nesting *)

Definition state_ok (fl : bool) (last : option event) (t : treader) (st : list iontype) : Prop :=
  match t with
  | TFresh r => r = tr_new /\ last = None /\ st = [] /\ fl = false
  | TAt r e => last = Some e /\ tr_ok fl r st /\ is_stream_signal (ev_type e) = waiting (tr_core r) /\ skippable st e
  | TDead => True
  end.

Lemma tr_ok_flush fl r st : tr_ok fl r st -> tr_ok true r st.
Proof.
  intros [[B1 B2 B3 B4 B5 B6] D S]. constructor; [|exact D|discriminate].
  constructor; auto; discriminate.
Qed.
Lemma tr_ok_or fl b r st : tr_ok fl r st -> tr_ok (fl || b) r st.
Proof. destruct b; [rewrite orb_true_r; apply tr_ok_flush|now rewrite orb_false_r]. Qed.

Lemma send_run uni t d e t' : text_send uni t d = (Ok e, t') ->
  exists r r', t' = TAt r' e /\ steps uni r (Some d) (Ok (r', e)) /\
  ((t = TFresh r /\ d = DNext) \/ exists last, t = TAt r last /\ text_protocol_check last d = Ok tt).
Proof.
  unfold text_send. destruct t as [r|r last|]; [| |discriminate].
  - destruct d; try discriminate. destruct (run _ uni r (Some DNext)) as [[r' ev]|x] eqn:R; [|discriminate]. intros [= <- <-].
    exists r, r'. split; [reflexivity|]. split; [rewrite <- R; apply run_steps|]. auto.
  - destruct (text_protocol_check last d) as [[]|] eqn:P; [|discriminate].
    destruct (run _ uni r (Some d)) as [[r' ev]|x] eqn:R; [|discriminate]. intros [= <- <-].
    exists r, r'. split; [reflexivity|]. split; [rewrite <- R; apply run_steps|]. eauto.
Qed.

Lemma check_next last : text_protocol_check last DNext = Ok tt -> is_stream_signal (ev_type last) = true -> incomplete last = true.
Proof. unfold text_protocol_check, incomplete. intros E H. rewrite H in E. destruct (ev_type last); try discriminate; reflexivity. Qed.
Lemma check_skip last : text_protocol_check last DSkip = Ok tt ->
  is_stream_signal (ev_type last) = false /\ (ev_depth last = Some 0 -> ev_type last = EContainerStart).
Proof.
  unfold text_protocol_check. destruct (is_stream_signal (ev_type last)); [destruct (ev_type last); discriminate|]. cbn [bind].
  intros E. split; [reflexivity|]. intros D. rewrite D in E. destruct (ev_type last); try discriminate. reflexivity.
Qed.

Lemma new_event_depth fl st e st' : text_nest fl st e st' -> is_stream_signal (ev_type e) = false -> exists n, ev_depth e = Some n /\ 0 <= n.
Proof.
  destruct 1; cbn [ev_type ev_depth version_marker_event stream_end_event incomplete_event is_stream_signal]; try discriminate; intros _;
  eexists; (split; [reflexivity|]); first [apply zlen_nonneg|lia].
Qed.

(** Every reachable state is well formed; an event fits the containers the invariant knows. *)
Lemma send_state uni fl last t st d e t' : state_ok fl last t st ->
  (is_stream_signal (match last with Some e => ev_type e | None => EStreamEnd end) = false ->
   exists n, ev_depth (match last with Some e => e | None => stream_end_event end) = Some n) ->
  text_send uni t d = (Ok e, t') ->
  let fl' := fl || flush_request last d in
  exists st1 st', state_ok fl' (Some e) t' st' /\ text_nest fl' st1 e st' /\
    ((match t with TAt r _ => tr_skipping r = false | _ => True end) -> d <> DSkip -> st1 = st).
Proof.
  intros SO LD E fl'. destruct (send_run _ _ _ _ _ E) as (r & r' & -> & ST & H).
  assert (G : tr_ok fl' r st /\ (Some d = Some DSkip -> fl' = false -> st <> []) /\
    (fl' = false -> Some d = Some DNext -> waiting (tr_core r) = false) /\ (match t with TAt r0 _ => r0 = r | TFresh r0 => r0 = tr_new /\ r0 = r| _ => True end)).
  { destruct H as [(-> & ->)|(la & -> & P)].
    - destruct SO as (-> & -> & -> & ->). split; [exact tr_new_ok|]. split; [discriminate|]. split; [reflexivity|]. auto.
    - destruct SO as (-> & TO & SW & SK). split; [apply tr_ok_or; exact TO|]. split; [|split; [|reflexivity]].
      + intros [= ->] _. apply check_skip in P. destruct P as (P1 & P2). destruct (LD P1) as (n & En). apply (SK n En).
        destruct (Z.eq_dec n 0) as [->|]; auto.
      + intros Hf [= ->]. destruct (waiting (tr_core r)) eqn:W; [|reflexivity]. try rewrite W in SW.
        unfold fl', flush_request in Hf. rewrite (check_next _ P SW), orb_true_r in Hf. discriminate. }
  destruct G as (TO & DS & DN & TR).
  destruct (steps_ok uni fl' r (Some d) _ ST st TO DS DN) as (st1 & st' & TO' & SW' & TN & ID).
  exists st1, st'. split; [|split; [exact TN|]].
  - split; [reflexivity|]. split; [exact TO'|]. split; [exact SW'|]. exact (nest_skippable _ _ _ _ TN).
  - intros A B. apply ID; [|congruence]. destruct t; [destruct TR as (-> & <-); reflexivity|now subst|now destruct H as [(? & _)|(? & ? & _)]].
Qed.

Definition has_depth (e : event) : Prop := is_stream_signal (ev_type e) = false -> exists n, ev_depth e = Some n.

Lemma run_no_skip uni r d r' e : steps uni r d (Ok (r', e)) -> tr_skipping r = false -> d <> Some DSkip -> tr_skipping r' = false /\
  tr_skip_depth r' = match boundary e with Some b => match ev_depth b with Some n => n | None => tr_skip_depth r end | None => tr_skip_depth r end.
Proof.
  remember (Ok (r', e)) as x. intros S. revert r' e Heqx.
  induction S as [r d e0 E|r d r0 ev E|r d r0 x E S IH]; intros r' e Hx A B; [discriminate| |].
  - injection Hx as -> ->. unfold skip_step in E. rewrite A in E. rewrite orb_false_l in E. replace (match d with Some DSkip => true | _ => false end) with false in E by (destruct d as [[]|]; congruence).
    apply bind_ok in E. destruct E as ([[s q] ev] & Ed & E). injection E as <- ->. cbn [tr_skipping tr_skip_depth]. split; [reflexivity|].
    unfold boundary. destruct (ev_type e) eqn:Et, (ev_depth e); reflexivity.
  - assert (Q : tr_skipping r0 = false /\ tr_skip_depth r0 = tr_skip_depth r).
    { unfold skip_step in E. rewrite A in E. rewrite orb_false_l in E. replace (match d with Some DSkip => true | _ => false end) with false in E by (destruct d as [[]|]; congruence).
      apply bind_ok in E. destruct E as ([[s q] ev] & Ed & E). injection E as <- ->. auto. }
    destruct Q as (Q1 & Q2). destruct (IH r' e Hx Q1 ltac:(discriminate)) as (I1 & I2). rewrite I2, Q2. auto.
Qed.

Definition not_skipping (t : treader) : Prop := match t with TAt r _ => tr_skipping r = false | TFresh r => r = tr_new | TDead => True end.
Lemma send_not_skipping uni t d e t' : not_skipping t -> d <> DSkip -> text_send uni t d = (Ok e, t') -> not_skipping t'.
Proof.
  intros N D E. destruct (send_run _ _ _ _ _ E) as (r & r' & -> & ST & H).
  assert (A : tr_skipping r = false).
  { destruct H as [(-> & _)|(la & -> & _)]; [|exact N]. cbn in N. now subst. }
  exact (proj1 (run_no_skip _ _ _ _ _ ST A ltac:(congruence))).
Qed.

Lemma exchange_nested uni l : forall fl last t st t',
  state_ok fl last t st -> has_depth (match last with Some e => e | None => stream_end_event end) -> not_skipping t ->
  exchange uni t l t' -> ~ In DSkip (map fst l) -> nested_from fl last st l.
Proof.
  induction l as [|[d e] l IH]; intros fl last t st t' SO LD N EX NS; [exact Logic.I|].
  destruct (exchange_cons _ _ _ _ _ _ EX) as (t1 & H3 & H5). cbn [nested_from].
  assert (LD' : is_stream_signal (match last with Some e => ev_type e | None => EStreamEnd end) = false ->
   exists n, ev_depth (match last with Some e => e | None => stream_end_event end) = Some n).
  { destruct last; [exact LD|discriminate]. }
  assert (DS : d <> DSkip) by (intros ->; apply NS; now left).
  destruct (send_state _ _ _ _ _ _ _ _ SO LD' H3) as (st1 & st' & SO' & TN & ID).
  rewrite ID in TN; [|destruct t; auto|exact DS]. exists st'. split; [exact TN|].
  eapply IH; [exact SO'| | |exact H5|].
  - intros NSG. destruct (new_event_depth _ _ _ _ TN NSG) as (n & En & _). eauto.
  - exact (send_not_skipping _ _ _ _ _ N DS H3).
  - intros I. apply NS. now right.
Qed.
Lemma state_new : state_ok false None text_reader_new [].
Proof. cbn. auto. Qed.
Theorem conversation_nested uni l t : exchange uni text_reader_new l t -> ~ In DSkip (map fst l) -> nested l.
Proof. intros EX NS. eapply exchange_nested; [exact state_new|discriminate|reflexivity|exact EX|exact NS]. Qed.

(** * Answers *)

Lemma steps_safe uni fl r d x : steps uni r d x -> forall st, tr_ok fl r st ->
  (d = Some DSkip -> fl = false -> st <> []) -> (fl = false -> d = Some DNext -> waiting (tr_core r) = false) ->
  safe x \/ (x = Err OutOfFuel /\ fl = true /\ (tr_skipping r = true \/ d = Some DSkip)).
Proof.
  induction 1 as [r d e E|r d r' ev E|r d r' x E S IH]; intros st TO DS DN; [|left; exact Logic.I|].
  - unfold skip_step in E. cbv zeta in E. pose proof (safe_delegate uni (tr_core r) (tr_q r) d) as SD.
    destruct (delegate uni (tr_core r) (tr_q r) d) as [[[s q] ev]|e'] eqn:Ed; cbn [bind] in E; [|injection E as <-; left; exact SD].
    destruct (tr_skipping r || match d with Some DSkip => true | _ => false end) eqn:Es; [|discriminate].
    destruct ev as [ev|]; [|discriminate].
    assert (Hs : tr_skipping r = true \/ d = Some DSkip).
    { apply orb_true_iff in Es. destruct Es as [Es|Es]; [now left|right]. destruct d as [[]|]; try discriminate. reflexivity. }
    destruct (ev_type ev) eqn:Et; try discriminate.
    + injection E as <-. destruct fl; [right; auto|]. exfalso.
      destruct TO as [CO DE SK].
      destruct (delegate_ok false uni _ st _ _ _ _ _ CO DN Ed) as (st' & _ & TN & _).
      inversion TN; subst; cbn in Et; try discriminate. specialize (H eq_refl). subst.
      destruct Hs as [Hs|Hs]; [now apply (SK Hs)|now apply (DS Hs)].
    + destruct (ev_depth ev) as [n|]; [destruct (n <=? _); discriminate|]. injection E as <-. left. unfold safe, known_exception. simpl. tauto.
  - destruct (skip_step_ok fl uni r st d _ _ TO DS DN E) as (st' & TO' & H).
    destruct (IH st' TO' ltac:(discriminate) ltac:(discriminate)) as [I|(I1 & I2 & [I3|I3])]; [now left| |discriminate].
    right. split; [exact I1|]. split; [exact I2|].
    unfold skip_step in E. cbv zeta in E. apply bind_ok in E. destruct E as ([[s q] ev] & Ed & E).
    destruct (tr_skipping r); [now left|]. right. destruct d as [[]|]; cbn [orb] in E; try reflexivity; injection E as <- ->; discriminate.
Qed.

Definition answerable (e : exc) : Prop := known_exception e \/ e = StopIteration.

Lemma exchange_state uni l : forall fl last t st t',
  state_ok fl last t st -> has_depth (match last with Some e => e | None => stream_end_event end) ->
  exchange uni t l t' ->
  exists st' last', state_ok (fl || flushed_from last l) last' t' st' /\ has_depth (match last' with Some e => e | None => stream_end_event end) /\
   last' = match rev l with [] => last | (_, e) :: _ => Some e end.
Proof.
  induction l as [|[d e] l IH]; intros fl last t st t' SO LD EX; [apply exchange_done in EX; subst t'|destruct (exchange_cons _ _ _ _ _ _ EX) as (t1 & H3 & H5)].
  - exists st, last. cbn. rewrite orb_false_r. auto.
  - assert (LD' : is_stream_signal (match last with Some e => ev_type e | None => EStreamEnd end) = false ->
     exists n, ev_depth (match last with Some e => e | None => stream_end_event end) = Some n).
    { destruct last; [exact LD|discriminate]. }
    destruct (send_state _ _ _ _ _ _ _ _ SO LD' H3) as (st1 & st2 & SO' & TN & ID).
    destruct (IH _ _ _ _ _ SO' ltac:(intros NSG; destruct (new_event_depth _ _ _ _ TN NSG) as (n & En & _); eauto) H5) as (st' & last' & A & B & C).
    exists st', last'. cbn [flushed_from]. rewrite orb_assoc. split; [exact A|]. split; [exact B|].
    rewrite C. cbn [rev]. destruct (rev l) as [|[d0 e0] l0]; reflexivity.
Qed.
Definition last_reply (l : list (devent * event)) : option event := match rev l with [] => None | (_, e) :: _ => Some e end.

Lemma exchange_skipping uni l : forall t t', exchange uni t l t' -> not_skipping t -> ~ In DSkip (map fst l) -> not_skipping t'.
Proof.
  induction l as [|[d e] l IH]; intros t t' EX N NS; [apply exchange_done in EX; now subst|destruct (exchange_cons _ _ _ _ _ _ EX) as (t1 & H3 & H5)].
  eapply IH; [exact H5| |intros I; apply NS; now right]. eapply send_not_skipping; [exact N| |exact H3]. intros ->. apply NS. now left.
Qed.

Lemma skips_or_not (ds : list devent) : In DSkip ds \/ ~ In DSkip ds.
Proof.
  induction ds as [|d ds IH]; [right; intros []|]. destruct d; [|left; now left|]; (destruct IH as [I|I]; [left; now right|right; intros [H|H]; [discriminate|tauto]]).
Qed.

(** A send is answered, or one of the known exceptions comes out; going on for ever takes both a
    declared end of data and a SKIP. *)
Theorem conversation_answered uni l t d e t' : exchange uni text_reader_new l t -> text_send uni t d = (Err e, t') ->
  answerable e \/
  e = OutOfFuel /\ flushed (l ++ [(d, incomplete_event)]) = true /\ In DSkip (map fst l ++ [d]).
Proof.
  intros EX E.
  destruct (exchange_state _ _ _ _ _ _ _ state_new ltac:(discriminate) EX) as (st & last & SO & LD & La).
  assert (FL : flushed (l ++ [(d, incomplete_event)]) = (false || flushed_from None l) || flush_request last d).
  { subst last. cbn [orb]. unfold flushed. clear. generalize (@None event) as la. induction l as [|[d0 e0] l IH]; intros la.
    - cbn. now rewrite orb_false_r.
    - cbn [flushed_from app rev]. rewrite IH. rewrite orb_assoc. f_equal. destruct (rev l) as [|[d1 e1] l1]; reflexivity. }
  unfold text_send in E. destruct t as [r|r la|].
  - destruct d; try (injection E as <- <-; left; left; unfold known_exception; simpl; tauto).
    destruct SO as (-> & -> & -> & SF). rewrite SF in *.
    destruct (run _ uni tr_new (Some DNext)) as [[r' ev]|x] eqn:R; [discriminate|]. injection E as <- <-.
    pose proof (run_steps uni tr_new (Some DNext)) as ST. rewrite R in ST.
    destruct (steps_safe _ false _ _ _ ST [] tr_new_ok ltac:(discriminate) ltac:(reflexivity)) as [S|(_ & S & _)]; [|discriminate].
    left. left. exact S.
  - destruct (text_protocol_check la d) as [[]|x] eqn:P.
    + destruct SO as (-> & TO & SW & SK).
      destruct (run _ uni r (Some d)) as [[r' ev]|x] eqn:R; [discriminate|]. injection E as <- <-.
      pose proof (run_steps uni r (Some d)) as ST. rewrite R in ST.
      set (fl' := (false || flushed_from None l) || flush_request (Some la) d) in *.
      assert (DS : Some d = Some DSkip -> fl' = false -> st <> []).
      { intros [= ->] _. apply check_skip in P. destruct P as (P1 & P2). destruct (LD P1) as (n & En). apply (SK n En).
        destruct (Z.eq_dec n 0) as [->|]; auto. }
      assert (DN : fl' = false -> Some d = Some DNext -> waiting (tr_core r) = false).
      { intros Hf [= ->]. destruct (waiting (tr_core r)) eqn:W; [|reflexivity]. try rewrite W in SW.
        unfold fl', flush_request in Hf. rewrite (check_next _ P SW), orb_true_r in Hf. discriminate. }
      destruct (steps_safe _ fl' _ _ _ ST st (tr_ok_or _ _ _ _ TO) DS DN) as [S|(Sx & Sf & Sk)]; [left; left; exact S|].
      injection Sx as ->. right. split; [reflexivity|]. split; [now rewrite FL|].
      apply in_or_app. destruct Sk as [Sk|Sk]; [|injection Sk as ->; right; now left].
      left. destruct (skips_or_not (map fst l)) as [I|I]; [exact I|].
      pose proof (exchange_skipping _ _ _ _ EX ltac:(reflexivity) I) as N. cbn in N. congruence.
    + injection E as <- <-. left. left. unfold text_protocol_check in P.
      repeat match type of P with
      | (let* _ := ?x in _) = _ => destruct x eqn:?; cbn [bind] in P
      | (match ?x with _ => _ end) = _ => destruct x eqn:?
      end; try discriminate.
      all: repeat match goal with
      | H : (if ?x then _ else _) = Err _ |- _ => destruct x
      | H : (match ?x with _ => _ end) = Err _ |- _ => destruct x
      end; try discriminate.
      all: repeat match goal with H : Err _ = Err _ |- _ => injection H as <- end; unfold known_exception; simpl; tauto.
  - injection E as <- <-. left. now right.
Qed.

(** * SKIP *)

Definition sk (r : tr) (b : bool) (k : Z) : tr := mktr (tr_core r) (tr_q r) k b.

Lemma skip_step_sim uni r d r' ev k : tr_skipping r = false -> d <> Some DSkip -> skip_step uni r d = Ok (r', ev) ->
  skip_step uni (sk r true k) d =
  match ev with
  | None => Ok (sk r' true k, None)
  | Some e =>
    if incomplete e then Ok (sk r' true k, Some e)
    else if stream_end e then Err OutOfFuel
    else match ev_type e, ev_depth e with
         | EContainerEnd, None => Err TypeError
         | _, _ => if closes k e then Ok (sk r' false k, Some e) else Ok (sk r' true k, None)
         end
  end.
Proof.
  intros A B E. unfold skip_step in *. rewrite A in E. rewrite orb_false_l in E.
  replace (match d with Some DSkip => true | _ => false end) with false in E by (destruct d as [[]|]; congruence).
  apply bind_ok in E. destruct E as ([[s q] e] & Ed & E). injection E as <- ->. cbn [sk tr_core tr_q tr_skipping tr_skip_depth orb].
  rewrite Ed. cbn [bind]. destruct ev as [e|]; [|reflexivity]. unfold incomplete, stream_end, closes.
  destruct (ev_type e); try reflexivity. destruct (ev_depth e); reflexivity.
Qed.
Lemma skip_step_stays uni r d r' : tr_skipping r = false -> d <> Some DSkip -> skip_step uni r d = Ok (r', None) -> tr_skipping r' = false.
Proof.
  intros A B E. unfold skip_step in E. rewrite A in E. rewrite orb_false_l in E.
  replace (match d with Some DSkip => true | _ => false end) with false in E by (destruct d as [[]|]; congruence).
  apply bind_ok in E. destruct E as ([[s q] ev] & Ed & E). injection E as <- ->. reflexivity.
Qed.

Lemma steps_sim uni r d r' e k : steps uni r d (Ok (r', e)) -> tr_skipping r = false -> d <> Some DSkip ->
  stream_end e = false -> (ev_type e = EContainerEnd -> ev_depth e <> None) ->
  if incomplete e then steps uni (sk r true k) d (Ok (sk r' true k, e))
  else if closes k e then steps uni (sk r true k) d (Ok (sk r' false k, e))
  else forall x, steps uni (sk r' true k) None x -> steps uni (sk r true k) d x.
Proof.
  remember (Ok (r', e)) as y. intros S. revert r' e Heqy.
  induction S as [r d e0 E|r d r0 ev E|r d r0 x E S IH]; intros r' e Hx A B SE SD; [discriminate| |].
  - injection Hx as -> ->. pose proof (skip_step_sim _ _ _ _ _ k A B E) as SS. cbn [option_map] in SS. rewrite SE in SS.
    destruct (incomplete e); [now apply steps_event|].
    assert (SS' : skip_step uni (sk r true k) d = if closes k e then Ok (sk r' false k, Some e) else Ok (sk r' true k, None)).
    { rewrite SS. destruct (ev_type e) eqn:Et; try reflexivity. destruct (ev_depth e); [reflexivity|]. now destruct (SD eq_refl). }
    destruct (closes k e); [now apply steps_event|]. intros x Sx. eapply steps_go; eassumption.
  - pose proof (skip_step_sim _ _ _ _ _ k A B E) as SS. cbn in SS.
    pose proof (skip_step_stays _ _ _ _ A B E) as A0.
    specialize (IH r' e Hx A0 ltac:(discriminate) SE SD).
    destruct (incomplete e); [eapply steps_go; eassumption|].
    destruct (closes k e); [eapply steps_go; eassumption|]. intros x' Sx. eapply steps_go; [eassumption|]. now apply IH.
Qed.

(** Not a signal: the reader does not wait for data. *)
Lemma steps_rest uni r d r' e : steps uni r d (Ok (r', e)) -> tr_skipping r = false -> d <> Some DSkip ->
  is_stream_signal (ev_type e) = false -> waiting (tr_core r') = false.
Proof.
  remember (Ok (r', e)) as y. intros S. revert r' e Heqy.
  induction S as [r d e0 E|r d r0 ev E|r d r0 x E S IH]; intros r' e Hx A B NS; [discriminate| |].
  - injection Hx as -> ->. unfold skip_step in E. rewrite A in E. rewrite orb_false_l in E.
    replace (match d with Some DSkip => true | _ => false end) with false in E by (destruct d as [[]|]; congruence).
    apply bind_ok in E. destruct E as ([[s q] ev] & Ed & E). injection E as <- ->. cbn [tr_core].
    destruct (delegate_cases _ _ _ _ _ _ _ Ed) as [(H & _)|(k & c & f & _ & Ev & _)]; [exact H|].
    injection Ev as ->. destruct c; discriminate.
  - eapply IH; [exact Hx|exact (skip_step_stays _ _ _ _ A B E)|discriminate|exact NS].
Qed.

Lemma send_steps uni r last d r' e : text_protocol_check last d = Ok tt -> steps uni r (Some d) (Ok (r', e)) ->
  text_send uni (TAt r last) d = (Ok e, TAt r' e).
Proof. intros P S. unfold text_send. now rewrite P, (steps_run _ _ _ _ S). Qed.

Lemma sk_self r k : tr_skipping r = false -> tr_skip_depth r = k -> sk r false k = r.
Proof. intros A B. destruct r as [a b c d]. cbn in *. now subst. Qed.

(** What a skipping reader does in place of one that is asked event by event.  [R] with [s0] sent is
    the skipping reader. *)
Lemma skip_conversation uni k : forall l r d e r1 t' R s0 last0,
  steps uni r (Some d) (Ok (r1, e)) -> exchange uni (TAt r1 e) l t' -> d <> DSkip -> tr_skipping r = false ->
  (forall x, steps uni (sk r true k) (Some d) x -> steps uni R (Some s0) x) -> text_protocol_check last0 s0 = Ok tt ->
  ~ In DSkip (map fst l) ->
  Forall (fun x => stream_end (snd x) = false /\ (ev_type (snd x) = EContainerEnd -> ev_depth (snd x) <> None)) ((d, e) :: l) ->
  Forall (fun x => closes k (snd x) = false) (removelast ((d, e) :: l)) ->
  (exists z, ev_type (snd (last ((d, e) :: l) z)) = EContainerEnd /\ ev_depth (snd (last ((d, e) :: l) z)) = Some k) ->
  exchange uni (TAt R last0) (skip_view s0 ((d, e) :: l)) t'.
Proof.
  induction l as [|[d2 e2] l IH]; intros r d e r1 t' R s0 last0 S EX DS A H P NS F1 F2 (z & LT & LD).
  - apply exchange_done in EX. subst t'. cbn [last snd] in LT, LD. cbn [skip_view].
    apply Forall_inv in F1. cbn [snd] in F1. destruct F1 as (SE & SD).
    pose proof (steps_sim uni r (Some d) r1 e k S A ltac:(congruence) SE SD) as SS.
    unfold incomplete, closes in SS. rewrite LT, LD, Z.leb_refl in SS.
    destruct (run_no_skip _ _ _ _ _ S A ltac:(congruence)) as (Q1 & Q2). unfold boundary in Q2. rewrite LT, LD in Q2.
    rewrite (sk_self r1 k Q1 Q2) in SS.
    eapply ex_cons; [|apply ex_nil]. apply send_steps; [exact P|]. now apply H.
  - destruct (exchange_cons _ _ _ _ _ _ EX) as (t1 & E2 & EX2).
    destruct (send_run _ _ _ _ _ E2) as (r0 & r2 & -> & S2 & [(X & _)|(la & X & P2)]); [discriminate|]. injection X as <- <-.
    inversion F1 as [|? ? (SE & SD) F1']; subst. cbn [snd] in SE, SD.
    cbn [removelast] in F2. inversion F2 as [|? ? CK F2']; subst. cbn [snd] in CK.
    assert (D2 : d2 <> DSkip) by (intros ->; apply NS; now left).
    assert (NS2 : ~ In DSkip (map fst l)) by (intros I; apply NS; now right).
    pose proof (steps_sim uni r (Some d) r1 e k S A ltac:(congruence) SE SD) as SS.
    destruct (run_no_skip _ _ _ _ _ S A ltac:(congruence)) as (Q1 & _).
    change (skip_view s0 ((d, e) :: (d2, e2) :: l)) with
      (if incomplete e then (s0, e) :: skip_view d2 ((d2, e2) :: l) else skip_view s0 ((d2, e2) :: l)).
    destruct (incomplete e) eqn:IC.
    + eapply ex_cons; [apply send_steps; [exact P|apply H; exact SS]|].
      eapply (IH r1 d2 e2 r2 t' (sk r1 true k) d2 e S2 EX2 D2 Q1); auto.
      exists z. exact (conj LT LD).
    + rewrite CK in SS.
      assert (NSG : is_stream_signal (ev_type e) = false).
      { unfold incomplete, stream_end in *. destruct (ev_type e); try reflexivity; discriminate. }
      pose proof (steps_rest _ _ _ _ _ S A ltac:(congruence) NSG) as W.
      assert (Dn : d2 = DNext).
      { destruct d2; [reflexivity|congruence|]. unfold text_protocol_check in P2. rewrite NSG in P2. discriminate. }
      subst d2.
      eapply (IH r1 DNext e2 r2 t' R s0 last0 S2 EX2 D2 Q1); auto; [|exists z; exact (conj LT LD)].
      intros x Sx. apply H, SS. apply (steps_asked uni (sk r1 true k) (Some DNext)) in Sx; [|exact W]. exact Sx.
Qed.

Lemma depth_of_last uni l : forall t t' r la, exchange uni t l t' -> not_skipping t -> ~ In DSkip (map fst l) -> t' = TAt r la ->
  forall b, match t with TAt r0 _ => tr_skip_depth r0 = match b with Some e => match ev_depth e with Some n => n | None => 0 end | None => 0 end | _ => b = None end ->
  (forall e, In e (map snd l) -> boundary e <> None -> ev_depth e <> None) ->
  tr_skip_depth r = match last_boundary b l with Some e => match ev_depth e with Some n => n | None => 0 end | None => 0 end.
Proof.
  induction l as [|[d e] l IH]; intros t t' r la EX N NS T b Hb HD.
  - apply exchange_done in EX. subst. exact Hb.
  - destruct (exchange_cons _ _ _ _ _ _ EX) as (t1 & E1 & EX1). cbn [last_boundary].
    assert (D : d <> DSkip) by (intros ->; apply NS; now left).
    pose proof (send_not_skipping _ _ _ _ _ N D E1) as N1.
    eapply (IH t1 t' r la EX1 N1); [intros I; apply NS; now right|exact T| |].
    + destruct (send_run _ _ _ _ _ E1) as (r0 & r2 & -> & S2 & X).
      assert (A : tr_skipping r0 = false).
      { destruct X as [(-> & _)|(? & -> & _)]; [|exact N]. cbn in N. now subst. }
      destruct (run_no_skip _ _ _ _ _ S2 A ltac:(congruence)) as (_ & Q). rewrite Q.
      destruct (boundary e) as [e'|] eqn:Bd.
      * assert (e' = e) by (unfold boundary in Bd; destruct (ev_type e); congruence). subst e'.
        destruct (ev_depth e) eqn:De; [reflexivity|]. exfalso. refine (HD e (or_introl eq_refl) _ De). congruence.
      * destruct X as [(-> & _)|(? & -> & _)]; [|exact Hb]. cbn in N, Hb. now subst.
    + intros e0 I. apply HD. now right.
Qed.

Lemma exchange_app uni t l1 t1 l2 t2 : exchange uni t l1 t1 -> exchange uni t1 l2 t2 -> exchange uni t (l1 ++ l2) t2.
Proof. induction 1; intros; [assumption|]. cbn. eapply ex_cons; eauto. Qed.

Lemma nested_depths fl last st l : nested_from fl last st l ->
  forall e, In e (map snd l) -> is_stream_signal (ev_type e) = false -> ev_depth e <> None.
Proof.
  revert fl last st. induction l as [|[d e0] l IH]; intros fl last st (* *) H e I NS; [destruct I|].
  cbn [nested_from] in H. destruct H as (st' & TN & H). destruct I as [<-|I]; [|exact (IH _ _ _ H e I NS)].
  cbn [snd] in *. destruct (new_event_depth _ _ _ _ TN NS) as (n & -> & _). discriminate.
Qed.

Theorem skip_is_reading uni past t k start d1 e1 l t' la :
  exchange uni text_reader_new past t -> ~ In DSkip (map fst past) ->
  last_boundary None past = Some start -> ev_depth start = Some k ->
  last_reply past = Some la -> is_stream_signal (ev_type la) = false -> (ev_depth la = Some 0 -> ev_type la = EContainerStart) ->
  exchange uni t ((d1, e1) :: l) t' -> ~ In DSkip (map fst ((d1, e1) :: l)) ->
  Forall (fun x => stream_end (snd x) = false) ((d1, e1) :: l) ->
  Forall (fun x => closes k (snd x) = false) (removelast ((d1, e1) :: l)) ->
  (exists z, ev_type (snd (last ((d1, e1) :: l) z)) = EContainerEnd /\ ev_depth (snd (last ((d1, e1) :: l) z)) = Some k) ->
  exchange uni t (skip_view DSkip ((d1, e1) :: l)) t'.
Proof.
  intros EX NS LB KD LR LNS LTOP EX2 NS2 NE F2 LST.
  destruct (exchange_state _ _ _ _ _ _ _ state_new ltac:(discriminate) EX) as (st & la0 & SO & LD & La).
  fold (last_reply past) in La.
  assert (NSK : not_skipping t) by exact (exchange_skipping _ _ _ _ EX ltac:(reflexivity) NS).
  destruct (exchange_cons _ _ _ _ _ _ EX2) as (t1 & E1 & EX3).
  destruct (send_run _ _ _ _ _ E1) as (r & r1 & -> & S1 & X).
  destruct t as [r0|r0 la1|].
  { exfalso. destruct SO as (_ & -> & _). rewrite <- La in LR. discriminate. }
  2:{ destruct X as [(X & _)|(? & X & _)]; discriminate. }
  destruct X as [(X & _)|(la2 & X & P)]; [discriminate|]. injection X as <- <-.
  destruct SO as (Q & TO & SW & SKP). rewrite La, LR in Q. injection Q as ->.
  pose proof (nested_depths _ _ _ _ (conversation_nested _ _ _ EX NS)) as ND1.
  pose proof (conversation_nested _ _ _ (exchange_app _ _ _ _ _ _ EX EX2)) as ND.
  assert (ND2 : forall e, In e (map snd ((d1, e1) :: l)) -> is_stream_signal (ev_type e) = false -> ev_depth e <> None).
  { intros e I. apply (nested_depths _ _ _ _ (ND ltac:(rewrite map_app; intros J; apply in_app_or in J; tauto))). rewrite map_app. apply in_or_app. now right. }
  assert (SD : tr_skip_depth r0 = k).
  { rewrite (depth_of_last _ _ _ _ r0 la1 EX ltac:(reflexivity) NS eq_refl None eq_refl).
    - now rewrite LB, KD.
    - intros e I B. apply (ND1 e I). unfold boundary in B. destruct (ev_type e); try reflexivity; congruence. }
  assert (W : waiting (tr_core r0) = false) by (now rewrite <- SW).
  assert (D1 : d1 = DNext).
  { destruct d1; [reflexivity|destruct NS2; now left|]. unfold text_protocol_check in P. rewrite LNS in P. discriminate. }
  subst d1.
  eapply (skip_conversation uni k l r0 DNext e1 r1 t' r0 DSkip la1 S1 EX3); auto; try discriminate.
  - intros x Sx.
    apply (steps_asked uni (sk r0 true k) (Some DNext)) in Sx; [|exact W].
    assert (Eq : asked (sk r0 true k) (Some DNext) = asked r0 (Some DSkip)).
    { unfold asked, sk. cbn [tr_core tr_q tr_skip_depth tr_skipping]. cbn in NSK. rewrite NSK, SD. reflexivity. }
    rewrite Eq in Sx. inversion Sx; subst; rewrite <- (skip_step_asked uni r0 (Some DSkip) W) in *.
    + now apply steps_err.
    + now apply steps_event.
    + eapply steps_go; eassumption.
  - unfold text_protocol_check. rewrite LNS. cbn [bind]. destruct (ev_depth la1) as [[| |]|] eqn:De; try reflexivity. rewrite (LTOP eq_refl). reflexivity.
  - intros I. apply NS2. now right.
  - apply Forall_forall. intros x I. rewrite Forall_forall in NE. split; [now apply NE|].
    intros Et. apply (ND2 (snd x)); [now apply in_map|now rewrite Et].
Qed.
