(** C68: [load] and [loads] of octets that start with the binary version marker only succeed on well-formed streams. *)
From Verif Require Import Base BaseFacts CoreModel BinWriterModel BinReaderModel BinReaderSession SymbolsModel ManagedModel MultimapModel SimpleionModel TextValueModel BinFormat BinAccepts BinAcceptProofs Props_BinAccept.
Local Open Scope Z_scope.
Local Open Scope list_scope.

Notation Tb := tables_unread.
(** How deep in the symbol table the running co-routine is. *)
Definition mode_level (m : lmode) : Z := match m with LTable => 1 | LSymbols | LImports => 2 | LDesc _ => 3 end.
Definition proc_level (p : lproc) : Z := mode_level (lp_mode p) + (if lp_skip p then 1 else 0).
(** The managed reader only skips containers it has just seen opened, and knows how deep it is. *)
Lemma lp_asks cat table p e r : lp_step cat table p e = Ok r -> (lp_skip p = true -> ev_type e = EContainerEnd) -> is_stream_signal (ev_type e) = false ->
  match r with
  | LGo d p' => proc_level p' = proc_level p + level_of e /\ ((d = DNext /\ lp_skip p' = false) \/ (d = DSkip /\ lp_skip p' = true /\ ev_type e = EContainerStart))
  | LDone _ => True
  end.
Proof.
  intros H SK SG. destruct r as [d p'|t]; [|exact Logic.I].
  unfold proc_level, level_of. unfold lp_step in H. cbv zeta in H. destruct (lp_skip p) eqn:LS.
  { rewrite (SK eq_refl) in *. injection H as <- <-. cbn [lp_mode lp_skip]. split; [lia|auto]. }
  clear SK. destruct (lp_mode p) as [| | |dd]; destruct (ev_type e) eqn:T; try discriminate SG; cbn [mode_level];
  repeat match goal with
    | H : Ok (LGo _ _) = Ok (LGo d p') |- _ => injection H as <- <-; cbn [lp_mode lp_skip mode_level]; (split; [lia|auto])
    | H : Ok (LDone _) = Ok (LGo _ _) |- _ => discriminate
    | H : Err _ = Ok _ |- _ => discriminate
    | H : (let* _ := ?x in _) = Ok _ |- _ => destruct x; cbn [bind] in H
    | H : match ?x with _ => _ end = Ok _ |- _ => destruct x
    end.
Qed.

(** A symbol table is read inside an annotated top-level struct. *)
Definition mok (m : mstate) (es : list event) : Prop :=
  match ms_proc m with Some p => modes Tb es = true /\ level es = proc_level p | None => True end.
Definition skip_state (m : mstate) (x : res event * reader) : Prop :=
  match ms_proc m with Some p => lp_skip p = true -> skip_reply x | None => True end.
Lemma modes_snoc es e : modes Tb (es ++ [e]) = mode_after Tb (modes Tb es) e.
Proof. unfold modes. rewrite fold_left_app. reflexivity. Qed.
Lemma level_snoc es e : level (es ++ [e]) = level es + level_of e.
Proof. rewrite level_app. cbn [level]. lia. Qed.
Lemma proc_deep p : 1 <= proc_level p.
Proof. unfold proc_level. destruct (lp_mode p), (lp_skip p); cbn [mode_level]; lia. Qed.
Lemma opening_start e : opening e = true -> ev_type e = EContainerStart.
Proof. unfold opening. destruct (ev_type e); congruence. Qed.
(** One event of the raw reader. *)
Lemma mr_moves cat m es s D e m' od : mr_step cat m e = Ok (m', od) -> is_stream_signal (ev_type e) = false -> Inv Tb s D (es ++ [e]) -> mok m es ->
  (match ms_proc m with Some p => lp_skip p = true -> ev_type e = EContainerEnd | None => True end) ->
  match od with
  | Some d => mok m' (es ++ [e]) /\ asked_well Tb (es ++ [e]) (Some e) d /\ (match ms_proc m' with Some p => lp_skip p = true -> d = DSkip | None => True end)
  | None => ms_proc m' = None
  end.
Proof.
  intros H SG I MO SK. unfold mr_step in H. unfold mok in MO. destruct (ms_proc m) as [p|] eqn:MP.
  - rewrite SG in H. destruct MO as (MD & LV). pose proof (proc_deep p) as PD.
    assert (OP : opening e = false) by (destruct (opening e) eqn:O; [pose proof (opening_level Tb s D es e I O); lia|reflexivity]).
    assert (MS : modes Tb (es ++ [e]) = true) by (rewrite modes_snoc; unfold mode_after; rewrite OP; exact MD).
    destruct (lp_step cat (ms_table m) p e) as [r|] eqn:L; [|discriminate]. cbn [bind] in H. pose proof (lp_asks cat (ms_table m) p e r L SK SG) as A. destruct r as [d p'|t]; injection H as <- <-.
    + destruct A as (PL & A). unfold mok. cbn [ms_proc]. split; [split; [exact MS|rewrite level_snoc; lia]|]. destruct A as [(-> & S0)|(-> & S1 & T)].
      * split; [exact Logic.I|]. rewrite S0. discriminate.
      * split; [split; [left; exact MS|exists e; auto]|auto].
    + unfold mok. cbn [ms_proc]. split; [exact Logic.I|]. split; [exact Logic.I|exact Logic.I].
  - destruct (ev_depth e) as [[|z|z]|] eqn:ED; try (injection H as <- <-; exact MP).
    assert (KEEP : Ok (m, None) = Ok (m', od) -> match od with Some d => mok m' (es ++ [e]) /\ asked_well Tb (es ++ [e]) (Some e) d /\ match ms_proc m' with Some p => lp_skip p = true -> d = DSkip | None => True end | None => ms_proc m' = None end) by (intros X; injection X as <- <-; exact MP).
    assert (GO : forall m1, ms_proc m1 = None -> Ok (m1, Some DNext) = Ok (m', od) -> match od with Some d => mok m' (es ++ [e]) /\ asked_well Tb (es ++ [e]) (Some e) d /\ match ms_proc m' with Some p => lp_skip p = true -> d = DSkip | None => True end | None => ms_proc m' = None end).
    { intros m1 M1 X. injection X as <- <-. unfold mok. rewrite M1. repeat split. }
    assert (TB : ev_type e = EContainerStart -> ev_ion_type e = Some TStruct -> ev_annot e <> [] -> Ok (mkms (ms_table m) (Some lproc_new), Some DNext) = Ok (m', od) -> match od with Some d => mok m' (es ++ [e]) /\ asked_well Tb (es ++ [e]) (Some e) d /\ match ms_proc m' with Some p => lp_skip p = true -> d = DSkip | None => True end | None => ms_proc m' = None end).
    { intros T TT AN X. injection X as <- <-. assert (OP : opening e = true) by (unfold opening; rewrite T, ED; reflexivity). unfold mok. cbn [ms_proc]. split; [|split; [exact Logic.I|discriminate]]. split.
      - rewrite modes_snoc. unfold mode_after. rewrite OP. unfold tables_unread. rewrite TT. destruct (ev_annot e); [congruence|reflexivity].
      - rewrite level_snoc, (opening_level Tb s D es e I OP). unfold level_of. rewrite T. reflexivity. }
    repeat match goal with
    | H : Ok (m, None) = Ok (m', od) |- _ => exact (KEEP H)
    | H : Ok (m, Some DNext) = Ok (m', od) |- _ => exact (GO m MP H)
    | H : Ok (mkms system_table None, Some DNext) = Ok (m', od) |- _ => exact (GO (mkms system_table None) eq_refl H)
    | H : Ok (mkms _ (Some lproc_new), Some DNext) = Ok (m', od) |- _ => exact (TB eq_refl eq_refl ltac:(discriminate) H)
    | H : Err _ = Ok _ |- _ => discriminate
    | H : (let* _ := ?x in _) = Ok _ |- _ => destruct x; cbn [bind] in H
    | H : match ?x with _ => _ end = Ok _ |- _ => destruct x eqn:?
    end.
Qed.

(** The raw reader under the managed reader keeps the invariant of C67. *)
Definition msent (D : list Z) (x : res mevent * mreader) : Prop :=
  match x with
  | (Err _, _) => True
  | (Ok u, (m, r)) => exists es s, r = RAt s (me_ev u) /\ Inv Tb s D es /\ at_event s (me_ev u) /\ mok m es /\
      if is_stream_signal (ev_type (me_ev u)) then (match ms_proc m with Some p => lp_skip p = true -> skipping s | None => True end) else ms_proc m = None
  end.
Lemma signal_stays cat m e m' od : mr_step cat m e = Ok (m', od) -> is_stream_signal (ev_type e) = true -> (m' = m /\ od = None) \/ (ms_proc m = None /\ ms_proc m' = None /\ od = Some DNext).
Proof.
  unfold mr_step. intros H SG. destruct (ms_proc m) as [p|] eqn:MP; [rewrite SG in H; injection H as <- <-; auto|].
  repeat match goal with
    | H : Ok (_, _) = Ok (m', od) |- _ => injection H as <- <-; auto
    | H : Err _ = Ok _ |- _ => discriminate
    | H : (let* _ := ?x in _) = Ok _ |- _ => destruct x; cbn [bind] in H
    | H : match ?x with _ => _ end = Ok _ |- _ => destruct x eqn:?; try discriminate SG
    end.
Qed.
Lemma msend_after fuel cat : forall m r d D es, mok m es -> sent Tb D es (reader_send r d) -> skip_state m (reader_send r d) -> msent D (mreader_send fuel cat (m, r) d).
Proof.
  induction fuel as [|fuel IH]; intros m r d D es MO S K; cbn [mreader_send fst snd]; [exact Logic.I|]. destruct (reader_send r d) as [[ev|e] r']; [|exact Logic.I]. destruct S as (s & -> & I & A). unfold skip_state in K. cbn [skip_reply] in K.
  destruct (mr_step cat m ev) as [[m' od]|e] eqn:M; [|exact Logic.I]. destruct (is_stream_signal (ev_type ev)) eqn:SG.
  - destruct (signal_stays _ _ _ _ _ M SG) as [(-> & ->)|(P0 & P1 & ->)].
    + exists es, s. cbn [me_ev]. rewrite SG. repeat (split; [solve [auto]|]). destruct (ms_proc m) as [p|]; [|exact Logic.I]. intros L. specialize (K L). unfold skip_out in K. rewrite SG in K. exact K.
    + apply (IH m' (RAt s ev) DNext D es); [unfold mok; rewrite P1; exact Logic.I| |unfold skip_state; rewrite P1; exact Logic.I]. exact (request_sent Tb (RAt s ev) D es DNext (conj I A) Logic.I).
  - assert (K' : match ms_proc m with Some p => lp_skip p = true -> ev_type ev = EContainerEnd | None => True end) by (destruct (ms_proc m) as [p|]; [|exact Logic.I]; intros L; specialize (K L); unfold skip_out in K; rewrite SG in K; exact K).
    pose proof (mr_moves cat m es s D ev m' od M SG I MO K') as MM. destruct od as [d'|].
    + destruct MM as (MO' & AW & SK). apply (IH m' (RAt s ev) d' D (es ++ [ev])); [exact MO'|exact (request_sent Tb (RAt s ev) D (es ++ [ev]) d' (conj I A) AW)|].
      unfold skip_state. destruct (ms_proc m') as [p|]; [|exact Logic.I]. intros L. rewrite (SK L) in *. exact (skip_sent Tb s ev D (es ++ [ev]) I A AW).
    + exists (es ++ [ev]), s. cbn [me_ev]. rewrite SG. split; [reflexivity|]. split; [exact I|]. split; [exact A|]. split; [unfold mok; rewrite MM; exact Logic.I|exact MM].
Qed.
Definition mfed (D : list Z) (chunks : list (list Z)) (x : res mevent * mreader * list (list Z)) : Prop :=
  match x with
  | (Err _, _, _) => True
  | (Ok u, (m, r), cs) => exists es s last gone, r = RAt s last /\ chunks = gone ++ cs /\ Inv Tb s (D ++ concat gone) es /\ at_event s last /\
      if is_stream_signal (ev_type (me_ev u)) then cs = [] /\ ev_type last = EStreamEnd else last = me_ev u /\ ms_proc m = None
  end.
Lemma mfeed_fed fuel cat chunks : chunks_ok chunks -> forall u m r D, msent D (Ok u, (m, r)) -> mfed D chunks (mfeed fuel cat (m, r) u chunks).
Proof.
  induction chunks as [|c cs IH]; intros CO u m r D (es & s & -> & I & A & MO & K); cbn [mfeed]; destruct (is_stream_signal (ev_type (me_ev u))) eqn:SG.
  - destruct (ev_type (me_ev u)) eqn:T; try discriminate SG.
    + assert (E : reader_send (RAt s (me_ev u)) DNext = (Err TypeError, RDead)) by (cbn [reader_send]; unfold protocol_check; rewrite T; reflexivity).
      assert (E' : exists e mr, mreader_send fuel cat (m, RAt s (me_ev u)) DNext = (Err e, mr)) by (destruct fuel; cbn [mreader_send fst snd]; [eauto|rewrite E; eauto]).
      destruct E' as (e & mr & ->). exact Logic.I.
    + cbn [mfed me_ev]. exists es, s, (me_ev u), []. cbn [concat is_stream_signal ev_type stream_end_event]. rewrite (app_nil_r D). repeat (split; [solve [auto]|]); auto.
  - exists es, s, (me_ev u), []. split; [reflexivity|]. split; [reflexivity|]. change (concat (@nil (list Z))) with (@nil Z). rewrite (app_nil_r D), SG. auto.
  - assert (OC : octets c) by (apply (Forall_inv CO)). unfold at_event in A. rewrite SG in A.
    assert (X : msent (D ++ c) (mreader_send fuel cat (m, RAt s (me_ev u)) (DData c))).
    { apply (msend_after fuel cat m _ _ _ es MO (data_sent Tb s (me_ev u) D es c I A OC)). unfold skip_state. destruct (ms_proc m) as [p|]; [|exact Logic.I]. intros L. exact (skip_more Tb s (me_ev u) D es c I A (K L) OC). }
    destruct (mreader_send fuel cat (m, RAt s (me_ev u)) (DData c)) as [[u'|e] [m' r']]; [|exact Logic.I].
    specialize (IH (Forall_inv_tail CO) u' m' r' (D ++ c) X). destruct (mfeed fuel cat (m', r') u' cs) as [[[u2|e] [m2 r2]] cs2]; [|exact Logic.I].
    destruct IH as (es2 & s2 & last & gone & R & -> & I2 & H). exists es2, s2, last, (c :: gone). cbn [concat]. rewrite app_assoc. auto.
  - exists es, s, (me_ev u), []. split; [reflexivity|]. split; [reflexivity|]. change (concat (@nil (list Z))) with (@nil Z). rewrite (app_nil_r D), SG. auto.
Qed.

(** * Loading *)
Definition live (whole : list Z) (s : feeder) : Prop := exists D es, rok Tb (snd (fst s)) D es /\ ms_proc (fst (fst s)) = None /\ chunks_ok (snd s) /\ whole = D ++ concat (snd s).
Definition over (whole : list Z) (s : feeder) : Prop := (exists es st last, snd (fst s) = RAt st last /\ Inv Tb st whole es /\ waits st last /\ ev_type last = EStreamEnd).
Lemma next_live fuel cat whole s : live whole s ->
  match feeder_next fuel cat s with Err _ => True | Ok (u, s') => if is_stream_signal (ev_type (me_ev u)) then over whole s' else live whole s' end.
Proof.
  intros (D & es & R & MP & CO & ->). unfold feeder_next, mblocking_next. destruct s as [[m r] cs]. cbn [fst snd] in *.
  assert (X : msent D (mreader_send fuel cat (m, r) DNext)).
  { apply (msend_after fuel cat m r DNext D es); [unfold mok; rewrite MP; exact Logic.I|exact (request_sent Tb r D es DNext R Logic.I)|unfold skip_state; rewrite MP; exact Logic.I]. }
  destruct (mreader_send fuel cat (m, r) DNext) as [[u|e] [m' r']]; [|exact Logic.I].
  pose proof (mfeed_fed fuel cat cs CO u m' r' D X) as F. destruct (mfeed fuel cat (m', r') u cs) as [[[u2|e] [m2 r2]] cs2]; [|exact Logic.I]. destruct F as (es2 & s2 & last & gone & -> & -> & I2 & A2 & L).
  destruct (is_stream_signal (ev_type (me_ev u2))).
  - destruct L as (-> & T). rewrite (app_nil_r gone). exists es2, s2, last. unfold at_event in A2. rewrite T in A2. cbn [fst snd]. auto.
  - destruct L as (-> & P2). exists (D ++ concat gone), es2. cbn [fst snd rok]. split; [auto|]. split; [exact P2|]. apply Forall_app in CO. split; [tauto|]. rewrite concat_app, app_assoc. reflexivity.
Qed.
Lemma next_over fuel cat whole s : over whole s -> exists e, feeder_next fuel cat s = Err e.
Proof.
  intros (es & st & last & R & _ & _ & T). destruct s as [[m r] cs]. cbn [fst snd] in R. subst r. unfold feeder_next, mblocking_next. destruct fuel as [|fuel]; cbn [mreader_send fst snd]; [eauto|].
  assert (E : reader_send (RAt st last) DNext = (Err TypeError, RDead)) by (cbn [reader_send]; unfold protocol_check; rewrite T; reflexivity). rewrite E. eauto.
Qed.
Lemma load_live g fuel cat whole : forall s until out o s', live whole s -> load_into g (feeder_next fuel cat) s until out = Ok (o, s') ->
  match until with EStreamEnd => over whole s' | EContainerEnd => live whole s' | _ => True end.
Proof.
  induction g as [|g IH]; intros s until out o s' L; cbn [load_into]; [discriminate|]. pose proof (next_live fuel cat whole s L) as N. destruct (feeder_next fuel cat s) as [[u s1]|e]; [|discriminate]. cbn [bind].
  destruct (is_until (ev_type (me_ev u)) until) eqn:U.
  - intros H. injection H as _ <-. destruct (ev_type (me_ev u)); try discriminate U; destruct until; try discriminate U; exact N.
  - destruct (ev_type (me_ev u)) eqn:T; cbn [is_stream_signal] in N.
    + destruct g; cbn [load_into]; [discriminate|]. destruct (next_over fuel cat whole s1 N) as (e & ->). discriminate.
    + destruct g; cbn [load_into]; [discriminate|]. destruct (next_over fuel cat whole s1 N) as (e & ->). discriminate.
    + apply IH. exact N.
    + intros H. destruct (load_scalar u) as [v|]; [|discriminate]. cbn [bind] in H. destruct (target_add out u v); [|discriminate]. exact (IH _ _ _ _ _ N H).
    + intros H. destruct (ev_ion_type (me_ev u)) as [t|]; [|discriminate]. cbn [bind] in H. destruct (me_annotations u) as [an|]; [|discriminate]. cbn [bind] in H.
      destruct (load_into g (feeder_next fuel cat) s1 EContainerEnd (target_new t)) as [[inner s2]|] eqn:LI; [|discriminate]. cbn [bind] in H. apply IH in LI; [|exact N]. destruct (target_add out u _); [|discriminate]. exact (IH _ _ _ _ _ LI H).
    + apply IH. exact N.
Qed.
Lemma stream_sound fuel cat cs objs : chunks_ok cs -> load_stream fuel cat cs = Ok objs ->
  concat cs = [] \/ exists l es, concat cs = ivm ++ l /\ accepted_stream true tables_unread l es.
Proof.
  intros CO. unfold load_stream. destruct (load_into fuel (feeder_next fuel cat) (mreader_new, cs) EStreamEnd (OnList [])) as [[o s']|] eqn:L; [|discriminate]. intros _.
  apply (load_live _ _ _ (concat cs)) in L. 
  - destruct L as (es & st & last & _ & I & W & T). destruct (ends_whole Tb st last (concat cs) es I W T) as (f & C). destruct (whole_chain Tb _ _ _ C) as [(-> & _)|(r & rs & -> & _ & A)]; [auto|]. right. eauto.
  - exists [], []. cbn [fst snd mreader_new]. split; [apply start_rok|]. auto.
Qed.

(** C68.  Octets in any pieces that start with the binary version marker: if [load] (or [loads]) returns at all, what follows
    the marker is what [accepted] says, with the two leniencies of C67, and with parts left unread only in annotated
    top-level structs (symbol tables). *)
Theorem C68_loads_only_well_formed : forall fuel cat cs objs,
  chunks_ok cs -> firstn 4 (concat cs) = ivm -> load_from fuel OfOctets cat cs = Ok objs ->
  exists l es, concat cs = ivm ++ l /\ accepted_stream true tables_unread l es.
Proof.
  intros fuel cat cs objs CO M. cbn [load_from]. rewrite M. change (zlist_eqb ivm [224; 1; 0; 234]) with true. cbn [ivm]. intros H. apply stream_sound in H; [|exact CO]. destruct H as [E|H]; [rewrite E in M; discriminate|exact H].
Qed.
Print Assumptions C68_loads_only_well_formed.

(** With [single_value] alike. *)
Theorem C68_single_value : forall fuel cat cs obj,
  chunks_ok cs -> firstn 4 (concat cs) = ivm -> load_one fuel OfOctets cat cs = Ok obj ->
  exists l es, concat cs = ivm ++ l /\ accepted_stream true tables_unread l es.
Proof.
  intros fuel cat cs obj CO M. unfold load_one. destruct (load_from fuel OfOctets cat cs) as [l|] eqn:L; [|discriminate]. intros _. exact (C68_loads_only_well_formed fuel cat cs l CO M L).
Qed.
Print Assumptions C68_single_value.

(** Cases: [{a: 1}] with a symbol table that has an open-content field; cut short; with a reserved type code in a user's list. *)
Definition table_octets : list Z := [0xEB; 0x81; 0x83; 0xD8; 0x87; 0xB2; 0x81; 0x61; 0x88; 0xB2; 0x21; 0x01].
Example C68_case : exists v, load_from 60 OfOctets [] [ivm ++ table_octets ++ [0xD3; 0x8A; 0x21; 0x01]] = Ok [v].
Proof. eexists. vm_compute. reflexivity. Qed.
Example C68_rejects : map (fun bs => match load_from 60 OfOctets [] [ivm ++ bs] with Ok _ => true | Err _ => false end)
  [table_octets ++ [0xD3; 0x8A; 0x21]; [0xB1; 0xF0]; [0xB2; 0x21]; [0xE3; 0x81; 0x84; 0x21; 0x01]] = repeat false 4.
Proof. vm_compute. reflexivity. Qed.
(** What is skipped in a symbol table is not looked at: the list in its last field holds a reserved type code. *)
Example C68_unread_case : exists v, load_from 60 OfOctets [] [ivm ++ [0xEA; 0x81; 0x83; 0xD7; 0x87; 0xB2; 0x81; 0x61; 0x88; 0xB1; 0xF0] ++ [0x21; 0x01]] = Ok v.
Proof. eexists. vm_compute. reflexivity. Qed.
