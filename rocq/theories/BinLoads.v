(** The trees of a binary stream, and [load] over them. *)
From Verif Require Import Base BaseFacts CoreModel CalendarFacts BinWriterModel BinReaderModel TimestampFacts BinReaderSession SymbolsModel ManagedModel Cursor ManagedSpec ManagedReaderFacts ManagedReaderProofs ManagedSessions MultimapModel SimpleionModel SimpleionSpec LoadSpec LoadProofs LoadRefuse
  TextGrammar TextReadValues TextTrees BinFormat BinFormatFacts BinScalars BinScalarProofs Props_BinScalars.
Local Open Scope Z_scope.

(** * Events *)
Definition payload_octets (e : event) : Prop := match ev_value e with EvThunk _ data => octets data | _ => True end.
Definition thunk_only (e : event) : Prop := match ev_value e with EvLazy _ => False | _ => True end.
Lemma clarified_settle e e' : payload_octets e -> thunk_only e -> clarified e e' -> e' = settle e.
Proof.
  intros O T (v & V & ->). unfold settle, payload_octets, thunk_only in *. destruct (ev_value e) as [|s|k data|r|a b]; try (subst v; reflexivity); [|contradiction].
  destruct V as (s & D & ->). rewrite (C65_payload_value _ _ _ O D). reflexivity.
Qed.
Lemma all_clarified es es' : Forall payload_octets es -> Forall thunk_only es -> Forall2 clarified es es' -> es' = map settle es.
Proof. intros O T. induction 1 as [|e e' l l' C F IH]; cbn [map]; [reflexivity|]. rewrite (clarified_settle _ _ (Forall_inv O) (Forall_inv T) C), (IH (Forall_inv_tail O) (Forall_inv_tail T)). reflexivity. Qed.

Lemma scalar_octets t v bs : scalar_code t v bs -> octets bs -> match v with EvThunk _ data => octets data | EvLazy _ => False | _ => True end.
Proof.
  intros S O. destruct S as [o t v V|data L|data L|tid k t hd data P H].
  - destruct V; exact Logic.I.
  - apply octets_cons in O. tauto.
  - apply octets_cons in O. tauto.
  - apply octets_app in O. destruct k; cbn [payload_value]; tauto.
Qed.
Lemma node_events n : forall p d, node_ok p n -> octets (code n) -> Forall (fun e => payload_octets e /\ thunk_only e) (events d n).
Proof.
  induction n as [f bs|f w t v bs|f w t hd kids IH| ] using node_induction; intros p d OK O; cbn [events code] in *.
  - constructor.
  - destruct OK as (_ & _ & S). apply octets_app in O. destruct O as (_ & O). apply octets_app in O. destruct O as (_ & O). pose proof (scalar_octets _ _ _ S O) as X. constructor; [|constructor]. unfold payload_octets, thunk_only. cbn [ev_value]. destruct v; tauto.
  - destruct OK as (_ & _ & _ & K). apply fold_and_Forall in K. apply octets_app in O. destruct O as (_ & O). apply octets_app in O. destruct O as (_ & O). apply octets_app in O. destruct O as (_ & O).
    constructor; [split; exact Logic.I|]. apply Forall_app. split; [|constructor; [split; exact Logic.I|constructor]]. clear - IH K O. induction IH as [|k ks H HS IH]; cbn [flat_map] in *; [constructor|]. apply octets_app in O. apply Forall_app. split.
    + eapply H; [exact (Forall_inv K)|tauto].
    + apply IH; [exact (Forall_inv_tail K)|tauto].
  - constructor; [split; exact Logic.I|constructor].
Qed.

(** * Trees *)
Lemma denoted_class k data s t tid : payload_denotes k data s -> payload_type tid (Some k) t -> class_fits t s /\ steady s /\ (t = TSymbol -> exists x, s = VSymbol x).
Proof.
  intros D P. remember (Some k) as o eqn:E. destruct P; try discriminate E; injection E as <-; inversion D; subst; (split; [exact Logic.I|]); (split; [try (split; reflexivity)|]); try (intros X; discriminate X); try (intros _; eexists; reflexivity).
  match goal with H : timestamp_of _ _ |- _ => rename H into T end. pose proof (moment_canonical _ _ T) as C. destruct T as (_ & _ & _ & _ & P & _). destruct t as [dt [p|] fp fr]; [|discriminate P]. split; [|reflexivity].
  cbn [py_scalar]. unfold ts_canonical, ts_rebuild in C. cbn [ts_dt ts_prec ts_frac] in *. rewrite C. reflexivity.
Qed.
Lemma float_class data s : payload_denotes KFloat data s -> class_fits TFloat s /\ steady s /\ (TFloat = TSymbol -> exists x, s = VSymbol x).
Proof. intros D. inversion D; subst. split; [exact Logic.I|]. split; [split; reflexivity|discriminate]. Qed.
Lemma octet_class o t v : octet_value o t v -> v = EvNone \/ exists s, v = EvVal s /\ class_fits t s /\ steady s /\ (t = TSymbol -> exists x, s = VSymbol x).
Proof. intros V. destruct V; try (left; reflexivity); right; (eexists; split; [reflexivity|]); (split; [exact Logic.I|]); (split; [split; reflexivity|]); try (intros X; discriminate X); intros _; eexists; reflexivity. Qed.
Lemma leaf_proper t v bs f an d e' : scalar_code t v bs -> octets bs -> clarified (mkev EScalar (Some t) v f an (Some d)) e' -> proper (Leaf (settle (mkev EScalar (Some t) v f an (Some d)))).
Proof.
  intros S O C. pose proof (scalar_octets _ _ _ S O) as SO.
  assert (PO : payload_octets (mkev EScalar (Some t) v f an (Some d))) by (unfold payload_octets; cbn [ev_value]; destruct v; try exact Logic.I; exact SO).
  assert (TO : thunk_only (mkev EScalar (Some t) v f an (Some d))) by (unfold thunk_only; cbn [ev_value]; destruct v; try exact Logic.I; exact SO).
  rewrite <- (clarified_settle _ _ PO TO C).
  destruct C as (x & X & ->). cbn [ev_type ev_ion_type ev_value ev_field ev_annot ev_depth] in *. right.
  assert (G : x = EvNone \/ exists s, x = EvVal s /\ class_fits t s /\ steady s /\ (t = TSymbol -> exists k, s = VSymbol k)).
  { destruct S as [o t v V|data L|data L|tid k t hd data P H].
    - destruct (octet_class _ _ _ V) as [->|(s & -> & R)]; [left; exact X|right; exists s; split; [exact X|exact R]].
    - destruct X as (s & D & ->). right. exists s. split; [reflexivity|]. exact (float_class _ _ D).
    - destruct X as (s & D & ->). right. exists s. split; [reflexivity|]. exact (float_class _ _ D).
    - destruct k as [k|]; cbn [payload_value] in X.
      + destruct X as (s & D & ->). right. exists s. split; [reflexivity|]. exact (denoted_class _ _ _ _ _ D P).
      + right. exists (VBytes data). split; [exact X|]. inversion P; subst; (split; [exact Logic.I|]); (split; [split; reflexivity|discriminate]). }
  destruct G as [->|(s & -> & R)]; [exists t, None, f, an, d|exists t, (Some s), f, an, d]; (split; [reflexivity|]); [exact Logic.I|exact R].
Qed.
Definition field_placed (p : place) (t : etree event) : Prop := match p with InStruct => ev_field (head_of t) <> None | _ => ev_field (head_of t) = None end.
Lemma node_placed n p d : node_ok p n -> Forall (field_placed p) (trees d n).
Proof.
  destruct n as [f bs|f w t v bs|f w t hd kids|]; intros OK; cbn [trees]; constructor; try constructor; unfold field_placed; cbn [head_of ev_field version_marker_event].
  - destruct OK as (F & _). destruct p, f as [[c sid]|]; cbn in *; try contradiction; try reflexivity; discriminate.
  - destruct OK as (F & _). destruct p, f as [[c sid]|]; cbn in *; try contradiction; try reflexivity; discriminate.
  - cbn [node_ok] in OK. subst p. reflexivity.
Qed.
Lemma node_proper n : forall p d, node_ok p n -> octets (code n) -> Forall (fun e => exists e', clarified e e') (events d n) -> Forall (fun t => proper (tree_map settle t)) (trees d n).
Proof.
  induction n as [f bs|f w t v bs|f w t hd kids IH| ] using node_induction; intros p d OK O CL; cbn [events code trees] in *.
  - constructor.
  - destruct OK as (_ & _ & S). apply octets_app in O. destruct O as (_ & O). apply octets_app in O. destruct O as (_ & O). constructor; [|constructor]. cbn [tree_map]. destruct (Forall_inv CL) as (e' & C). exact (leaf_proper _ _ _ _ _ _ _ S O C).
  - destruct OK as (_ & _ & CC & K). apply fold_and_Forall in K. apply octets_app in O. destruct O as (_ & O). apply octets_app in O. destruct O as (_ & O). apply octets_app in O. destruct O as (_ & O).
    apply Forall_inv_tail in CL. apply Forall_app in CL. destruct CL as (CL & _). constructor; [|constructor]. cbn [tree_map proper]. split; [reflexivity|]. split; [reflexivity|]. split; [split; reflexivity|]. split.
    + assert (FP : Forall (field_placed (inside t)) (flat_map (trees (d + 1)) kids)) by (apply Forall_flat_map; eapply Forall_impl; [|exact K]; intros k OK; apply node_placed; exact OK).
      cbn [settle ev_ion_type opt_eqb]. destruct t; try contradiction CC; cbn [iontype_eqb inside field_placed] in *; apply Forall_map; (eapply Forall_impl; [|exact FP]); intros k H; cbv beta in *; rewrite head_settle; exact H.
    + apply proper_kids. apply Forall_map. clear - IH K O CL. induction IH as [|k ks H HS IH]; cbn [flat_map] in *; [constructor|]. apply octets_app in O. apply Forall_app in CL. apply Forall_app. split.
      * eapply H; [exact (Forall_inv K)|tauto|tauto].
      * apply IH; [exact (Forall_inv_tail K)|tauto|tauto].
  - constructor; [|constructor]. left. reflexivity.
Qed.
Definition stream_trees (ns : list node) : list (etree event) := Leaf marker_ev :: flat_map (trees 0) ns.
Lemma stream_trees_events ns : flat_map flatten (stream_trees ns) = stream_events ns.
Proof.
  cbn [stream_trees flat_map flatten app]. unfold stream_events. f_equal. induction ns as [|n ns IH]; [reflexivity|]. cbn [flat_map]. rewrite flat_map_app, trees_events, IH. reflexivity.
Qed.
Lemma code_octets ns : octets (stream ns) -> Forall (fun n => octets (code n)) ns.
Proof.
  unfold stream. intros O. apply octets_app in O. destruct O as (_ & O). induction ns as [|n ns IH]; [constructor|]. cbn [flat_map] in O. apply octets_app in O. constructor; [tauto|apply IH; tauto].
Qed.
Theorem stream_forest ns evs : stream_ok ns -> octets (stream ns) -> Forall2 clarified (stream_events ns) evs ->
  forest 0 evs (map (tree_map settle) (stream_trees ns)) /\ unnamed (map (tree_map settle) (stream_trees ns)) /\ Forall (shaped 0) (stream_trees ns).
Proof.
  intros OK O CL. pose proof (code_octets ns O) as OC.
  assert (EV : Forall (fun e => payload_octets e /\ thunk_only e) (stream_events ns)).
  { constructor; [split; exact Logic.I|]. apply Forall_flat_map. unfold stream_ok in OK. rewrite Forall_forall in *. intros n I. eapply node_events; eauto. }
  assert (E : evs = map settle (stream_events ns)) by (apply all_clarified; [eapply Forall_impl; [|exact EV]; intros e X; exact (proj1 X)|eapply Forall_impl; [|exact EV]; intros e X; exact (proj2 X)|exact CL]).
  assert (SH : Forall (shaped 0) (stream_trees ns)) by (constructor; [cbn; auto|apply stream_shaped; exact OK]).
  assert (CE : Forall (fun e => exists e', clarified e e') (flat_map (events 0) ns)).
  { apply Forall_forall. intros e I. assert (J : In e (stream_events ns)) by (right; exact I). clear - CL J. revert evs CL. induction (stream_events ns) as [|a l IH]; intros evs CL; [destruct J|]. inversion CL as [|? b ? l' H F]; subst. destruct J as [->|J]; [eauto|eapply IH; eauto]. }
  split; [split; [|split]|split; [|exact SH]].
  - apply Forall_map. eapply Forall_impl; [|exact SH]. intros t. apply shaped_settle.
  - apply Forall_map. constructor; [left; reflexivity|]. apply Forall_flat_map. apply Forall_flat_map in CE. unfold stream_ok in OK. rewrite Forall_forall in *. intros n I. eapply node_proper; eauto.
  - rewrite E, <- stream_trees_events. generalize (stream_trees ns). intros l. induction l as [|t l IH]; [reflexivity|]. cbn [map flat_map]. rewrite flatten_map, IH, map_app. reflexivity.
  - apply Forall_map. constructor; [reflexivity|]. apply Forall_flat_map. unfold stream_ok in OK. rewrite Forall_forall in *. intros n I. pose proof (node_placed n Top 0 (OK n I)) as P. eapply Forall_impl; [|exact P]. intros t H. cbv beta. rewrite head_settle. exact H.
Qed.

(** * Feeding *)
Lemma session_feeds fuel cat fin us : fin <> SMore -> forall mr chunks, msession fuel cat mr chunks (repeat DNext (length us + 1)) = (us, fin) -> feeds (feeder_next fuel cat) (mr, chunks) us fin.
Proof.
  intros NF. induction us as [|u us IH]; intros mr chunks H; cbn [length plus repeat msession feeds] in *; unfold feeder_next; cbn [fst snd].
  - destruct (mblocking_next fuel cat mr chunks DNext) as [[[ev|x] r'] cs].
    + destruct (ev_type (me_ev ev)) eqn:T; try discriminate. injection H as <-. exists ev, (r', cs). auto.
    + injection H as <-. reflexivity.
  - destruct (mblocking_next fuel cat mr chunks DNext) as [[[ev|x] r'] cs]; [|discriminate].
    destruct (msession fuel cat r' cs (repeat DNext (length us + 1))) as [evs st] eqn:M.
    assert (ev = u /\ evs = us /\ st = fin) as (-> & -> & ->) by (destruct (ev_type (me_ev ev)); try discriminate; injection H as <- <- <-; auto).
    exists (r', cs). split; [reflexivity|]. apply IH. exact M.
Qed.
Lemma view_ends cat ts : forall table us fin, user_view cat table ts = (us, fin) -> fin <> SMore.
Proof.
  induction ts as [|t ts IH]; intros table us fin; cbn [user_view].
  - intros [= <- <-]. discriminate.
  - destruct (system_value cat table t) as [[t'|]|e]; [apply IH| |intros [= <- <-]; discriminate]. destruct (user_view cat table ts) as [us0 fin0] eqn:E. intros [= <- <-]. exact (IH _ _ _ E).
Qed.
Theorem binary_view cat ns cs us fin fuel : stream_ok ns -> chunks_ok cs -> concat cs = stream ns -> user_view cat system_table (stream_trees ns) = (us, fin) ->
  (S (S (length (stream_events ns))) < fuel)%nat -> feeds (feeder_next fuel cat) (mreader_new, cs) (flat_map flatten us) fin.
Proof.
  intros OK C E UV L. change (user_view cat system_table (flat_map (trees 0) ns) = (us, fin)) in UV. apply session_feeds; [exact (view_ends _ _ _ _ _ UV)|].
  pose proof (managed_reads cat ns cs (repeat DNext (length (flat_map flatten us) + 1)) fuel OK C E) as M. rewrite UV in M. rewrite M; [|unfold stream_events in L; cbn [length] in L; lia|apply next_legal]. apply (all_next_top fin 1 us).
Qed.
(** What a stream feeds [load] with. *)
Theorem binary_fed cat ns evs ts us fin : stream_ok ns -> octets (stream ns) -> Forall2 clarified (stream_events ns) evs -> Forall (shaped 0) ts -> flat_map flatten ts = evs -> user_view cat system_table ts = (us, fin) ->
  exists us' N, map (tree_map usettle) us' = us /\ Forall readable us' /\ Forall (fun t => LoadRefuse.field_of t = None) us' /\
  forall cs fuel, chunks_ok cs -> concat cs = stream ns -> (N <= fuel)%nat -> feeds (feeder_next fuel cat) (mreader_new, cs) (flat_map flatten us') fin.
Proof.
  intros OK O CL SH FL UV. destruct (stream_forest ns evs OK O CL) as ((SH1 & PR & FL1) & UN & SH0). assert (ts = map (tree_map settle) (stream_trees ns)) as -> by (apply trees_unique; congruence).
  destruct (user_view cat system_table (stream_trees ns)) as [us' fin'] eqn:UV'. pose proof (view_settle cat _ system_table us' fin' UV') as VS. rewrite UV in VS. injection VS as -> ->.
  destruct (view_readable cat system_table _ _ _ SH1 PR UN UV) as (RD & NF). rewrite Forall_map in RD, NF.
  exists us', (S (S (S (length (stream_events ns))))). split; [reflexivity|]. split; [eapply Forall_impl; [|exact RD]; apply readable_settle|]. split; [eapply Forall_impl; [|exact NF]; intros t H; cbv beta in H; rewrite field_settle in H; exact H|].
  intros cs fuel C E L. apply (binary_view cat ns); auto.
Qed.
