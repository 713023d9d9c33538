(** Proofs for C14, C17, C18, C19. *)
From Verif Require Import Base BaseFacts FieldsModel FieldsFacts BufferModel CoreModel BinReaderModel
  BinReaderSpec BinReaderSim BinReaderRun BinReaderNest BinReaderSession ReaderProofs BinFormat BinFormatFacts BinSoundFacts.

(** * C19: padding *)

(** Same values, up to padding anywhere and the octets of headers. *)
Inductive repadded : list node -> list node -> Prop :=
| rp_nil : repadded [] []
| rp_left f bs ns ms : repadded ns ms -> repadded (NPad f bs :: ns) ms
| rp_right f bs ns ms : repadded ns ms -> repadded ns (NPad f bs :: ms)
| rp_scalar f w t v bs f' w' bs' ns ms : option_map snd f = option_map snd f' ->
    option_map (fun x => map snd (wr_sids x)) w = option_map (fun x => map snd (wr_sids x)) w' ->
    repadded ns ms -> repadded (NScalar f w t v bs :: ns) (NScalar f' w' t v bs' :: ms)
| rp_cont f w t hd kids f' w' hd' kids' ns ms : option_map snd f = option_map snd f' ->
    option_map (fun x => map snd (wr_sids x)) w = option_map (fun x => map snd (wr_sids x)) w' ->
    repadded kids kids' ->
    repadded ns ms -> repadded (NCont f w t hd kids :: ns) (NCont f' w' t hd' kids' :: ms)
| rp_ivm ns ms : repadded ns ms -> repadded (NIvm :: ns) (NIvm :: ms).

Lemma field_same f f' : option_map snd f = option_map snd f' -> field_of f = field_of f'.
Proof. destruct f as [[]|], f' as [[]|]; cbn; intros H; congruence. Qed.
Lemma annots_same w w' : option_map (fun x => map snd (wr_sids x)) w = option_map (fun x => map snd (wr_sids x)) w' ->
  annotations_of w = annotations_of w'.
Proof.
  destruct w as [w|], w' as [w'|]; cbn [option_map annotations_of]; intros H; try discriminate; [|reflexivity].
  injection H as H. rewrite <- (map_map snd by_sid), H, map_map. reflexivity.
Qed.
Lemma repadded_events ns ms : repadded ns ms -> forall d, flat_map (events d) ns = flat_map (events d) ms.
Proof.
  induction 1; intros d; cbn [flat_map events app]; auto.
  - rewrite (field_same _ _ H), (annots_same _ _ H0), IHrepadded. reflexivity.
  - rewrite (field_same _ _ H), (annots_same _ _ H0), (IHrepadded1 (d + 1)), (IHrepadded2 d). reflexivity.
  - rewrite IHrepadded. reflexivity.
Qed.

Lemma padding_invisible ns ms a b : stream_ok ns -> stream_ok ms -> repadded ns ms ->
  chunks_ok a -> chunks_ok b -> concat a = stream ns -> concat b = stream ms ->
  forall n, session reader_new a (repeat DNext n) = session reader_new b (repeat DNext n).
Proof.
  intros O1 O2 RP C1 C2 E1 E2 n.
  assert (EE : stream_events ns = stream_events ms) by (unfold stream_events; f_equal; apply repadded_events; exact RP).
  (* the answers to the first n requests are a prefix of those to more requests *)
  assert (G : forall ks cs, stream_ok ks -> chunks_ok cs -> concat cs = stream ks ->
     session reader_new cs (repeat DNext n) =
     if (n <=? length (stream_events ks))%nat then (firstn n (stream_events ks), SMore) else (stream_events ks, SEnd)).
  { intros ks cs O C E. destruct (n <=? length (stream_events ks))%nat eqn:L.
    - apply Nat.leb_le in L. pose proof (session_meets_spec cs (repeat DNext n) C) as M. rewrite E in M.
      pose proof (top_reads ks O) as R.
      assert (S : spec_read (stream ks) (repeat DNext n) = (firstn n (stream_events ks), PMore)).
      { unfold spec_read. generalize dependent (stream_events ks). intros evs L R. clear -L R.
        revert L R. generalize false as s, [top_frame] as fs, 0 as pos, (stream ks) as bs.
        generalize [later top_frame] as fs', (zlen (stream ks)) as pos', (@nil Z) as bs'.
        intros fs' pos' bs' s fs pos bs L R. revert s n L. induction R; intros s n L.
        - cbn in L. destruct n; [reflexivity|lia].
        - destruct n; [reflexivity|]. cbn [repeat spec_session p_next firstn length] in *. rewrite H, IHR by lia. reflexivity.
        - destruct n as [|n]; [reflexivity|]. specialize (IHR s (S n) L). cbn [repeat spec_session] in *.
          assert (E : p_next (S (length bs)) fs pos bs = p_next (S (length bs1)) fs1 pos1 bs1).
          { cbn [p_next]. rewrite H. apply p_item_pad in H as (u & -> & -> & L').
            apply (p_next_fuel _ (S (length bs1))); rewrite ?app_length; unfold zlen in L'; lia. }
          rewrite E. exact IHR. }
      rewrite S in M. exact M.
    - apply Nat.leb_gt in L. replace n with (length (stream_events ks) + S (n - length (stream_events ks) - 1))%nat by lia.
      rewrite (grammar_session ks cs _ O C E). reflexivity. }
  rewrite (G ns a O1 C1 E1), (G ms b O2 C2 E2), EE. reflexivity.
Qed.

(** * C14: skipping *)

(** [closes n evs]: with [n] containers open below the current one, [evs] ends with the end of the
    current container and not before. *)
Inductive closes : nat -> list event -> Prop :=
| cl_end ev : ev_type ev = EContainerEnd -> closes 0 [ev]
| cl_pop n ev evs : ev_type ev = EContainerEnd -> closes n evs -> closes (S n) (ev :: evs)
| cl_push n ev evs : ev_type ev = EContainerStart -> closes (S n) evs -> closes n (ev :: evs)
| cl_other n ev evs : ev_type ev <> EContainerStart -> ev_type ev <> EContainerEnd -> closes n evs -> closes n (ev :: evs).

Lemma closes_nonempty_ n evs : closes n evs -> evs <> [].
Proof. destruct 1; discriminate. Qed.

Lemma p_item_frames fs pos bs oe fs' pos' bs' : octets bs -> p_item fs pos bs = ODone oe fs' pos' bs' ->
  match oe with
  | Some ev =>
    match ev_type ev with
    | EContainerEnd => exists f, fs = f :: fs' /\ f_limit f = Some pos /\ pos' = pos /\ bs' = bs /\
        ev = mkev EContainerEnd (f_type f) EvNone None [] (Some (f_depth f - 1))
    | EContainerStart => exists f rest g, fs = f :: rest /\ fs' = g :: later f :: rest
    | _ => exists f rest, fs = f :: rest /\ fs' = later f :: rest
    end
  | None => exists f rest, fs = f :: rest /\ fs' = later f :: rest
  end /\ octets bs'.
Proof.
  intros O H. split.
  - apply p_item_sound in H; [|exact O]. inversion H; subst; cbn [ev_type version_marker_event]; eauto 8.
  - pose proof (p_item_takes fs pos bs) as T. rewrite H in T. destruct oe; cbn [takes] in T.
    + destruct T as (u & -> & _ & _). apply octets_app in O. tauto.
    + destruct T as (u & -> & _ & _). apply octets_app in O. tauto.
Qed.


Lemma p_item_consumes fs pos bs oe fs1 pos1 bs1 : p_item fs pos bs = ODone oe fs1 pos1 bs1 ->
  exists u, bs = u ++ bs1 /\ pos1 = pos + zlen u.
Proof.
  intros H. pose proof (p_item_takes fs pos bs) as T. rewrite H in T.
  destruct oe; cbn [takes] in T; destruct T as (u & A & B & _); eauto.
Qed.

Lemma p_next_frames n : forall fs pos bs ev fs' pos' bs', octets bs -> p_next n fs pos bs = ODone (Some ev) fs' pos' bs' ->
  match ev_type ev with
  | EContainerEnd => exists f, fs = f :: fs' /\ f_limit f = Some pos' /\
      ev = mkev EContainerEnd (f_type f) EvNone None [] (Some (f_depth f - 1))
  | EContainerStart => exists f rest g, fs = f :: rest /\ fs' = g :: later f :: rest
  | _ => exists f rest, fs = f :: rest /\ fs' = later f :: rest
  end /\ octets bs' /\ exists u, bs = u ++ bs' /\ pos' = pos + zlen u.
Proof.
  induction n as [|n IH]; intros fs pos bs ev fs' pos' bs' O H; cbn [p_next] in H; [discriminate|].
  destruct (p_item fs pos bs) as [[e|] fs1 pos1 bs1|e|sg] eqn:P; try discriminate.
  - injection H as -> -> -> ->. pose proof (p_item_consumes _ _ _ _ _ _ _ P) as C.
    apply (p_item_frames _ _ _ _ _ _ _ O) in P as [A B]. split; [|split; [exact B|exact C]].
    destruct (ev_type ev); auto. destruct A as (f & -> & L & -> & -> & E). exists f. auto.
  - pose proof (p_item_consumes _ _ _ _ _ _ _ P) as (u & E1 & E2).
    apply (p_item_frames _ _ _ _ _ _ _ O) in P as [(f & rest & -> & ->) B].
    apply IH in H as (A & O' & v & E3 & E4); [|exact B]. split; [|split; [exact O'|]].
    + destruct (ev_type ev).
      * destruct A as (f0 & r0 & E & ->). injection E as <- <-. exists f, rest. auto.
      * destruct A as (f0 & r0 & E & ->). injection E as <- <-. exists f, rest. auto.
      * destruct A as (f0 & r0 & E & ->). injection E as <- <-. exists f, rest. auto.
      * destruct A as (f0 & r0 & E & ->). injection E as <- <-. exists f, rest. auto.
      * destruct A as (f0 & r0 & g & E & ->). injection E as <- <-. exists f, rest, g. auto.
      * destruct A as (f0 & E & L & ->). injection E as <- ->. exists f. cbn [later f_limit] in L. auto.
    + exists (u ++ v). subst. rewrite <- app_assoc, zlen_app. split; [reflexivity|lia].
Qed.

(** The state after some NEXT requests. *)
Inductive nexts : list frame -> Z -> list Z -> list event -> list frame -> Z -> list Z -> Prop :=
| nexts_nil fs pos bs : nexts fs pos bs [] fs pos bs
| nexts_cons fs pos bs ev fs1 pos1 bs1 evs fs2 pos2 bs2 :
    p_next (S (length bs)) fs pos bs = ODone (Some ev) fs1 pos1 bs1 -> nexts fs1 pos1 bs1 evs fs2 pos2 bs2 ->
    nexts fs pos bs (ev :: evs) fs2 pos2 bs2.

Lemma session_nexts k : forall started fs pos bs post evs st,
  spec_session started fs pos bs (repeat DNext k ++ post) = (evs, st) -> (k <= length evs)%nat -> (1 <= k)%nat ->
  exists fs' pos' bs', nexts fs pos bs (firstn k evs) fs' pos' bs' /\
    spec_session true fs' pos' bs' post = (skipn k evs, st).
Proof.
  induction k as [|k IH]; intros started fs pos bs post evs st H L K; [lia|].
  cbn [repeat app spec_session] in H.
  destruct (p_next (S (length bs)) fs pos bs) as [[ev|] fs1 pos1 bs1|e|sg] eqn:P.
  - destruct (spec_session true fs1 pos1 bs1 (repeat DNext k ++ post)) as [evs1 st1] eqn:E. injection H as <- <-.
    cbn [length] in L. destruct k as [|k].
    + cbn [firstn skipn repeat app] in *. exists fs1, pos1, bs1. split; [econstructor; eauto; constructor|exact E].
    + destruct (IH true fs1 pos1 bs1 post evs1 st1 E ltac:(lia) ltac:(lia)) as (fs' & pos' & bs' & N & S).
      exists fs', pos', bs'. cbn [firstn skipn]. split; [econstructor; eauto|exact S].
  - injection H as <- <-. cbn in L. lia.
  - injection H as <- <-. cbn in L. lia.
  - destruct (ev_type sg); injection H as <- <-; cbn in L; lia.
Qed.

Lemma nexts_closes evs : forall fs pos bs fs' pos' bs', octets bs -> nexts fs pos bs evs fs' pos' bs' ->
  forall inner f rest, fs = inner ++ f :: rest -> closes (length inner) evs ->
  fs' = rest /\ f_limit f = Some pos' /\ (exists u, bs = u ++ bs' /\ pos' = pos + zlen u) /\
  last evs stream_end_event = mkev EContainerEnd (f_type f) EvNone None [] (Some (f_depth f - 1)).
Proof.
  induction evs as [|ev evs IH]; intros fs pos bs fs' pos' bs' O N inner f rest E C; [inversion C|].
  inversion N as [|? ? ? ? fs1 pos1 bs1 ? ? ? ? P N1]; subst.
  apply (p_next_frames _ _ _ _ _ _ _ _ O) in P as (A & O1 & u & -> & ->).
  assert (W : forall inner1 f1, fs1 = inner1 ++ f1 :: rest -> f_limit f1 = f_limit f -> f_type f1 = f_type f ->
     f_depth f1 = f_depth f -> closes (length inner1) evs ->
     fs' = rest /\ f_limit f = Some pos' /\ (exists w, u ++ bs1 = w ++ bs' /\ pos' = pos + zlen w) /\
     last (ev :: evs) stream_end_event = mkev EContainerEnd (f_type f) EvNone None [] (Some (f_depth f - 1))).
  { intros inner1 f1 E1 Q1 Q2 Q3 C1. destruct (IH _ _ _ _ _ _ O1 N1 inner1 f1 rest E1 C1) as (A1 & A2 & (w & A3 & A4) & A5).
    split; [exact A1|]. split; [congruence|]. split.
    - exists (u ++ w). subst. rewrite <- app_assoc, zlen_app. split; [reflexivity|lia].
    - pose proof (closes_nonempty_ _ _ C1). destruct evs as [|e0 evs]; [congruence|].
      change (last (ev :: e0 :: evs) stream_end_event) with (last (e0 :: evs) stream_end_event).
      rewrite A5, Q2, Q3. reflexivity. }
  inversion C as [e T|k e es T C1|k e es T C1|k e es T1 T2 C1]; subst.
  - rewrite T in A. destruct A as (f0 & E0 & L & ->). destruct inner; [|discriminate]. injection E0 as <- ->.
    inversion N1; subst. split; [reflexivity|]. split; [exact L|]. split; [exists u; auto|reflexivity].
  - rewrite T in A. destruct A as (f0 & E0 & L & ->). destruct inner as [|i inner]; [discriminate|]. cbn [app] in E0.
    injection E0 as <- <-. cbn [length] in H. injection H as ->. apply (W inner f); auto.
  - rewrite T in A. destruct A as (f0 & r0 & g & E0 & ->). destruct inner as [|i inner]; cbn [app] in E0; injection E0 as <- <-.
    + apply (W [g] (later f)); auto.
    + apply (W (g :: later i :: inner) f); auto.
  - assert (A' : exists f0 r0, inner ++ f :: rest = f0 :: r0 /\ fs1 = later f0 :: r0) by (destruct (ev_type ev); congruence || exact A).
    destruct A' as (f0 & r0 & E0 & ->). destruct inner as [|i inner]; cbn [app] in E0; injection E0 as <- <-.
    + apply (W [] (later f)); auto.
    + apply (W (later i :: inner) f); auto.
Qed.

Definition bottom (fs : list frame) : Prop := exists l f, fs = l ++ [f] /\ f_limit f = None.
Lemma bottom_later f rest : bottom (f :: rest) -> bottom (later f :: rest).
Proof.
  intros (l & g & E & L). destruct l as [|x l]; cbn [app] in E.
  - injection E as -> ->. exists [], (later g). auto.
  - injection E as <- ->. exists (later f :: l), g. auto.
Qed.
Lemma bottom_cons g fs : bottom fs -> bottom (g :: fs).
Proof. intros (l & f & -> & L). exists (g :: l), f. auto. Qed.
Lemma bottom_tail f rest p : bottom (f :: rest) -> f_limit f = Some p -> bottom rest.
Proof.
  intros (l & g & E & L) S. destruct l as [|x l]; cbn [app] in E.
  - injection E as -> _. congruence.
  - injection E as <- ->. exists l, g. auto.
Qed.

Lemma request_state started fs pos bs q qs evs st : octets bs -> bottom fs ->
  spec_session started fs pos bs (q :: qs) = (evs, st) -> evs <> [] ->
  exists ev fs1 pos1 bs1 evs1, evs = ev :: evs1 /\ octets bs1 /\ bottom fs1 /\
    (forall qs', spec_session started fs pos bs (q :: qs') =
      (ev :: fst (spec_session true fs1 pos1 bs1 qs'), snd (spec_session true fs1 pos1 bs1 qs'))) /\
    spec_session true fs1 pos1 bs1 qs = (evs1, st).
Proof.
  intros O B H NE. cbn [spec_session] in *.
  match type of H with (match ?o with _ => _ end) = _ =>
    assert (G : forall ev fs1 pos1 bs1, o = ODone (Some ev) fs1 pos1 bs1 -> octets bs1 /\ bottom fs1);
    [|destruct o as [[ev|] fs1 pos1 bs1|e|sg] eqn:P] end.
  - intros ev fs1 pos1 bs1 P. destruct q.
    + apply (p_next_frames _ _ _ _ _ _ _ _ O) in P as (A & O1 & _). split; [exact O1|].
      destruct (ev_type ev).
      * destruct A as (f & r & -> & ->). apply bottom_later; auto.
      * destruct A as (f & r & -> & ->). apply bottom_later; auto.
      * destruct A as (f & r & -> & ->). apply bottom_later; auto.
      * destruct A as (f & r & -> & ->). apply bottom_later; auto.
      * destruct A as (f & r & g & -> & ->). apply bottom_cons, bottom_later; auto.
      * destruct A as (f & -> & L & _). eapply bottom_tail; eauto.
    + destruct fs as [|f [|g r]]; try discriminate. destruct started; [|discriminate].
      cbn [p_skip] in P. destruct (f_limit f) as [lim|] eqn:L; [|discriminate].
      destruct (lim <? pos); [discriminate|]. destruct (zlen bs <? lim - pos); [discriminate|].
      injection P as <- <- <- <-. split; [apply octets_zdrop; exact O|]. eapply bottom_tail; eauto.
    + discriminate.
  - destruct (G _ _ _ _ eq_refl) as [O1 B1].
    destruct (spec_session true fs1 pos1 bs1 qs) as [evs1 st1] eqn:E. injection H as <- <-.
    exists ev, fs1, pos1, bs1, evs1. split; [reflexivity|]. split; [exact O1|]. split; [exact B1|]. split; [|exact E].
    intros qs'. destruct (spec_session true fs1 pos1 bs1 qs'). reflexivity.
  - injection H as <- <-. congruence.
  - injection H as <- <-. congruence.
  - destruct (ev_type sg); injection H as <- <-; congruence.
Qed.

Lemma requests_state pre : forall started fs pos bs post evs st, octets bs -> bottom fs ->
  spec_session started fs pos bs (pre ++ post) = (evs, st) -> (length pre <= length evs)%nat ->
  exists s1 fs1 pos1 bs1, octets bs1 /\ bottom fs1 /\ (s1 = true \/ (fs1 = fs /\ s1 = started)) /\
    (forall post', spec_session started fs pos bs (pre ++ post') =
       (firstn (length pre) evs ++ fst (spec_session s1 fs1 pos1 bs1 post'), snd (spec_session s1 fs1 pos1 bs1 post'))) /\
    spec_session s1 fs1 pos1 bs1 post = (skipn (length pre) evs, st).
Proof.
  induction pre as [|q pre IH]; intros started fs pos bs post evs st O B H L.
  - exists started, fs, pos, bs. cbn [length firstn skipn app]. split; [exact O|]. split; [exact B|]. split; [right; auto|].
    split; [|exact H]. intros post'. destruct (spec_session started fs pos bs post'); reflexivity.
  - cbn [app] in H. assert (NE : evs <> []) by (intros ->; cbn in L; lia).
    destruct (request_state _ _ _ _ _ _ _ _ O B H NE) as (ev & fs1 & pos1 & bs1 & evs1 & -> & O1 & B1 & F & R).
    cbn [length] in L. destruct (IH true fs1 pos1 bs1 post evs1 st O1 B1 R ltac:(lia)) as (s2 & fs2 & pos2 & bs2 & O2 & B2 & S & F2 & R2).
    exists s2, fs2, pos2, bs2. split; [exact O2|]. split; [exact B2|]. split; [left; destruct S as [S|[_ S]]; exact S|].
    split; [|exact R2]. intros post'. cbn [app]. rewrite F, F2. reflexivity.
Qed.

Lemma skipn_plus {A} a b (l : list A) : skipn (a + b) l = skipn a (skipn b l).
Proof.
  revert l. induction b as [|b IH]; intros l; [rewrite Nat.add_0_r; reflexivity|].
  replace (a + S b)%nat with (S (a + b)) by lia. destruct l; cbn [skipn]; [destruct a; reflexivity|apply IH].
Qed.

Lemma skip_is_reading bs pre k post evs st : octets bs ->
  spec_read bs (pre ++ repeat DNext k ++ post) = (evs, st) ->
  (length pre + k <= length evs)%nat -> closes 0 (firstn k (skipn (length pre) evs)) ->
  spec_read bs (pre ++ DSkip :: post) =
  (firstn (length pre) evs ++ skipn (length pre + k - 1) evs, st).
Proof.
  intros O H L C. unfold spec_read in *.
  assert (BT : bottom [top_frame]) by (exists [], top_frame; auto).
  destruct (requests_state pre _ _ _ _ _ _ _ O BT H ltac:(lia)) as (s1 & fs1 & pos1 & bs1 & O1 & B1 & S & F & R).
  rewrite F.
  assert (K : (1 <= k)%nat) by (destruct k; [inversion C|lia]).
  pose proof (session_nexts k s1 fs1 pos1 bs1 post _ st R ltac:(rewrite skipn_length; lia) K) as (fs2 & pos2 & bs2 & N & R2).
  assert (FS : exists f rest, fs1 = f :: rest) by (destruct B1 as (l & x & -> & _); destruct l; cbn [app]; eauto).
  destruct FS as (f & rest & ->).
  destruct (nexts_closes _ _ _ _ _ _ _ O1 N [] f rest eq_refl C) as (-> & LF & (u & -> & ->) & LE).
  assert (RB : bottom rest) by (eapply bottom_tail; eauto).
  assert (S1 : s1 = true) by (destruct S as [S|[S _]]; [exact S|injection S as -> ->; cbn in LF; discriminate]).
  subst s1. destruct rest as [|g rest]; [destruct RB as (l & x & E & _); destruct l; discriminate|].
  assert (SK : p_skip (f :: g :: rest) pos1 (u ++ bs2) = ODone (Some (mkev EContainerEnd (f_type f) EvNone None [] (Some (f_depth f - 1))))
                 (g :: rest) (pos1 + zlen u) bs2).
  { cbn [p_skip]; rewrite LF; pose proof (zlen_nonneg u); pose proof (zlen_nonneg bs2);
    replace (pos1 + zlen u <? pos1) with false by lia; replace (pos1 + zlen u - pos1) with (zlen u) by lia;
    rewrite zlen_app; replace (zlen u + zlen bs2 <? zlen u) with false by lia; rewrite zdrop_app_exact by reflexivity; reflexivity. }
  assert (SS : spec_session true (f :: g :: rest) pos1 (u ++ bs2) (DSkip :: post) = (skipn (length pre + k - 1) evs, st)).
  { cbn [spec_session]. rewrite SK, R2. rewrite <- LE. f_equal.
    set (tl := skipn (length pre) evs) in *. assert (LT : (k <= length tl)%nat) by (unfold tl; rewrite skipn_length; lia).
    replace (length pre + k - 1)%nat with (k - 1 + length pre)%nat by lia. rewrite skipn_plus. fold tl.
    clear -LT K. revert k K LT. induction tl as [|e tl IH]; intros k K LT; [cbn in LT; lia|].
    destruct k as [|[|k]]; [lia|reflexivity|]. cbn [length] in LT. specialize (IH (S k) ltac:(lia) ltac:(lia)).
    destruct tl as [|e' tl]; [cbn in LT; lia|].
    replace (S (S k) - 1)%nat with (S (S k - 1))%nat by lia. cbn [skipn] in IH |- *. rewrite <- IH. reflexivity. }
  rewrite SS. reflexivity.
Qed.

Lemma skip_session a b pre k post evs stop : chunks_ok a -> chunks_ok b -> concat a = concat b ->
  well_formed (concat a) (pre ++ repeat DNext k ++ post) ->
  session reader_new a (pre ++ repeat DNext k ++ post) = (evs, stop) ->
  (length pre + k <= length evs)%nat -> closes 0 (firstn k (skipn (length pre) evs)) ->
  session reader_new b (pre ++ DSkip :: post) =
  (firstn (length pre) evs ++ skipn (length pre + k - 1) evs, stop).
Proof.
  intros A B E W S L C.
  assert (O : octets (concat a)).
  { clear -A. induction A as [|c cs [_ H] _ IH]; cbn [concat]; [constructor|]. apply octets_app. auto. }
  pose proof (session_meets_spec a (pre ++ repeat DNext k ++ post) A) as M. rewrite S in M. unfold session_matches in M.
  destruct (spec_read (concat a) (pre ++ repeat DNext k ++ post)) as [sevs st] eqn:SP. cbn [fst snd] in M.
  assert (EQ : sevs = evs) by (destruct st; try (injection M as -> _; reflexivity); exfalso; apply (W e); rewrite SP; reflexivity).
  subst sevs. pose proof (skip_is_reading _ _ _ _ _ _ O SP L C) as R. rewrite E in R.
  pose proof (session_meets_spec b (pre ++ DSkip :: post) B) as M2. rewrite R in M2. unfold session_matches in M2. cbn [fst snd] in M2.
  destruct st; cbn [fst] in *; try (rewrite M2; f_equal; congruence).
  exfalso. apply (W e). rewrite SP. reflexivity.
Qed.

(** * C17: the version marker first *)

Fixpoint sent (ds : list devent) : list Z :=
  match ds with DData d :: r => d ++ sent r | _ :: r => sent r | [] => [] end.

(** States before the first event, with the data received so far. *)
Definition early (s : rstate) (d : list Z) : Prop :=
  match r_pc s with
  | PLoop => r_frames s = [top_frame] /\ aq_data (r_q s) = [] /\ aq_size (r_q s) = 0 /\ d = []
  | PRead n sk sev (KType c true) => sk = false /\ is_stream_signal (ev_type sev) = true /\
      c_depth c = 0 /\ aq_data (r_q s) = d
  | PK (KType c true) => c_depth c = 0 /\ aq_data (r_q s) = d
  | PRead n sk sev KIvm => sk = false /\ is_stream_signal (ev_type sev) = true /\ 0xE0 :: aq_data (r_q s) = d
  | PK KIvm => 0xE0 :: aq_data (r_q s) = d
  | _ => False
  end.

Definition is_version (ev : event) (d : list Z) : Prop := ev = version_marker_event /\ exists t, d = ivm ++ t.

Definition early_input (s : rstate) (inp : option devent) : Prop :=
  match r_pc s with
  | PLoop => inp = Some DNext
  | PRead _ _ _ _ => inp = None \/ exists d, inp = Some (DData d)
  | _ => inp = None
  end.

Lemma step_early s inp d : early s d -> early_input s inp ->
  match step s inp with
  | Err _ => True
  | Ok (s', None) => early s' (d ++ data_of inp) /\ r_pc s' <> PLoop
  | Ok (s', Some ev) => (is_stream_signal (ev_type ev) = true /\ early s' (d ++ data_of inp) /\
                          exists n sk sev k, r_pc s' = PRead n sk sev k) \/ is_version ev d
  end.
Proof.
  destruct s as [fs p q]. unfold early, early_input; cbn [r_pc r_frames r_q]. intros E I.
  destruct p as [|n sk sev k|k|v vk c]; try contradiction.
  - destruct E as (-> & D & SZ & ->). subst inp.
    change (step (mkr [top_frame] PLoop q) (Some DNext)) with (start_type [later top_frame] q (mkctx None 0 None None) true true).
    unfold start_type, begin_read. cbn [c_depth Z.eqb bind]. rewrite SZ. cbn [Z.ltb Z.compare data_of app].
    cbn [r_pc r_q]. split; [|discriminate]. split; [reflexivity|]. split; [reflexivity|]. split; [reflexivity|]. exact D.
  - assert (X : forall q', aq_data q' = aq_data q ++ data_of inp ->
       match k with
       | KType c true => sk = false /\ is_stream_signal (ev_type sev) = true /\ c_depth c = 0 /\ aq_data q = d
       | KIvm => sk = false /\ is_stream_signal (ev_type sev) = true /\ 0xE0 :: aq_data q = d
       | _ => False end ->
       early (mkr fs (PK k) q') (d ++ data_of inp) /\ 
       (forall n' sev', is_stream_signal (ev_type sev') = true -> early (mkr fs (PRead n' sk sev' k) q') (d ++ data_of inp))).
    { intros q' Q K. unfold early; cbn [r_pc r_q]. destruct k as [| |c [|]| | | |]; try contradiction.
      - destruct K as (-> & SS & <-). rewrite Q. split; [reflexivity|]. intros n' sev' S'. auto.
      - destruct K as (-> & SS & C & <-). rewrite Q. split; [auto|]. intros n' sev' S'. auto. }
    assert (SK : sk = false /\ is_stream_signal (ev_type sev) = true).
    { destruct k as [| |c [|]| | | |]; try contradiction; split; apply E. }
    destruct SK as [-> SS].
    unfold step; cbn [r_pc r_frames r_q].
    destruct I as [-> | [dd ->]].
    + destruct (X q (eq_sym (app_nil_r _)) E) as [X1 X2].
      destruct (n <=? 0); [split; [exact X1|discriminate]|].
      left. split; [exact SS|]. split; [apply X2; exact SS|]. cbn [r_pc]. repeat eexists.
    + destruct (X (aq_extend q dd)) as [X1 X2]; [reflexivity|exact E|].
      destruct (n - zlen dd <=? 0); [split; [exact X1|discriminate]|].
      assert (S2 : is_stream_signal (ev_type (if 0 <? zlen dd then incomplete_event else sev)) = true)
        by (destruct (0 <? zlen dd); [reflexivity|exact SS]).
      left. split; [exact S2|]. split; [apply X2; exact S2|]. cbn [r_pc]. repeat eexists.
  - subst inp. cbn [data_of]. rewrite app_nil_r. destruct k as [| |c [|]| | | |]; try contradiction; unfold step; cbn [r_pc r_frames r_q].
    + unfold aq_read. destruct (aq_size q <? 3); [exact Logic.I|]. destruct (zlen (aq_data q) <? 3); [exact Logic.I|]. cbn [bind].
      destruct (zlist_eqb (ztake 3 (aq_data q)) [1; 0; 234]) eqn:Z; [|exact Logic.I]. apply zlist_eqb_eq in Z.
      right. split; [reflexivity|]. exists (zdrop 3 (aq_data q)). rewrite <- E. rewrite <- (ztake_drop 3 (aq_data q)) at 1. rewrite Z. reflexivity.
    + destruct E as [C <-]. unfold aq_read_byte. destruct (aq_size q <? 1); [exact Logic.I|]. destruct (aq_data q) as [|o r] eqn:D; [exact Logic.I|]. cbn [bind andb].
      destruct (o =? 0xE0) eqn:EO; cbn [negb]; [|exact Logic.I]. apply Z.eqb_eq in EO. subst o.
      change (dispatch 0xE0) with HIvm. cbn [run_handler]. rewrite C. cbn [Z.eqb negb].
      unfold begin_read. rewrite C. cbn [Z.eqb bind aq_data aq_size r_pc r_q].
      split; [|discriminate]. split; [reflexivity|]. split; [destruct (0 <? _); reflexivity|]. reflexivity.
Qed.

Lemma run_early fuel : forall s inp d, early s d -> early_input s inp ->
  match run fuel s inp with
  | Err _ => True
  | Ok (s', ev) => (is_stream_signal (ev_type ev) = true /\ early s' (d ++ data_of inp) /\
                      exists n sk sev k, r_pc s' = PRead n sk sev k) \/ is_version ev (d ++ data_of inp)
  end.
Proof.
  induction fuel as [|fuel IH]; intros s inp d E I; cbn [run]; [exact Logic.I|].
  pose proof (step_early s inp d E I) as S. destruct (step s inp) as [[s' [ev|]]|e]; [| |exact Logic.I].
  - destruct S as [S|(-> & t & ->)]; [left; exact S|]. right. split; [reflexivity|]. exists (t ++ data_of inp). apply app_assoc_reverse.
  - destruct S as [S NP]. specialize (IH s' None (d ++ data_of inp) S). cbn [data_of] in IH. rewrite app_nil_r in IH. apply IH.
    unfold early_input. destruct (r_pc s'); auto; congruence.
Qed.

Lemma version_first ds : forall r d,
  match r with
  | RFresh s => early s d /\ r_pc s = PLoop
  | RAt s last => is_stream_signal (ev_type last) = true /\ early s d /\ exists n sk sev k, r_pc s = PRead n sk sev k
  | RDead => True
  end ->
  Forall (fun e => is_stream_signal (ev_type e) = true) (replies r ds) \/
  exists signals others t, replies r ds = signals ++ version_marker_event :: others /\
    Forall (fun e => is_stream_signal (ev_type e) = true) signals /\ d ++ sent ds = ivm ++ t.
Proof.
  induction ds as [|q ds IH]; intros r d H; [left; constructor|]. cbn [replies].
  assert (G : forall s, early s d -> early_input s (Some q) -> 
     reader_send r q = match run (steps_fuel s (Some q)) s (Some q) with
              | Ok (s', ev) => (Ok ev, RAt s' ev) | Err e => (Err e, RDead) end ->
     Forall (fun e => is_stream_signal (ev_type e) = true) (match reader_send r q with (Ok ev, r') => ev :: replies r' ds | _ => [] end) \/
     exists signals others t, (match reader_send r q with (Ok ev, r') => ev :: replies r' ds | _ => [] end) =
        signals ++ version_marker_event :: others /\
        Forall (fun e => is_stream_signal (ev_type e) = true) signals /\ d ++ sent (q :: ds) = ivm ++ t).
  { intros s E I ->. pose proof (run_early (steps_fuel s (Some q)) s (Some q) d E I) as R.
    assert (SE : d ++ sent (q :: ds) = (d ++ data_of (Some q)) ++ sent ds)
      by (destruct q; cbn [sent data_of]; rewrite ?app_nil_r, <- ?app_assoc; reflexivity).
    destruct (run _ s (Some q)) as [[s' ev]|e]; [|left; constructor].
    destruct R as [(S & E' & X)|(-> & t & T)].
    - destruct (IH (RAt s' ev) (d ++ data_of (Some q))) as [F|(sg & ot & t & F1 & F2 & F3)]; [auto| |].
      + left. constructor; auto.
      + right. exists (ev :: sg), ot, t. rewrite F1. split; [reflexivity|]. split; [constructor; auto|]. rewrite SE. exact F3.
    - right. exists [], (replies (RAt s' version_marker_event) ds), (t ++ sent ds). split; [reflexivity|]. split; [constructor|].
      rewrite SE, T, <- app_assoc. reflexivity. }
  destruct r as [s|s last|].
  - destruct H as [E P]. destruct q; cbn [reader_send]; try (left; constructor).
    apply (G s E); [unfold early_input; rewrite P; reflexivity|reflexivity].
  - destruct H as (S & E & n & sk & sev & k & P).
    destruct (protocol_check last q) as [u|e] eqn:PC.
    + apply (G s E).
      * unfold early_input. rewrite P. right. unfold protocol_check in PC. rewrite S in PC. destruct q as [| |x]; cbn [bind] in PC; try discriminate. exists x; reflexivity.
      * cbn [reader_send]. rewrite PC. reflexivity.
    + cbn [reader_send]. rewrite PC. left; constructor.
  - cbn [reader_send]. left; constructor.
Qed.

(** * C17, C18: where the octets of a reported event stand *)

(** [ev] is read from the octets [seg]. *)
Inductive read_from : event -> list Z -> Prop :=
| rf_scalar fld w t v body d : (fld = None \/ field_code InStruct fld) -> wrapper_opt w (zlen body) -> scalar_code t v body ->
    read_from (mkev EScalar (Some t) v (field_of fld) (annotations_of w) d)
      (opt_octets fst fld ++ opt_octets wrapper_octets w ++ body)
| rf_start fld w t n hd d : (fld = None \/ field_code InStruct fld) -> wrapper_opt w (zlen hd + n) -> container_code t n hd ->
    read_from (mkev EContainerStart (Some t) EvNone (field_of fld) (annotations_of w) d)
      (opt_octets fst fld ++ opt_octets wrapper_octets w ++ hd)
| rf_end t d : read_from (mkev EContainerEnd t EvNone None [] d) []
| rf_version : read_from version_marker_event ivm.

Lemma item_read_from fs pos bs ev fs' pos' bs' : item fs pos bs (ODone (Some ev) fs' pos' bs') ->
  exists before seg, bs = before ++ seg ++ bs' /\ read_from ev seg.
Proof.
  intros H. inversion H; subst; clear H.
  - exists [], []. split; [reflexivity|]. constructor.
  - exists [], (opt_octets fst fld ++ opt_octets wrapper_octets w ++ body). split.
    + unfold pre. rewrite <- !app_assoc. reflexivity.
    + constructor; auto. destruct (f_type f) as [[]|]; auto.
  - exists [], (opt_octets fst fld ++ opt_octets wrapper_octets w ++ hd). split.
    + unfold pre. rewrite <- !app_assoc. reflexivity.
    + econstructor; eauto. destruct (f_type f) as [[]|]; auto.
  - exists before, ivm. split; [reflexivity|]. constructor.
Qed.

Lemma next_read_from n : forall fs pos bs ev fs' pos' bs', octets bs -> p_next n fs pos bs = ODone (Some ev) fs' pos' bs' ->
  exists before seg, bs = before ++ seg ++ bs' /\ read_from ev seg.
Proof.
  induction n as [|n IH]; intros fs pos bs ev fs' pos' bs' O H; cbn [p_next] in H; [discriminate|].
  destruct (p_item fs pos bs) as [[e|] fs1 pos1 bs1|e|sig] eqn:P; try discriminate.
  - injection H as -> -> -> ->. eapply item_read_from. apply p_item_sound; eauto.
  - destruct (p_item_consumes _ _ _ _ _ _ _ P) as (u & -> & _). apply octets_app in O. destruct O as [_ O].
    destruct (IH _ _ _ _ _ _ _ O H) as (before & seg & -> & R). exists (u ++ before), seg. rewrite <- !app_assoc. auto.
Qed.

Lemma session_read_from reqs : forall started fs pos bs ev, octets bs ->
  In ev (fst (spec_session started fs pos bs reqs)) -> exists before seg after, bs = before ++ seg ++ after /\ read_from ev seg.
Proof.
  induction reqs as [|q reqs IH]; intros started fs pos bs ev O H; cbn [spec_session] in H; [destruct H|].
  match type of H with In _ (fst (match ?o with _ => _ end)) => destruct o as [[e|] fs1 pos1 bs1|e|sig] eqn:P end;
    try (destruct H; fail); [|destruct (ev_type sig); destruct H].
  destruct (spec_session true fs1 pos1 bs1 reqs) as [evs st] eqn:S. cbn [fst] in H.
  assert (X : exists before seg, bs = before ++ seg ++ bs1 /\ read_from e seg).
  { destruct q as [| |d]; [eapply next_read_from; eauto| |discriminate].
    destruct fs as [|f [|g rest]]; try discriminate. destruct started; [|discriminate]. unfold p_skip in P.
    destruct (f_limit f) as [lim|]; [|discriminate]. destruct (lim <? pos); [discriminate|].
    destruct (zlen bs <? lim - pos); [discriminate|]. injection P as <- <- <- <-.
    exists (ztake (lim - pos) bs), []. split; [symmetry; apply ztake_drop|]. constructor. }
  destruct X as (before & seg & -> & R). destruct H as [<-|H]; [exists before, seg, bs1; auto|].
  apply octets_app in O. destruct O as [_ O]. apply octets_app in O. destruct O as [_ O].
  destruct (IH true fs1 pos1 bs1 ev O) as (b2 & s2 & a2 & -> & R2); [rewrite S; exact H|].
  exists (before ++ seg ++ b2), s2, a2. rewrite <- !app_assoc. auto.
Qed.
Theorem events_read_from bs reqs ev : octets bs -> In ev (fst (spec_read bs reqs)) ->
  exists before seg after, bs = before ++ seg ++ after /\ read_from ev seg.
Proof. apply session_read_from. Qed.

Lemma annotated_from ev seg : read_from ev seg -> ev_annot ev <> [] ->
  exists (fld : option fieldname) w body n, seg = opt_octets fst fld ++ wrapper_octets w ++ body /\
    ev_annot ev = map (fun p => by_sid (snd p)) (wr_sids w) /\ wrapper_code w n /\
    ((exists t v, ev_type ev = EScalar /\ ev_ion_type ev = Some t /\ ev_value ev = v /\ scalar_code t v body /\ n = zlen body) \/
     (exists t m, ev_type ev = EContainerStart /\ ev_ion_type ev = Some t /\ container_code t m body /\ n = zlen body + m)).
Proof.
  intros R A. destruct R; unfold version_marker_event in *; cbn [ev_annot ev_type ev_ion_type ev_value] in *; try congruence;
    destruct w as [w|]; cbn [annotations_of wrapper_opt opt_octets] in *; try congruence.
  - exists fld, w, body, (zlen body). repeat (split; [auto; fail|]). left. exists t, v. auto.
  - exists fld, w, hd, (zlen hd + n). repeat (split; [auto; fail|]). right. exists t, n. auto.
Qed.

Lemma reported_from chunks reqs ev : chunks_ok chunks -> well_formed (concat chunks) reqs ->
  In ev (fst (session reader_new chunks reqs)) ->
  exists before seg after, concat chunks = before ++ seg ++ after /\ read_from ev seg.
Proof.
  intros C W H. apply (events_read_from _ reqs).
  - clear -C. induction C as [|c cs [_ H] _ IH]; cbn [concat]; [constructor|]. apply octets_app. auto.
  - pose proof (session_meets_spec chunks reqs C) as M. unfold session_matches in M.
    destruct (snd (spec_read (concat chunks) reqs)) eqn:E; try (rewrite M in H; exact H).
    exfalso. exact (W _ E).
Qed.

(** * C52: which exceptions reading raises *)
Definition tame (e : exc) : Prop := e = IonException \/ e = TypeError.
Definition tame_out (o : outcome) : Prop := match o with OFail e => tame e | _ => True end.
Lemma tame_ion : tame IonException. Proof. left; reflexivity. Qed.
Lemma tame_type : tame TypeError. Proof. right; reflexivity. Qed.
#[local] Hint Resolve tame_ion tame_type : tame.

Lemma tame_read c n sig k pos bs : (forall d p b, zlen d = Z.max 0 n -> tame_out (k d p b)) -> tame_out (p_read c n sig k pos bs).
Proof.
  intros H. unfold p_read. destruct (c_depth c =? 0); [|destruct (c_limit c) as [lim|]; [destruct (lim - pos <? n)|]]; cbn [tame_out]; auto with tame;
    (destruct (zlen bs <? n) eqn:E; [exact Logic.I|apply H]); apply Z.ltb_ge in E; unfold ztake, zlen in *; rewrite firstn_length; lia.
Qed.
Lemma tame_var c k : (forall v p b, tame_out (k v p b)) -> forall bs value pos, tame_out (p_var c value k pos bs).
Proof.
  intros H. induction bs as [|b bs IH]; intros value pos; cbn [p_var];
    (destruct (c_depth c =? 0); [|destruct (c_limit c) as [lim|]; [destruct (lim - pos <? 1)|]]); cbn [tame_out]; auto with tame;
    destruct (varuint_last b); auto.
Qed.
Lemma tame_emit fs c et t v pos bs : tame_out (p_emit fs c et t v pos bs).
Proof.
  unfold p_emit. destruct et, (match c_annot c with None => [] | Some a => a end), (c_limit c) as [lim|];
    try destruct (lim - pos =? 0); cbn [tame_out]; auto with tame.
Qed.
Lemma tame_user ann fs u n c pos bs : (forall l p b, tame_out (ann c l p b)) -> tame_out (p_user ann fs u n c pos bs).
Proof.
  intros H. destruct u as [k t|t| |]; cbn [p_user].
  - destruct (n =? 0); [apply tame_emit|]. apply tame_read. intros; apply tame_emit.
  - destruct (c_annot c) as [[|a l]|]; try apply tame_emit. destruct (opt_eqb _ _ _); [apply tame_emit|apply tame_ion].
  - apply H.
  - destruct (c_field c) as [f|]; [destruct (token_eqb f symbol_zero); [|apply tame_type]|];
      (destruct (0 <? n); [apply tame_read; intros|]; exact Logic.I).
Qed.
Lemma tame_typed ann fs c ex top pos bs : (forall l p b, tame_out (ann c l p b)) -> tame_out (p_typed ann fs c ex top pos bs).
Proof.
  intros H. unfold p_typed. apply tame_read. intros [|o d] p b L; [cbn in L; lia|].
  destruct (ex && negb (o =? 224)); [apply tame_ion|]. destruct (dispatch o) as [| |t v|u ln|u|]; cbn [p_handler].
  - apply tame_ion.
  - destruct (negb (c_depth c =? 0)); [apply tame_ion|]. apply tame_read. intros tl p' b' _.
    destruct (zlist_eqb tl _); [exact Logic.I|apply tame_ion].
  - apply tame_emit.
  - apply tame_user. exact H.
  - apply tame_var. intros. apply tame_user. exact H.
  - apply tame_var. intros v p' b'. destruct (v <? 2); [apply tame_ion|apply tame_user; exact H].
Qed.
Lemma tame_var_int : forall buf signed sign value e, parse_var_int_components buf signed sign value = Err e -> e = TypeError.
Proof.
  induction buf as [|o r IH]; intros signed sign value e H; cbn [parse_var_int_components] in H; [congruence|].
  destruct (Z.testbit o 7); [discriminate|]. eapply IH; exact H.
Qed.
Lemma tame_sids n : forall data e, parse_sids_aux n data = Err e -> tame e.
Proof.
  induction n as [|n IH]; intros data e H; cbn [parse_sids_aux] in H; [discriminate|]. destruct data as [|b r]; [discriminate|].
  unfold parse_var_int in H.
  destruct (parse_var_int_components (b :: r) false 1 0) as [[[s v] rest]|e1] eqn:P; cbn [bind] in H.
  - destruct (parse_sids_aux n rest) eqn:Q; cbn [bind] in H; [discriminate|]. injection H as <-. eauto.
  - apply tame_var_int in P. right. congruence.
Qed.
Lemma tame_annot fs c l p b : tame_out (p_annot fs c l p b).
Proof.
  unfold p_annot. destruct (c_annot c); [apply tame_ion|]. apply tame_var. intros v p1 b1.
  destruct (v <? 1); [apply tame_ion|]. apply tame_read. intros d p2 b2 _.
  destruct (parse_sids d) as [sids|e] eqn:S; [|exact (tame_sids _ _ _ S)]. cbn [c_limit].
  destruct (p + l - p2 <? 1); [apply tame_ion|]. apply tame_typed. intros. cbn. apply tame_ion.
Qed.
Lemma tame_item fs pos bs : tame_out (p_item fs pos bs).
Proof.
  unfold p_item. destruct fs as [|f rest]; [apply tame_type|]. destruct (opt_eqb _ _ _); [exact Logic.I|].
  destruct (f_type f) as [[]|]; try (apply tame_typed; intros; apply tame_annot).
  apply tame_var. intros. apply tame_typed. intros. apply tame_annot.
Qed.
Lemma tame_next n : forall fs pos bs, (length bs < n)%nat -> tame_out (p_next n fs pos bs).
Proof.
  induction n as [|n IH]; intros fs pos bs L; [lia|]. cbn [p_next]. pose proof (tame_item fs pos bs) as T.
  destruct (p_item fs pos bs) as [[e|] fs1 pos1 bs1|e|sig] eqn:P; auto. apply IH.
  pose proof (p_item_takes fs pos bs) as K. rewrite P in K. cbn [takes] in K. destruct K as (u & E & _ & U).
  subst bs. rewrite app_length in L. destruct u; [cbn in U; lia|cbn in L; lia].
Qed.
Lemma tame_session n : forall started fs pos bs e, snd (spec_session started fs pos bs (repeat DNext n)) = PBad e -> tame e.
Proof.
  induction n as [|n IH]; intros started fs pos bs e H; cbn [repeat spec_session] in H; [discriminate|].
  pose proof (tame_next (S (length bs)) fs pos bs (Nat.lt_succ_diag_r _)) as T. fold (p_next (S (length bs)) fs pos bs) in H.
  destruct (p_next (S (length bs)) fs pos bs) as [[ev|] fs1 pos1 bs1|e1|sig] eqn:P.
  - destruct (spec_session true fs1 pos1 bs1 (repeat DNext n)) as [evs st] eqn:S. cbn [snd] in H. subst st.
    apply (IH true fs1 pos1 bs1). rewrite S. reflexivity.
  - exfalso. revert P. clear. generalize (S (length bs)) as m. intros m. revert fs pos bs.
    induction m as [|m IH]; intros fs pos bs P; cbn [p_next] in P; [discriminate|].
    destruct (p_item fs pos bs) as [[ev|] a b c|e|sig]; try discriminate. eauto.
  - cbn [snd] in H. injection H as <-. exact T.
  - destruct (ev_type sig); discriminate.
Qed.
Theorem exceptions_tame bs n e : octets bs -> snd (session reader_new (one_by_one bs) (repeat DNext n)) = SExc e -> tame e.
Proof.
  intros O H. rewrite one_by_one_exact in H by exact O. cbn [snd] in H.
  destruct (snd (spec_read bs (repeat DNext n))) eqn:S; try discriminate; injection H as <-; [apply tame_type|].
  exact (tame_session _ _ _ _ _ _ S).
Qed.
