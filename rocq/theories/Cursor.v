(** Events as trees, and the binary reader as a cursor over them: any sequence of NEXT and SKIP
    requests on a well-formed stream walks the tree of its values. *)
From Verif Require Import Base BaseFacts FieldsModel BufferModel CoreModel BinReaderModel
  BinReaderSpec BinReaderRun BinReaderSession BinFormat BinFormatFacts.
Local Open Scope Z_scope.

(** Trees of events of type [A]. *)
Inductive etree (A : Type) := Leaf (e : A) | Branch (start : A) (kids : list (etree A)) (fin : A).
Arguments Leaf {A} e.
Arguments Branch {A} start kids fin.
Fixpoint flatten {A} (t : etree A) : list A :=
  match t with Leaf e => [e] | Branch s ks f => s :: flat_map flatten ks ++ [f] end.
Fixpoint tree_map {A B} (g : A -> B) (t : etree A) : etree B :=
  match t with Leaf e => Leaf (g e) | Branch s ks f => Branch (g s) (map (tree_map g) ks) (g f) end.
Section TREE_IND.
  Context {A : Type}.
  Variable P : etree A -> Prop.
  Hypothesis HL : forall e, P (Leaf e).
  Hypothesis HB : forall s ks f, Forall P ks -> P (Branch s ks f).
  Fixpoint tree_induction (t : etree A) : P t :=
    match t with
    | Leaf e => HL e
    | Branch s ks f => HB s ks f ((fix all l : Forall P l := match l with [] => Forall_nil P | k :: r => Forall_cons k (tree_induction k) (all r) end) ks)
    end.
End TREE_IND.

(** The tree of a syntax tree of the binary format (padding has none). *)
Fixpoint trees (d : Z) (n : node) : list (etree event) :=
  match n with
  | NPad _ _ => []
  | NScalar f w t v _ => [Leaf (mkev EScalar (Some t) v (field_of f) (annotations_of w) (Some d))]
  | NCont f w t _ kids =>
    [Branch (mkev EContainerStart (Some t) EvNone (field_of f) (annotations_of w) (Some d))
            (flat_map (trees (d + 1)) kids) (mkev EContainerEnd (Some t) EvNone None [] (Some d))]
  | NIvm => [Leaf version_marker_event]
  end.
Lemma trees_events n : forall d, flat_map flatten (trees d n) = events d n.
Proof.
  induction n as [f bs|f w t v bs|f w t hd kids IH| ] using node_induction; intros d; cbn [trees events flat_map flatten app]; try reflexivity.
  rewrite app_nil_r. f_equal. f_equal.
  induction IH as [|k ks Hk Hks IH']; [reflexivity|]. cbn [flat_map]. rewrite flat_map_app, Hk, IH'. reflexivity.
Qed.

(** What is left to read: the siblings at hand, and for each open container its end event and the
    siblings after it, innermost first. *)
Record cursor (A : Type) := mkcur { c_here : list (etree A); c_open : list (A * list (etree A)) }.
Arguments mkcur {A} c_here c_open.
Arguments c_here {A} c.
Arguments c_open {A} c.
Definition cursor_next {A} (c : cursor A) : option (A * cursor A) :=
  match c_here c with
  | Leaf e :: r => Some (e, mkcur r (c_open c))
  | Branch s k f :: r => Some (s, mkcur k ((f, r) :: c_open c))
  | [] => match c_open c with (f, r) :: o => Some (f, mkcur r o) | [] => None end
  end.
Definition cursor_skip {A} (c : cursor A) : option (A * cursor A) :=
  match c_open c with (f, r) :: o => Some (f, mkcur r o) | [] => None end.
(** A session of NEXT and SKIP requests; at the end of the data it stops with [fin]. *)
Fixpoint cursor_session {A} (fin : stop) (c : cursor A) (reqs : list devent) : list A * stop :=
  match reqs with
  | [] => ([], SMore)
  | q :: qs =>
    match (match q with DNext => cursor_next c | DSkip => cursor_skip c | DData _ => None end) with
    | Some (ev, c') => let '(evs, st) := cursor_session fin c' qs in (ev :: evs, st)
    | None => match q with DNext => ([], fin) | _ => ([], SExc TypeError) end
    end
  end.
(** Legal requests: SKIP only while a container is open. *)
Fixpoint legal {A} (c : cursor A) (reqs : list devent) : bool :=
  match reqs with
  | [] => true
  | DNext :: qs => match cursor_next c with Some (_, c') => legal c' qs | None => true end
  | DSkip :: qs => match cursor_skip c with Some (_, c') => legal c' qs | None => false end
  | DData _ :: _ => false
  end.

(** The state of the whole-input specification that a cursor describes. *)
Inductive stands : list frame -> Z -> list Z -> cursor event -> Prop :=
| stands_top f pos ns : frame_at Top f -> Forall (node_ok Top) ns ->
    stands [f] pos (flat_map code ns) (mkcur (flat_map (trees 0) ns) [])
| stands_in f fs pos ns t rest here opens : f_type f = Some t -> f_limit f = Some (pos + zlen (flat_map code ns)) ->
    frame_at (inside t) f -> Forall (node_ok (inside t)) ns ->
    stands fs (pos + zlen (flat_map code ns)) rest (mkcur here opens) ->
    stands (f :: fs) pos (flat_map code ns ++ rest)
      (mkcur (flat_map (trees (f_depth f)) ns) ((mkev EContainerEnd (Some t) EvNone None [] (Some (f_depth f - 1)), here) :: opens)).

Lemma stands_frames fs pos bs c : stands fs pos bs c -> length fs = S (length (c_open c)).
Proof. induction 1; cbn [length c_open]; [reflexivity|]. rewrite IHstands. reflexivity. Qed.

Lemma container_types t n hd : container_code t n hd -> t = TList \/ t = TSexp \/ t = TStruct.
Proof. destruct t; cbn; intuition. Qed.

(** Reading one sibling. *)
Lemma item_step n p f rest pos r :
  node_ok p n -> frame_at p f -> frame_room f pos (zlen (code n)) ->
  (trees (f_depth f) n = [] /\ p_item (f :: rest) pos (code n ++ r) = ODone None (later f :: rest) (pos + zlen (code n)) r) \/
  (exists e, trees (f_depth f) n = [Leaf e] /\
     p_item (f :: rest) pos (code n ++ r) = ODone (Some e) (later f :: rest) (pos + zlen (code n)) r) \/
  (exists t s ks, trees (f_depth f) n = [Branch s (flat_map (trees (f_depth f + 1)) ks) (mkev EContainerEnd (Some t) EvNone None [] (Some (f_depth f)))] /\
     Forall (node_ok (inside t)) ks /\ (t = TList \/ t = TSexp \/ t = TStruct) /\
     exists pr : list Z, zlen (code n) = zlen pr + zlen (flat_map code ks) /\
     p_item (f :: rest) pos (code n ++ r) =
     ODone (Some s) (mkframe (Some t) (Some (pos + zlen (code n))) (f_depth f + 1) true :: later f :: rest)
           (pos + zlen pr) (flat_map code ks ++ r)).
Proof.
  intros OK FA FR. destruct n as [fl bs|fl w t v bs|fl w t hd kids| ]; cbn [node_ok trees code] in *.
  - left. split; [reflexivity|]. destruct OK as (FC & F0 & PC). rewrite <- app_assoc. apply (p_item_padding p); assumption.
  - right. left. destruct OK as (FC & WO & SC). eexists. split; [reflexivity|].
    assert (E : opt_octets fst fl ++ opt_octets wrapper_octets w ++ bs = pre fl w ++ bs) by (unfold pre; rewrite app_assoc; reflexivity).
    rewrite E in *. rewrite <- app_assoc. apply (p_item_scalar p); assumption.
  - right. right. destruct OK as (FC & WO & CC & KO). apply fold_and_Forall in KO. do 3 eexists. split; [reflexivity|].
    split; [exact KO|]. split; [eapply container_types; exact CC|].
    assert (E : opt_octets fst fl ++ opt_octets wrapper_octets w ++ hd ++ flat_map code kids = pre fl w ++ hd ++ flat_map code kids)
      by (unfold pre; rewrite app_assoc; reflexivity).
    rewrite E in *. exists (pre fl w ++ hd). split; [rewrite !zlen_app; lia|]. rewrite <- app_assoc. apply (p_item_start p); assumption.
  - right. left. subst p. destruct FA as (D & L & T & FF). eexists. split; [reflexivity|]. change (zlen ivm) with 4.
    apply p_item_ivm; assumption.
Qed.

Lemma inside_frame t f : (t = TList \/ t = TSexp \/ t = TStruct) -> 1 <= f_depth f -> f_type f = Some t -> frame_at (inside t) f.
Proof. intros [-> | [-> | ->]] D T; cbn [inside frame_at]; auto. Qed.

Lemma code_len_pad p n d : node_ok p n -> trees d n = [] -> 1 <= zlen (code n).
Proof.
  destruct n as [fl bs| | | ]; cbn [node_ok trees code]; try discriminate. intros (_ & _ & (hd & data & H & ->)) _.
  rewrite !zlen_app. pose proof (header_len _ _ _ _ H). pose proof (zlen_nonneg data). pose proof (zlen_nonneg (opt_octets fst fl)). lia.
Qed.

Definition answers (o : outcome) (x : option (event * cursor event)) : Prop :=
  match x with
  | Some (ev, c') => exists fs' pos' bs', o = ODone (Some ev) fs' pos' bs' /\ stands fs' pos' bs' c'
  | None => o = OMore stream_end_event
  end.

Lemma pad_step fs pos bs fs1 pos1 bs1 : p_item fs pos bs = ODone None fs1 pos1 bs1 ->
  p_next (S (length bs)) fs pos bs = p_next (S (length bs1)) fs1 pos1 bs1.
Proof.
  intros P. cbn [p_next]. rewrite P. apply p_item_pad in P as (u & -> & -> & L).
  apply (p_next_fuel _ (S (length bs1))); rewrite ?app_length; unfold zlen in L; lia.
Qed.

Lemma later_same f : f_first f = false -> later f = f.
Proof. destruct f; cbn; intros ->; reflexivity. Qed.

Lemma next_top ns : forall f pos, frame_at Top f -> Forall (node_ok Top) ns ->
  answers (p_next (S (length (flat_map code ns))) [f] pos (flat_map code ns)) (cursor_next (mkcur (flat_map (trees 0) ns) [])).
Proof.
  induction ns as [|n ns IH]; intros f pos FA OK.
  - cbn. destruct FA as (D & L & T & FF). destruct f as [ft fl fd ff]. cbn in *. subst. cbn. reflexivity.
  - inversion OK as [|? ? On Ons]; subst. cbn [flat_map]. pose proof FA as (D & L & T & FF).
    assert (FR : frame_room f pos (zlen (code n))) by (unfold frame_room; rewrite L; exact D).
    destruct (item_step n Top f [] pos (flat_map code ns) On FA FR) as [(TN & P)|[(e & TN & P)|(t & s & ks & TN & KO & TT & pr & LE & P)]];
      rewrite D in TN; rewrite TN; cbn [app].
    + rewrite (pad_step _ _ _ _ _ _ P). apply IH; [apply later_at; exact FA|exact Ons].
    + unfold cursor_next; cbn [c_here c_open answers]. exists [later f], (pos + zlen (code n)), (flat_map code ns). split.
      * cbn [p_next]. rewrite P. reflexivity.
      * constructor; [apply later_at; exact FA|exact Ons].
    + unfold cursor_next; cbn [c_here c_open answers]. do 3 eexists. split; [cbn [p_next]; rewrite P; reflexivity|].
      rewrite D. set (g := mkframe (Some t) (Some (pos + zlen (code n))) (0 + 1) true).
      change (Some 0) with (Some (f_depth g - 1)). change (flat_map (trees (0 + 1)) ks) with (flat_map (trees (f_depth g)) ks).
      assert (E : pos + zlen (code n) = pos + zlen pr + zlen (flat_map code ks)) by lia.
      constructor; [reflexivity|cbn [g f_limit]; f_equal; exact E|apply inside_frame; [exact TT|cbn; lia|reflexivity]|exact KO|].
      constructor; [apply later_at; exact FA|exact Ons].
Qed.

Lemma next_in ns : forall f fs pos t rest here opens, f_type f = Some t -> f_limit f = Some (pos + zlen (flat_map code ns)) ->
  frame_at (inside t) f -> Forall (node_ok (inside t)) ns ->
  stands fs (pos + zlen (flat_map code ns)) rest (mkcur here opens) ->
  answers (p_next (S (length (flat_map code ns ++ rest))) (f :: fs) pos (flat_map code ns ++ rest))
    (cursor_next (mkcur (flat_map (trees (f_depth f)) ns) ((mkev EContainerEnd (Some t) EvNone None [] (Some (f_depth f - 1)), here) :: opens))).
Proof.
  induction ns as [|n ns IH]; intros f fs pos t rest here opens T L FA OK ST.
  - cbn [flat_map app] in *. change (zlen (@nil Z)) with 0 in *. rewrite Z.add_0_r in *. unfold cursor_next; cbn [c_here c_open answers].
    exists fs, pos, rest. split; [|exact ST]. cbn [p_next]. rewrite (p_item_end f fs pos rest t T L). reflexivity.
  - inversion OK as [|? ? On Ons]; subst. cbn [flat_map] in *. rewrite zlen_app in *.
    pose proof (zlen_nonneg (code n)) as N1. pose proof (zlen_nonneg (flat_map code ns)) as N2.
    assert (FR : frame_room f pos (zlen (code n))) by (unfold frame_room; rewrite L; lia).
    rewrite Z.add_assoc in *. rewrite <- app_assoc.
    destruct (item_step n (inside t) f fs pos (flat_map code ns ++ rest) On FA FR) as [(TN & P)|[(e & TN & P)|(u & s & ks & TN & KO & TT & pr & LE & P)]];
      rewrite TN; cbn [app].
    + rewrite (pad_step _ _ _ _ _ _ P). apply (IH (later f)); auto; apply later_at; exact FA.
    + unfold cursor_next; cbn [c_here c_open answers]. do 3 eexists. split; [cbn [p_next]; rewrite P; reflexivity|].
      apply (stands_in (later f)); auto; apply later_at; exact FA.
    + unfold cursor_next; cbn [c_here c_open answers]. do 3 eexists. split; [cbn [p_next]; rewrite P; reflexivity|].
      set (g := mkframe (Some u) (Some (pos + zlen (code n))) (f_depth f + 1) true).
      replace (Some (f_depth f)) with (Some (f_depth g - 1)) by (cbn [g f_depth]; f_equal; lia).
      change (flat_map (trees (f_depth f + 1)) ks) with (flat_map (trees (f_depth g)) ks).
      assert (E : pos + zlen (code n) = pos + zlen pr + zlen (flat_map code ks)) by lia.
      assert (D : 1 <= f_depth f) by (destruct t; cbn [inside frame_at] in FA; lia).
      constructor; [reflexivity|cbn [g f_limit]; f_equal; exact E|apply inside_frame; [exact TT|cbn; lia|reflexivity]|exact KO|].
      rewrite <- E. apply (stands_in (later f)); auto; apply later_at; exact FA.
Qed.

Lemma stands_next fs pos bs c : stands fs pos bs c -> answers (p_next (S (length bs)) fs pos bs) (cursor_next c).
Proof. intros H. destruct H; [apply next_top; assumption|]. apply (next_in ns f fs pos t rest here opens); assumption. Qed.

Lemma stands_skip fs pos bs c x : stands fs pos bs c -> cursor_skip c = Some x -> answers (p_skip fs pos bs) (Some x) /\ exists a b r, fs = a :: b :: r.
Proof.
  intros H S. destruct H as [f pos ns FA OK|f fs pos ns t rest here opens T L FA OK ST]; cbn [cursor_skip c_open] in S; [discriminate|].
  injection S as <-. split.
  - cbn [answers]. exists fs, (pos + zlen (flat_map code ns)), rest. split; [|exact ST]. unfold p_skip. rewrite L, T.
    pose proof (zlen_nonneg (flat_map code ns)). pose proof (zlen_nonneg rest).
    replace (pos + zlen (flat_map code ns) <? pos) with false by lia. rewrite zlen_app.
    replace (zlen (flat_map code ns) + zlen rest <? pos + zlen (flat_map code ns) - pos) with false by lia. f_equal.
    replace (pos + zlen (flat_map code ns) - pos) with (zlen (flat_map code ns)) by lia. apply zdrop_app_exact. reflexivity.
  - pose proof (stands_frames _ _ _ _ ST). destruct fs as [|b r]; [discriminate|]. eauto.
Qed.

Definition cs := @cursor_session event SEnd.
Lemma cs_step c q qs ev c' : (match q with DNext => cursor_next c | DSkip => cursor_skip c | DData _ => None end) = Some (ev, c') ->
  cs c (q :: qs) = (ev :: fst (cs c' qs), snd (cs c' qs)).
Proof. intros H. unfold cs. cbn [cursor_session]. rewrite H. destruct (cursor_session SEnd c' qs); reflexivity. Qed.

Lemma stands_session reqs : forall fs pos bs c, stands fs pos bs c -> legal c reqs = true ->
  spec_session true fs pos bs reqs = (fst (cs c reqs), match snd (cs c reqs) with SEnd => PEnd | _ => PMore end) /\
  (snd (cs c reqs) = SEnd \/ snd (cs c reqs) = SMore).
Proof.
  induction reqs as [|q qs IH]; intros fs pos bs c ST OK; [split; [reflexivity|right; reflexivity]|].
  cbn [legal spec_session] in *. destruct q as [| |d].
  - pose proof (stands_next _ _ _ _ ST) as A. destruct (cursor_next c) as [[ev c']|] eqn:N; cbn [answers] in A.
    + destruct A as (fs' & pos' & bs' & -> & ST'). destruct (IH _ _ _ _ ST' OK) as [E F]. rewrite E.
      rewrite (cs_step c DNext qs ev c' N). cbn [fst snd]. auto.
    + rewrite A. unfold cs. cbn [cursor_session]. rewrite N. auto.
  - destruct (cursor_skip c) as [[ev c']|] eqn:SK; [|discriminate].
    destruct (stands_skip _ _ _ _ _ ST SK) as [(fs' & pos' & bs' & E1 & ST') (a & b & r & ->)]. rewrite E1.
    destruct (IH _ _ _ _ ST' OK) as [E F]. rewrite E. rewrite (cs_step c DSkip qs ev c' SK). cbn [fst snd]. auto.
  - discriminate.
Qed.

(** The cursor of a whole stream. *)
Definition stream_cursor (ns : list node) : cursor event := mkcur (Leaf version_marker_event :: flat_map (trees 0) ns) [].

Theorem cursor_spec ns reqs : stream_ok ns -> legal (stream_cursor ns) reqs = true ->
  spec_read (stream ns) reqs =
  (fst (cs (stream_cursor ns) reqs), match snd (cs (stream_cursor ns) reqs) with SEnd => PEnd | _ => PMore end) /\
  (snd (cs (stream_cursor ns) reqs) = SEnd \/ snd (cs (stream_cursor ns) reqs) = SMore).
Proof.
  intros OK. unfold spec_read. destruct reqs as [|q qs]; [split; [reflexivity|right; reflexivity]|]. destruct q as [| |d].
  - intros L. cbn [legal] in L. change (cursor_next (stream_cursor ns)) with (Some (version_marker_event, mkcur (flat_map (trees 0) ns) [])) in L.
    rewrite (cs_step (stream_cursor ns) DNext qs version_marker_event (mkcur (flat_map (trees 0) ns) []) eq_refl).
    cbn [spec_session fst snd]. unfold stream. cbn [p_next].
    rewrite (p_item_ivm top_frame [] 0 (flat_map code ns)) by reflexivity.
    assert (ST : stands [later top_frame] (0 + 4) (flat_map code ns) (mkcur (flat_map (trees 0) ns) [])) by (constructor; [cbn; auto|exact OK]).
    destruct (stands_session qs _ _ _ _ ST L) as [E F]. rewrite E. auto.
  - discriminate.
  - discriminate.
Qed.

Theorem cursor_reads ns chunks reqs : stream_ok ns -> chunks_ok chunks -> concat chunks = stream ns ->
  legal (stream_cursor ns) reqs = true ->
  session reader_new chunks reqs = cursor_session SEnd (stream_cursor ns) reqs.
Proof.
  intros OK C E L. pose proof (session_meets_spec chunks reqs C) as M. destruct (cursor_spec ns reqs OK L) as [S F].
  rewrite E, S in M. unfold session_matches in M. unfold cs in *. destruct (cursor_session SEnd (stream_cursor ns) reqs) as [evs st].
  cbn [fst snd] in *. destruct F as [-> | ->]; exact M.
Qed.

(** A reader with its remaining input serves a cursor: it answers every sequence of legal requests
    as the cursor does. *)
Definition serves (r : reader) (chunks : list (list Z)) (c : cursor event) : Prop :=
  forall reqs, legal c reqs = true -> session r chunks reqs = cursor_session SEnd c reqs.

Lemma serves_step r chunks c q ev c' : serves r chunks c ->
  (match q with DNext => cursor_next c | DSkip => cursor_skip c | DData _ => None end) = Some (ev, c') ->
  ev_type ev <> EStreamEnd ->
  exists r' cs, blocking_next r chunks q = (Ok ev, r', cs) /\ serves r' cs c'.
Proof.
  intros S N NE.
  assert (LE : forall qs, legal c (q :: qs) = legal c' qs) by (intros qs; destruct q; cbn [legal]; try discriminate N; rewrite N; reflexivity).
  destruct (blocking_next r chunks q) as [[[e1|x] r'] cks] eqn:B.
  - assert (e1 = ev) as ->.
    { pose proof (S [q]) as S0. fold cs in S0. rewrite LE, (cs_step c q [] ev c' N) in S0. specialize (S0 eq_refl). cbn in S0.
      rewrite B in S0. destruct (ev_type e1) eqn:T; try (injection S0 as <-; reflexivity). discriminate S0. }
    exists r', cks. split; [reflexivity|]. intros qs OK. pose proof (S (q :: qs)) as S0. fold cs in *. rewrite LE, (cs_step c q qs ev c' N) in S0.
    specialize (S0 OK). cbn [session] in S0. rewrite B in S0.
    destruct (session r' cks qs) as [evs st]. destruct (cs c' qs) as [evs' st']. cbn [fst snd] in S0.
    destruct (ev_type ev); try congruence; injection S0 as -> ->; reflexivity.
  - exfalso. pose proof (S [q]) as S0. fold cs in S0. rewrite LE, (cs_step c q [] ev c' N) in S0. specialize (S0 eq_refl). cbn [session] in S0.
    rewrite B in S0. discriminate S0.
Qed.

Lemma serves_end r chunks c : serves r chunks c -> cursor_next c = None ->
  exists ev r' cs, blocking_next r chunks DNext = (Ok ev, r', cs) /\ ev_type ev = EStreamEnd.
Proof.
  intros S N. pose proof (S [DNext]) as S0. cbn [cursor_session legal] in S0. rewrite N in S0. specialize (S0 eq_refl).
  cbn [session] in S0. destruct (blocking_next r chunks DNext) as [[[e1|x] r'] cks]; [|discriminate].
  destruct (ev_type e1) eqn:T; try discriminate. eauto.
Qed.

Theorem reader_serves ns chunks : stream_ok ns -> chunks_ok chunks -> concat chunks = stream ns -> serves reader_new chunks (stream_cursor ns).
Proof. intros OK C E reqs L. apply cursor_reads; assumption. Qed.
