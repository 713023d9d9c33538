(** Whole runs of the raw binary writer. *)
From Verif Require Import Base BaseFacts FieldsModel FieldsFacts BufferModel BufferFacts CoreModel BinWriterModel
  BinReaderModel BinReaderSpec BinReaderSession CalendarFacts TimestampFacts ScalarFacts ScalarProofs BinFormat BinFormatFacts
  WriterFacts.

(** * Well-formed output and round trip *)

(** [echoes open es evs]: with the containers [open] (innermost first), the events [evs] a reader
    reports answer the events [es] given to the writer, one by one, up to depth 0. *)
Definition standing (open : list iontype) : place := match open with [] => Top | t :: _ => inside t end.
Inductive echoes : list iontype -> list event -> list event -> Prop :=
| ec_nil : echoes [] [] []
| ec_scalar open e es evs v fld an : ev_type e = EScalar -> named (standing open) e fld an -> same_value e v ->
    echoes open es evs -> echoes open (e :: es) (mkev EScalar (ev_ion_type e) v fld an (Some (zlen open)) :: evs)
| ec_start open e es evs t fld an : ev_type e = EContainerStart -> ev_ion_type e = Some t -> is_container t = true ->
    named (standing open) e fld an -> echoes (t :: open) es evs ->
    echoes open (e :: es) (mkev EContainerStart (Some t) EvNone fld an (Some (zlen open)) :: evs)
| ec_end t open e es evs : ev_type e = EContainerEnd -> echoes open es evs ->
    echoes (t :: open) (e :: es) (mkev EContainerEnd (Some t) EvNone None [] (Some (zlen open)) :: evs).

Definition is_flush (e : event) : bool := match ev_type e with EStreamEnd => true | _ => false end.

Lemma standing_place st : standing (map o_type st) = place_of st.
Proof. destruct st; reflexivity. Qed.

Lemma run_echoes es : forall s cur st s' out fl,
  winv s cur st -> Forall event_sane es -> Forall (fun e => is_flush e = false) es -> is_flush fl = true -> event_sane fl ->
  raw_write_all s (es ++ [fl]) = Ok (s', out) ->
  exists ns evs, Forall (node_ok Top) ns /\ out = flat_map code ns /\ octets out /\
    echoes (map o_type st) es evs /\ flat_map (events 0) ns = so_far cur st ++ evs /\ winv s' [] [].
Proof.
  induction es as [|e es IH]; intros s cur st s' out fl W ES NF FL FS H; cbn [app raw_write_all] in H.
  - destruct (raw_write s fl) as [[s1 ws]|] eqn:R; [|discriminate]. cbn [bind] in H. injection H as <- <-.
    rewrite app_nil_r. unfold is_flush in FL.
    destruct (raw_write_step _ _ _ _ _ _ W FS R) as [T -> E O W'|? ? ? ? ? T|? T|? ? ? T]; try (rewrite T in FL; discriminate).
    exists cur, []. destruct W as [NC _]. cbn [map]. repeat (split; [assumption || constructor|]). split; [|exact W'].
    cbn [so_far]. rewrite app_nil_r. reflexivity.
  - inversion ES as [|? ? ES1 ES2]; subst. inversion NF as [|? ? NF1 NF2]; subst. unfold is_flush in NF1.
    destruct (raw_write s e) as [[s1 ws]|] eqn:R; [|discriminate]. cbn [bind] in H.
    destruct (raw_write_all s1 (es ++ [fl])) as [[s2 out2]|] eqn:R2; [|discriminate]. cbn [bind] in H. injection H as <- <-.
    destruct (raw_write_step _ _ _ _ _ _ W ES1 R) as [T|v fld an t n T -> W' IT NM SV EV|o T -> W' OB IT NM|o st' n T -> -> W' SF].
    + rewrite T in NF1. discriminate.
    + destruct (IH _ _ _ _ _ _ W' ES2 NF2 FL FS R2) as (ns & evs & N & -> & O & EC & FE & WF).
      exists ns. eexists. split; [exact N|]. split; [reflexivity|]. split; [exact O|].
      split; [apply (ec_scalar (map o_type st) e es evs v fld an T); auto; rewrite standing_place; exact NM|]. split; [|exact WF].
      rewrite FE, so_far_snoc, EV, IT. rewrite <- app_assoc. cbn [app]. unfold zlen; rewrite map_length. reflexivity.
    + destruct (IH _ _ _ _ _ _ W' ES2 NF2 FL FS R2) as (ns & evs & N & -> & O & EC & FE & WF).
      exists ns. eexists. split; [exact N|]. split; [reflexivity|]. split; [exact O|].
      split; [apply (ec_start (map o_type st) e es evs (o_type o) (field_of (o_field o)) (map by_sid (o_sids o)) T IT)|].
      * destruct W' as (_ & (C & _) & _). exact C.
      * rewrite standing_place. exact NM.
      * exact EC.
      * split; [|exact WF]. rewrite FE. cbn [so_far flat_map]. rewrite OB, <- app_assoc. cbn [app]. unfold zlen; rewrite map_length. reflexivity.
    + destruct (IH _ _ _ _ _ _ W' ES2 NF2 FL FS R2) as (ns & evs & N & -> & O & EC & FE & WF).
      exists ns. eexists. split; [exact N|]. split; [reflexivity|]. split; [exact O|].
      split; [cbn [map]; apply (ec_end (o_type o) (map o_type st') e es evs T EC)|]. split; [|exact WF].
      rewrite FE, SF, <- app_assoc. cbn [app]. unfold zlen; rewrite map_length. reflexivity.
Qed.

Lemma echoes_length open es evs : echoes open es evs -> length evs = length es.
Proof. induction 1; cbn [length]; congruence. Qed.

Theorem written_stream es fl s out : Forall event_sane es -> Forall (fun e => is_flush e = false) es ->
  is_flush fl = true -> event_sane fl -> raw_write_all w_init (es ++ [fl]) = Ok (s, out) ->
  exists ns evs, stream_ok ns /\ out = flat_map code ns /\ octets out /\ echoes [] es evs /\
    stream_events ns = version_marker_event :: evs.
Proof.
  intros ES NF FL FS H. destruct (run_echoes es w_init [] [] s out fl winv_init ES NF FL FS H) as (ns & evs & N & O & OC & EC & FE & _).
  exists ns, evs. repeat (split; [assumption|]). unfold stream_events. rewrite FE. reflexivity.
Qed.

Theorem write_read es fl s out : Forall event_sane es -> Forall (fun e => is_flush e = false) es ->
  is_flush fl = true -> event_sane fl -> raw_write_all w_init (es ++ [fl]) = Ok (s, out) ->
  exists evs, echoes [] es evs /\ forall chunks n, chunks_ok chunks -> concat chunks = ivm ++ out ->
    session reader_new chunks (repeat DNext (S (length es) + n)) =
    (version_marker_event :: evs, match n with O => SMore | S _ => SEnd end).
Proof.
  intros ES NF FL FS H. destruct (written_stream es fl s out ES NF FL FS H) as (ns & evs & SO & E & _ & EC & EV).
  exists evs. split; [exact EC|]. intros chunks n C CC. pose proof (grammar_session ns chunks n SO C) as G.
  rewrite EV in G. cbn [length] in G. rewrite (echoes_length _ _ _ EC) in G. apply G. rewrite CC, E. reflexivity.
Qed.

(** Several flushes: each part is a stream of its own kind, and the writer starts afresh. *)
Theorem output_well_formed es : forall s out s0, winv s0 [] [] -> Forall event_sane es -> raw_write_all s0 es = Ok (s, out) ->
  exists ns, Forall (node_ok Top) ns /\ out = flat_map code ns /\ octets out.
Proof.
  enough (G : forall s0 cur st s out, winv s0 cur st -> Forall event_sane es -> raw_write_all s0 es = Ok (s, out) ->
    exists ns1 ns2 cur' st', Forall (node_ok Top) ns1 /\ Forall (node_ok Top) ns2 /\
      out = flat_map code ns2 /\ octets out /\ winv s cur' st').
  { intros s out s0 W ES H. destruct (G s0 [] [] s out W ES H) as (_ & ns2 & _ & _ & _ & N & O & OC & _). eauto. }
  induction es as [|e es IH]; intros s0 cur st s out W ES H; cbn [raw_write_all] in H.
  - injection H as <- <-. exists [], [], cur, st. split; [constructor|]. split; [constructor|]. split; [reflexivity|]. split; [constructor|exact W].
  - inversion ES as [|? ? ES1 ES2]; subst. destruct (raw_write s0 e) as [[s1 ws]|] eqn:R; [|discriminate]. cbn [bind] in H.
    destruct (raw_write_all s1 es) as [[s2 out2]|] eqn:R2; [|discriminate]. cbn [bind] in H. injection H as <- <-.
    destruct (raw_write_step _ _ _ _ _ _ W ES1 R) as [T E0 E O W'|v fld an t n T E W' IT NM SV EV|o T E W' OB IT NM|o st' n T E E0 W' SF];
      destruct (IH _ _ _ _ _ W' ES2 R2) as (ns1 & ns2 & cur' & st2 & N1 & N2 & -> & OC & WF).
    + subst st. rewrite E. exists [], (cur ++ ns2), cur', st2. split; [constructor|]. destruct W as [NC _]. cbn [place_of] in NC.
      split; [apply Forall_app; auto|]. rewrite flat_map_app. split; [reflexivity|]. split; [|exact WF].
      apply octets_app. split; [rewrite <- E; exact O|exact OC].
    + rewrite E. exists ns1, ns2, cur', st2. auto.
    + rewrite E. exists ns1, ns2, cur', st2. auto.
    + rewrite E. exists ns1, ns2, cur', st2. auto.
Qed.

(** * Which event sequences are accepted *)

Definition wopen : Type := list (iontype * list token).
Definition has_sids (ts : list token) : Prop := Forall (fun t => tk_sid t <> None) ts.
Definition field_given (open : wopen) (e : event) : Prop :=
  match open with (TStruct, _) :: _ => exists t, ev_field e = Some t /\ tk_sid t <> None | _ => True end.
Definition encodable (e : event) : Prop :=
  exists v bs, ev_force (ev_value e) = Ok v /\ serialize_scalar (ev_ion_type e) v = Ok bs.

Inductive accept : wopen -> event -> wopen -> Prop :=
| ac_scalar open e : ev_type e = EScalar -> field_given open e -> has_sids (ev_annot e) -> encodable e -> accept open e open
| ac_start open e t : ev_type e = EContainerStart -> field_given open e -> ev_ion_type e = Some t -> is_container t = true ->
    accept open e ((t, ev_annot e) :: open)
| ac_end open e t an : ev_type e = EContainerEnd -> has_sids an -> accept ((t, an) :: open) e open
| ac_flush e : ev_type e = EStreamEnd -> accept [] e [].
Inductive accept_all : wopen -> list event -> wopen -> Prop :=
| aa_nil open : accept_all open [] open
| aa_cons open e open1 es open2 : accept open e open1 -> accept_all open1 es open2 -> accept_all open (e :: es) open2.

Definition at_depth (b : btree) (k : nat) : Prop := bt_inv b /\ length (bt_open b) = k.
Lemma at_add b k x : at_depth b k -> at_depth (bt_add b x) k.
Proof. intros [I L]. pose proof (bt_step_refines b (OAdd x) I) as R. cbn [bt_step] in R. destruct (spec_step _ _); [|contradiction]. split; [apply R|exact L]. Qed.
Lemma at_start b k : at_depth b k -> at_depth (bt_start b) (S k).
Proof. intros [I L]. pose proof (bt_step_refines b OStart I) as R. cbn [bt_step] in R. destruct (spec_step _ _); [|contradiction]. split; [apply R|cbn; congruence]. Qed.
Lemma at_end b k h : at_depth b (S k) -> exists b', bt_end b h = Ok b' /\ at_depth b' k.
Proof.
  intros [I L]. pose proof (bt_run_nesting [OEnd (fun _ => h)] b I) as R. rewrite L in R. cbn [bt_run bt_step nesting] in R.
  destruct (bt_end b h) as [b'|]; [|contradiction]. exists b'. auto.
Qed.
Lemma at_drain b : at_depth b 0 -> exists bufs, bt_drain b = Ok (bufs, bt_init).
Proof. intros [_ L]. unfold bt_drain. destruct (bt_open b); [eauto|discriminate]. Qed.

Definition depth_of (open : wopen) : nat :=
  fold_right (fun p n => (match snd p with [] => 1 | _ => 2 end + n)%nat) 0%nat open.
Definition ainv (s : wstate) (open : wopen) : Prop :=
  w_frames s = map (fun p => mkwf (Some (fst p)) (snd p)) open /\
  Forall (fun p => is_container (fst p) = true /\ sids_ok (snd p)) open /\ at_depth (w_buf s) (depth_of open).
(** SIDs are not negative (a Python caller could pass a negative one: see C02_negative_unsigned_refuted). *)
Definition sids_natural (e : event) : Prop :=
  sids_ok (ev_annot e) /\
  match ev_field e with Some t => match tk_sid t with Some s => 0 <= s | None => True end | None => True end.

Lemma has_sids_of ts : has_sids ts <-> sids_of ts <> None.
Proof.
  induction ts as [|t ts IH]; cbn [sids_of]; [split; [discriminate|constructor]|]. split.
  - intros H. inversion H as [|? ? A B]; subst. apply IH in B. destruct (tk_sid t); [|congruence]. destruct (sids_of ts); congruence.
  - intros H. destruct (tk_sid t) eqn:T; [|congruence]. destruct (sids_of ts) eqn:S; [|congruence].
    constructor; [congruence|]. apply IH. discriminate.
Qed.

Lemma wrapper_closes b k annots : at_depth b (S k) -> sids_ok annots ->
  match end_annotation_wrapper b annots with
  | Ok b' => has_sids annots /\ at_depth b' k
  | Err e => ~ has_sids annots
  end.
Proof.
  intros A S. unfold end_annotation_wrapper.
  assert (0 <= bt_len b) by (destruct A as [(_ & _ & L & _) _]; rewrite L; unfold total; apply zlen_nonneg).
  rewrite annotation_header_spec by auto. pose proof (has_sids_of annots) as HS.
  destruct (sids_of annots) as [l|]; cbn [bind].
  - destruct (at_end b k (wrapper_octets (wrapper_for l (bt_len b))) A) as (b' & -> & A'). split; [apply HS; discriminate|exact A'].
  - intros X. apply HS in X. congruence.
Qed.

Theorem step_accepts s open e : ainv s open -> sids_natural e ->
  match raw_write s e with
  | Ok (s', _) => exists open', accept open e open' /\ ainv s' open'
  | Err _ => forall open', ~ accept open e open'
  end.
Proof.
  intros (F & FC & D) [AK FK]. unfold raw_write. rewrite F.
  assert (IS : (match map (fun p : iontype * list token => mkwf (Some (fst p)) (snd p)) open with
      | f :: _ => match wf_type f with Some TStruct => true | _ => false end | [] => false end) =
      match open with (TStruct, _) :: _ => true | _ => false end)
    by (destruct open as [|[t an] open]; [reflexivity|destruct t; reflexivity]).
  rewrite IS.
  assert (G : begins_value (ev_type e) = true ->
    match (if (match open with (TStruct, _) :: _ => true | _ => false end) && begins_value (ev_type e)
    then match ev_field e with
         | None => Err AttributeError
         | Some f => match tk_sid f with
                     | None => Err TypeError
                     | Some sid => let* (b, _) := write_varuint [] sid in Ok (bt_add (w_buf s) b)
                     end
         end
    else Ok (w_buf s)) with
    | Ok b => field_given open e /\ at_depth b (depth_of open)
    | Err _ => ~ field_given open e end).
  { intros ->. rewrite andb_true_r. unfold field_given. destruct open as [|[[] an] open]; auto.
    destruct (ev_field e) as [t|]; [|intros (? & ? & _); discriminate].
    destruct (tk_sid t) as [sid|] eqn:T; [|intros (? & E & N); injection E as <-; contradiction].
    rewrite write_varuint_spec by exact FK. cbn [bind]. split; [exists t; split; [reflexivity|congruence]|]. apply at_add. exact D. }
  destruct (ev_type e) eqn:TY; cbn [begins_value andb] in *; rewrite ?andb_false_r; cbn [bind].
  - intros open' A; inversion A; congruence.
  - destruct open as [|[t an] open]; cbn [map].
    + destruct (at_drain _ D) as [bufs ->]. cbn [bind]. exists []. split; [constructor; exact TY|].
      split; [reflexivity|]. split; [constructor|]. split; [apply bt_inv_init|reflexivity].
    + intros open' A; inversion A; congruence.
  - intros open' A; inversion A; congruence.
  - specialize (G eq_refl). rewrite andb_true_r in *.
    match type of G with match ?X with Ok _ => _ | Err _ => _ end => destruct X as [b|] end; cbn [bind]; [|intros open' A; inversion A; congruence].
    destruct G as [FG BD].
    destruct (ev_force (ev_value e)) as [v|] eqn:EF; cbn [bind];
      [|intros open' A; inversion A; try congruence; match goal with H : encodable _ |- _ => destruct H as (? & ? & ? & ?) end; congruence].
    destruct (serialize_scalar (ev_ion_type e) v) as [bs|] eqn:SS; cbn [bind];
      [|intros open' A; inversion A; try congruence; match goal with H : encodable _ |- _ => destruct H as (? & ? & ? & ?) end; congruence].
    assert (EN : encodable e) by (exists v, bs; auto).
    destruct (ev_annot e) as [|a an] eqn:EA.
    + exists open. split; [apply ac_scalar; auto; rewrite EA; constructor|]. split; [reflexivity|]. split; [exact FC|]. apply at_add. exact BD.
    + pose proof (wrapper_closes (bt_add (bt_start b) bs) (depth_of open) (a :: an) (at_add _ _ bs (at_start _ _ BD)) AK) as WC.
      destruct (end_annotation_wrapper _ _) as [b'|]; cbn [bind].
      * destruct WC as [HS BD']. exists open. split; [apply ac_scalar; auto; rewrite EA; exact HS|]. split; [reflexivity|]. split; [exact FC|exact BD'].
      * intros open' A; inversion A; congruence.
  - specialize (G eq_refl). rewrite andb_true_r in *.
    match type of G with match ?X with Ok _ => _ | Err _ => _ end => destruct X as [b|] end; cbn [bind]; [|intros open' A; inversion A; congruence].
    destruct G as [FG BD].
    destruct (ev_ion_type e) as [t|] eqn:IT; [|intros open' A; inversion A; congruence].
    destruct (is_container t) eqn:CT; [|intros open' A; inversion A; congruence].
    exists ((t, ev_annot e) :: open). split; [apply ac_start; auto|]. split; [cbn [map fst snd w_frames]; reflexivity|].
    split; [constructor; [auto|exact FC]|]. cbn [depth_of fold_right snd w_buf]. destruct (ev_annot e); cbn [Nat.add]; repeat apply at_start; exact BD.
  - destruct open as [|[t an] open]; cbn [map fst snd]; [intros open' A; inversion A; congruence|].
    inversion FC as [|? ? [CT SK] FC']; subst. cbn [fst snd] in *. unfold end_container_value. cbn [wf_type wf_annot].
    assert (0 <= bt_len (w_buf s)) by (destruct D as [(_ & _ & L & _) _]; rewrite L; unfold total; apply zlen_nonneg).
    destruct (container_header_spec t (bt_len (w_buf s)) CT H) as (hd & -> & _). cbn [bind].
    cbn [depth_of fold_right snd] in D. fold (depth_of open) in D. destruct an as [|a an].
    + destruct (at_end _ _ hd D) as (b' & -> & D'). cbn [bind]. exists open. split; [apply ac_end; [exact TY|constructor]|].
      split; [reflexivity|]. split; [exact FC'|exact D'].
    + destruct (at_end _ _ hd D) as (b' & -> & D'). cbn [bind]. pose proof (wrapper_closes b' (depth_of open) (a :: an) D' SK) as WC.
      destruct (end_annotation_wrapper b' (a :: an)) as [b2|]; cbn [bind].
      * destruct WC as [HS D2]. exists open. split; [apply ac_end; auto|]. split; [reflexivity|]. split; [exact FC'|exact D2].
      * intros open' A; inversion A; congruence.
Qed.

Lemma accept_fun open e a b : accept open e a -> accept open e b -> a = b.
Proof. intros A B. destruct A; inversion B; subst; congruence. Qed.

Lemma ainv_init : ainv w_init [].
Proof. split; [reflexivity|]. split; [constructor|]. split; [apply bt_inv_init|reflexivity]. Qed.

Theorem run_accepts es : forall s open, ainv s open -> Forall sids_natural es ->
  (exists s' out, raw_write_all s es = Ok (s', out)) <-> exists open', accept_all open es open'.
Proof.
  induction es as [|e es IH]; intros s open A SN; cbn [raw_write_all].
  - split; intros _; [exists open; constructor|eauto].
  - inversion SN as [|? ? SN1 SN2]; subst. pose proof (step_accepts s open e A SN1) as S.
    destruct (raw_write s e) as [[s1 ws]|]; cbn [bind].
    + destruct S as (o1 & AC & A1). specialize (IH s1 o1 A1 SN2). split.
      * intros (s' & out & H). destruct (raw_write_all s1 es) as [[s2 out2]|]; [|discriminate].
        destruct IH as [IH _]. destruct IH as [o2 H2]; [eauto|]. exists o2. econstructor; eauto.
      * intros (o2 & H). inversion H as [|? ? oX ? ? AX AA]; subst. rewrite (accept_fun _ _ _ _ AX AC) in AA.
        destruct IH as [_ IH]. destruct IH as (s' & out & ->); [eauto|]. cbn [bind]. eauto.
    + split; [intros (? & ? & H); discriminate|]. intros (o2 & H). inversion H; subst. exfalso. eapply S; eassumption.
Qed.

Lemma run_ainv es : forall s open s' out, ainv s open -> Forall sids_natural es ->
  raw_write_all s es = Ok (s', out) -> exists open', accept_all open es open' /\ ainv s' open'.
Proof.
  induction es as [|e es IH]; intros s open s' out A SN H; cbn [raw_write_all] in H.
  - injection H as <- <-. exists open. split; [constructor|exact A].
  - inversion SN as [|? ? SN1 SN2]; subst. pose proof (step_accepts s open e A SN1) as S.
    destruct (raw_write s e) as [[s1 ws]|]; [|discriminate]. cbn [bind] in H. destruct S as (o1 & AC & A1).
    destruct (raw_write_all s1 es) as [[s2 out2]|] eqn:R; [|discriminate]. cbn [bind] in H. injection H as <- <-.
    destruct (IH _ _ _ _ A1 SN2 R) as (o2 & AA & A2). exists o2. split; [econstructor; eauto|exact A2].
Qed.

Lemma accept_all_fun es : forall open a b, accept_all open es a -> accept_all open es b -> a = b.
Proof.
  induction es as [|e es IH]; intros open a b A B; inversion A as [|? ? a1 ? ? A1 A2]; inversion B as [|? ? b1 ? ? B1 B2]; subst; auto.
  rewrite (accept_fun _ _ _ _ A1 B1) in A2. eauto.
Qed.

(** Misuse, from any reachable state. *)
Theorem misuse_rejected es open s out e : Forall sids_natural es -> raw_write_all w_init es = Ok (s, out) -> accept_all [] es open ->
  (ev_type e = EContainerEnd -> open = [] -> raw_write s e = Err TypeError) /\
  (ev_type e = EStreamEnd -> open <> [] -> raw_write s e = Err TypeError) /\
  (ev_type e = EVersionMarker \/ ev_type e = EIncomplete -> raw_write s e = Err TypeError) /\
  (forall t, ev_type e = EContainerStart -> ev_ion_type e = Some t -> is_container t = false -> field_given open e -> sids_natural e ->
    raw_write s e = Err TypeError) /\
  (forall t v, ev_type e = EScalar -> ev_ion_type e = Some t -> is_container t = true -> ev_force (ev_value e) = Ok (Some v) ->
    field_given open e -> sids_natural e -> raw_write s e = Err TypeError).
Proof.
  intros SN R AA. destruct (run_ainv es w_init [] s out ainv_init SN R) as (open' & AA' & F & FC & D).
  rewrite (accept_all_fun _ _ _ _ AA' AA) in *. clear AA' open'. unfold raw_write.
  assert (FG : field_given open e -> sids_natural e -> exists b,
    (if (match w_frames s with f :: _ => match wf_type f with Some TStruct => true | _ => false end | [] => false end) && true
    then match ev_field e with
         | None => Err AttributeError
         | Some f => match tk_sid f with
                     | None => Err TypeError
                     | Some sid => let* (b, _) := write_varuint [] sid in Ok (bt_add (w_buf s) b)
                     end
         end
    else Ok (w_buf s)) = Ok b).
  { intros G [_ N]. rewrite F. destruct open as [|[[] an] open]; cbn [map wf_type fst andb]; eauto.
    cbn [field_given] in G. destruct G as (t & E & T). rewrite E in *. destruct (tk_sid t) as [sid|]; [|congruence].
    rewrite write_varuint_spec by exact N. cbn [bind]. eauto. }
  split; [|split; [|split; [|split]]].
  - intros T ->. rewrite T, F. reflexivity.
  - intros T NE. rewrite T, F. destruct open as [|p open]; [congruence|]. cbn [map]. rewrite andb_false_r. reflexivity.
  - intros [T|T]; rewrite T; cbn [begins_value]; rewrite andb_false_r; reflexivity.
  - intros t T IT C G N. rewrite T in *. cbn [begins_value] in *. destruct (FG G N) as [b ->]. cbn [bind]. rewrite IT, C. reflexivity.
  - intros t v T IT C V G N. rewrite T in *. cbn [begins_value] in *. destruct (FG G N) as [b ->]. cbn [bind]. rewrite V, IT. cbn [bind].
    unfold serialize_scalar. rewrite C. reflexivity.
Qed.

(** * Single values *)

(** [round_trips t s s']: a stream holding just the scalar [s] of type [t] is accepted by the writer and
    read back, however its octets are cut into pieces, as one value [s'] at depth 0. *)
Definition round_trips (t : iontype) (s s' : scalar) : Prop :=
  exists w out, raw_write_all w_init [mkev EScalar (Some t) (EvVal s) None [] (Some 0); stream_end_event] = Ok (w, out) /\
  forall chunks, chunks_ok chunks -> concat chunks = ivm ++ out ->
  exists v, session reader_new chunks [DNext; DNext; DNext] =
              ([version_marker_event; mkev EScalar (Some t) v None [] (Some 0)], SEnd) /\
            ev_force v = Ok (Some s').

Lemma portable_sane t s : scalar_portable t s -> scalar_sane s.
Proof.
  destruct t, s as [b|z|b|d|tv|tk|tx|by_]; cbn [scalar_portable scalar_sane]; try contradiction; auto.
  - intros [H _]. exact H.
  - destruct tv as [u|d]; intros (C & O & _); pose proof (canonical_inv _ C) as [K _]; (split; [exact K|]);
      cbn [plain_stamp ts_dt] in *; destruct (dt_off _); auto; tauto.
  - intros (sid & -> & H). exact H.
Qed.

Theorem scalar_round_trips t s : scalar_portable t s -> round_trips t s (as_read s).
Proof.
  intros P. destruct (scalar_carried t s P) as (bs & v & SS & O & C & F).
  set (e := mkev EScalar (Some t) (EvVal s) None [] (Some 0)).
  assert (H : exists w out, raw_write_all w_init ([e] ++ [stream_end_event]) = Ok (w, out)).
  { apply (run_accepts _ _ _ ainv_init).
    - repeat constructor.
    - exists []. econstructor; [apply ac_scalar|econstructor; [apply ac_flush; reflexivity|constructor]].
      + reflexivity.
      + exact Logic.I.
      + constructor.
      + exists (Some s), bs. split; [reflexivity|exact SS]. }
  destruct H as (w & out & H). exists w, out. split; [exact H|]. intros chunks CK CC.
  assert (ES : event_sane e).
  { split; [constructor|]. split; [discriminate|]. split; [exact Logic.I|]. intros s0 E. injection E as <-. eapply portable_sane; exact P. }
  assert (EF : event_sane stream_end_event).
  { split; [constructor|]. split; [discriminate|]. split; [exact Logic.I|]. discriminate. }
  destruct (write_read [e] stream_end_event w out ltac:(auto) ltac:(repeat constructor) eq_refl EF H) as (evs & EC & G).
  specialize (G chunks 1%nat CK CC). inversion EC as [|? ? ? evs' v' fld an T N SV EC'| |]; subst; try discriminate.
  inversion EC'; subst. destruct N as [N1 (l & L & ->)]. cbn in N1, L. subst fld. injection L as <-.
  exists v'. split; [exact G|]. cbn in SV. apply (SV t eq_refl P).
Qed.
