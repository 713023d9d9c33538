(** C77, text as the source: what [load] returns for Ion text can be dumped, as text or as binary, and is then read back the same. *)
From Coq Require Import String.
From Verif Require Import Base BaseFacts FieldsModel CoreModel BufferModel BinWriterModel BinReaderModel BinReaderSession ScalarFacts TimestampFacts ScalarProofs SymbolsModel SymbolsProofs ManagedModel ManagedSpec ManagedAccept ManagedRoundTrip MultimapModel SimpleionModel SimpleionSpec SimpleionProofs EquivModel EquivRoundTrip Props_RoundTrip TextReaderChunks TextWriterModel TextRoundTripSpec TextValueModel TextValueSpec TextValueProofs TextValueLoad Props_TextValue Props_Simpleion LoadedTables LoadedShape BinLoaded TextValuesKept TextCharsKept Props_BinLoadErrors Props_TextLoadErrors Props_LoadedValues.
Import BinReaderModel.
Local Open Scope Z_scope.
Local Open Scope list_scope.

(** * Specification *)
(** What Python objects are by their classes: a float has 64 bits, a bytes object holds octets, an identifier is not negative; and no text
    has a lone surrogate. *)
Definition proper_text (o : option text) : Prop := forall x, o = Some x -> Forall (fun c => is_scalar c = true) x.
Definition proper_scalar (s : scalar) : Prop :=
  match s with
  | VFloat b => 0 <= b < 2 ^ 64
  | VBytes b => octets b
  | VString x => proper_text (Some x)
  | VSymbol k => proper_text (tk_text k) /\ forall n, tk_sid k = Some n -> 0 <= n
  | _ => True
  end.
Definition proper (v : pyval) : Prop :=
  Forall proper_scalar (scalars_in v) /\ Forall (fun a => proper_text (arg_text a)) (names_in v) /\ Forall proper_text (keys_in v).

(** * Proofs *)
Notation made_any := (made (fun _ => True) of_class (fun _ => True)).
Lemma any_nature v : made_any v -> has_nature v.
Proof. destruct 1; exact Logic.I. Qed.
Section STORE.
Variable names : symarg -> Prop.
Variable scalars : iontype -> scalar -> Prop.
Variable keys : option text -> pyval -> Prop.
Lemma any_storable v : made_any v -> Forall names (names_in v) -> Forall (fun s => forall t, of_class t s -> scalars t s) (scalars_in v) ->
  Forall (fun k => forall w, has_nature w -> keys k w) (keys_in v) -> storable_by names scalars keys v.
Proof.
  revert v. fix IH 2. intros v [t an F|t an s F C|sexp an l F L|an m F ND G] NM SC KY; cbn [scalars_in names_in keys_in] in *; clear F.
  - constructor. exact NM.
  - constructor; [exact NM|]. exact (Forall_inv SC t C).
  - apply Forall_app in NM. destruct NM as (NA & NM). constructor; [exact NA|]. apply flat_forall in SC. apply flat_forall in NM. apply flat_forall in KY. clear NA. induction L as [|x l M L IL]; constructor.
    + exact (IH x M (Forall_inv NM) (Forall_inv SC) (Forall_inv KY)).
    + exact (IL (Forall_inv_tail NM) (Forall_inv_tail SC) (Forall_inv_tail KY)).
  - apply Forall_app in NM. destruct NM as (NA & NM). constructor; [exact NA|exact ND|]. apply flat_forall in SC. apply flat_forall in NM. apply flat_forall in KY. clear NA ND. induction G as [|p m (_ & NE & GM) G IG]; constructor.
    + split; [exact NE|]. apply Forall_inv in SC. apply Forall_inv in NM. apply Forall_inv in KY. pose proof (Forall_inv KY) as KF. apply Forall_inv_tail in KY. apply flat_forall in SC. apply flat_forall in NM. apply flat_forall in KY. clear NE IG. induction GM as [|x l M GM IL]; constructor.
      * split; [exact (KF x (any_nature x M))|exact (IH x M (Forall_inv NM) (Forall_inv SC) (Forall_inv KY))].
      * exact (IL (Forall_inv_tail NM) (Forall_inv_tail SC) (Forall_inv_tail KY)).
    + exact (IG (Forall_inv_tail NM) (Forall_inv_tail SC) (Forall_inv_tail KY)).
Qed.
End STORE.
Lemma any_loaded v : made_any v -> loaded v.
Proof.
  revert v. fix IH 2. intros v [t an F|t an s F S|sexp an l F L|an m F ND G].
  - constructor.
  - constructor; destruct t, s as [b|z|b|d|[u|u]|k|x|b]; cbn in S; try contradiction; cbn; auto. destruct u as [dt p fp fs]. cbn in *. destruct p; [reflexivity|congruence].
  - constructor. clear F. induction L as [|x l M L IL]; constructor; [exact (IH x M)|exact IL].
  - constructor; [exact ND|]. clear F ND. induction G as [|p m (KP & NE & GM) G IG]; constructor; [|exact IG]. split; [exact NE|]. clear KP NE IG. induction GM as [|x l M GM IL]; constructor; [exact (IH x M)|exact IL].
Qed.
Lemma any_definite v : made_any v -> all_known v -> definite v.
Proof.
  revert v. fix IH 2. intros v [t an F|t an s F S|sexp an l F L|an m F ND G] (SC & NM); cbn [scalars_in names_in] in *.
  - constructor. exact NM.
  - constructor; [exact NM|]. apply Forall_inv in SC. destruct t, s as [b|z|b|d|[u|u]|k|x|b]; cbn in S; try contradiction; cbn; auto.
  - apply Forall_app in NM. destruct NM as (NA & NM). constructor; [exact NA|]. apply flat_forall in SC. apply flat_forall in NM. clear F NA. induction L as [|x l M L IL]; constructor.
    + apply (IH x M). split; [exact (Forall_inv SC)|exact (Forall_inv NM)].
    + exact (IL (Forall_inv_tail SC) (Forall_inv_tail NM)).
  - apply Forall_app in NM. destruct NM as (NA & NM). constructor; [exact NA|]. apply flat_forall in SC. apply flat_forall in NM. clear F NA ND. induction G as [|p m (KP & NE & GM) G IG]; constructor.
    + apply Forall_inv in SC. apply Forall_inv in NM. apply flat_forall in SC. apply flat_forall in NM. clear NE IG. induction GM as [|x l M GM IL]; constructor.
      * apply (IH x M). split; [exact (Forall_inv SC)|exact (Forall_inv NM)].
      * exact (IL (Forall_inv_tail SC) (Forall_inv_tail NM)).
    + exact (IG (Forall_inv_tail SC) (Forall_inv_tail NM)).
Qed.
Lemma both {A} (Q R T : A -> Prop) l : (forall x, Q x -> R x -> T x) -> Forall Q l -> Forall R l -> Forall T l.
Proof. intros H F G. rewrite Forall_forall in *. auto. Qed.
Lemma proper_good a : proper_text (arg_text a) -> named a -> good_arg a.
Proof. intros P N. unfold good_arg. destruct (arg_text a) as [x|] eqn:E; [exact (P x eq_refl)|]. unfold named in N. rewrite E in N. exact (N eq_refl). Qed.
Lemma proper_spelled a : proper_text (arg_text a) -> spelled a -> text_name a.
Proof. intros P (N & L). unfold text_name. destruct (arg_text a) as [x|] eqn:E; [split; [exact (fine_values x (P x eq_refl))|exact (L x eq_refl)]|]. unfold named in N. rewrite E in N. exact (N eq_refl). Qed.
Lemma text_binary v : made_any v -> proper v -> limited v -> storable v.
Proof.
  intros M (PS & PN & PK) (LS & LN). apply any_storable; [exact M|exact (both _ _ _ _ proper_good PN LN)| |].
  - apply (both _ _ _ _) with (2 := PS) (3 := LS). intros s P L t C. unfold scalar_ok. destruct t, s as [b|z|b|d|[u|u]|k|x|b]; cbn in C; try contradiction; cbn; auto.
    + destruct P as (PT & PI). split; [destruct (tk_sid k); [exact (PI _ eq_refl)|exact Logic.I]|]. exists (ATok k). split; [reflexivity|exact (proper_good (ATok k) PT L)].
    + exact (P x eq_refl).
  - eapply Forall_impl; [|exact PK]. intros [x|] P w W; [split; [exact (P x eq_refl)|intros _; exact W]|exact W].
Qed.
Lemma text_text v : made_any v -> proper v -> text_limited v -> text_storable v.
Proof.
  intros M (PS & PN & PK) (LS & LN & LK). apply any_storable; [exact M|exact (both _ _ _ _ proper_spelled PN LN)| |].
  - apply (both _ _ _ _) with (2 := PS) (3 := LS). intros s P L t C. unfold text_scalar_ok. destruct t, s as [b|z|b|d|[u|u]|k|x|b]; cbn in C; try contradiction; cbn; auto.
    + exists (ATok k). split; [reflexivity|exact (proper_spelled (ATok k) (proj1 P) L)].
    + exact (fine_values x (P x eq_refl)).
  - apply (both _ _ _ _) with (2 := PK) (3 := LK). intros [x|] P L w W; [|exact W]. unfold text_key, text_name. cbn [arg_text]. split; [exact (fine_values x (P x eq_refl))|exact (L x eq_refl)].
Qed.

(** ** Loading *)
Lemma rebuilt_any t s s' : of_class t s -> py_scalar t s = Ok s' -> of_class t s'.
Proof.
  intros S H. destruct t, s as [b|z|b|d|[u|u]|k|x|b]; cbn [of_class py_scalar] in *; try contradiction; try (injection H as <-; exact S).
  apply bind_ok in H. destruct H as (x & E & H). injection H as <-. cbn [of_class]. unfold timestamp_new in E. repeat (apply bind_ok in E; destruct E as (? & ? & E)). destruct x4 as [[us fp] fs]. apply bind_ok in E. destruct E as (? & ? & E). injection E as <-. exact S.
Qed.
Lemma kept_brings u : kept (me_ev u) -> brings (fun _ => True) of_class (fun _ => True) u.
Proof.
  intros K. split; [intros an _; apply Forall_forall; auto|]. split; [auto|]. intros t s s' IT MV PS _ _. apply (rebuilt_any t s s'); [|exact PS].
  assert (G : forall o, ev_force (ev_value (me_ev u)) = Ok (Some o) -> of_class t o).
  { intros o EF. unfold kept in K. destruct (ev_value (me_ev u)) as [|x|th d|r|a b]; cbn [ev_force] in EF; try discriminate; [|contradiction|].
    - injection EF as <-. destruct K as (_ & t' & IT' & C). rewrite IT in IT'. injection IT' as <-. exact C.
    - destruct K as (_ & t' & IT' & C). rewrite IT in IT'. injection IT' as <-. destruct r as [x|]; [|discriminate]. cbn [bind] in EF. injection EF as <-. exact C. }
  unfold me_value in MV. destruct (ev_force (ev_value (me_ev u))) as [[o|]|] eqn:EF; [|destruct t; cbn [bind] in MV; rewrite IT in MV; discriminate|discriminate]. cbn [bind] in MV. rewrite IT in MV. specialize (G o eq_refl).
  destruct t; try (injection MV as <-; exact G). destruct o; cbn in G; try contradiction. destruct (resolve_token _ _); [|discriminate]. cbn [bind] in MV. injection MV as <-. exact Logic.I.
Qed.
Lemma any_made fuel history cat src cs vs : register_all catalog_new history = Ok cat -> read_as_text src cs -> load_from fuel src cat cs = Ok vs -> Forall made_any vs.
Proof.
  intros R T. destruct (text_chosen fuel src cat cs T) as (uni & ->). assert (NC : no_empty_name cat) by (apply (registered_names _ _ _ R); intros ? ?; discriminate).
  unfold load_text. destruct (load_into fuel (text_feeder_next fuel uni cat) (tmreader_new, cs) EStreamEnd (OnList [])) as [[o s]|e] eqn:L; [|discriminate]. cbn [bind]. intros H.
  destruct (load_made (fun _ => True) of_class (fun _ => True) (text_feeder_next fuel uni cat) (fun s => alive (snd (fst s)))) with (fuel := fuel) (s := (tmreader_new, cs)) (until := EStreamEnd) (out := OnList (@nil pyval)) (o := o) (s' := s) as (_ & FO).
  - intros s0 u s1 A E. pose proof (next_says uni cat NC fuel s0 A) as N. rewrite E in N. destruct N as (A1 & K). split; [exact A1|]. intros _. exact (kept_brings u K).
  - exact keeping_new.
  - constructor.
  - exact L.
  - destruct o; [|discriminate]. injection H as <-. exact FO.
Qed.

Lemma rebuilt_class t s s' : of_class t s -> scalar_kept s -> py_scalar t s = Ok s' -> of_class t s' /\ scalar_kept s'.
Proof.
  intros S K H. destruct t, s as [b|z|b|d|[u|u]|k|x|b]; cbn [of_class py_scalar] in *; try contradiction; try (injection H as <-; split; [exact S|exact K]).
  apply bind_ok in H. destruct H as (x & E & H). injection H as <-. cbn [of_class]. unfold timestamp_new in E. repeat (apply bind_ok in E; destruct E as (? & ? & E)). destruct x4 as [[us fp] fs]. apply bind_ok in E. destruct E as (? & ? & E). injection E as <-. split; [exact S|exact Logic.I].
Qed.
(** What [load] makes of Ion text. *)
Definition text_scalar (t : iontype) (s : scalar) : Prop := of_class t s /\ scalar_kept s.
Notation made_text := (made (speaks text_ok) text_scalar (says text_ok)).
Lemma mapM_spoken table l : table_in text_ok table -> Forall (speaks text_ok) l -> forall an, mapM (resolve_token table) l = Ok an -> Forall (speaks text_ok) an.
Proof.
  intros T. induction l as [|k l IH]; intros F an; cbn [mapM]; [intros H; injection H as <-; constructor|]. destruct (resolve_token table k) as [r|] eqn:R; [|discriminate]. cbn [bind]. destruct (mapM (resolve_token table) l) as [rs|]; [|discriminate]. cbn [bind]. intros H. injection H as <-. constructor; [exact (resolved_in text_ok _ _ _ T (Forall_inv F) R)|exact (IH (Forall_inv_tail F) _ eq_refl)].
Qed.
(** A managed event that is told well: of its class, and with proper text under a proper table. *)
Definition well (u : mevent) : Prop := kept (me_ev u) /\ ev_ok (me_ev u) /\ table_in text_ok (me_table u).
Lemma well_brings u : well u -> brings (speaks text_ok) text_scalar (says text_ok) u.
Proof.
  intros (K & (EA & EF & EV) & T). split; [intros an; apply mapM_spoken; assumption|]. split.
  { intros f. unfold me_field. destruct (ev_field (me_ev u)) as [g|]; cbn [bind]; [|discriminate]. destruct (resolve_token (me_table u) g) as [r|] eqn:R; [|discriminate]. intros H. injection H as <-. exact (proj1 (resolved_in text_ok _ _ _ T EF R)). }
  intros t s s' IT MV PS _ _.
  assert (G : forall o, ev_force (ev_value (me_ev u)) = Ok (Some o) -> of_class t o /\ scalar_kept o).
  { intros o EO. unfold kept in K. destruct (ev_value (me_ev u)) as [|x|th d|r|a b]; cbn [ev_force] in EO; try discriminate; [|contradiction|].
    - injection EO as <-. destruct K as (_ & t' & IT' & C). rewrite IT in IT'. injection IT' as <-. split; [exact C|exact EV].
    - destruct K as (_ & t' & IT' & C). rewrite IT in IT'. injection IT' as <-. destruct r as [x|]; [|discriminate]. cbn [bind] in EO. injection EO as <-. split; [exact C|exact EV]. }
  unfold me_value in MV. destruct (ev_force (ev_value (me_ev u))) as [[o|]|] eqn:EO; [|destruct t; cbn [bind] in MV; rewrite IT in MV; discriminate|discriminate]. cbn [bind] in MV. rewrite IT in MV. destruct (G o eq_refl) as (G1 & G2).
  assert (GS : of_class t s /\ scalar_kept s).
  { destruct t; try (injection MV as <-; split; assumption). destruct o; cbn in G1; try contradiction. destruct (resolve_token _ _) as [r|] eqn:R; [|discriminate]. cbn [bind] in MV. injection MV as <-. split; [exact Logic.I|exact (resolved_in text_ok _ _ _ T G2 R)]. }
  exact (rebuilt_class t s s' (proj1 GS) (proj2 GS) PS).
Qed.
Lemma ok_texts e : ev_ok e -> texts_in text_ok e.
Proof.
  intros (A & F & V). split; [exact A|]. split; [exact F|]. destruct (ev_value e) as [|x|th d|r|a b]; cbn [ev_force]; try exact Logic.I; try contradiction.
  - destruct x; try exact Logic.I; [exact V|intros _; exact V].
  - destruct r as [x|]; cbn [bind]; [|exact Logic.I]. destruct x; try exact Logic.I; [exact V|intros _; exact V].
Qed.
Section FEED.
Variables (uni : bool) (cat : catalog).
Hypothesis CC : catalog_in text_ok cat.
Definition going (mr : tmreader) : Prop := state_in text_ok (fst mr) /\ keeping (snd mr) /\ reader_ok (snd mr).
Definition gives (x : res mevent * tmreader) : Prop := match x with (Ok u, mr) => going mr /\ well u | (Err _, _) => True end.
Lemma msend_gives fuel : forall mr d, going mr -> gives (tmreader_send fuel uni cat mr d).
Proof.
  induction fuel as [|f IH]; intros mr d (S & K & R); cbn [tmreader_send]; [exact Logic.I|]. destruct (TextReaderModel.text_send uni (snd mr) d) as [x r'] eqn:E. destruct (keeping_send _ _ _ _ _ K E) as (K' & KX). destruct (reader_ok_send _ _ _ _ _ R E) as (R' & RX).
  destruct x as [ev|e]; [|exact Logic.I]. destruct (mr_step cat (fst mr) ev) as [[m' od]|e] eqn:M; [|exact Logic.I]. pose proof (mr_in text_ok system_fine system_table_fine cat _ _ _ _ CC S (ok_texts _ RX) M) as S'.
  destruct od as [d'|]; [apply IH; split; [exact S'|split; assumption]|]. split; [split; [exact S'|split; assumption]|]. split; [exact KX|]. split; [exact RX|exact (proj1 S')].
Qed.
Lemma drain_gives fuel : forall n mr u, going mr -> well u -> gives (tm_drain n fuel uni cat mr u).
Proof.
  induction n as [|n IH]; intros mr u G W; cbn [tm_drain]; (destruct (is_stream_signal _); [|split; assumption]); destruct (ev_type (me_ev u)).
  all: try exact Logic.I.
  all: try (split; [exact G|split; [exact Logic.I|split; [split; [constructor|split; exact Logic.I]|exact (proj2 (proj2 W))]]]).
  pose proof (msend_gives fuel mr DNext G) as S. destruct (tmreader_send fuel uni cat mr DNext) as [[u'|e] mr']; [|exact Logic.I]. destruct S. now apply IH.
Qed.
Lemma feed_gives fuel : forall cs mr u, going mr -> well u -> let '(x, mr', _) := tm_feed fuel uni cat mr u cs in gives (x, mr').
Proof.
  induction cs as [|c cs IH]; intros mr u G W; cbn [tm_feed]; (destruct (is_stream_signal _); [|split; assumption]).
  - pose proof (drain_gives fuel fuel mr u G W) as S. destruct (tm_drain fuel fuel uni cat mr u) as [x t']. exact S.
  - pose proof (msend_gives fuel mr (DData c) G) as S. destruct (tmreader_send fuel uni cat mr (DData c)) as [[u'|e] mr']; [|exact Logic.I]. destruct S. now apply IH.
Qed.
Lemma next_gives fuel s u s' : going (fst s) -> text_feeder_next fuel uni cat s = Ok (u, s') -> going (fst s') /\ well u.
Proof.
  intros G. unfold text_feeder_next, tm_next. destruct s as [mr cs]. cbn [fst snd] in *. pose proof (msend_gives fuel mr DNext G) as S. destruct (tmreader_send fuel uni cat mr DNext) as [[u1|e] mr']; [|discriminate]. destruct S as (G' & W').
  pose proof (feed_gives fuel cs mr' u1 G' W') as F. destruct (tm_feed fuel uni cat mr' u1 cs) as [[[u2|e] r2] cs2]; [|discriminate]. intros H. injection H as <- <-. exact F.
Qed.
End FEED.
Lemma text_made fuel history cat src cs vs : register_all catalog_new history = Ok cat -> Forall encodable history -> read_as_text src cs -> load_from fuel src cat cs = Ok vs -> Forall made_text vs.
Proof.
  intros R EN T. destruct (text_chosen fuel src cat cs T) as (uni & ->).
  assert (CC : catalog_in text_ok cat) by (apply (registered_in text_ok history catalog_new cat R); [revert EN; apply Forall_impl; exact encodable_in|intros ? ? ? ? ?; discriminate]).
  unfold load_text. destruct (load_into fuel (text_feeder_next fuel uni cat) (tmreader_new, cs) EStreamEnd (OnList [])) as [[o s]|e] eqn:L; [|discriminate]. cbn [bind]. intros H.
  destruct (load_made (speaks text_ok) text_scalar (says text_ok) (text_feeder_next fuel uni cat) (fun s => going (fst s))) with (fuel := fuel) (s := (tmreader_new, cs)) (until := EStreamEnd) (out := OnList (@nil pyval)) (o := o) (s' := s) as (_ & FO).
  - intros s0 u s1 A E. destruct (next_gives uni cat CC fuel s0 u s1 A E) as (A1 & W). split; [exact A1|]. intros _. exact (well_brings u W).
  - split; [split; [exact system_table_fine|exact Logic.I]|]. split; [exact keeping_new|exact reader_ok_new].
  - constructor.
  - exact L.
  - destruct o; [|discriminate]. injection H as <-. exact FO.
Qed.
(** Proper values. *)
Lemma says_proper o : says text_ok o -> proper_text o.
Proof. intros S x ->. exact S. Qed.
Lemma text_any v : made_text v -> made_any v.
Proof.
  revert v. fix IH 2. intros v [t an F|t an s F S|sexp an l F L|an m F ND G]; constructor; try (apply Forall_forall; auto; fail).
  - exact (proj1 S).
  - clear F. induction L as [|x l M L IL]; constructor; [exact (IH x M)|exact IL].
  - exact ND.
  - clear F ND. induction G as [|p m (KP & NE & GM) G IG]; constructor; [|exact IG]. split; [exact Logic.I|]. split; [exact NE|]. clear KP NE IG. induction GM as [|x l M GM IL]; constructor; [exact (IH x M)|exact IL].
Qed.
Lemma kept_proper s : scalar_kept s -> proper_scalar s.
Proof.
  destruct s as [b|z|b|d|u|k|x|b]; cbn; auto.
  - intros (A & B). split; [exact (says_proper _ A)|]. intros n E. rewrite E in B. exact B.
  - intros T y E. injection E as <-. exact T.
Qed.
Lemma forall_flat {A B} (Q : B -> Prop) (g : A -> list B) l : Forall (fun x => Forall Q (g x)) l -> Forall Q (flat_map g l).
Proof. induction 1; cbn [flat_map]; [constructor|apply Forall_app; auto]. Qed.
Lemma text_proper v : made_text v -> proper v.
Proof.
  assert (NM : forall an, Forall (speaks text_ok) an -> Forall (fun a => proper_text (arg_text a)) (map ATok an)).
  { intros an F. apply Forall_map. revert F. apply Forall_impl. intros k (S & _). exact (says_proper _ S). }
  revert v. fix IH 2. intros v [t an F|t an s F S|sexp an l F L|an m F ND G]; unfold proper; cbn [scalars_in names_in keys_in].
  - split; [constructor|]. split; [exact (NM an F)|constructor].
  - split; [constructor; [exact (kept_proper s (proj2 S))|constructor]|]. split; [exact (NM an F)|constructor].
  - assert (Q : Forall proper l) by (clear F; induction L as [|x l M L IL]; constructor; [exact (IH x M)|exact IL]).
    split; [|split]; [|apply Forall_app; split; [exact (NM an F)|]|]; apply forall_flat; (eapply Forall_impl; [|exact Q]); intros x (A & B & C); assumption.
  - assert (Q : Forall (fun p : option text * list pyval => proper_text (fst p) /\ Forall proper (snd p)) m).
    { clear F ND. induction G as [|p m (KP & NE & GM) G IG]; constructor; [|exact IG]. split; [exact (says_proper _ KP)|]. clear KP NE IG. induction GM as [|x l M GM IL]; constructor; [exact (IH x M)|exact IL]. }
    split; [|split]; [|apply Forall_app; split; [exact (NM an F)|]|]; apply forall_flat; (eapply Forall_impl; [|exact Q]); intros p (KP & QP); [| |constructor; [exact KP|]]; apply forall_flat; (eapply Forall_impl; [|exact QP]); intros x (A & B & C); assumption.
Qed.

(** * Theorems *)
(** Whatever Ion text is loaded, from text or octets in any pieces, the values have Ion nature throughout and are of the classes of their types. *)
Theorem C77_text_values : forall fuel history cat src cs vs,
  register_all catalog_new history = Ok cat -> read_as_text src cs -> load_from fuel src cat cs = Ok vs -> Forall loaded vs.
Proof.
  intros fuel history cat src cs vs R T L. eapply Forall_impl; [|exact (any_made fuel history cat src cs vs R T L)]. exact any_loaded.
Qed.
Print Assumptions C77_text_values.
(** Text Ion converted to binary. *)
Theorem C77_text_to_binary : forall fuel history cat src cs vs imports tas,
  register_all catalog_new history = Ok cat -> Forall encodable history -> read_as_text src cs ->
  Forall (known_import cat) (truthy_imports imports) -> Forall shared_import (truthy_imports imports) ->
  load_from fuel src cat cs = Ok vs -> Forall limited vs -> Forall (fun v => ~ reserved_value v) vs ->
  exists out, dumps_binary imports tas true (PList vs) = Ok out /\
  exists vs', map (meaning tas) vs' = map (meaning tas) vs /\
  exists enough, forall again fuel', chunks_ok again -> concat again = out -> (enough <= fuel')%nat -> load_from fuel' OfOctets cat again = Ok vs'.
Proof.
  intros fuel history cat src cs vs imports tas R EN T K SI L LI NR. pose proof (text_made fuel history cat src cs vs R EN T L) as MV.
  assert (ST : Forall storable vs) by (rewrite Forall_forall in *; intros v I; exact (text_binary v (text_any v (MV v I)) (text_proper v (MV v I)) (LI v I))).
  destruct (C32_streams cat imports tas (PList vs) vs K SI (or_introl eq_refl) ST NR) as (out & D & _ & IV & vs' & MN & _ & enough & LD). exists out. split; [exact D|]. exists vs'. split; [exact MN|]. exists enough. intros again fuel' CA CE LE. cbn [load_from]. rewrite CE, IV. change (zlist_eqb [224; 1; 0; 234] [224; 1; 0; 234]) with true. exact (proj1 (LD again fuel' CA CE LE)).
Qed.
Print Assumptions C77_text_to_binary.
(** Text Ion written as text again, with any indentation. *)
Theorem C77_text_again : forall fuel history cat src cs vs indent omit tas,
  register_all catalog_new history = Ok cat -> Forall encodable history -> read_as_text src cs -> blank_indent indent ->
  load_from fuel src cat cs = Ok vs -> Forall text_limited vs -> Forall (fun v => ~ text_reserved v) vs ->
  exists s, dumps_text indent omit tas true (PList vs) = Ok s /\
  exists vs', map (text_meaning tas) vs' = map (text_meaning tas) vs /\
  exists enough, forall src' again fuel', pieces again -> concat again = s -> (enough <= fuel')%nat -> load_from fuel' src' cat again = Ok vs'.
Proof.
  intros fuel history cat src cs vs indent omit tas R EN T BI L LI NR. pose proof (text_made fuel history cat src cs vs R EN T L) as MV.
  assert (ST : Forall text_storable vs) by (rewrite Forall_forall in *; intros v I; exact (text_text v (text_any v (MV v I)) (text_proper v (MV v I)) (LI v I))).
  destruct (C61_streams cat indent omit tas (PList vs) vs BI (or_introl eq_refl) ST NR) as (s & D & vs' & MN & _ & enough & LD). exists s. split; [exact D|]. exists vs'. split; [exact MN|]. exists enough. intros src' again fuel' P CE LE. exact (proj1 (LD src' again fuel' P CE LE)).
Qed.
Print Assumptions C77_text_again.
(** One by one, to binary and to text; what comes back is equal, if no symbol is of unknown text. *)
Theorem C77_text_equal : forall fuel history cat src cs vs v imports indent omit tas inst teq,
  register_all catalog_new history = Ok cat -> Forall encodable history -> read_as_text src cs ->
  Forall (known_import cat) (truthy_imports imports) -> Forall shared_import (truthy_imports imports) -> blank_indent indent ->
  load_from fuel src cat cs = Ok vs -> In v vs -> limited v -> text_limited v -> ~ text_reserved v -> all_known v ->
  exists out s v1 v2 enough, dumps_binary imports tas false v = Ok out /\ dumps_text indent omit tas false v = Ok s /\
    (forall again fuel', chunks_ok again -> concat again = out -> (enough <= fuel')%nat -> load_single fuel' cat again = Ok v1) /\
    (forall src' again fuel', pieces again -> concat again = s -> (enough <= fuel')%nat -> load_one fuel' src' cat again = Ok v2) /\
    ion_equals inst teq v1 v = Ok true /\ ion_equals inst teq v v1 = Ok true /\ ion_equals inst teq v2 v = Ok true /\ ion_equals inst teq v v2 = Ok true.
Proof.
  intros fuel history cat src cs vs v imports indent omit tas inst teq R EN T K SI BI L I LI TL NR AK. pose proof (text_made fuel history cat src cs vs R EN T L) as MT. rewrite Forall_forall in MT. specialize (MT v I). pose proof (text_any v MT) as MV. pose proof (text_proper v MT) as PR.
  destruct (C54_dumps_loads_equals cat imports tas v inst teq K SI (text_binary v MV PR LI) (not_reserved v NR) (any_definite v MV AK)) as (out & D1 & v1 & n1 & L1 & E1 & E1').
  destruct (C61_dumps_loads_equals cat indent omit tas v inst teq BI (text_text v MV PR TL) NR (any_definite v MV AK)) as (s & D2 & v2 & n2 & L2 & E2 & E2').
  exists out, s, v1, v2, (n1 + n2)%nat. split; [exact D1|]. split; [exact D2|]. split; [intros; apply L1; auto; lia|]. split; [intros; apply L2; auto; lia|]. auto.
Qed.
Print Assumptions C77_text_equal.

Ltac each := lazymatch goal with |- Forall _ (_ :: _) => apply Forall_cons; [|each] | |- Forall _ [] => apply Forall_nil end.
(** A case. *)
Definition case_source : text := TextReaderModel.chars "a::{a:[1,true,x,""\u00e9""],b:1.5d0,a:'$ion_1_0'} 2020-02-29T01:02:03Z (+ {{aGk=}} 1e0 null.int)".
Definition case_loaded : list pyval :=
  let k x := mktok (Some (txt x)) None None in
  [PStruct [ATok (k "a"%string)]
     [(Some (txt "a"), [PSeq false [] [PIon TInt [] (VInt 1); PIon TBool [] (VBool true); PIon TSymbol [] (VSymbol (k "x"%string)); PIon TString [] (VString [233])]; PIon TSymbol [] (VSymbol (k "$ion_1_0"%string))]);
      (Some (txt "b"), [PIon TDecimal [] (VDecimal (mkdec false 15 (-1)))])];
   PIon TTimestamp [] (VTimestamp (TsStamp (mkts (mkdt 2020 2 29 1 2 3 0 (Some 0)) (Some PSecond) 0 dec_zero)));
   PSeq true [] [PIon TSymbol [] (VSymbol (k "+"%string)); PIon TBlob [] (VBytes [104; 105]); PIon TFloat [] (VFloat 4607182418800017408); PNull TInt []]].
Theorem C77_text_case : load_from 200 OfText [] [case_source] = Ok case_loaded /\ read_as_text OfText [case_source] /\ register_all catalog_new [] = Ok [] /\
  Forall proper case_loaded /\ Forall limited case_loaded /\ Forall text_limited case_loaded /\ Forall all_known case_loaded /\ Forall (fun v => ~ text_reserved v) case_loaded /\ Forall (fun v => ~ reserved_value v) case_loaded.
Proof.
  split; [vm_compute; reflexivity|]. split; [exact Logic.I|]. split; [reflexivity|].
  assert (TX : forall o, match o with Some x => forallb is_scalar x | None => true end = true -> proper_text o).
  { intros o H x ->. apply Forall_forall. apply forallb_forall. exact H. }
  assert (SP : forall x, match x with c :: d :: _ => negb ((c =? 36) && (48 <=? d) && (d <=? 57)) | _ => true end = true -> ~ like_sid x).
  { intros x H (ds & -> & N & D). destruct ds as [|d ds]; [congruence|]. apply Forall_inv in D. unfold digit in D. cbn in H. lia. }
  assert (NA : forall k x, tk_text k = Some x -> named (ATok k)) by (intros k x E H; cbn [arg_text] in H; congruence).
  assert (SA : forall k x, tk_text k = Some x -> match x with c :: d :: _ => negb ((c =? 36) && (48 <=? d) && (d <=? 57)) | _ => true end = true -> spelled (ATok k)).
  { intros k x E H. split; [exact (NA k x E)|]. intros y F. cbn [arg_text] in F. rewrite E in F. injection F as <-. exact (SP x H). }
  assert (ND : ndigits 15 = 2) by (vm_compute; reflexivity).
  assert (DR : dec_in_range (mkdec false 15 (-1))) by (unfold dec_in_range; cbn [d_coef d_exp]; change (15 =? 0) with false; cbn match; rewrite ND; lia).
  assert (DF : decimal_fits (mkdec false 15 (-1))) by (unfold decimal_fits; cbn [d_coef d_exp]; rewrite ND; lia).
  assert (OC : octets [104; 105]) by (repeat constructor; unfold is_octet; lia).
  destruct case_stamp as (TP & TF). unfold case_loaded. split; [|split; [|split; [|split; [|split]]]].
  - each; (split; [|split]); cbn [scalars_in names_in keys_in flat_map fst snd app]; each; cbn [proper_scalar]; try exact Logic.I; try exact OC; try lia; try (apply TX; vm_compute; reflexivity);
      (split; [apply TX; vm_compute; reflexivity|cbn [tk_sid]; discriminate]).
  - each; (split; cbn [scalars_in names_in flat_map fst snd app]; each; cbn [within_limits]; try exact Logic.I; try exact DR; try exact TP; eapply NA; reflexivity).
  - each; (split; [|split]); cbn [scalars_in names_in keys_in flat_map fst snd app]; each; cbn [within_text]; try exact Logic.I; try exact DF; try exact TF;
      try (eapply SA; [reflexivity|vm_compute; reflexivity]); intros x E; injection E as <-; apply SP; vm_compute; reflexivity.
  - each; (split; cbn [scalars_in names_in flat_map fst snd app]; each; try exact Logic.I; unfold known; cbn [arg_text tk_text]; discriminate).
  - each; intros H; cbn [text_reserved arg_text tk_text] in H; try contradiction. vm_compute in H. discriminate.
  - each; intros H; cbn [reserved_value arg_text tk_text] in H; try contradiction. vm_compute in H. discriminate.
Qed.
