(** C77: what [load] returns can be dumped again, and is then read back the same. *)
From Coq Require Import String.
From Verif Require Import Base BaseFacts FieldsModel CoreModel BufferModel BinWriterModel BinReaderModel BinReaderSession ScalarFacts TimestampFacts ScalarProofs SymbolsModel SymbolsProofs ManagedModel ManagedSpec ManagedAccept ManagedRoundTrip MultimapModel SimpleionModel SimpleionSpec SimpleionProofs EquivModel EquivRoundTrip Props_RoundTrip TextReaderChunks TextWriterModel TextRoundTripSpec TextValueModel TextValueSpec Props_TextValue BinFormat ReaderGrammarProofs BinAcceptProofs Props_BinLoadErrors LoadedTables LoadedShape BinLoaded Props_Simpleion.
Import BinReaderModel.
Local Open Scope Z_scope.
Local Open Scope list_scope.

(** * Specification *)
(** The scalars and the annotations of a Python value, nested ones included. *)
Fixpoint scalars_in (v : pyval) : list scalar :=
  match v with
  | PNone | PNull _ _ => []
  | PPlain s | PIon _ _ s => [s]
  | PList l | PTuple l | PSeq _ _ l => flat_map scalars_in l
  | PDict l => flat_map (fun p => scalars_in (snd p)) l
  | PStruct _ m => flat_map (fun p => flat_map scalars_in (snd p)) m
  end.
Fixpoint names_in (v : pyval) : list symarg :=
  match v with
  | PNone | PPlain _ => []
  | PNull _ an | PIon _ an _ => an
  | PList l | PTuple l => flat_map names_in l
  | PSeq _ an l => an ++ flat_map names_in l
  | PDict l => flat_map (fun p => names_in (snd p)) l
  | PStruct an m => an ++ flat_map (fun p => flat_map names_in (snd p)) m
  end.
(** The limits of binary Ion as this library writes it: decimals that the default context takes, timestamps whose offset and
    unused fields are as the precision demands (C08, C09), and no symbol of unknown text but symbol zero. *)
Definition named (a : symarg) : Prop := arg_text a = None -> match a with ATok k => tk_sid k = Some 0 | AText _ => False end.
Definition within_limits (s : scalar) : Prop :=
  match s with
  | VDecimal d => dec_in_range d
  | VTimestamp (TsStamp t) => ts_portable t
  | VSymbol k => named (ATok k)
  | _ => True
  end.
Definition limited (v : pyval) : Prop := Forall within_limits (scalars_in v) /\ Forall named (names_in v).
(** Of known text throughout. *)
Definition known (a : symarg) : Prop := arg_text a <> None.
Definition all_known (v : pyval) : Prop := Forall (fun s => match s with VSymbol k => known (ATok k) | _ => True end) (scalars_in v) /\ Forall known (names_in v).
(** The limits of text Ion (C45, C61): no symbol that reads as a number, decimals and timestamps that Python can make. *)
Fixpoint keys_in (v : pyval) : list (option text) :=
  match v with
  | PNone | PPlain _ | PNull _ _ | PIon _ _ _ => []
  | PList l | PTuple l | PSeq _ _ l => flat_map keys_in l
  | PDict l => flat_map (fun p => fst p :: keys_in (snd p)) l
  | PStruct _ m => flat_map (fun p => fst p :: flat_map keys_in (snd p)) m
  end.
Definition spelled (a : symarg) : Prop := named a /\ forall x, arg_text a = Some x -> ~ like_sid x.
Definition within_text (s : scalar) : Prop :=
  match s with
  | VDecimal d => decimal_fits d
  | VTimestamp (TsStamp t) => timestamp_fits t
  | VSymbol k => spelled (ATok k)
  | _ => True
  end.
Definition text_limited (v : pyval) : Prop :=
  Forall within_text (scalars_in v) /\ Forall spelled (names_in v) /\ Forall (fun k => forall x, k = Some x -> ~ like_sid x) (keys_in v).
(** A table of a catalog: its texts can be encoded, its identifiers are not negative. *)
Definition encodable (t : symtab) : Prop :=
  (forall k x, In k (st_syms t) -> tk_text k = Some x -> Forall (fun c => is_scalar c = true) x) /\ (forall k sid, In k (st_syms t) -> tk_sid k = Some sid -> 0 <= sid) /\ 0 <= st_max t.

(** * Proofs *)
Lemma encodable_in t : encodable t -> table_in text_ok t.
Proof.
  intros (X & S & M). split; [|exact M]. apply Forall_forall. intros k I. split; [unfold says; destruct (tk_text k) eqn:T; [exact (X _ _ I T)|exact Logic.I]|destruct (tk_sid k) eqn:T; [exact (S _ _ I T)|exact Logic.I]].
Qed.
Notation fine := text_ok.
(** A scalar that [load] keeps. *)
Definition kept_scalar (t : iontype) (s : scalar) : Prop := sound_scalar t s /\ match s with VSymbol k => speaks fine k | _ => True end.
Lemma mapM_resolved table l : table_in fine table -> Forall by_number l -> forall an, mapM (resolve_token table) l = Ok an -> Forall (speaks fine) an.
Proof.
  intros T. induction l as [|k l IH]; intros F an; cbn [mapM]; [intros H; injection H as <-; constructor|]. destruct (resolve_token table k) as [r|] eqn:R; [|discriminate]. cbn [bind]. destruct (mapM (resolve_token table) l) as [rs|]; [|discriminate]. cbn [bind]. intros H. injection H as <-. constructor; [exact (resolved_in fine _ _ _ T (number_speaks _ (Forall_inv F)) R)|exact (IH (Forall_inv_tail F) _ eq_refl)].
Qed.
Lemma rebuilt_sound t s s' : sound_scalar t s -> py_scalar t s = Ok s' -> sound_scalar t s' /\ (forall k, s' = VSymbol k -> s = VSymbol k).
Proof.
  intros S H. destruct t, s as [b|z|b|d|[u|u]|k|x|b]; cbn [sound_scalar py_scalar] in *; try contradiction; try (injection H as <-; split; [exact S|auto]; fail).
  apply bind_ok in H. destruct H as (x & E & H). injection H as <-. split; [|discriminate]. cbn [sound_scalar].
  unfold timestamp_new in E. repeat (apply bind_ok in E; destruct E as (? & ? & E)). destruct x4 as [[us fp] fs]. apply bind_ok in E. destruct E as (? & ? & E). injection E as <-. exact S.
Qed.
Lemma well_brings n u : told_well n u -> brings (speaks fine) kept_scalar (says fine) u.
Proof.
  intros ((A & F & V & _) & T & _). split; [intros an; exact (mapM_resolved _ _ T A an)|]. split.
  - intros f. unfold me_field. destruct (ev_field (me_ev u)) as [k|]; [|discriminate]. destruct (resolve_token (me_table u) k) as [r|] eqn:R; [|discriminate]. cbn [bind]. intros H. injection H as <-. exact (proj1 (resolved_in fine _ _ _ T (number_speaks _ F) R)).
  - intros t s s' IT MV PS _ _. unfold me_value in MV. destruct (ev_force (ev_value (me_ev u))) as [o|] eqn:EF; [|discriminate]. cbn [bind] in MV. rewrite IT in MV.
    assert (KS : kept_scalar t s).
    { assert (G : forall x, o = Some x -> sound_scalar t x /\ match x with VSymbol y => by_number y | _ => True end).
      { intros x ->. destruct (V x eq_refl) as (t' & IT' & S & Y). rewrite IT in IT'. injection IT' as <-. auto. }
      destruct o as [x|]; [|destruct t; discriminate MV]. destruct (G x eq_refl) as (S & Y). clear G.
      destruct t; try (injection MV as <-; split; [exact S|]; destruct x; try exact Logic.I; cbn in S; contradiction). destruct x; cbn in S; try contradiction. destruct (resolve_token (me_table u) t) as [r|] eqn:R; [|discriminate]. cbn [bind] in MV. injection MV as <-. split; [exact Logic.I|exact (resolved_in fine _ _ _ T (number_speaks _ Y) R)]. }
    destruct (rebuilt_sound t s s' (proj1 KS) PS) as (S' & K'). split; [exact S'|]. destruct s'; try exact Logic.I. rewrite (K' _ eq_refl) in KS. exact (proj2 KS).
Qed.

(** What is known of a value at the top level. *)
Lemma is_text_false k x : is_text (tk_text k) x = false -> tk_text k <> Some x.
Proof. unfold is_text. intros H E. rewrite E in H. cbn [opt_eqb] in H. rewrite (proj2 (zlist_eqb_eq x x) eq_refl) in H. discriminate. Qed.
Lemma scalar_not_reserved u v : told_well 0 u -> ev_type (me_ev u) = EScalar -> load_scalar u = Ok v -> ~ reserved_value v.
Proof.
  intros ((_ & _ & _ & BD & _) & _ & PA) T L. specialize (PA (BD (or_introl T))). destruct PA as (PA & _). specialize (PA T). unfold load_scalar in L. unfold me_value in L. unfold symbol_value in PA. destruct (ev_force (ev_value (me_ev u))) as [o|] eqn:EF; [|discriminate]. cbn [bind] in *. destruct (ev_ion_type (me_ev u)) as [t|] eqn:IT.
  - assert (NULL : forall an, me_annotations u = Ok an -> v = PNull t (map ATok an) -> ~ reserved_value v) by (intros an _ ->; exact (fun H => H)).
    destruct o as [x|].
    + destruct (iontype_eqb t TNull || is_container t) eqn:C.
      { assert (t <> TSymbol) by (intros ->; discriminate). destruct t; try congruence; cbn [bind] in L; try rewrite C in L; apply bind_ok in L; destruct L as (an & MA & L); injection L as <-; exact (fun H => H). }
      destruct t; try discriminate C; cbn [bind] in L; try (apply bind_ok in L; destruct L as (s' & _ & L); apply bind_ok in L; destruct L as (an & _ & L); injection L as <-; exact (fun H => H)).
      destruct x; try discriminate. destruct (resolve_token (me_table u) t) as [r|] eqn:R; [|discriminate]. cbn [bind py_scalar] in L. rewrite C in L. apply bind_ok in L. destruct L as (an & MA & L). injection L as <-. cbn [bind] in PA.
      destruct an as [|a an]; [|exact (fun H => H)]. cbn [map reserved_value symbol_arg arg_text]. apply is_text_false. apply (PA eq_refl) with (k := t); [|reflexivity|exact R].
      unfold me_annotations in MA. destruct (ev_annot (me_ev u)) as [|k l]; [reflexivity|]. cbn [mapM] in MA. destruct (resolve_token (me_table u) k); [|discriminate]. cbn [bind] in MA. destruct (mapM _ l); discriminate.
    + assert (L' : (let* an := me_annotations u in Ok (PNull t (map ATok an))) = Ok v) by (destruct t; exact L). apply bind_ok in L'. destruct L' as (an & MA & L'). injection L' as <-. exact (fun H => H).
  - destruct o; discriminate.
Qed.
Lemma struct_not_reserved u an m : told_well 0 u -> ev_type (me_ev u) = EContainerStart -> ev_ion_type (me_ev u) = Some TStruct -> me_annotations u = Ok an -> ~ reserved_value (PStruct (map ATok an) m).
Proof.
  intros ((_ & _ & _ & BD & _) & _ & PA) T IT MA. specialize (PA (BD (or_intror T))). destruct PA as (_ & PA). specialize (PA T IT). unfold me_annotations in MA. destruct (ev_annot (me_ev u)) as [|a l] eqn:AN; cbn [mapM] in MA; [injection MA as <-; exact (fun H => H)|]. destruct (resolve_token (me_table u) a) as [r|] eqn:R; [|discriminate]. cbn [bind] in MA. destruct (mapM _ l) as [rs|]; [|discriminate]. cbn [bind] in MA. injection MA as <-. cbn [map reserved_value arg_text]. apply is_text_false. exact (PA a l r eq_refl R).
Qed.

(** ** From what was made to the specification *)
Notation made_value := (made (speaks fine) kept_scalar (says fine)).
Lemma made_loaded v : made_value v -> loaded v.
Proof.
  revert v. fix IH 2. intros v [t an F|t an s F (S & K)|sexp an l F L|an m F ND G].
  - constructor.
  - constructor; destruct t, s as [b|z|b|d|[u|u]|k|x|b]; cbn in S; try contradiction; cbn; auto. destruct u as [dt p fp fs]. cbn in *. destruct p; [reflexivity|congruence].
  - constructor. clear F. induction L as [|x l M L IL]; constructor; [exact (IH x M)|exact IL].
  - constructor; [exact ND|]. clear F ND. induction G as [|p m (KP & NE & GM) G IG]; constructor; [|exact IG]. split; [exact NE|]. clear KP NE IG. induction GM as [|x l M GM IL]; constructor; [exact (IH x M)|exact IL].
Qed.
Lemma kept_good k : speaks fine k -> named (ATok k) -> good_arg (ATok k).
Proof. intros (S & _) N. unfold good_arg. cbn [arg_text]. unfold named in N. cbn [arg_text] in N. unfold says in S. destruct (tk_text k); [exact S|exact (N eq_refl)]. Qed.
Lemma kept_args an : Forall (speaks fine) an -> Forall named (map ATok an) -> Forall good_arg (map ATok an).
Proof. intros F N. apply Forall_map. apply Forall_map in N. induction F as [|k an S F IH]; constructor; [exact (kept_good k S (Forall_inv N))|exact (IH (Forall_inv_tail N))]. Qed.
Lemma flat_forall {A B} (Q : B -> Prop) (f : A -> list B) l : Forall Q (flat_map f l) -> Forall (fun x => Forall Q (f x)) l.
Proof. induction l as [|x l IH]; cbn [flat_map]; intros F; constructor; apply Forall_app in F; tauto. Qed.
Lemma made_nature v : made_value v -> has_nature v.
Proof. destruct 1; exact Logic.I. Qed.
Lemma made_key k v : says fine k -> made_value v -> key_ok k v.
Proof. intros S M. unfold key_ok. destruct k; [split; [exact S|intros _]|]; exact (made_nature v M). Qed.
Lemma made_storable v : made_value v -> limited v -> storable v.
Proof.
  revert v. fix IH 2. intros v [t an F|t an s F (S & K)|sexp an l F L|an m F ND G] (SC & NM); cbn [scalars_in names_in] in *.
  - constructor. exact (kept_args an F NM).
  - constructor; [exact (kept_args an F NM)|]. apply Forall_inv in SC. unfold scalar_ok. destruct t, s as [b|z|b|d|[u|u]|k|x|b]; cbn in S; try contradiction; cbn; auto. split; [exact (proj2 K)|]. exists (ATok k). split; [reflexivity|exact (kept_good k K SC)].
  - apply Forall_app in NM. destruct NM as (NA & NM). constructor; [exact (kept_args an F NA)|]. apply flat_forall in SC. apply flat_forall in NM. clear F NA. induction L as [|x l M L IL]; constructor.
    + apply (IH x M). split; [exact (Forall_inv SC)|exact (Forall_inv NM)].
    + exact (IL (Forall_inv_tail SC) (Forall_inv_tail NM)).
  - apply Forall_app in NM. destruct NM as (NA & NM). constructor; [exact (kept_args an F NA)|exact ND|]. apply flat_forall in SC. apply flat_forall in NM. clear F NA ND. induction G as [|p m (KP & NE & GM) G IG]; constructor.
    + split; [exact NE|]. apply Forall_inv in SC. apply Forall_inv in NM. apply flat_forall in SC. apply flat_forall in NM. clear NE IG. induction GM as [|x l M GM IL]; constructor.
      * split; [exact (made_key _ _ KP M)|]. apply (IH x M). split; [exact (Forall_inv SC)|exact (Forall_inv NM)].
      * exact (IL (Forall_inv_tail SC) (Forall_inv_tail NM)).
    + exact (IG (Forall_inv_tail SC) (Forall_inv_tail NM)).
Qed.

(** ** Loading *)
Definition reader_state (n : Z) (s : feeder) : Prop := 0 <= n /\ (live2 n s \/ over2 s).
Lemma state_counts fuel cat n s u s' : catalog_in fine cat -> reader_state n s -> feeder_next fuel cat s = Ok (u, s') ->
  reader_state (n + opens_by u) s' /\ (valued_event u -> told_well n u).
Proof.
  intros CC (NN & [L|O]) H; [|destruct (next_over2 fuel cat s O) as (e & E); rewrite E in H; discriminate]. pose proof (next2 fuel cat n s u s' CC L H) as X. change (opens_by u) with (level_of (me_ev u)). destruct (is_stream_signal (ev_type (me_ev u))) eqn:SG.
  - split; [|unfold valued_event; intros [V|V]; rewrite V in SG; discriminate]. unfold level_of. destruct (ev_type (me_ev u)); try discriminate SG; rewrite Z.add_0_r; split; auto.
  - destruct X as (L' & W). split; [|auto]. split; [|auto]. destruct W as ((_ & _ & _ & _ & _ & N) & _). exact N.
Qed.
Lemma stream_values fuel cat cs vs : catalog_in fine cat -> chunks_ok cs -> load_stream fuel cat cs = Ok vs -> Forall made_value vs /\ Forall (fun v => ~ reserved_value v) vs.
Proof.
  intros CC CO. unfold load_stream. destruct (load_into fuel (feeder_next fuel cat) (mreader_new, cs) EStreamEnd (OnList [])) as [[o s']|] eqn:L; [|discriminate]. cbn [bind].
  assert (S0 : reader_state 0 (mreader_new, cs)).
  { split; [lia|]. left. exists [], []. cbn [fst snd mreader_new]. split; [constructor|]. split; [apply start_rok|]. split; [reflexivity|]. split; [split; [exact system_table_fine|exact Logic.I]|]. split; [exact CO|]. split; [reflexivity|lia]. }
  pose proof (load_made (speaks fine) kept_scalar (says fine) (feeder_next fuel cat) (fun s => exists n, reader_state n s)) as LM.
  assert (LI : forall s u s1, (exists n, reader_state n s) -> feeder_next fuel cat s = Ok (u, s1) -> (exists n, reader_state n s1) /\ (valued_event u -> brings (speaks fine) kept_scalar (says fine) u)).
  { intros s u s1 (n & R) H. destruct (state_counts fuel cat n s u s1 CC R H) as (R' & W). split; [exists (n + opens_by u); exact R'|]. intros V. exact (well_brings n u (W V)). }
  destruct (LM LI fuel _ _ _ _ _ (ex_intro _ 0 S0) (Forall_nil _ : filled _ _ _ (OnList [])) L) as (_ & FO). clear LM.
  destruct (load_tops (feeder_next fuel cat) reader_state (fun n s u s' A H => proj1 (state_counts fuel cat n s u s' CC A H)) (fun n s A => proj1 A) (fun v => ~ reserved_value v)) with (fuel := fuel) (s := (mreader_new, cs)) (l := @nil pyval) (o := o) (s' := s') as (l' & -> & NR); [| | |exact S0|constructor|exact L|].
  - intros s u s1 v A H T LS. exact (scalar_not_reserved u v (proj2 (state_counts _ _ _ _ _ _ CC A H) (or_introl T)) T LS).
  - intros. exact (fun H => H).
  - intros s u s1 an m A H T IT MA. exact (struct_not_reserved u an m (proj2 (state_counts _ _ _ _ _ _ CC A H) (or_intror T)) T IT MA).
  - intros H. injection H as <-. exact (conj FO NR).
Qed.

Lemma made_definite v : made_value v -> all_known v -> definite v.
Proof.
  revert v. fix IH 2. intros v [t an F|t an s F (S & K)|sexp an l F L|an m F ND G] (SC & NM); cbn [scalars_in names_in] in *.
  - constructor. exact NM.
  - constructor; [exact NM|]. apply Forall_inv in SC. destruct t, s as [b|z|b|d|[u|u]|k|x|b]; cbn in S; try contradiction; cbn; auto.
  - apply Forall_app in NM. destruct NM as (NA & NM). constructor; [exact NA|]. apply flat_forall in SC. apply flat_forall in NM. clear F NA. induction L as [|x l M L IL]; constructor.
    + apply (IH x M). split; [exact (Forall_inv SC)|exact (Forall_inv NM)].
    + exact (IL (Forall_inv_tail SC) (Forall_inv_tail NM)).
  - apply Forall_app in NM. destruct NM as (NA & NM). constructor; [exact NA|]. apply flat_forall in SC. apply flat_forall in NM. clear F NA ND. induction G as [|p m (KP & NE & GM) G IG]; constructor.
    + apply Forall_inv in SC. apply Forall_inv in NM. apply flat_forall in SC. apply flat_forall in NM. clear NE IG. induction GM as [|x l M GM IL]; constructor.
      * apply (IH x M). split; [exact (Forall_inv SC)|exact (Forall_inv NM)].
      * exact (IL (Forall_inv_tail SC) (Forall_inv_tail NM)).
    + exact (IG (Forall_inv_tail SC) (Forall_inv_tail NM)).
Qed.
Lemma fine_values x : text_ok x -> Forall scalar_value x.
Proof. intros T. eapply Forall_impl; [|exact T]. intros c H. cbv beta in H. unfold scalar_value. unfold is_scalar in H. lia. Qed.
Lemma spelled_name k : speaks fine k -> spelled (ATok k) -> text_name (ATok k).
Proof. intros (S & _) (N & L). unfold text_name. unfold named in N. cbn [arg_text] in *. unfold says in S. destruct (tk_text k); [split; [exact (fine_values _ S)|exact (L _ eq_refl)]|exact (N eq_refl)]. Qed.
Lemma spelled_names an : Forall (speaks fine) an -> Forall spelled (map ATok an) -> Forall text_name (map ATok an).
Proof. intros F N. apply Forall_map. apply Forall_map in N. induction F as [|k an S F IH]; constructor; [exact (spelled_name k S (Forall_inv N))|exact (IH (Forall_inv_tail N))]. Qed.
Lemma made_text_storable v : made_value v -> text_limited v -> text_storable v.
Proof.
  revert v. fix IH 2. intros v [t an F|t an s F (S & K)|sexp an l F L|an m F ND G] (SC & NM & KY); cbn [scalars_in names_in keys_in] in *.
  - constructor. exact (spelled_names an F NM).
  - constructor; [exact (spelled_names an F NM)|]. apply Forall_inv in SC. unfold text_scalar_ok. destruct t, s as [b|z|b|d|[u|u]|k|x|b]; cbn in S; try contradiction; cbn; auto; [|exact (fine_values _ S)]. exists (ATok k). split; [reflexivity|exact (spelled_name k K SC)].
  - apply Forall_app in NM. destruct NM as (NA & NM). constructor; [exact (spelled_names an F NA)|]. apply flat_forall in SC. apply flat_forall in NM. apply flat_forall in KY. clear F NA. induction L as [|x l M L IL]; constructor.
    + apply (IH x M). split; [exact (Forall_inv SC)|]. split; [exact (Forall_inv NM)|exact (Forall_inv KY)].
    + exact (IL (Forall_inv_tail SC) (Forall_inv_tail NM) (Forall_inv_tail KY)).
  - apply Forall_app in NM. destruct NM as (NA & NM). constructor; [exact (spelled_names an F NA)|exact ND|]. apply flat_forall in SC. apply flat_forall in NM. apply flat_forall in KY. clear F NA ND. induction G as [|p m (KP & NE & GM) G IG]; constructor.
    + split; [exact NE|]. apply Forall_inv in SC. apply Forall_inv in NM. apply Forall_inv in KY. pose proof (Forall_inv KY) as KF. apply Forall_inv_tail in KY. apply flat_forall in SC. apply flat_forall in NM. apply flat_forall in KY. clear NE IG. induction GM as [|x l M GM IL]; constructor.
      * split; [|apply (IH x M); split; [exact (Forall_inv SC)|]; split; [exact (Forall_inv NM)|exact (Forall_inv KY)]]. unfold text_key. destruct (fst p) as [w|]; [|exact (made_nature x M)]. unfold text_name. cbn [arg_text]. split; [exact (fine_values _ KP)|exact (KF _ eq_refl)].
      * exact (IL (Forall_inv_tail SC) (Forall_inv_tail NM) (Forall_inv_tail KY)).
    + exact (IG (Forall_inv_tail SC) (Forall_inv_tail NM) (Forall_inv_tail KY)).
Qed.
Lemma catalog_fine history cat : register_all catalog_new history = Ok cat -> Forall encodable history -> catalog_in fine cat.
Proof.
  intros R F. apply (registered_in fine history catalog_new cat R); [eapply Forall_impl; [|exact F]; exact encodable_in|]. intros name vs v t H. discriminate.
Qed.
Lemma binary_made fuel history cat cs vs : register_all catalog_new history = Ok cat -> Forall encodable history -> chunks_ok cs -> firstn 4 (concat cs) = ivm ->
  load_from fuel OfOctets cat cs = Ok vs -> Forall made_value vs /\ Forall (fun v => ~ reserved_value v) vs.
Proof.
  intros R F CO M. cbn [load_from]. rewrite M. change (zlist_eqb ivm [224; 1; 0; 234]) with true. cbn [ivm]. exact (stream_values fuel cat cs vs (catalog_fine history cat R F) CO).
Qed.

(** * Theorems *)
(** C77.  Whatever binary Ion is loaded, with whatever tables in the catalog, the values have Ion nature throughout, are of the classes of
    their types, and none is one a reader would take for a system value. *)
Theorem C77_binary_values : forall fuel history cat cs vs,
  register_all catalog_new history = Ok cat -> Forall encodable history -> chunks_ok cs -> firstn 4 (concat cs) = ivm ->
  load_from fuel OfOctets cat cs = Ok vs -> Forall loaded vs /\ Forall (fun v => ~ reserved_value v) vs.
Proof.
  intros fuel history cat cs vs R F CO M L. destruct (binary_made fuel history cat cs vs R F CO M L) as (MV & NR). split; [|exact NR]. eapply Forall_impl; [|exact MV]. exact made_loaded.
Qed.
Print Assumptions C77_binary_values.
(** They can be dumped again as binary Ion, within its limits, and then mean the same. *)
Theorem C77_binary_again : forall fuel history cat cs vs imports tas,
  register_all catalog_new history = Ok cat -> Forall encodable history -> chunks_ok cs -> firstn 4 (concat cs) = ivm ->
  Forall (known_import cat) (truthy_imports imports) -> Forall shared_import (truthy_imports imports) ->
  load_from fuel OfOctets cat cs = Ok vs -> Forall limited vs ->
  exists out, dumps_binary imports tas true (PList vs) = Ok out /\
  exists vs', map (meaning tas) vs' = map (meaning tas) vs /\
  exists enough, forall again fuel', chunks_ok again -> concat again = out -> (enough <= fuel')%nat -> load_from fuel' OfOctets cat again = Ok vs'.
Proof.
  intros fuel history cat cs vs imports tas R F CO M K SI L LI. destruct (binary_made fuel history cat cs vs R F CO M L) as (MV & NR).
  assert (ST : Forall storable vs) by (clear - MV LI; induction MV as [|v vs M MV IH]; constructor; [exact (made_storable v M (Forall_inv LI))|exact (IH (Forall_inv_tail LI))]).
  destruct (C32_streams cat imports tas (PList vs) vs K SI (or_introl eq_refl) ST NR) as (out & D & _ & IV & vs' & MN & _ & enough & LD). exists out. split; [exact D|]. exists vs'. split; [exact MN|]. exists enough. intros again fuel' CA CE LE. cbn [load_from]. rewrite CE, IV. change (zlist_eqb [224; 1; 0; 234] [224; 1; 0; 234]) with true. exact (proj1 (LD again fuel' CA CE LE)).
Qed.
Print Assumptions C77_binary_again.
(** One by one, too; and what comes back is equal, if no symbol is of unknown text. *)
Theorem C77_binary_equal : forall fuel history cat cs vs v imports tas inst teq,
  register_all catalog_new history = Ok cat -> Forall encodable history -> chunks_ok cs -> firstn 4 (concat cs) = ivm ->
  Forall (known_import cat) (truthy_imports imports) -> Forall shared_import (truthy_imports imports) ->
  load_from fuel OfOctets cat cs = Ok vs -> In v vs -> limited v -> all_known v ->
  exists out, dumps_binary imports tas false v = Ok out /\
  exists v' enough, (forall again fuel', chunks_ok again -> concat again = out -> (enough <= fuel')%nat -> load_one fuel' OfOctets cat again = Ok v') /\
    meaning tas v' = meaning tas v /\ ion_equals inst teq v' v = Ok true /\ ion_equals inst teq v v' = Ok true.
Proof.
  intros fuel history cat cs vs v imports tas inst teq R F CO M K SI L I LI AK. destruct (binary_made fuel history cat cs vs R F CO M L) as (MV & NR). rewrite Forall_forall in MV, NR. specialize (MV v I). specialize (NR v I). pose proof (made_storable v MV LI) as ST.
  destruct (C31_dumps_loads cat imports tas v K SI ST NR) as (out & D & _ & IV & v' & MN & LO & enough & LD). exists out. split; [exact D|]. exists v', enough. split.
  - intros again fuel' CA CE LE. unfold load_one. cbn [load_from]. rewrite CE, IV. change (zlist_eqb [224; 1; 0; 234] [224; 1; 0; 234]) with true. exact (LD again fuel' CA CE LE).
  - split; [exact MN|]. exact (proj2 (binary_reload_equal inst teq tas v ST (made_definite v MV AK) v' LO MN)).
Qed.
Print Assumptions C77_binary_equal.
(** As text, within the limits of text. *)
Theorem C77_binary_to_text : forall fuel history cat cs vs indent omit tas,
  register_all catalog_new history = Ok cat -> Forall encodable history -> chunks_ok cs -> firstn 4 (concat cs) = ivm -> blank_indent indent ->
  load_from fuel OfOctets cat cs = Ok vs -> Forall text_limited vs -> Forall (fun v => ~ text_reserved v) vs ->
  exists s, dumps_text indent omit tas true (PList vs) = Ok s /\
  exists vs', map (text_meaning tas) vs' = map (text_meaning tas) vs /\
  exists enough, forall src again fuel', pieces again -> concat again = s -> (enough <= fuel')%nat -> load_from fuel' src cat again = Ok vs'.
Proof.
  intros fuel history cat cs vs indent omit tas R F CO M BI L LI NR. destruct (binary_made fuel history cat cs vs R F CO M L) as (MV & _).
  assert (ST : Forall text_storable vs) by (clear - MV LI; induction MV as [|v vs M MV IH]; constructor; [exact (made_text_storable v M (Forall_inv LI))|exact (IH (Forall_inv_tail LI))]).
  destruct (C61_streams cat indent omit tas (PList vs) vs BI (or_introl eq_refl) ST NR) as (s & D & vs' & MN & _ & enough & LD). exists s. split; [exact D|]. exists vs'. split; [exact MN|]. exists enough. intros src again fuel' P CE LE. exact (proj1 (LD src again fuel' P CE LE)).
Qed.
Print Assumptions C77_binary_to_text.

(** A case: [a::{a: 1, a: [a, true], name: 1.5, name: null} "é" 2020-02-29T01:02:03Z], after a table that defines [a]. *)
Definition case_octets : list Z :=
  ivm ++ [0xEB; 0x81; 0x83; 0xD8; 0x87; 0xB2; 0x81; 0x61; 0x88; 0xB2; 0x21; 0x01] ++
  [0xEE; 0x92; 0x81; 0x8A; 0xDE; 0x8E; 0x8A; 0x21; 0x01; 0x8A; 0xB3; 0x71; 0x0A; 0x11; 0x84; 0x52; 0xC1; 0x0F; 0x84; 0x0F] ++
  [0x82; 0xC3; 0xA9] ++ [0x68; 0x80; 0x0F; 0xE4; 0x82; 0x9D; 0x81; 0x82; 0x83].
Definition case_values : list pyval :=
  let a := mktok (Some (txt "a")) (Some 10) None in
  [PStruct [ATok a]
     [(Some (txt "a"), [PIon TInt [] (VInt 1); PSeq false [] [PIon TSymbol [] (VSymbol a); PIon TBool [] (VBool true)]]);
      (Some (txt "name"), [PIon TDecimal [] (VDecimal (mkdec false 15 (-1))); PNull TNull []])];
   PIon TString [] (VString [233]);
   PIon TTimestamp [] (VTimestamp (TsStamp (mkts (mkdt 2020 2 29 1 2 3 0 (Some 0)) (Some PSecond) 0 dec_zero)))].
Lemma case_stamp : let t := mkts (mkdt 2020 2 29 1 2 3 0 (Some 0)) (Some PSecond) 0 dec_zero in ts_portable t /\ timestamp_fits t.
Proof.
  cbv zeta. assert (N : ndigits 0 <= 28) by (vm_compute; discriminate). assert (C : ts_canonical (mkts (mkdt 2020 2 29 1 2 3 0 (Some 0)) (Some PSecond) 0 dec_zero)) by (vm_compute; reflexivity).
  split.
  - unfold ts_portable. split; [exact C|]. cbn [ts_dt dt_off ts_frac ts_prec dt_second dt_month dt_day dt_hour dt_minute d_coef d_exp d_neg dec_zero eff_prec].
    split; [split; [reflexivity|]; split; [lia|]; split; [eexists; vm_compute; reflexivity|vm_compute; discriminate]|].
    do 4 (split; [vm_compute; discriminate|]). split; [lia|]. split; [exact N|]. split; [lia|]. try reflexivity; repeat split; auto; try lia.
  - unfold timestamp_fits. split; [exact C|]. cbn [ts_dt dt_off ts_frac ts_prec dt_second dt_month dt_day dt_hour dt_minute d_coef d_exp d_neg dec_zero].
    split; [split; [reflexivity|lia]|]. split; [exact Logic.I|]. split; [exact Logic.I|]. split; [congruence|]. split; [lia|]. split; [exact N|]. split; [lia|reflexivity].
Qed.
Theorem C77_case : load_from 90 OfOctets [] [firstn 20 case_octets; skipn 20 case_octets] = Ok case_values /\
  chunks_ok [firstn 20 case_octets; skipn 20 case_octets] /\ register_all catalog_new [] = Ok [] /\ firstn 4 (concat [firstn 20 case_octets; skipn 20 case_octets]) = ivm /\
  Forall limited case_values /\ Forall all_known case_values /\ Forall text_limited case_values /\ Forall (fun v => ~ text_reserved v) case_values.
Proof.
  split; [vm_compute; reflexivity|]. split.
  { assert (O : forall l, l <> [] -> forallb (fun b => (0 <=? b) && (b <? 256)) l = true -> l <> [] /\ octets l).
    { intros l N H. split; [exact N|]. apply Forall_forall. intros b I. rewrite forallb_forall in H. specialize (H b I). unfold is_octet. lia. }
    constructor; [|constructor; [|constructor]]; apply O; vm_compute; (reflexivity || discriminate). }
  split; [reflexivity|]. split; [reflexivity|].
  assert (SP : forall x, x = [97] \/ x = txt "name" -> ~ like_sid x).
  { intros x [->| ->] H; destruct H as (r & E & _); vm_compute in E; discriminate. }
  destruct case_stamp as (TP & TF).
  assert (NA : forall k x, tk_text k = Some x -> named (ATok k)) by (intros k x E H; cbn [arg_text] in H; congruence).
  assert (SA : forall k x, tk_text k = Some x -> x = [97] \/ x = txt "name" -> spelled (ATok k)).
  { intros k x E H. split; [exact (NA k x E)|]. intros y F. cbn [arg_text] in F. rewrite E in F. injection F as <-. exact (SP x H). }
  assert (ND : ndigits 15 = 2) by (vm_compute; reflexivity).
  assert (DR : dec_in_range (mkdec false 15 (-1))) by (unfold dec_in_range; cbn [d_coef d_exp]; change (15 =? 0) with false; cbn match; rewrite ND; lia).
  assert (DF : decimal_fits (mkdec false 15 (-1))) by (unfold decimal_fits; cbn [d_coef d_exp]; rewrite ND; lia).
  unfold case_values. split; [|split; [|split]].
  - repeat (apply Forall_cons); try apply Forall_nil; (split; cbn [scalars_in names_in flat_map fst snd app]; repeat (apply Forall_cons); try apply Forall_nil; cbn [within_limits]; try exact Logic.I; try exact DR; try exact TP; eapply NA; reflexivity).
  - repeat (apply Forall_cons); try apply Forall_nil; (split; cbn [scalars_in names_in flat_map fst snd app]; repeat (apply Forall_cons); try apply Forall_nil; try exact Logic.I; unfold known; cbn [arg_text tk_text]; discriminate).
  - repeat (apply Forall_cons); try apply Forall_nil; (split; [|split]); cbn [scalars_in names_in keys_in flat_map fst snd app]; repeat (apply Forall_cons); try apply Forall_nil; cbn [within_text]; try exact Logic.I; try exact DF; try exact TF;
      try (eapply SA; [reflexivity|left; reflexivity]); intros x E; injection E as <-; apply SP; auto.
  - repeat (apply Forall_cons); try apply Forall_nil; intros H; cbn [text_reserved arg_text tk_text] in H; try contradiction. vm_compute in H. discriminate.
Qed.
(** A symbol of unknown text (here symbol 10, defined by null) can be loaded, but not dumped as binary Ion, and not loaded from what is
    dumped as text. *)
Theorem C77_unknown_text_refuted :
  let a := PIon TSymbol [] (VSymbol (mktok None (Some 10) None)) in
  load_from 40 OfOctets [] [ivm ++ [0xE8; 0x81; 0x83; 0xD5; 0x87; 0xB3; 0x8F; 0x81; 0x61; 0x71; 0x0A]] = Ok [a] /\
  dumps_binary None false false a = Err AssertionError /\
  dumps_text None false false false a = Ok (txt "$ion_1_0 $10 ") /\ load_from 40 OfOctets [] [txt "$ion_1_0 $10 "] = Err IonException.
Proof. vm_compute. repeat split. Qed.
