(** Property theorems C27-C30 and C50: the symbol-managed writer and reader, and laziness. *)
From Coq Require Import String.
From Verif Require Import Base BaseFacts FieldsModel BufferModel CoreModel BinWriterModel BinReaderModel BinReaderSpec BinReaderNest
  ScalarFacts ScalarProofs SymbolsModel SymbolsProofs BinReaderSession BinFormat BinFormatFacts WriterFacts WriterProofs ManagedModel Cursor ManagedSpec
  ManagedReaderFacts ManagedReaderProofs ManagedWriterFacts ManagedWriterRun ManagedRoundTrip ManagedSessions LazyModel LazyProofs Props_Symbols.
Local Open Scope Z_scope.

(** C27.  Whatever events a writer made with [imports] accepts (shared tables the catalog knows;
    flushes and version markers anywhere at top level), up to a last flush: the reader, given the
    octets in any pieces, yields events that mirror them (ManagedSpec: same structure and types, same
    text of every symbol, field name and annotation), in order, and then the end of the stream.
    [plain_event]: symbols have text, or are symbol zero.  [unreserved]: no top-level value is one the
    reader takes for a system value. *)
Theorem C27_round_trip : forall cat imports es fl m out,
  Forall (known_import cat) (truthy_imports imports) -> Forall plain_event es -> unreserved 0 es -> ue_type fl = EStreamEnd ->
  managed_write_all imports mwriter_new (es ++ [fl]) = Ok (m, out) ->
  octets out /\
  exists us, mirrors [] es us /\
  exists enough, forall chunks fuel n, chunks_ok chunks -> concat chunks = out -> (enough <= fuel)%nat ->
    msession fuel cat mreader_new chunks (repeat DNext (length us + n)) = (us, match n with O => SMore | S _ => SEnd end).
Proof.
  intros cat imports es fl m out K P U F H.
  destruct (whole cat imports K (length es) es true m out fl (le_n _) F P U H) as (_ & ns & us & NO & EO & OC & MI & FR & UV).
  split; [exact OC|]. exists (flat_map flatten us). split; [exact MI|].
  destruct (FR eq_refl) as [->|(ns' & ->)].
  - cbn [flat_map] in *. exists 3%nat. intros chunks fuel n C E LE. specialize (UV system_table (or_introl eq_refl)). cbn [user_view] in UV. injection UV as <-.
    cbn [flat_map length plus]. assert (chunks = []) as ->.
    { destruct chunks as [|c cs]; [reflexivity|]. inversion C as [|? ? [C1 C2] C3]; subst. destruct c; [contradiction|]. discriminate. }
    apply empty_input with (n := n); [lia|reflexivity].
  - exists (S (S (S (length (flat_map (events 0) ns'))))). intros chunks fuel n C E LE. inversion NO as [|? ? _ NO']; subst.
    assert (SE : concat chunks = stream ns') by (rewrite E; reflexivity).
    pose proof (managed_reads cat ns' chunks (repeat DNext (length (flat_map flatten us) + n)) fuel NO' C SE) as R.
    specialize (UV system_table (or_introl eq_refl)). cbn [flat_map trees app user_view system_value ev_type version_marker_event] in UV.
    change (is_version_1_0 version_marker_event) with true in UV. cbn iota in UV. rewrite UV in R.
    rewrite R by (try lia; apply next_legal). apply all_next_top.
Qed.
Print Assumptions C27_round_trip.

(** Two failures outside those hypotheses.  A token without text names whatever local symbol has got
    its id: written next to the symbol "a", the token 10 reads back as "a"; *)
Example C27_textless_token_refuted :
  let es := [mkue EScalar (Some TSymbol) (EvVal (VString (txt "a"))) None [] None;
             mkue EScalar (Some TSymbol) (EvVal (VSymbol (mktok None (Some 10) None))) None [] None;
             mkue EStreamEnd None EvNone None [] None] in
  let out := match managed_write_all None mwriter_new es with Ok (_, o) => o | Err _ => [] end in
  let us := fst (msession 20 [] mreader_new [out] [DNext; DNext; DNext]) in
  managed_write_all None mwriter_new es = Ok (mwriter_new, out) /\
    snd (msession 20 [] mreader_new [out] [DNext; DNext; DNext]) = SEnd /\
    map me_value us = [Ok (Some (VSymbol (mktok (Some (txt "a")) (Some 10) None))); Ok (Some (VSymbol (mktok (Some (txt "a")) (Some 10) None)))].
Proof. split; [vm_compute; reflexivity|]. split; vm_compute; reflexivity. Qed.
(** and a reserved top-level value is not read back at all. *)
Example C27_reserved_value_refuted :
  let es := [mkue EScalar (Some TSymbol) (EvVal (VString (txt "$ion_1_0"))) None [] None;
             mkue EScalar (Some TInt) (EvVal (VInt 7)) None [] None;
             mkue EStreamEnd None EvNone None [] None] in
  let out := match managed_write_all None mwriter_new es with Ok (_, o) => o | Err _ => [] end in
  let us := fst (msession 20 [] mreader_new [out] [DNext; DNext]) in
  managed_write_all None mwriter_new es = Ok (mwriter_new, out) /\
    snd (msession 20 [] mreader_new [out] [DNext; DNext]) = SEnd /\ map me_value us = [Ok (Some (VInt 7))].
Proof. split; [vm_compute; reflexivity|]. split; vm_compute; reflexivity. Qed.

(** The imports a catalog knows: the tables registered in it. *)
Theorem C27_registered_is_known : forall h cat t n v,
  Forall (fun t => built t /\ named_table t) h -> register_all catalog_new h = Ok cat ->
  latest h n v = Some t -> 0 < v -> 0 <= st_max t -> known_import cat t.
Proof.
  intros h cat t n v N R L V M.
  assert (N1 : Forall named_table h) by (eapply Forall_impl; [|exact N]; (intros ? [_ Q]; exact Q)).
  destruct (latest_in _ _ _ _ L) as (_ & A & B). exists n, v. split; [exact A|]. split; [exact B|].
  pose proof (resolve_answers h cat n v (Some (st_max t)) N1 R) as Q. unfold SymbolsProofs.answer in Q. rewrite L in Q.
  replace (v <=? 0) with false in Q by lia. replace (st_max t <? 0) with false in Q by lia. cbn [orb] in Q. rewrite Z.eqb_refl in Q. exact Q.
Qed.
Print Assumptions C27_registered_is_known.

(** C28.  Every flush leaves the writer as new, and what it has written since the flush before is
    nothing, if it got nothing, or starts with the version marker.  (That the symbol table comes
    before the values that need it is part of C27: the reader finds the text of every symbol.) *)
Definition version_marker : list Z := [0xE0; 0x01; 0x00; 0xEA].
Theorem C28_frames : forall imports es fl m out,
  Forall (fun e => ue_type e <> EStreamEnd) es -> ue_type fl = EStreamEnd ->
  managed_write_all imports mwriter_new (es ++ [fl]) = Ok (m, out) ->
  m = mwriter_new /\ (es = [] /\ out = [] \/ es <> [] /\ exists rest, out = version_marker ++ rest).
Proof.
  intros imports es fl m out NS F H. split.
  - rewrite write_all_app in H. destruct (managed_write_all imports mwriter_new es) as [[m1 o1]|] eqn:R; [|discriminate]. cbn [bind managed_write_all] in H.
    assert (I : forall es m m1 o, (mw_written m = false -> mw_value m = w_init /\ mw_sym m = symw_new) -> Forall (fun e => ue_type e <> EStreamEnd) es ->
      managed_write_all imports m es = Ok (m1, o) -> (mw_written m1 = false -> mw_value m1 = w_init /\ mw_sym m1 = symw_new)).
    { clear. induction es as [|e es IH]; intros m m1 o I NS; cbn [managed_write_all]; [intros [= <- _]; exact I|].
      inversion NS as [|? ? N1 N2]; subst. destruct (managed_write imports m e) as [[m2 ws]|] eqn:W; [|discriminate]. cbn [bind].
      destruct (managed_write_all imports m2 es) as [[m3 o3]|] eqn:R; [|discriminate]. cbn [bind]. intros [= <- _]. apply (IH m2 m3 o3); auto.
      unfold managed_write in W. destruct (ue_type e) eqn:T; try congruence;
        try (destruct (mw_written m) eqn:MW; [discriminate|]; injection W as <- _; cbn [mw_value mw_sym]; intros _; apply I; reflexivity);
        (destruct (mw_written m) eqn:MW;
          [cbn [bind] in W; destruct (intern_symbols (mw_sym m) e) as [[e' s]|]; [|discriminate]; cbn [bind] in W; destruct (raw_write (mw_value m) e') as [[w ws']|]; [|discriminate]; cbn [bind] in W;
           injection W as <- _; cbn [mw_written]; congruence
          |destruct (sym_start imports (mw_sym m)) as [s0|]; [|discriminate]; cbn [bind mw_sym mw_value mw_written mw_ivm] in W;
           destruct (intern_symbols s0 e) as [[e' s]|]; [|discriminate]; cbn [bind] in W; destruct (raw_write (mw_value m) e') as [[w ws']|]; [|discriminate]; cbn [bind] in W;
           injection W as <- _; cbn [mw_written]; congruence]). }
    specialize (I es mwriter_new m1 o1 ltac:(auto) NS R). unfold managed_write in H. rewrite F in H. destruct (mw_written m1).
    + destruct (sym_finish imports (mw_sym m1)); [|discriminate]. cbn [bind] in H. destruct (raw_write (mw_value m1) stream_end_event) as [[? ?]|]; [|discriminate]. cbn [bind] in H. injection H as <- _. reflexivity.
    + destruct (I eq_refl) as [E1 E2]. rewrite E1, E2 in H. cbn [bind] in H. injection H as <- _. reflexivity.
  - destruct es as [|e es].
    + left. split; [reflexivity|]. cbn [app managed_write_all] in H. unfold managed_write in H. rewrite F in H. cbn [mwriter_new mw_written bind] in H. injection H as _ <-. reflexivity.
    + right. split; [discriminate|]. inversion NS as [|? ? N1 N2]; subst. cbn [app managed_write_all] in H.
      destruct (managed_write imports mwriter_new e) as [[m1 ws]|] eqn:W; [|discriminate]. cbn [bind] in H.
      destruct (managed_write_all imports m1 (es ++ [fl])) as [[m2 o2]|]; [|discriminate]. cbn [bind] in H. injection H as _ <-.
      destruct (is_mark e) eqn:MK.
      * unfold is_mark in MK. unfold managed_write in W. destruct (ue_type e); try congruence. cbn [mwriter_new mw_written mw_ivm] in W. injection W as _ <-. eexists. reflexivity.
      * destruct (first_value imports true e m1 ws MK W) as (s & ws' & _ & _ & E). rewrite E. exists (flat_map wdata ws' ++ o2). rewrite app_assoc. reflexivity.
Qed.
Print Assumptions C28_frames.

(** The reader, over any input however malformed and any requests, never hands out a version marker,
    the start of a top-level symbol table, or a top-level symbol $ion_1_0. *)
Fixpoint mreplies (fuel : nat) (cat : catalog) (mr : mreader) (ds : list devent) : list mevent :=
  match ds with
  | [] => []
  | d :: ds' => match mreader_send fuel cat mr d with
                | (Ok u, mr') => u :: mreplies fuel cat mr' ds'
                | (Err _, _) => []
                end
  end.
Definition system_event (u : mevent) : Prop :=
  ev_type (me_ev u) = EVersionMarker \/
  (ev_depth (me_ev u) = Some 0 /\ ev_type (me_ev u) = EContainerStart /\ ev_ion_type (me_ev u) = Some TStruct /\
     exists a rest r, ev_annot (me_ev u) = a :: rest /\ resolve_token (me_table u) a = Ok r /\ tk_text r = Some (txt "$ion_symbol_table")) \/
  (ev_depth (me_ev u) = Some 0 /\ ev_type (me_ev u) = EScalar /\ ev_ion_type (me_ev u) = Some TSymbol /\ ev_annot (me_ev u) = [] /\
     exists r, me_value u = Ok (Some (VSymbol r)) /\ tk_text r = Some (txt "$ion_1_0")).
Lemma send_hides fuel cat : forall m r st d u m' r', reader_nest r st -> mreader_send fuel cat (m, r) d = (Ok u, (m', r')) ->
  ~ system_event u /\ exists st', reader_nest r' st'.
Proof.
  induction fuel as [|f IH]; intros m r st d u m' r' N; cbn [mreader_send fst snd]; [discriminate|].
  pose proof (reader_send_nest r d st N) as RN. destruct (reader_send r d) as [[ev|x] r1]; [|discriminate]. destruct RN as (st1 & NS & N1).
  destruct (mr_step cat m ev) as [[m1 [d1|]]|x] eqn:M; [apply (IH m1 r1 st1 d1 u m' r' N1)| |discriminate].
  intros [= <- <- <-]. split; [|eauto]. unfold mr_step in M. unfold system_event. cbn [me_ev me_table].
  assert (V : ev_type ev = EVersionMarker -> ev_depth ev = Some 0) by (inversion NS; cbn; congruence).
  destruct (ms_proc m) as [p|].
  - destruct (is_stream_signal (ev_type ev)) eqn:SG; [injection M as <-|].
    + intros [H|[(_ & H & _)|(_ & H & _)]]; rewrite H in SG; discriminate.
    + destruct (lp_step cat (ms_table m) p ev) as [[|]|]; discriminate.
  - intros [H|[(D & T & IT & a & rest & rr & AN & RS & TX)|(D & T & IT & AN & rr & VL & TX)]].
    + rewrite (V H), H in M. destruct (is_version_1_0 ev); discriminate.
    + rewrite D, T, IT, AN in M. destruct (resolve_token (ms_table m) a) as [q|] eqn:RQ; [|discriminate]. cbn [bind] in M.
      destruct (is_text (tk_text q) TEXT_ION_SYMBOL_TABLE) eqn:IS; [discriminate|]. injection M as <-. rewrite RQ in RS. injection RS as <-.
      rewrite TX in IS. vm_compute in IS. discriminate.
    + rewrite D, T, IT, AN in M. unfold me_value in VL. cbn [me_ev me_table] in VL. rewrite IT in VL.
      destruct (symbol_value ev) as [[t|]|] eqn:SV; cbn [bind] in M; [| |discriminate];
        unfold symbol_value in SV; destruct (ev_force (ev_value ev)) as [[v|]|]; try discriminate; cbn [bind] in SV, VL; [|destruct v; discriminate].
      destruct v; try discriminate. injection SV as ->. destruct (resolve_token (ms_table m) t) as [q|] eqn:RQ; [|discriminate]. cbn [bind] in M, VL.
      destruct (is_text (tk_text q) TEXT_ION_1_0) eqn:IS; [discriminate|]. injection M as <-. rewrite RQ in VL. cbn [bind] in VL. injection VL as <-.
      rewrite TX in IS. vm_compute in IS. discriminate.
Qed.
Theorem C28_reader_hides : forall fuel cat ds, Forall (fun u => ~ system_event u) (mreplies fuel cat mreader_new ds).
Proof.
  intros fuel cat ds. unfold mreader_new. assert (G : forall ds m r st, reader_nest r st -> Forall (fun u => ~ system_event u) (mreplies fuel cat (m, r) ds)).
  { clear ds. induction ds as [|d ds IH]; intros m r st N; cbn [mreplies]; [constructor|].
    destruct (mreader_send fuel cat (m, r) d) as [[u|x] [m' r']] eqn:S; [|constructor].
    destruct (send_hides _ _ _ _ _ _ _ _ _ N S) as [A [st' B]]. constructor; [exact A|]. apply (IH m' r' st' B). }
  apply (G ds mstate_new reader_new [] reader_new_nest).
Qed.
Print Assumptions C28_reader_hides.
(** A version marker of a raw reader at top level, outside a symbol table: that of Ion 1.0 puts the system symbol table in force and the next
    raw event is asked for; any other (another version, one with a type, a name or annotations) is refused, whatever the table in force. *)
Theorem C28_versions : forall cat table e, ev_type e = EVersionMarker -> ev_depth e = Some 0 ->
  (e = version_marker_event -> mr_step cat (mkms table None) e = Ok (mkms system_table None, Some DNext)) /\
  (e <> version_marker_event -> mr_step cat (mkms table None) e = Err IonException).
Proof.
  intros cat table [ty it v f a d]; cbn [ev_type ev_depth]. intros -> ->. split; [intros ->; reflexivity|]. intros N.
  unfold mr_step. cbn [ms_proc ev_depth ev_type ev_ion_type ev_annot]. unfold is_version_1_0. cbn [ev_ion_type ev_value ev_field ev_annot ev_depth].
  destruct it, v as [| | | |x y], f, a; try reflexivity; destruct x as [|[x|x|]|]; try reflexivity; destruct y; try reflexivity. contradiction N; reflexivity.
Qed.
Print Assumptions C28_versions.

(** On well-formed input nothing inside a symbol table comes out either: the requests of a user walk
    the user values only ([user_view]: the values left when the system values are taken out), and the
    system values have their effect whatever is requested. *)
Theorem C28_user_values_only : forall cat ns chunks reqs fuel, stream_ok ns -> chunks_ok chunks -> concat chunks = stream ns ->
  let '(us, fin) := user_view cat system_table (flat_map (trees 0) ns) in
  (S (S (length (flat_map (events 0) ns))) < fuel)%nat -> legal (mkcur us []) reqs = true ->
  msession fuel cat mreader_new chunks reqs = cursor_session fin (mkcur us []) reqs /\
  Forall (fun u => exists t table, u = tree_map (fun e => mkme e table) t /\ In t (flat_map (trees 0) ns) /\ system_value cat table t = Ok None) us.
Proof.
  intros cat ns chunks reqs fuel OK C E. pose proof (managed_reads cat ns chunks reqs fuel OK C E) as M.
  destruct (user_view cat system_table (flat_map (trees 0) ns)) as [us fin] eqn:UV. intros LF LG. split; [apply M; assumption|].
  apply (view_user _ _ _ _ _ UV).
Qed.
Print Assumptions C28_user_values_only.

(** C29.  Programs that look at attributes of events whenever they like see exactly what programs see
    for which every attribute is computed as soon as the event is handed out. *)
Theorem C29_lazy_is_eager : forall fuel cat acts,
  hprogram fuel cat hreader_new [] acts = eager_program fuel cat mreader_new [] acts.
Proof.
  intros fuel cat acts. unfold hreader_new, mreader_new. apply (lazy_is_eager cat fuel acts hs_new reader_new [] []); [exact (le_n 1)|constructor].
Qed.
Print Assumptions C29_lazy_is_eager.

(** C30.  [table]: any symbol table.  A symbol with an id only: *)
Theorem C30_ids : forall table sid, built table ->
  (0 <= sid <= st_max table -> exists r, resolve_token table (mktok None (Some sid) None) = Ok r /\ tk_sid r = Some sid) /\
  (sid < 0 \/ st_max table < sid -> resolve_token table (mktok None (Some sid) None) = Err IonException).
Proof.
  intros table sid B. pose proof (built_ok table B) as T. unfold resolve_token. cbn [tk_text tk_sid]. split.
  - intros R. destruct (Z.eq_dec sid 0) as [->|NZ]; [eexists; split; [reflexivity|reflexivity]|].
    destruct (proj1 (sid_lookup table None sid T) ltac:(lia)) as (t & -> & _ & S). eauto.
  - intros R. rewrite (proj2 (sid_lookup table None sid T) R). reflexivity.
Qed.
Print Assumptions C30_ids.
(** So for each attribute of an event: the value, the field name, the annotations. *)
Definition in_range (table : symtab) (t : token) : Prop := exists sid, tk_sid t = Some sid /\ 0 <= sid <= st_max table.
Theorem C30_attributes : forall ev table, built table ->
  (forall sid, ev_ion_type ev = Some TSymbol -> ev_force (ev_value ev) = Ok (Some (VSymbol (mktok None (Some sid) None))) ->
     if (0 <=? sid) && (sid <=? st_max table) then exists r, me_value (mkme ev table) = Ok (Some (VSymbol r)) /\ tk_sid r = Some sid
     else me_value (mkme ev table) = Err IonException) /\
  (forall sid, ev_field ev = Some (mktok None (Some sid) None) ->
     if (0 <=? sid) && (sid <=? st_max table) then exists r, me_field (mkme ev table) = Ok (Some r) /\ tk_sid r = Some sid
     else me_field (mkme ev table) = Err IonException) /\
  (forall sids, ev_annot ev = map (fun sid => mktok None (Some sid) None) sids ->
     if forallb (fun sid => (0 <=? sid) && (sid <=? st_max table)) sids
     then exists rs, me_annotations (mkme ev table) = Ok rs /\ map tk_sid rs = map Some sids
     else me_annotations (mkme ev table) = Err IonException).
Proof.
  intros ev table B.
  assert (R : forall sid, if (0 <=? sid) && (sid <=? st_max table) then exists r, resolve_token table (mktok None (Some sid) None) = Ok r /\ tk_sid r = Some sid
     else resolve_token table (mktok None (Some sid) None) = Err IonException).
  { intros sid. destruct (C30_ids table sid B) as [A1 A2]. destruct ((0 <=? sid) && (sid <=? st_max table)) eqn:E; [apply A1; lia|apply A2; lia]. }
  split; [|split].
  - intros sid IT V. specialize (R sid). unfold me_value. cbn [me_ev me_table]. rewrite V, IT. cbn [bind].
    destruct ((0 <=? sid) && (sid <=? st_max table)); [destruct R as (r & -> & S); cbn [bind]; eauto|rewrite R; reflexivity].
  - intros sid F. specialize (R sid). unfold me_field. cbn [me_ev me_table]. rewrite F.
    destruct ((0 <=? sid) && (sid <=? st_max table)); [destruct R as (r & -> & S); cbn [bind]; eauto|rewrite R; reflexivity].
  - intros sids A. unfold me_annotations. cbn [me_ev me_table]. rewrite A. clear A. induction sids as [|sid sids IH]; [exists []; split; reflexivity|].
    cbn [forallb map mapM]. specialize (R sid). destruct ((0 <=? sid) && (sid <=? st_max table)).
    + destruct R as (r & -> & S). cbn [andb bind]. destruct (forallb _ sids); [destruct IH as (rs & -> & M); cbn [bind]; exists (r :: rs); cbn [map]; rewrite S, M; auto|rewrite IH; reflexivity].
    + cbn [andb]. rewrite R. reflexivity.
Qed.
Print Assumptions C30_attributes.

(** C50.  [parser k n]: what the [n]-th evaluation of parser [k] gives, an arbitrary value or
    exception.  Over any history of reading events, deriving events from events and forcing values: a
    parser succeeds at most once; every forcing that succeeds gives that success, whatever event
    derived from the one read is forced; after a success, every later forcing of such an event
    succeeds with the same value. *)
Theorem C50_at_most_once : forall (A : Type) (parser : nat -> nat -> res A) xs, possible 0 [] xs ->
  let '(os, h) := lrun parser lheap_new xs in
  let origin a := nth a (origins [] xs) 0%nat in
  (forall k, (length (successes (lh_log h) k) <= 1)%nat) /\
  forall i a, nth_error xs i = Some (AValue a) -> exists r, nth_error os i = Some (Some r) /\
    (forall v, r = Ok v -> successes (lh_log h) (origin a) = [v]) /\
    forall j b v, (j < i)%nat -> nth_error xs j = Some (AValue b) -> nth_error os j = Some (Some (Ok v)) -> origin b = origin a -> r = Ok v.
Proof.
  intros A parser xs P. pose proof (lrun_spec parser xs lheap_new [] [] linv_new ltac:(contradiction) P) as H.
  destruct (lrun parser lheap_new xs) as [os h]. destruct H as (I & _ & H). split; [apply (li_one _ _ I)|].
  intros i a N. destruct (H i a N) as (r & R1 & R2 & _ & R4). eauto 10.
Qed.
Print Assumptions C50_at_most_once.
(** Deriving an event evaluates nothing. *)
Theorem C50_derive_forces_nothing : forall (A : Type) (parser : nat -> nat -> res A) h a,
  lh_log (snd (lstep parser h (ADerive a))) = lh_log h.
Proof. reflexivity. Qed.
Print Assumptions C50_derive_forces_nothing.

(** * The hypotheses can be met *)
Definition sample_events : list uevent :=
  [mkue EContainerStart (Some TStruct) EvNone None [AText (txt "point")] None;
   mkue EScalar (Some TInt) (EvVal (VInt 3)) (Some (AText (txt "x"))) [] None;
   mkue EScalar (Some TSymbol) (EvVal (VString (txt "def"))) (Some (ATok (mktok (Some (txt "y")) None None))) [AText (txt "point"); AText (txt "name")] None;
   mkue EContainerEnd (Some TStruct) EvNone None [] None;
   mkue EStreamEnd None EvNone None [] None;
   mkue EScalar (Some TString) (EvVal (VString (txt "s"))) None [AText (txt "z")] None].
Definition sample_flush : uevent := mkue EStreamEnd None EvNone None [] None.
Lemma sample_plain : Forall plain_event sample_events.
Proof.
  unfold sample_events. repeat apply Forall_cons; try apply Forall_nil; unfold plain_event; cbn [ue_field ue_annot ue_value ue_ion_type ev_force plain_arg];
    (split; [try exact Logic.I; left; discriminate|]); (split; [repeat apply Forall_cons; try apply Forall_nil; exact Logic.I|]); intros v V; try discriminate V;
    injection V as <-; (split; [exact Logic.I|]); intros T; try discriminate T; exact Logic.I.
Qed.
Example C27_sample :
  let cat := match register_all catalog_new [sample_shared] with Ok c => c | Err _ => catalog_new end in
  let out := match managed_write_all (Some [sample_shared]) mwriter_new (sample_events ++ [sample_flush]) with Ok (_, o) => o | Err _ => [] end in
  let us := fst (msession 60 cat mreader_new [firstn 9 out; skipn 9 out] (repeat DNext 6)) in
  register_all catalog_new [sample_shared] = Ok cat /\ Forall (known_import cat) (truthy_imports (Some [sample_shared])) /\
  Forall plain_event sample_events /\ unreserved 0 sample_events /\
  managed_write_all (Some [sample_shared]) mwriter_new (sample_events ++ [sample_flush]) = Ok (mwriter_new, out) /\
  snd (msession 60 cat mreader_new [firstn 9 out; skipn 9 out] (repeat DNext 6)) = SEnd /\
  map me_annotations us = [Ok [mktok (Some (txt "point")) (Some 14) None]; Ok []; Ok [mktok (Some (txt "point")) (Some 14) None; system_token (txt "name") 4];
    Ok []; Ok [mktok (Some (txt "z")) (Some 14) None]].
Proof.
  cbv zeta. split; [vm_compute; reflexivity|]. split; [|split; [exact sample_plain|]].
  - constructor; [|constructor]. exists (txt "test"), 3. split; [reflexivity|]. split; [reflexivity|]. vm_compute. reflexivity.
  - split; [|split; [vm_compute; reflexivity|split; vm_compute; reflexivity]].
    cbn [unreserved sample_events ue_type pred]. repeat split; intros Z0; try discriminate Z0; vm_compute; try (intros Q; exact Q); discriminate.
Qed.
Example C29_sample :
  let out := [0xE0; 1; 0; 0xEA; 0xE9; 0x81; 0x83; 0xD6; 0x87; 0xB4; 0x83; 0x61; 0x62; 0x63; 0x71; 0x0A;
              0xE7; 0x81; 0x83; 0xD4; 0x87; 0xB2; 0x81; 0x64; 0x71; 0x0A] in
  hprogram 20 [] hreader_new [] [Send DNext; Send (DData out); Send DNext; Look 2 AtValue; Look 1 AtValue; Look 1 AtValue; Send DNext; Look 1 AtValue] =
  [SawEvent EStreamEnd None None; SawEvent EScalar (Some TSymbol) (Some 0); SawEvent EScalar (Some TSymbol) (Some 0);
   SawAttr (GotValue (Ok (Some (VSymbol (mktok (Some (txt "d")) (Some 10) None)))));
   SawAttr (GotValue (Ok (Some (VSymbol (mktok (Some (txt "abc")) (Some 10) None)))));
   SawAttr (GotValue (Ok (Some (VSymbol (mktok (Some (txt "abc")) (Some 10) None)))));
   SawEvent EStreamEnd None None;
   SawAttr (GotValue (Ok (Some (VSymbol (mktok (Some (txt "abc")) (Some 10) None)))))].
Proof. vm_compute. reflexivity. Qed.
(** A parser that fails the first time. *)
Example C50_sample : let parser k n := match k, n with 7%nat, O => Err IonException | _, _ => Ok (k + 10 * n)%nat end in
  let xs := [ARead 7; ADerive 0; AValue 1; AValue 1; AValue 0; ADerive 1; AValue 2; ARead 4; AValue 3]%nat in
  possible 0 [] xs /\ lrun parser lheap_new xs =
  ([None; None; Some (Err IonException); Some (Ok 17); Some (Ok 17); None; Some (Ok 17); None; Some (Ok 4)]%nat,
   snd (lrun parser lheap_new xs)) /\ lh_log (snd (lrun parser lheap_new xs)) = [(7, Err IonException); (7, Ok 17); (4, Ok 4)]%nat.
Proof. split; [cbn; intuition lia|]. vm_compute. split; reflexivity. Qed.
