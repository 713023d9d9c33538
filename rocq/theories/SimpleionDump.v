(** What [dump] sends is accepted by the writer, and can be read back. *)
From Verif Require Import Base BaseFacts FieldsModel BufferModel CoreModel BinWriterModel BinReaderModel BinReaderSpec
  ScalarFacts TimestampFacts ScalarProofs SymbolsModel SymbolsProofs BinReaderSession BinFormat BinFormatFacts WriterFacts WriterProofs MultimapModel MultimapProofs ManagedModel Cursor ManagedSpec
  ManagedWriterFacts ManagedWriterRun ManagedRoundTrip ManagedAccept ManagedSessions Props_Managed SimpleionModel SimpleionSpec SimpleionProofs.
Local Open Scope Z_scope.

Definition ctx_ok (open : list iontype) (field : option text) (ins : bool) (v : pyval) : Prop :=
  (within open = Some TStruct -> ins = true) /\ (if ins then key_ok field v else field = None).
Definition sends (tas : bool) (v : pyval) : Prop := forall field ins depth open, storable v -> ctx_ok open field ins v ->
  takes_all open (dump_value tas v field ins depth) open /\ Forall plain_event (dump_value tas v field ins depth).

Lemma plain_names open field ins v : ctx_ok open field ins v -> ~ has_nature v -> forall ty it x d, good_names open (mkue ty it x (plain_field field) [] d).
Proof.
  intros (W & K) NN ty it x d. split; [constructor|]. cbn [ue_field]. destruct ins.
  - destruct field as [k|]; [|contradiction]. destruct K as [T NE]. split; [exact T|]. intros _. split; [discriminate|]. intros E. injection E as ->. apply NN, NE; reflexivity.
  - subst field. split; [exact Logic.I|]. intros E. specialize (W E). discriminate.
Qed.
Lemma nature_names open field ins v an : ctx_ok open field ins v -> Forall good_arg an -> forall ty it x d, good_names open (mkue ty it x (nature_field ins field) an d).
Proof.
  intros (W & K) GA ty it x d. split; [exact GA|]. cbn [ue_field]. destruct ins; cbn [nature_field].
  - split; [|intros _; split; discriminate]. unfold good_arg. cbn [arg_text tk_text tk_sid]. destruct field as [k|]; [apply K|reflexivity].
  - split; [exact Logic.I|]. intros E. specialize (W E). discriminate.
Qed.
Lemma names_plain open e : good_names open e -> (forall v, ev_force (ue_value e) = Ok (Some v) -> scalar_sane v /\ (ue_ion_type e = Some TSymbol -> match symbol_arg v with Some a => plain_arg a | None => True end)) -> plain_event e.
Proof.
  intros (A & F & _) V. split; [destruct (ue_field e); [apply good_plain; exact F|exact Logic.I]|]. split; [eapply Forall_impl; [|exact A]; apply good_plain|exact V].
Qed.
Lemma scalar_good ty s field an d : scalar_ok ty s -> good_value (mkue EScalar (Some ty) (EvVal s) field an d) /\ scalar_sane s /\ (ty = TSymbol -> match symbol_arg s with Some a => plain_arg a | None => True end).
Proof.
  intros K. destruct (iontype_eqb ty TSymbol) eqn:E.
  - assert (ty = TSymbol) as -> by (destruct ty; try discriminate; reflexivity). destruct K as (SS & a & SA & G).
    split; [exists TSymbol; split; [reflexivity|]; cbn [ue_value ev_force]; exists a; auto|]. split; [exact SS|]. intros _. rewrite SA. apply good_plain; exact G.
  - assert (SP : scalar_portable ty s) by (destruct ty; try exact K; discriminate). split; [|split; [exact (portable_sane _ _ SP)|intros ->; discriminate]].
    exists ty. split; [reflexivity|]. cbn [ue_value ev_force]. destruct (scalar_carried _ _ SP) as (bs & _ & B & _). destruct ty; try discriminate; eauto.
Qed.

Lemma end_taken t open : takes (t :: open) container_end_event open.
Proof. apply tk_end; try reflexivity. discriminate. Qed.
Lemma end_plain : plain_event container_end_event.
Proof. split; [exact Logic.I|]. split; [constructor|]. intros v. discriminate. Qed.

Lemma sends_scalar open e : ue_type e = EScalar -> good_names open e -> good_value e ->
  (forall v, ev_force (ue_value e) = Ok (Some v) -> scalar_sane v /\ (ue_ion_type e = Some TSymbol -> match symbol_arg v with Some a => plain_arg a | None => True end)) ->
  takes_all open [e] open /\ Forall plain_event [e].
Proof.
  intros T N V S. split; [|constructor; [exact (names_plain _ _ N S)|constructor]]. eapply ta_cons; [apply tk_scalar; assumption|constructor].
Qed.
Lemma sends_container open e t es : ue_type e = EContainerStart -> good_names open e -> ue_ion_type e = Some t -> is_container t = true -> ue_value e = EvNone ->
  takes_all (t :: open) es (t :: open) /\ Forall plain_event es ->
  takes_all open (e :: es ++ [container_end_event]) open /\ Forall plain_event (e :: es ++ [container_end_event]).
Proof.
  intros T N I C V (TA & PA). split.
  - eapply ta_cons; [apply (tk_start _ _ t); assumption|]. eapply takes_app; [exact TA|]. eapply ta_cons; [apply end_taken|constructor].
  - constructor; [apply (names_plain _ _ N); rewrite V; discriminate|]. apply Forall_app. split; [exact PA|]. constructor; [exact end_plain|constructor].
Qed.
Lemma sends_list tas l open depth : Forall (sends tas) l -> Forall storable l -> within open <> Some TStruct ->
  takes_all open (flat_map (fun x => dump_value tas x None false depth) l) open /\ Forall plain_event (flat_map (fun x => dump_value tas x None false depth) l).
Proof.
  intros S ST W. induction l as [|v l IH]; cbn [flat_map]; [split; constructor|]. inversion S as [|? ? S1 S2]; subst. inversion ST as [|? ? T1 T2]; subst.
  destruct (S1 None false depth open T1) as [A B]; [split; [intros E; contradiction|reflexivity]|]. destruct (IH S2 T2) as [C D]. split; [eapply takes_app; eassumption|apply Forall_app; auto].
Qed.
Lemma sends_items tas l open depth : Forall (fun p => sends tas (snd p)) l -> Forall (fun p => key_ok (fst p) (snd p) /\ storable (snd p)) l ->
  takes_all open (flat_map (fun p => dump_value tas (snd p) (fst p) true depth) l) open /\ Forall plain_event (flat_map (fun p => dump_value tas (snd p) (fst p) true depth) l).
Proof.
  intros S ST. induction l as [|[k v] l IH]; cbn [flat_map fst snd]; [split; constructor|]. inversion S as [|? ? S1 S2]; subst. inversion ST as [|? ? [K1 T1] T2]; subst.
  destruct (S1 k true depth open T1) as [A B]; [split; [reflexivity|exact K1]|]. destruct (IH S2 T2) as [C D]. split; [eapply takes_app; eassumption|apply Forall_app; auto].
Qed.

Theorem value_sends tas v : sends tas v.
Proof.
  induction v as [ |s|l IH|l IH|l IH|t an|t an s|sexp an l IH|an m IH] using pyval_induction; intros field ins depth open ST CX; inversion ST; subst; cbn [dump_value].
  - apply sends_scalar; [reflexivity|apply (plain_names _ _ _ _ CX (fun H => H))|exists TNull; split; [reflexivity|exact Logic.I]|discriminate].
  - destruct (scalar_good (plain_type s) s (plain_field field) [] (Some depth) ltac:(assumption)) as (G & SS & SY).
    apply sends_scalar; [reflexivity|apply (plain_names _ _ _ _ CX (fun H => H))|exact G|]. cbn [ue_value ev_force ue_ion_type]. intros v [= <-]. split; [exact SS|]. intros [= E]. apply SY; exact E.
  - apply (sends_container _ _ TList); try reflexivity; [apply (plain_names _ _ _ _ CX (fun H => H))|]. apply sends_list; [exact IH|assumption|discriminate].
  - apply (sends_container _ _ (if tas then TSexp else TList)); try reflexivity; [apply (plain_names _ _ _ _ CX (fun H => H))|destruct tas; reflexivity|].
    apply sends_list; [exact IH|assumption|destruct tas; discriminate].
  - apply (sends_container _ _ TStruct); try reflexivity; [apply (plain_names _ _ _ _ CX (fun H => H))|]. apply sends_items; [exact IH|].
    match goal with H : Forall _ l |- _ => exact H end.
  - apply sends_scalar; [reflexivity|apply (nature_names _ _ _ _ _ CX); assumption|exists t; split; [reflexivity|exact Logic.I]|discriminate].
  - destruct (scalar_good t s (nature_field ins field) an (Some depth) ltac:(assumption)) as (G & SS & SY).
    apply sends_scalar; [reflexivity|apply (nature_names _ _ _ _ _ CX); assumption|exact G|]. cbn [ue_value ev_force ue_ion_type]. intros v [= <-]. split; [exact SS|]. intros [= E]. apply SY; exact E.
  - apply (sends_container _ _ (if sexp then TSexp else TList)); try reflexivity; [apply (nature_names _ _ _ _ _ CX); assumption|destruct sexp; reflexivity|].
    apply sends_list; [exact IH|assumption|destruct sexp; discriminate].
  - apply (sends_container _ _ TStruct); try reflexivity; [apply (nature_names _ _ _ _ _ CX); assumption|]. rewrite struct_items.
    match goal with H : Forall _ m |- _ => rename H into FS end. apply sends_items; apply items_Forall; [exact IH|]. eapply Forall_impl; [|exact FS]. intros p [_ Q]. exact Q.
Qed.

(** Reserved values. *)
Definition moves (d : nat) (e : uevent) : nat := match ue_type e with EContainerStart => S d | EContainerEnd => pred d | _ => d end.
Lemma unreserved_app es1 : forall d es2, unreserved d es1 -> unreserved (fold_left moves es1 d) es2 -> unreserved d (es1 ++ es2).
Proof.
  induction es1 as [|e es1 IH]; intros d es2 H1 H2; [exact H2|]. cbn [app unreserved fold_left] in *. destruct H1 as [A B]. split; [exact A|]. apply IH; assumption.
Qed.
Definition balanced (es : list uevent) : Prop := forall d, fold_left moves es d = d /\ unreserved (S d) es.
Lemma balanced_flat {A} (f : A -> list uevent) l : Forall (fun x => balanced (f x)) l -> balanced (flat_map f l).
Proof.
  induction l as [|x l IH]; intros H d; cbn [flat_map]; [split; [reflexivity|exact Logic.I]|]. inversion H as [|? ? H1 H2]; subst. specialize (IH H2 d). destruct (H1 d) as [A1 B1]. destruct (H1 (S d)) as [A2 _].
  rewrite fold_left_app, A1. split; [apply IH|]. apply unreserved_app; [exact B1|]. rewrite A2. apply IH.
Qed.
Lemma wrap_balanced e es : ue_type e = EContainerStart -> balanced es -> balanced (e :: es ++ [container_end_event]).
Proof.
  intros T B d. cbn [fold_left unreserved]. rewrite fold_left_app. unfold moves at 3. rewrite T. split.
  - rewrite (proj1 (B (S d))). reflexivity.
  - split; [discriminate|]. apply unreserved_app; [apply B|]. split; [|exact Logic.I]. intros E. rewrite (proj1 (B (S (S d)))) in E. discriminate.
Qed.
Lemma dump_balanced tas v : forall field ins depth, balanced (dump_value tas v field ins depth).
Proof.
  induction v as [ |s|l IH|l IH|l IH|t an|t an s|sexp an l IH|an m IH] using pyval_induction; intros field ins depth; cbn [dump_value];
    try (intros d; split; [reflexivity|]; cbn [unreserved]; split; [discriminate|exact Logic.I]);
    try (apply wrap_balanced; [reflexivity|]; apply balanced_flat; eapply Forall_impl; [|exact IH]; intros x Q; apply Q).
  apply wrap_balanced; [reflexivity|]. apply balanced_flat. eapply Forall_impl; [|exact IH]. intros p Q. apply balanced_flat. eapply Forall_impl; [|exact Q]. intros x R. apply R.
Qed.
Lemma wrap_unreserved e es : ue_type e = EContainerStart -> ~ reserved e -> balanced es -> unreserved 0 (e :: es ++ [container_end_event]).
Proof.
  intros T N B. cbn [unreserved]. rewrite T. split; [intros _; exact N|]. apply unreserved_app; [apply B|]. rewrite (proj1 (B 1%nat)). split; [discriminate|exact Logic.I].
Qed.
Lemma top_unreserved tas v : ~ reserved_value v -> unreserved 0 (dump_value tas v None false 0).
Proof.
  intros N. assert (FL : forall d l, balanced (flat_map (fun x => dump_value tas x None false d) l)) by (intros d l; apply balanced_flat, Forall_forall; intros x _; apply dump_balanced).
  destruct v as [ |s|l|l|l|t an|t an s|sexp an l|an m]; cbn [dump_value].
  - split; [intros _ R; exact R|exact Logic.I].
  - split; [|exact Logic.I]. intros _ R. apply N. unfold reserved in R. cbn [ue_type ue_ion_type ue_annot ue_value ev_force] in R. destruct s; cbn [plain_type] in R; try contradiction.
  - apply wrap_unreserved; [reflexivity|intros R; exact R|apply FL].
  - apply wrap_unreserved; [reflexivity|intros R; destruct tas; exact R|apply FL].
  - apply wrap_unreserved; [reflexivity|intros R; exact R|]. apply balanced_flat, Forall_forall. intros x _. apply dump_balanced.
  - split; [|exact Logic.I]. intros _ R. apply N. unfold reserved in R. cbn [ue_type ue_ion_type ue_annot ue_value ev_force] in R. destruct t; try contradiction; (destruct an; contradiction).
  - split; [|exact Logic.I]. intros _ R. apply N. unfold reserved in R. cbn [ue_type ue_ion_type ue_annot ue_value ev_force] in R. destruct t; try contradiction; (destruct an; [exact R|contradiction]).
  - apply wrap_unreserved; [reflexivity| |apply FL]. intros R. unfold reserved in R. cbn [ue_type ue_ion_type ue_annot] in R. destruct sexp; contradiction.
  - apply wrap_unreserved; [reflexivity| |].
    + intros R. apply N. unfold reserved in R. cbn [ue_type ue_ion_type ue_annot] in R. destruct an; [contradiction|exact R].
    + apply balanced_flat, Forall_forall. intros x _. apply balanced_flat, Forall_forall. intros y _. apply dump_balanced.
Qed.
Lemma stream_unreserved tas l : Forall (fun v => ~ reserved_value v) l -> unreserved 0 (flat_map (fun x => dump_value tas x None false 0) l).
Proof.
  induction l as [|v l IH]; intros H; [exact Logic.I|]. inversion H as [|? ? H1 H2]; subst. cbn [flat_map]. apply unreserved_app; [apply top_unreserved; exact H1|].
  rewrite (proj1 (dump_balanced tas v None false 0 0%nat)). apply IH; exact H2.
Qed.

(** Sessions of NEXT requests, as [_load] makes them. *)
Lemma session_serves fuel cat us : forall mr chunks, msession fuel cat mr chunks (repeat DNext (length us + 1)) = (us, SEnd) -> serves (feeder_next fuel cat) (mr, chunks) us.
Proof.
  induction us as [|u us IH]; intros mr chunks H; cbn [length plus repeat msession serves] in *; unfold feeder_next; cbn [fst snd].
  - destruct (mblocking_next fuel cat mr chunks DNext) as [[[ev|x] r'] cs]; [|discriminate]. exists ev, (r', cs). split; [reflexivity|]. destruct (ev_type (me_ev ev)) eqn:T; try reflexivity; discriminate.
  - destruct (mblocking_next fuel cat mr chunks DNext) as [[[ev|x] r'] cs]; [|discriminate].
    destruct (msession fuel cat r' cs (repeat DNext (length us + 1))) as [evs st] eqn:M.
    assert (ev = u /\ evs = us /\ st = SEnd) as (-> & -> & ->) by (destruct (ev_type (me_ev ev)); try discriminate; injection H as <- <- <-; auto).
    exists (r', cs). split; [reflexivity|]. apply IH. exact M.
Qed.

Theorem dump_load cat imports tas seq v : Forall (known_import cat) (truthy_imports imports) -> Forall shared_import (truthy_imports imports) ->
  Forall storable (top_level seq v) -> Forall (fun x => ~ reserved_value x) (top_level seq v) ->
  exists out, dumps_binary imports tas seq v = Ok out /\ octets out /\ firstn 4 out = IVM_BYTES /\
  exists l', (map (meaning tas) l' = map (meaning tas) (top_level seq v) /\ Forall loaded l') /\
  exists enough, forall chunks fuel, chunks_ok chunks -> concat chunks = out -> (enough <= fuel)%nat -> load_stream fuel cat chunks = Ok l'.
Proof.
  intros K SI ST NR. unfold dumps_binary, dump_events. set (es := flat_map (fun x => dump_value tas x None false 0) (top_level seq v)).
  destruct (sends_list tas (top_level seq v) [] 0 ltac:(apply Forall_forall; intros x _; apply value_sends) ST ltac:(discriminate)) as [TA PE]. fold es in TA, PE.
  destruct (managed_accepts imports es version_event end_event SI TA PE eq_refl eq_refl) as (out & W). rewrite W. cbn [bind]. exists out. split; [reflexivity|].
  pose proof (stream_unreserved tas _ NR) as UR. fold es in UR.
  assert (PV : Forall plain_event (version_event :: es)) by (constructor; [|exact PE]; split; [exact Logic.I|]; split; [constructor|]; intros x; discriminate).
  assert (UV : unreserved 0 (version_event :: es)) by (split; [intros _ R; exact R|exact UR]).
  change (version_event :: es ++ [end_event]) with ((version_event :: es) ++ [end_event]) in W.
  destruct (C27_round_trip cat imports (version_event :: es) end_event mwriter_new out K PV UV eq_refl W) as (OC & us & MI & enough & RD).
  split; [exact OC|]. split.
  { rewrite <- app_comm_cons in W. cbn [managed_write_all] in W. unfold managed_write at 1 in W. cbn [version_event ue_type mwriter_new mw_written mw_ivm mw_value mw_sym bind] in W.
    destruct (managed_write_all imports _ (es ++ [end_event])) as [[m1 o1]|]; [|discriminate]. cbn [bind] in W. injection W as _ <-. reflexivity. }
  assert (MI' : mirrors [] es us) by (inversion MI; subst; [assumption|discriminate|discriminate]).
  assert (G : exists l' N, (map (meaning tas) l' = map (meaning tas) (top_level seq v) /\ Forall loaded l') /\ forall (F : Type) next (s : F), serves next s us -> exists s', forall f, (N <= f)%nat -> load_into f next s EStreamEnd (OnList []) = Ok (OnList l', s')).
  { destruct (binary_loads tas (top_level seq v) us ST MI') as (l' & N & E & L). exists l', N. split; [exact E|exact L]. }
  destruct G as (l' & N & E & L). exists l'. split; [exact E|]. exists (enough + N)%nat. intros chunks fuel C CE LE.
  specialize (RD chunks fuel 1%nat C CE ltac:(lia)). apply session_serves in RD. destruct (L _ _ _ RD) as (s' & LI). unfold load_stream. rewrite LI by lia. reflexivity.
Qed.
