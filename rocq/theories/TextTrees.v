(** The trees of a text, and the values they mean. *)
From Coq Require Import String.
From Verif Require Import Base BaseFacts CoreModel BinWriterModel BinReaderModel TimestampFacts SymbolsModel ManagedModel Cursor ManagedSpec ManagedReaderFacts ManagedReaderProofs ManagedSessions MultimapModel SimpleionModel SimpleionSpec LoadSpec LoadProofs LoadRefuse TextRoundTripSpec TextGrammar TextReadValues.
Local Open Scope Z_scope.

(** * Trees *)
Definition held_value (e : event) : Prop := forall s, ev_force (ev_value e) = Ok (Some s) -> steady s.
Fixpoint proper (t : etree event) : Prop :=
  match t with
  | Leaf e => e = marker_ev \/ exists ty v f an d, e = scalar_ev ty v f an d /\ match v with Some s => class_fits ty s /\ steady s /\ (ty = TSymbol -> exists k, s = VSymbol k) | None => True end
  | Branch s ks f => ev_value s = EvNone /\ ev_value f = EvNone /\ (ev_field f = None /\ ev_annot f = []) /\
    (if opt_eqb iontype_eqb (ev_ion_type s) (Some TStruct) then Forall (fun k => ev_field (head_of k) <> None) ks else Forall (fun k => ev_field (head_of k) = None) ks) /\ fold_right (fun k P => proper k /\ P) True ks
  end.
Lemma proper_kids ks : fold_right (fun k P => proper k /\ P) True ks <-> Forall proper ks.
Proof.
  induction ks as [|k ks IH]; cbn [fold_right]; split; intros H; auto.
  - destruct H. constructor; [assumption|]. apply IH; assumption.
  - inversion H; subst. split; [assumption|]. apply IH; assumption.
Qed.
Lemma stamp_steady t : timestamp_fits t -> steady (VTimestamp (TsStamp t)).
Proof.
  intros (C & _ & P & _). destruct t as [dt [p|] fp fr]; [|contradiction]. split; [|reflexivity].
  cbn [py_scalar]. unfold ts_canonical, ts_rebuild in C. cbn [ts_dt ts_prec ts_frac] in *. rewrite C. reflexivity.
Qed.
Lemma scalar_class at_ w t v e : scalar_text at_ w t v e -> match v with Some s => class_fits t s /\ steady s /\ (t = TSymbol -> exists k, s = VSymbol k) | None => True end.
Proof.
  intros S. destruct S; try exact Logic.I; (split; [exact Logic.I|]); (split; [try (split; reflexivity)|]); try (intros X; discriminate X); try (eexists; reflexivity); try (intros _; eexists; reflexivity).
  match goal with H : stamp_text _ _ |- _ => exact (stamp_steady _ (proj1 H)) end.
Qed.
Definition forest (d : Z) (evs : list event) (ts : list (etree event)) : Prop := Forall (shaped d) ts /\ Forall proper ts /\ flat_map flatten ts = evs.
Lemma forest_app d e1 t1 e2 t2 : forest d e1 t1 -> forest d e2 t2 -> forest d (e1 ++ e2) (t1 ++ t2).
Proof. intros (A1 & B1 & C1) (A2 & B2 & C2). split; [apply Forall_app; auto|]. split; [apply Forall_app; auto|]. rewrite flat_map_app, C1, C2. reflexivity. Qed.
Definition named (ts : list (etree event)) : Prop := Forall (fun k => ev_field (head_of k) <> None) ts.
Definition unnamed (ts : list (etree event)) : Prop := Forall (fun k => ev_field (head_of k) = None) ts.
Lemma branch_forest ty f an d evs ks : ty = TList \/ ty = TSexp \/ ty = TStruct -> forest (d + 1) evs ks -> (if iontype_eqb ty TStruct then named ks else unnamed ks) ->
  forest d (start_ev ty f an d :: evs ++ [end_ev ty d]) [Branch (start_ev ty f an d) ks (end_ev ty d)].
Proof.
  intros T (A & B & C) N. split; [|split].
  - constructor; [|constructor]. cbn [shaped]. repeat (split; [first [reflexivity | destruct T as [->|[->| ->]]; cbn; auto]|]). apply shaped_kids. exact A.
  - constructor; [|constructor]. cbn [proper]. split; [reflexivity|]. split; [reflexivity|]. split; [split; reflexivity|]. split; [|apply proper_kids; exact B]. cbn [start_ev ev_ion_type opt_eqb]. exact N.
  - cbn [flat_map flatten app]. rewrite C, app_nil_r. reflexivity.
Qed.
Theorem grammar_trees :
  (forall at_ d f l evs rest, read_value at_ d f l evs rest -> 0 <= d -> exists t, forest d evs [t] /\ ev_field (head_of t) = f) /\
  (forall d l evs rest, read_items d l evs rest -> 0 <= d -> exists ts, forest d evs ts /\ unnamed ts) /\
  (forall d l evs rest, read_terms d l evs rest -> 0 <= d -> exists ts, forest d evs ts /\ unnamed ts) /\
  (forall d l evs rest, read_fields d l evs rest -> 0 <= d -> exists ts, forest d evs ts /\ named ts).
Proof.
  assert (NIL : forall d, forest d [] []) by (intros; split; [constructor|split; [constructor|reflexivity]]).
  apply reads_ind.
  - intros at_ d f a an w t v e g rest A S _ _ _ D. exists (Leaf (scalar_ev t v f an d)). split; [|reflexivity]. split; [|split].
    + constructor; [|constructor]. split; [reflexivity|left; reflexivity].
    + constructor; [|constructor]. right. exists t, v, f, an, d. split; [reflexivity|]. exact (scalar_class _ _ _ _ _ S).
    + reflexivity.
  - intros at_ d f a an g1 l evs g rest A G R IH T D. destruct (IH ltac:(lia)) as (ks & F & N). eexists. split; [apply branch_forest; [auto|exact F|exact N]|reflexivity].
  - intros at_ d f a an g1 l evs g rest A G R IH T D. destruct (IH ltac:(lia)) as (ks & F & N). eexists. split; [apply branch_forest; [auto|exact F|exact N]|reflexivity].
  - intros at_ d f a an g1 l evs g rest A G R IH T D. destruct (IH ltac:(lia)) as (ks & F & N). eexists. split; [apply branch_forest; [auto|exact F|exact N]|reflexivity].
  - intros d rest D. exists []. split; [apply NIL|constructor].
  - intros d l evs rest R IH D. destruct (IH D) as (t & F & H). exists [t]. split; [exact F|]. constructor; [exact H|constructor].
  - intros d l evs g l' evs' rest R IH G R' IH' D. destruct (IH D) as (t & F & H). destruct (IH' D) as (ts & F' & N). exists ([t] ++ ts). split; [apply forest_app; assumption|]. constructor; assumption.
  - intros d rest D. exists []. split; [apply NIL|constructor].
  - intros d l evs l' evs' rest R IH R' IH' D. destruct (IH D) as (t & F & H). destruct (IH' D) as (ts & F' & N). exists ([t] ++ ts). split; [apply forest_app; assumption|]. constructor; assumption.
  - intros d rest D. exists []. split; [apply NIL|constructor].
  - intros d n k l evs rest FT R IH D. destruct (IH D) as (t & F & H). exists [t]. split; [exact F|]. constructor; [|constructor]. rewrite H. discriminate.
  - intros d n k l evs g l' evs' rest FT R IH G R' IH' D. destruct (IH D) as (t & F & H). destruct (IH' D) as (ts & F' & N). exists ([t] ++ ts). split; [apply forest_app; assumption|]. constructor; [|exact N]. rewrite H. discriminate.
Qed.
Lemma stream_trees l evs : read_stream l evs -> exists ts, forest 0 evs ts /\ unnamed ts.
Proof.
  induction 1 as [|l evs rest evs' R RS (ts & IH & N)|g rest evs F T RS (ts & IH & N)].
  - exists []. split; [split; [constructor|split; [constructor|reflexivity]]|constructor].
  - destruct (proj1 grammar_trees _ _ _ _ _ _ R ltac:(lia)) as (t & F & H). exists ([t] ++ ts). split; [apply forest_app; assumption|constructor; assumption].
  - exists ([Leaf marker_ev] ++ ts). split; [|constructor; [reflexivity|exact N]]. apply (forest_app 0 [marker_ev]); [|exact IH]. split; [|split; [|reflexivity]]; constructor; try constructor; try reflexivity. right. split; reflexivity.
Qed.
Theorem document_trees l evs : document l evs -> exists ts, forest 0 evs ts /\ unnamed ts.
Proof. intros [g l' evs' G R|g o G O]; [exact (stream_trees _ _ R)|]. exists []. split; [split; [constructor|split; [constructor|reflexivity]]|constructor]. Qed.

(** The trees of a list of events are the only ones. *)
Lemma kids_unique ks1 : Forall (fun t1 => forall t2 d1 d2 r1 r2, shaped d1 t1 -> shaped d2 t2 -> flatten t1 ++ r1 = flatten t2 ++ r2 -> t1 = t2 /\ r1 = r2) ks1 ->
  forall ks2 d1 d2 r1 r2, Forall (shaped d1) ks1 -> Forall (shaped d2) ks2 -> match r1 with e :: _ => ev_type e = EContainerEnd | [] => True end -> match r2 with e :: _ => ev_type e = EContainerEnd | [] => True end ->
  flat_map flatten ks1 ++ r1 = flat_map flatten ks2 ++ r2 -> ks1 = ks2 /\ r1 = r2.
Proof.
  assert (FIRST : forall t d, shaped d t -> exists e l, flatten t = e :: l /\ ev_type e <> EContainerEnd).
  { intros [e|s ks f] d SH; cbn [flatten]; eexists _, _; (split; [reflexivity|]); [destruct SH as (_ & [-> | (-> & _)])|destruct SH as (-> & _)]; discriminate. }
  induction 1 as [|t1 ks1 H1 HS IH]; intros ks2 d1 d2 r1 r2 S1 S2 E1 E2 E; destruct ks2 as [|t2 ks2]; cbn [flat_map app] in E.
  - auto.
  - exfalso. destruct (FIRST t2 d2 (Forall_inv S2)) as (e & l & F & N). rewrite F in E. subst r1. cbn [app] in E1. contradiction.
  - exfalso. destruct (FIRST t1 d1 (Forall_inv S1)) as (e & l & F & N). rewrite F in E. subst r2. cbn [app] in E2. contradiction.
  - rewrite <- !app_assoc in E. destruct (H1 t2 d1 d2 _ _ (Forall_inv S1) (Forall_inv S2) E) as (-> & E').
    destruct (IH ks2 d1 d2 r1 r2 (Forall_inv_tail S1) (Forall_inv_tail S2) E1 E2 E') as (-> & ->). auto.
Qed.
Lemma tree_unique t1 : forall t2 d1 d2 r1 r2, shaped d1 t1 -> shaped d2 t2 -> flatten t1 ++ r1 = flatten t2 ++ r2 -> t1 = t2 /\ r1 = r2.
Proof.
  induction t1 as [e1|s1 ks1 f1 IH] using tree_induction; intros [e2|s2 ks2 f2] d1 d2 r1 r2 S1 S2 E; cbn [flatten app] in E; injection E as E E'; subst.
  - auto.
  - exfalso. destruct S1 as (_ & [T|(T & _)]), S2 as (T2 & _); congruence.
  - exfalso. destruct S2 as (_ & [T|(T & _)]), S1 as (T1 & _); congruence.
  - destruct S1 as (_ & _ & F1 & _ & _ & _ & K1), S2 as (_ & _ & F2 & _ & _ & _ & K2). apply shaped_kids in K1, K2. rewrite <- !app_assoc in E'. cbn [app] in E'.
    destruct (kids_unique ks1 IH ks2 _ _ (f1 :: r1) (f2 :: r2) K1 K2 F1 F2 E') as (-> & [= -> ->]). auto.
Qed.
Theorem trees_unique ts1 ts2 : Forall (shaped 0) ts1 -> Forall (shaped 0) ts2 -> flat_map flatten ts1 = flat_map flatten ts2 -> ts1 = ts2.
Proof.
  intros S1 S2 E. refine (proj1 (kids_unique ts1 _ ts2 0 0 [] [] S1 S2 Logic.I Logic.I _)); [|rewrite !app_nil_r; exact E].
  apply Forall_forall. intros t _. apply tree_unique.
Qed.

(** * Thunks settled *)
Definition settle (e : event) : event :=
  mkev (ev_type e) (ev_ion_type e) (match ev_value e with EvLazy (Ok v) => EvVal v | EvThunk k d => match eval_thunk k d with Ok v => EvVal v | Err _ => EvThunk k d end | v => v end) (ev_field e) (ev_annot e) (ev_depth e).
Definition usettle (u : mevent) : mevent := mkme (settle (me_ev u)) (me_table u).
Lemma answers_settle spec e : said spec -> TextGrammar.answers spec e -> spec = settle e.
Proof.
  intros (_ & S) [-> | (v & E & ->)].
  - destruct spec as [t it v f a d]. unfold settle. cbn [ev_type ev_ion_type ev_value ev_field ev_annot ev_depth] in *. destruct v; try reflexivity; contradiction.
  - destruct spec as [t it v' f a d]. unfold settle. cbn [ev_type ev_ion_type ev_value ev_field ev_annot ev_depth] in *. congruence.
Qed.
Lemma all_settle specs es : Forall said specs -> Forall2 TextGrammar.answers specs es -> specs = map settle es.
Proof. intros S. induction 1 as [|a b l l' H F IH]; cbn [map]; [reflexivity|]. rewrite <- (answers_settle _ _ (Forall_inv S) H), <- (IH (Forall_inv_tail S)). reflexivity. Qed.

Lemma flatten_map {A B} (g : A -> B) t : flatten (tree_map g t) = map g (flatten t).
Proof.
  induction t as [e|s ks f IH] using tree_induction; [reflexivity|]. cbn [tree_map flatten map]. rewrite map_app. cbn [map]. f_equal. f_equal.
  induction IH as [|k ks H HS IH]; cbn [map flat_map]; [reflexivity|]. rewrite H, IH, map_app. reflexivity.
Qed.
Lemma tree_unmap {A B} (g : A -> B) t : forall l r, flatten t ++ r = map g l -> exists t' l', tree_map g t' = t /\ l = flatten t' ++ l' /\ r = map g l'.
Proof.
  induction t as [e|s ks f IH] using tree_induction; intros l r E; destruct l as [|a l]; try discriminate; cbn [flatten app map] in E; injection E as E1 E.
  - exists (Leaf a), l. subst. auto.
  - assert (K : forall l r, flat_map flatten ks ++ r = map g l -> exists ks' l', map (tree_map g) ks' = ks /\ l = flat_map flatten ks' ++ l' /\ r = map g l').
    { clear - IH. induction IH as [|k ks H HS IH]; intros l r E; cbn [flat_map app] in E.
      - exists [], l. auto.
      - rewrite <- app_assoc in E. destruct (H _ _ E) as (k' & l1 & <- & -> & E1). destruct (IH _ _ E1) as (ks' & l2 & <- & -> & ->). exists (k' :: ks'), l2. cbn [map flat_map]. rewrite app_assoc. auto. }
    rewrite <- app_assoc in E. destruct (K _ _ E) as (ks' & l1 & <- & -> & E2). destruct l1 as [|b l1]; [discriminate|]. cbn [app map] in E2. injection E2 as E2 E3. subst.
    exists (Branch a ks' b), l1. cbn [tree_map flatten app]. rewrite <- app_assoc. auto.
Qed.
Lemma trees_unmap {A B} (g : A -> B) ts : forall l, flat_map flatten ts = map g l -> exists ts', map (tree_map g) ts' = ts /\ flat_map flatten ts' = l.
Proof.
  induction ts as [|t ts IH]; intros l E; cbn [flat_map] in E.
  - exists []. destruct l; [auto|discriminate].
  - destruct (tree_unmap g t _ _ E) as (t' & l' & <- & -> & E'). destruct (IH _ E') as (ts' & <- & <-). exists (t' :: ts'). auto.
Qed.
Lemma force_settle e : ev_force (ev_value (settle e)) = ev_force (ev_value e).
Proof. unfold settle. cbn [ev_value]. destruct (ev_value e) as [| |k d|[v|x]|]; try reflexivity. destruct (eval_thunk k d) as [v|x] eqn:E; cbn [ev_force]; rewrite ?E; reflexivity. Qed.
Lemma shaped_settle t : forall d, shaped d (tree_map settle t) <-> shaped d t.
Proof.
  induction t as [e|s ks f IH] using tree_induction; intros d; [reflexivity|]. cbn [tree_map shaped]. rewrite !shaped_kids.
  assert (K : Forall (shaped (d + 1)) (map (tree_map settle) ks) <-> Forall (shaped (d + 1)) ks); [|tauto].
  rewrite Forall_map. rewrite !Forall_forall. rewrite Forall_forall in IH. split; intros H k I; [apply (IH k I)|apply (IH k I)]; auto.
Qed.
Lemma head_settle t : head_of (tree_map settle t) = settle (head_of t).
Proof. destruct t; reflexivity. Qed.
Lemma type_settle t ty : has_type (tree_map settle t) ty = has_type t ty.
Proof. unfold has_type. rewrite head_settle. reflexivity. Qed.
Lemma listed_settle ks : listed (map (tree_map settle) ks) = listed ks.
Proof.
  induction ks as [|[e|s k f] ks IH]; [reflexivity| |exact IH]. cbn [map tree_map listed]. change (Leaf (settle e)) with (tree_map settle (Leaf e)). rewrite type_settle, IH. unfold string_value. rewrite force_settle. reflexivity.
Qed.
Lemma described_settle table ks : forall d, described table d (map (tree_map settle) ks) = described table d ks.
Proof.
  induction ks as [|[e|s k f] ks IH]; intros d; [reflexivity| |exact (IH d)]. cbn [map tree_map described]. change (Leaf (settle e)) with (tree_map settle (Leaf e)). rewrite !type_settle.
  change (ev_field (settle e)) with (ev_field e). destruct (ev_field e) as [n|]; [|reflexivity]. unfold string_value, int_value. rewrite force_settle. destruct (resolve_token table n) as [r|x]; [|reflexivity]. cbn [bind].
  match goal with |- bind ?a _ = bind ?a _ => destruct a as [d'|x]; [|reflexivity] end. cbn [bind]. apply IH.
Qed.
Lemma imported_settle cat table ks : imported cat table (map (tree_map settle) ks) = imported cat table ks.
Proof.
  induction ks as [|[e|s k f] ks IH]; [reflexivity|exact IH|]. cbn [map tree_map imported]. change (Branch (settle s) (map (tree_map settle) k) (settle f)) with (tree_map settle (Branch s k f)). rewrite type_settle, described_settle, IH. reflexivity.
Qed.
Lemma declared_settle cat table ks : forall syms imps, declared cat table syms imps (map (tree_map settle) ks) = declared cat table syms imps ks.
Proof.
  induction ks as [|t ks IH]; intros syms imps; [reflexivity|]. cbn [map declared]. rewrite !type_settle. unfold name_in. rewrite head_settle. change (ev_field (settle (head_of t))) with (ev_field (head_of t)).
  match goal with |- bind ?a _ = bind ?a _ => destruct a as [n|x]; [|reflexivity] end. cbn [bind]. destruct t as [e|s k f]; cbn [tree_map].
  - unfold symbol_value. rewrite force_settle. destruct (is_text n TEXT_IMPORTS && has_type (Leaf e) TSymbol); [|apply IH].
    match goal with |- bind ?a _ = bind ?a _ => destruct a as [[tok|]|x]; try reflexivity end. cbn [bind]. destruct (resolve_token table tok) as [r|x]; [|reflexivity]. cbn [bind]. destruct (is_text (tk_text r) TEXT_ION_SYMBOL_TABLE); apply IH.
  - rewrite listed_settle, imported_settle. destruct (is_text n TEXT_SYMBOLS && has_type (Branch s k f) TList).
    + destruct (listed k) as [ss|x]; [|reflexivity]. cbn [bind]. apply IH.
    + destruct (is_text n TEXT_IMPORTS && has_type (Branch s k f) TList); [|apply IH]. destruct (imported cat table k) as [ss|x]; [|reflexivity]. cbn [bind]. apply IH.
Qed.
Lemma version_settle e : is_version_1_0 (settle e) = is_version_1_0 e.
Proof. unfold is_version_1_0, settle. cbn [ev_ion_type ev_value ev_field ev_annot ev_depth]. destruct (ev_ion_type e); [reflexivity|]. destruct (ev_value e) as [| |k d|[v|x]|]; try reflexivity. destruct (eval_thunk k d); reflexivity. Qed.
Lemma system_settle cat table t : system_value cat table (tree_map settle t) = system_value cat table t.
Proof.
  unfold system_value. rewrite type_settle. destruct t as [e|s ks f]; cbn [tree_map].
  - unfold symbol_value. rewrite force_settle, version_settle. reflexivity.
  - rewrite declared_settle. reflexivity.
Qed.
Lemma tree_map_map {A B C} (g : A -> B) (h : B -> C) t : tree_map h (tree_map g t) = tree_map (fun x => h (g x)) t.
Proof. induction t as [e|s ks f IH] using tree_induction; [reflexivity|]. cbn [tree_map]. f_equal. rewrite map_map. apply map_ext_in. intros k I. rewrite Forall_forall in IH. exact (IH k I). Qed.
Lemma view_settle cat ts : forall table us fin, user_view cat table ts = (us, fin) -> user_view cat table (map (tree_map settle) ts) = (map (tree_map usettle) us, fin).
Proof.
  induction ts as [|t ts IH]; intros table us fin; cbn [map user_view].
  - intros [= <- <-]. reflexivity.
  - rewrite system_settle. destruct (system_value cat table t) as [[table'|]|x]; [apply IH| |intros [= <- <-]; reflexivity].
    destruct (user_view cat table ts) as [us0 fin0] eqn:E. intros [= <- <-]. rewrite (IH _ _ _ E). cbn [map]. rewrite !tree_map_map. reflexivity.
Qed.

(** * What the events mean *)
Lemma means_settle u : forall v, means (tree_map usettle u) v -> means u v.
Proof.
  induction u as [e|s ks f IH] using tree_induction; intros v M.
  - inversion M as [u0 t an TY AN VA|u0 an k x TY AN VA SY|u0 t an sc TY NT AN VA CF| |]; subst.
    + apply means_null; [exact TY|exact AN|]. unfold valued in *. cbn [usettle me_ev] in VA. rewrite force_settle in VA. exact VA.
    + eapply means_symbol; [exact TY|exact AN| |exact SY]. unfold valued in *. cbn [usettle me_ev] in VA. rewrite force_settle in VA. exact VA.
    + apply means_scalar; [exact TY|exact NT|exact AN| |exact CF]. unfold valued in *. cbn [usettle me_ev] in VA. rewrite force_settle in VA. exact VA.
  - cbn [tree_map] in M. inversion M as [| | |u0 ks0 f0 t an l TY TT AN KS|u0 ks0 f0 an l TY AN KS]; subst.
    + apply means_sequence; [exact TY|exact TT|exact AN|]. clear - IH KS. revert l KS. induction IH as [|k ks H HS IH]; intros l KS; inversion KS; subst; constructor; auto.
    + apply means_struct; [exact TY|exact AN|]. clear - IH KS. revert l KS. induction IH as [|k ks H HS IH]; intros l KS; inversion KS as [|? ? ? ? [C M] KS']; subst; constructor; auto. split; [|auto]. destruct k; exact C.
Qed.

(** * What the user's trees are like *)
Lemma proper_readable table t : forall d, shaped d t -> proper t -> (match t with Leaf e => ev_type e = EScalar | _ => True end) -> 0 <= d -> readable (tree_map (tagged table) t).
Proof.
  induction t as [e|s ks f IH] using tree_induction; intros d SH P L D; cbn [tree_map readable].
  - split; [exact L|]. destruct P as [-> | (ty & v & f & an & d' & -> & P)]; [discriminate L|]. exists ty. split; [reflexivity|]. destruct v as [x|]; [|left; reflexivity]. right. exists x. split; [reflexivity|]. tauto.
  - destruct SH as (T & _ & F & _ & _ & CT & KK). apply shaped_kids in KK. destruct P as (V1 & V2 & (F2 & A2) & NM & PK). apply proper_kids in PK.
    split; [exact T|]. split; [exact F|]. split; [exact V1|]. split; [exact V2|]. split; [exact F2|]. split; [exact A2|].
    assert (HF : forall k, field_of (tree_map (tagged table) k) = ev_field (head_of k)) by (intros []; reflexivity). split.
    + destruct CT as [CT|[CT|CT]]; rewrite CT in NM; cbn in NM; [right|right|left]; (split; [first [left; exact CT | right; exact CT | exact CT]|]); apply Forall_map; eapply Forall_impl; [|exact NM| |exact NM| |exact NM]; intros k H; cbv beta in *; rewrite HF; exact H.
    + apply readable_kids. apply Forall_map. rewrite Forall_forall in *. intros k I. apply (IH k I (d + 1) (KK k I) (PK k I)); [|lia]. specialize (KK k I). destruct k as [e|]; [|exact Logic.I]. destruct KK as (_ & [TE|(_ & X)]); [exact TE|lia].
Qed.
Lemma view_readable cat table ts us fin : Forall (shaped 0) ts -> Forall proper ts -> unnamed ts -> user_view cat table ts = (us, fin) -> Forall readable us /\ Forall (fun t => field_of t = None) us.
Proof.
  intros SH PR UN UV. pose proof (view_user _ _ _ _ _ UV) as V. unfold unnamed in UN. rewrite !Forall_forall in *. split; intros u I; destruct (V u I) as (t & tb & -> & J & SV).
  - apply (proper_readable tb t 0 (SH t J) (PR t J)); [|lia]. pose proof (SH t J) as S. destruct t as [e|]; [|exact Logic.I]. cbn [system_value] in SV. destruct S as (_ & [T|(T & _)]); [exact T|]. rewrite T in SV. destruct (is_version_1_0 e); discriminate.
  - specialize (UN t J). destruct t; exact UN.
Qed.
(** Thunks make no difference. *)
Lemma valued_settle u v : valued (usettle u) v <-> valued u v.
Proof. unfold valued. cbn [usettle me_ev]. rewrite force_settle. reflexivity. Qed.
Lemma field_settle t : field_of (tree_map usettle t) = field_of t.
Proof. destruct t; reflexivity. Qed.
Lemma none_settle e : ev_value (settle e) = EvNone -> ev_value e = EvNone.
Proof. unfold settle. cbn [ev_value]. destruct (ev_value e) as [| |k d|[v|x]|]; auto; try discriminate. destruct (eval_thunk k d); discriminate. Qed.
Lemma whole_settle u : whole_value (usettle u) -> whole_value u.
Proof.
  intros (ty & T & V). exists ty. split; [exact T|]. destruct V as [V|(s & V & R)]; [left; apply valued_settle; exact V|]. right. exists s. split; [apply valued_settle; exact V|exact R].
Qed.
Lemma readable_settle t : readable (tree_map usettle t) -> readable t.
Proof.
  induction t as [u|u ks f IH] using tree_induction; cbn [tree_map readable]; intros R.
  - destruct R as (T & W). split; [exact T|apply whole_settle; exact W].
  - destruct R as (T1 & T2 & V1 & V2 & F2 & A2 & KIND & KK). apply readable_kids in KK. split; [exact T1|]. split; [exact T2|]. split; [apply none_settle; exact V1|]. split; [apply none_settle; exact V2|].
    split; [exact F2|]. split; [exact A2|]. split.
    + destruct KIND as [(TY & NM)|(TY & NM)]; [left|right]; (split; [exact TY|]); rewrite Forall_map in NM; eapply Forall_impl; [|exact NM| |exact NM]; intros k H; cbv beta in *; rewrite field_settle in H; exact H.
    + apply readable_kids. rewrite Forall_map in KK. rewrite Forall_forall in *. auto.
Qed.
Lemma known_settle u : known (usettle u) <-> known u.
Proof.
  unfold known. cbn [usettle me_ev me_table settle ev_annot ev_field].
  assert (E : forall k, valued (usettle u) (Some (VSymbol k)) <-> valued u (Some (VSymbol k))) by (intros; apply valued_settle).
  split; intros (A & B & C); (split; [exact A|]); (split; [exact B|]); intros k V; apply C, E, V.
Qed.
Lemma all_known_settle us : Forall known (flat_map flatten (map (tree_map usettle) us)) <-> Forall known (flat_map flatten us).
Proof.
  rewrite !Forall_flat_map, Forall_map. rewrite !Forall_forall. split; intros H t I; specialize (H t I); cbv beta in *; [rewrite flatten_map, Forall_map in H|rewrite flatten_map, Forall_map]; (eapply Forall_impl; [|exact H]); intros u; apply known_settle.
Qed.
