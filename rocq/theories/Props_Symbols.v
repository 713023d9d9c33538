(** Property theorems C22-C26: symbol tables and the catalog.
    [built st]: [st] was constructed by the public constructor and then interned into. *)
From Coq Require Import String.
From Verif Require Import Base BaseFacts CoreModel SymbolsModel SymbolsProofs.

(** C22.  Ids are exactly 1..max_id ... *)
Theorem C22_ids_dense : forall st, built st ->
  (forall k, 1 <= k <= st_max st -> exists t, item_sid st k = Ok t /\ tk_sid t = Some k) /\
  (forall k, k < 0 \/ st_max st < k -> item_sid st k = Err KeyError) /\
  item_sid st 0 = Ok (mktok None (Some 0) None) /\
  zlen (st_syms st) = st_max st.
Proof.
  intros st B. pose proof (built_ok st B) as T. unfold item_sid. split; [|split; [|split]].
  - intros k K. destruct (proj1 (sid_lookup st None k T) K) as (t & -> & _ & S). eauto.
  - intros k K. rewrite (proj2 (sid_lookup st None k T) K). reflexivity.
  - reflexivity.
  - destruct T as (_ & _ & M). congruence.
Qed.
Print Assumptions C22_ids_dense.

(** ... a text finds the lowest id that has it (and nothing when no id has it) ... *)
Theorem C22_first_definition_wins : forall st x, built st ->
  (forall t, item_text st x = Ok t <->
     exists k, 1 <= k <= st_max st /\ item_sid st k = Ok t /\ tk_text t = Some x /\
       forall j u, 1 <= j < k -> item_sid st j = Ok u -> tk_text u <> Some x) /\
  (item_text st x = Err KeyError <-> forall k t, 1 <= k <= st_max st -> item_sid st k = Ok t -> tk_text t <> Some x).
Proof.
  intros st x B. pose proof (built_ok st B) as T.
  assert (G : forall k t, item_sid st k = Ok t <-> get_sid st k None = Some t).
  { intros k t. unfold item_sid. destruct (get_sid st k None); split; congruence. }
  assert (P : forall t, item_text st x = Ok t <->
     exists k, 1 <= k <= st_max st /\ item_sid st k = Ok t /\ tk_text t = Some x /\
       forall j u, 1 <= j < k -> item_sid st j = Ok u -> tk_text u <> Some x).
  { intros t. unfold item_text. transitivity (get_text st x None = Some t); [destruct (get_text st x None); split; congruence|].
    rewrite (text_lookup st None x t T). split; intros (k & K & H1 & H2 & H3); exists k; (split; [exact K|]); (split; [apply G; exact H1|]);
      (split; [exact H2|]); intros j u J U; apply (H3 j u J); apply G; exact U. }
  split; [exact P|]. split.
  - intros H k t K S E.
    assert (exists i u, nth_error (st_syms st) i = Some u /\ has_text x u = true) as (i & u & N & F).
    { apply G in S. destruct (proj1 (sid_lookup st None k T) K) as (t' & S' & N & _). rewrite S in S'. injection S' as <-.
      exists (Z.to_nat (k - 1)), t. split; [exact N|]. apply has_text_eq. exact E. }
    unfold item_text, get_text in H. destruct T as (M & _). rewrite M in H. destruct (find (has_text x) (st_syms st)) eqn:FN; [discriminate|].
    apply nth_error_In in N. rewrite (find_none _ _ FN u N) in F. discriminate.
  - intros H. destruct (item_text st x) as [t|e] eqn:E.
    + destruct (proj1 (P t) eq_refl) as (k & K & S & X & _). exfalso. exact (H k t K S X).
    + unfold item_text in E. destruct (get_text st x None); congruence.
Qed.
Print Assumptions C22_first_definition_wins.

(** ... interning returns the existing token or appends exactly one ... *)
Theorem C22_intern : forall st x, built st ->
  if is_shared (st_type st) then intern st x = Err TypeError
  else exists t st', intern st x = Ok (t, st') /\ tk_text t = Some x /\
    match item_text st x with
    | Ok u => t = u /\ st' = st
    | Err _ => t = mktok (Some x) (Some (st_max st + 1)) None /\ st_max st' = st_max st + 1 /\ item_text st' x = Ok t
    end.
Proof.
  intros st x B. pose proof (built_ok st B) as T. pose proof (intern_spec st x T) as I. destruct (is_shared (st_type st)); [exact I|].
  destruct I as (t & st' & E & T' & X & C). exists t, st'. split; [exact E|]. split; [exact X|]. unfold item_text.
  destruct (get_text st x None) as [u|] eqn:G; [exact C|]. destruct C as (A & M & EX). split; [exact A|]. split; [exact M|].
  assert (G' : get_text st' x None = Some t).
  { unfold get_text. destruct T' as (M' & _). rewrite M'. destruct EX as (_ & _ & _ & _ & _ & ->). unfold get_text in G. destruct T as (M0 & _). rewrite M0 in G.
    rewrite find_app, G. cbn [find]. replace (has_text x t) with true by (symmetry; apply has_text_eq; exact X). reflexivity. }
  rewrite G'. reflexivity.
Qed.
Print Assumptions C22_intern.

(** ... and no interning history changes an existing mapping. *)
Theorem C22_stable : forall st xs st', built st -> intern_all st xs = Ok st' ->
  st_max st <= st_max st' /\
  (forall k, 1 <= k <= st_max st -> item_sid st' k = item_sid st k) /\
  (forall x t, item_text st x = Ok t -> item_text st' x = Ok t).
Proof.
  intros st xs st' B I. pose proof (built_ok st B) as T. destruct (intern_all_ok xs st st' T I) as (T' & m & X & _).
  destruct (extends_keeps st st' m None T T' X) as [K1 K2]. split; [|split].
  - destruct T as (_ & _ & ->), T' as (_ & _ & ->). destruct X as (_ & _ & _ & _ & _ & ->). rewrite zlen_app. pose proof (zlen_nonneg m). lia.
  - intros k K. unfold item_sid. rewrite K1 by exact K. reflexivity.
  - intros x t. unfold item_text. destruct (get_text st x None) as [u|] eqn:G; [|discriminate]. intros E. injection E as ->.
    rewrite (K2 x t G). reflexivity.
Qed.
Print Assumptions C22_stable.

(** Finding: [get(text, default)] ignores the default (symbols.py:285). *)
Theorem C22_text_default_refuted : forall st x d, get_text st x d = get_text st x None.
Proof. reflexivity. Qed.

(** Invalid combinations of arguments raise ValueError, the others never fail. *)
Theorem C22_constructor_checks : forall ty symbols name version imports sub,
  (exists st, st_new ty symbols name version imports sub = Ok st) <->
  match ty with
  | SystemTable => imports = None /\ name = Some TEXT_ION /\ exists v, version = Some v /\ 0 < v
  | SharedTable => exists n v, name = Some n /\ version = Some v /\ 0 < v
  | LocalTable => name = None /\ version = None
  end.
Proof.
  intros ty symbols name version imports sub. pose proof (new_checks ty symbols name version imports sub) as C. unfold legal_args in C.
  destruct (st_new _ _ _ _ _ _) as [st|e]; [split; eauto|]. destruct C as [_ C]. split; [intros [? ?]; discriminate|contradiction].
Qed.
Print Assumptions C22_constructor_checks.

(** C23.  The contents (text and import location) of a new local table, in id order. *)
Theorem C23_local_layout : forall imports symbols st,
  Forall (fun im => st_type im <> LocalTable) imports ->
  local_symbol_table (Some imports) symbols = Ok st ->
  built st /\
  map (fun t => (tk_text t, tk_loc t)) (st_syms st) =
    map (fun t => (tk_text t, tk_loc t)) (system_tokens ++ flat_map st_syms imports) ++ map (fun x => (x, None)) symbols.
Proof.
  intros imports symbols st IM H. split; [exists LocalTable, symbols, None, None, (Some imports), false, st, []; split; [exact H|reflexivity]|].
  unfold local_symbol_table in H. destruct (new_layout _ _ _ _ _ _ _ H) as (_ & _ & _ & _ & _ & _ & _ & L & _).
  specialize (L eq_refl). unfold content in L. change content_of with (fun t => (tk_text t, tk_loc t)) in L. rewrite L, map_app, <- app_assoc. do 3 f_equal.
  clear - IM. induction IM as [|im ims N _ IH]; [reflexivity|]. cbn [flat_map]. rewrite IH. f_equal. unfold imported, takes_import. cbn [is_shared].
  destruct (st_type im); try congruence; cbn [is_local negb orb]; induction (st_syms im) as [|t l IHl]; cbn [filter]; congruence.
Qed.
Print Assumptions C23_local_layout.
Theorem C23_system_ids : map (fun t => (tk_text t, tk_sid t)) system_tokens =
  [(Some TEXT_ION, Some 1); (Some TEXT_ION_1_0, Some 2); (Some TEXT_ION_SYMBOL_TABLE, Some 3); (Some TEXT_NAME, Some 4);
   (Some TEXT_VERSION, Some 5); (Some TEXT_IMPORTS, Some 6); (Some TEXT_SYMBOLS, Some 7); (Some TEXT_MAX_ID, Some 8);
   (Some TEXT_ION_SHARED_SYMBOL_TABLE, Some 9)].
Proof. reflexivity. Qed.

(** C24. *)
Theorem C24_substitute_size : forall table version max_id, built table -> st_type table = SharedTable ->
  (0 < version -> 0 <= max_id -> exists st, substitute_symbol_table table version max_id = Ok st) /\
  forall st, substitute_symbol_table table version max_id = Ok st ->
    st_name st = st_name table /\ st_version st = Some version /\ st_sub st = true /\ st_max st = max_id /\
    (forall k t, 1 <= k <= max_id -> k <= st_max table -> item_sid table k = Ok t ->
       exists u, item_sid st k = Ok u /\ tk_text u = tk_text t) /\
    (forall k, st_max table < k <= max_id -> exists u, item_sid st k = Ok u /\ tk_text u = None).
Proof.
  intros table version max_id B TY. pose proof (built_ok _ B) as T.
  assert (NM : st_name table <> None).
  { destruct B as (ty & sy & name & ver & im & sub & st0 & xs & N & I). destruct (new_layout _ _ _ _ _ _ _ N) as (T0 & A & NA & _).
    destruct (intern_all_ok xs st0 table T0 I) as (_ & m & (X1 & X2 & _) & _). pose proof (new_checks ty sy name ver im sub) as CK. rewrite N in CK.
    rewrite X2, NA. replace ty with SharedTable in CK by congruence. destruct CK as (n & v & -> & _). discriminate. }
  pose proof (substitute_spec table version max_id T TY NM) as SP. destruct (substitute_symbol_table table version max_id) as [st|e].
  - destruct SP as (V & M & T' & _ & A1 & A2 & A3 & A4 & G). destruct (st_name table) as [n|]; [|congruence].
    split; [eauto|]. intros s E. injection E as <-. do 4 (split; [assumption|]). unfold item_sid. split.
    + intros k t K KL. rewrite (G k n K eq_refl). destruct (get_sid table k None) as [u|]; [|discriminate]. intros E. injection E as <-. eexists. split; reflexivity.
    + intros k K. pose proof T as (_ & _ & TM). pose proof (zlen_nonneg (st_syms table)). rewrite (G k n ltac:(lia) eq_refl).
      rewrite (proj2 (sid_lookup table None k T)) by lia. eexists. split; reflexivity.
  - destruct SP as [_ SP]. split; [intros; lia|discriminate].
Qed.
Print Assumptions C24_substitute_size.

Theorem C24_placeholder_size : forall name version max_id, 0 < version -> 0 <= max_id ->
  exists st, placeholder_symbol_table (Some name) version max_id = Ok st /\
    st_name st = Some name /\ st_version st = Some version /\ st_sub st = true /\ st_max st = max_id /\
    forall k, 1 <= k <= max_id -> item_sid st k = Ok (mktok None (Some k) (Some (mkloc name k))).
Proof.
  intros name version max_id V M. pose proof (placeholder_spec name version max_id) as SP.
  destruct (placeholder_symbol_table (Some name) version max_id) as [st|e]; [|lia]. destruct SP as (_ & _ & _ & _ & A & B & C & D & G).
  exists st. split; [reflexivity|]. do 4 (split; [assumption|]). intros k K. unfold item_sid. rewrite (G k K). reflexivity.
Qed.
Print Assumptions C24_placeholder_size.

(** C25.  [latest h name v] is the table last registered under that name and version in the history
    [h]; [answer] lists the cases. *)
Theorem C25_resolution : forall h c name version max_id,
  Forall (fun t => built t /\ named_table t) h -> register_all catalog_new h = Ok c ->
  answer h name version max_id (resolve c name version max_id).
Proof. intros h c name version max_id N R. apply resolve_answers; [|exact R]. eapply Forall_impl; [|exact N]. intros t [_ Q]. exact Q. Qed.
Print Assumptions C25_resolution.

Theorem C25_identity_of_the_result : forall h c name version max_id t,
  Forall (fun t => built t /\ named_table t) h -> register_all catalog_new h = Ok c ->
  resolve c name version max_id = Ok t ->
  st_name t = Some name /\ st_version t = Some version /\ (forall m, max_id = Some m -> st_max t = m).
Proof.
  intros h c name version max_id t N R H. destruct (resolved_identity h c name version max_id t) as (A & B & C & _); auto.
  eapply Forall_impl; [|exact N]. intros u [Q1 Q2]. split; [exact Q2|apply built_ok; exact Q1].
Qed.
Print Assumptions C25_identity_of_the_result.

(** Only shared, non-system, non-substitute tables are registered. *)
Theorem C25_register_checks : forall c t,
  (exists c', register c t = Ok c') <-> (st_type t = SharedTable /\ st_sub t = false).
Proof.
  intros c t. unfold register. destruct (st_type t); cbn [is_system is_shared negb]; destruct (st_sub t);
    (split; [intros [? ?]; try discriminate; auto|intros [? ?]; try discriminate; eauto]).
Qed.

(** C26.  Appending to a local table ([imports: $ion_symbol_table]) keeps every id with the same token, new
    symbols take the following ids; provided no imported shared table is itself named "$ion". *)
Theorem C26_append_keeps_ids_partial : forall imports symbols0 st0 xs cur symbols st,
  Forall sound_import imports ->
  local_symbol_table (Some imports) symbols0 = Ok st0 -> intern_all st0 xs = Ok cur ->
  local_symbol_table (Some [cur]) symbols = Ok st ->
  st_max st = st_max cur + zlen symbols /\
  (forall k, 1 <= k <= st_max cur -> item_sid st k = item_sid cur k) /\
  (forall i x, nth_error symbols i = Some x ->
     item_sid st (st_max cur + 1 + Z.of_nat i) = Ok (mktok x (Some (st_max cur + 1 + Z.of_nat i)) None)).
Proof.
  intros imports symbols0 st0 xs cur symbols st IM N I H. destruct (local_more _ _ _ _ _ IM N I) as (TY & T & more & SY & NI).
  destruct (append_keeps cur more symbols st TY T SY NI H) as (_ & M & K & L). split; [exact M|]. unfold item_sid. split.
  - intros k R. rewrite K by exact R. reflexivity.
  - intros i x X. rewrite (L i x X). reflexivity.
Qed.
Print Assumptions C26_append_keeps_ids_partial.

(** Appending repeatedly: each result can be appended to again. *)
Theorem C26_append_chain : forall cur more symbols st, st_type cur = LocalTable -> table_ok cur ->
  st_syms cur = system_tokens ++ more -> Forall not_ion more -> local_symbol_table (Some [cur]) symbols = Ok st ->
  st_type st = LocalTable /\ table_ok st /\ exists more', st_syms st = system_tokens ++ more' /\ Forall not_ion more'.
Proof.
  intros cur more symbols st TY T SY NI H. unfold local_symbol_table in H.
  destruct (new_layout _ _ _ _ _ _ _ H) as (T' & TY' & _ & _ & _ & _ & _ & L & _). specialize (L eq_refl). split; [exact TY'|]. split; [exact T'|].
  destruct (append_keeps cur more symbols st TY T SY NI H) as (_ & M & K & K2).
  exists (skipn 9 (st_syms st)). assert (E : firstn 9 (st_syms st) = system_tokens).
  { apply nth_error_ext. intros i. destruct (Nat.lt_ge_cases i 9) as [LT|GE].
    - rewrite nth_error_firstn_lt by exact LT. assert (C : nth_error (content (st_syms st)) i = nth_error (content system_tokens) i) by (rewrite L; apply nth_error_app1; exact LT).
      unfold content in C. rewrite !nth_error_map in C. destruct T' as (_ & D & _).
      destruct (nth_error (st_syms st) i) as [[x s l]|] eqn:E1, (nth_error system_tokens i) as [[x2 s2 l2]|] eqn:E2; cbn in C; try discriminate; [|reflexivity].
      pose proof (D _ _ E1) as D1. pose proof (system_dense _ _ E2) as D2. cbn in D1, D2, C. injection C as -> ->. congruence.
    - transitivity (@None token); [apply nth_error_None; rewrite firstn_length; lia|symmetry; apply nth_error_None; exact GE]. }
  split; [rewrite <- E, firstn_skipn; reflexivity|]. apply Forall_forall. intros t IN.
  assert (IC : In (content_of t) (skipn 9 (content (st_syms st)))) by (unfold content; rewrite skipn_map; apply in_map; exact IN).
  rewrite L in IC. change (skipn 9 (content system_tokens ++ ?x)) with x in IC. cbn [flat_map] in IC. rewrite app_nil_r in IC.
  apply in_app_or in IC. unfold not_ion. destruct IC as [IC|IC].
  - apply in_map_iff in IC. destruct IC as (u & EU & IU). unfold imported in IU. cbn [is_shared] in IU. apply filter_In in IU. destruct IU as [_ TK].
    unfold takes_import in TK. rewrite TY in TK. cbn [is_local negb orb] in TK. injection EU as _ EL. rewrite <- EL.
    destruct (tk_loc u) as [loc|]; [|exact Logic.I]. intros Q. rewrite Q, zlist_eqb_refl in TK. discriminate.
  - apply in_map_iff in IC. destruct IC as (x & EX & _). injection EX as _ EL. rewrite <- EL. exact Logic.I.
Qed.
Print Assumptions C26_append_chain.

(** With an import named "$ion" the append loses its symbols (symbols.py:183-190). *)
Theorem C26_ion_named_import_refuted :
  exists sh cur st, shared_symbol_table TEXT_ION 1 [Some (txt "a")] None = Ok sh /\
    local_symbol_table (Some [sh]) [Some (txt "b")] = Ok cur /\ local_symbol_table (Some [cur]) [] = Ok st /\
    item_sid cur 10 = Ok (mktok (Some (txt "a")) (Some 10) (Some (mkloc TEXT_ION 1))) /\
    item_sid st 10 = Ok (mktok (Some (txt "b")) (Some 10) None).
Proof. do 3 eexists. repeat split; vm_compute; reflexivity. Qed.

(** Cases. *)
Definition sample_shared : symtab := match shared_symbol_table (txt "test") 3 [Some (txt "a"); None; Some (txt "b"); Some (txt "a")] None with
  Ok st => st | Err _ => mkst SystemTable None None None false 0 [] [] end.
Definition sample_local : symtab := match local_symbol_table (Some [sample_shared]) [Some (txt "x"); Some (txt "a")] with
  Ok st => st | Err _ => mkst SystemTable None None None false 0 [] [] end.
Example sample_tables :
  built sample_shared /\ built sample_local /\ sound_import sample_shared /\ st_max sample_local = 15 /\
  item_text sample_local (txt "a") = Ok (mktok (Some (txt "a")) (Some 10) (Some (mkloc (txt "test") 1))) /\
  item_text sample_local (txt "x") = Ok (mktok (Some (txt "x")) (Some 14) None) /\
  item_sid sample_local 15 = Ok (mktok (Some (txt "a")) (Some 15) None) /\
  (exists t st', intern sample_local (txt "new") = Ok (t, st') /\ tk_sid t = Some 16) /\
  (exists c st, register_all catalog_new [sample_shared] = Ok c /\ resolve c (txt "test") 3 None = Ok sample_shared /\
     resolve c (txt "test") 2 (Some 6) = Ok st /\ st_max st = 6 /\ item_sid st 3 = Ok (mktok (Some (txt "b")) (Some 3) (Some (mkloc (txt "test") 3)))).
Proof.
  assert (B1 : built sample_shared) by (exists SharedTable, [Some (txt "a"); None; Some (txt "b"); Some (txt "a")], (Some (txt "test")), (Some 3), None, false, sample_shared, []; split; vm_compute; reflexivity).
  split; [exact B1|]. split; [exists LocalTable, [Some (txt "x"); Some (txt "a")], None, None, (Some [sample_shared]), false, sample_local, []; split; vm_compute; reflexivity|].
  split; [split; [exact B1|split; discriminate]|].
  do 4 (split; [vm_compute; reflexivity|]). split; do 2 eexists; repeat split; vm_compute; reflexivity.
Qed.
