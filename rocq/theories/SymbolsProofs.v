(** Facts about symbol tables and catalogs. *)
From Verif Require Import Base BaseFacts CoreModel SymbolsModel.

(** * Dictionaries *)
Section Dict.
Context {K V : Type} (eqb : K -> K -> bool) (eqb_ok : forall a b, eqb a b = true <-> a = b).
Lemma dict_get_set_same (d : dict K V) k v : dict_get eqb (dict_set eqb d k v) k = Some v.
Proof.
  induction d as [|[k' v'] d IH]; cbn [dict_set dict_get].
  - destruct (eqb k k) eqn:E; [reflexivity|]. assert (eqb k k = true) by (apply eqb_ok; reflexivity). congruence.
  - destruct (eqb k k') eqn:E; cbn [dict_get]; rewrite E; [reflexivity|exact IH].
Qed.
Lemma dict_get_set_other (d : dict K V) k k2 v : k2 <> k -> dict_get eqb (dict_set eqb d k v) k2 = dict_get eqb d k2.
Proof.
  intros N. induction d as [|[k' v'] d IH]; cbn [dict_set dict_get].
  - destruct (eqb k2 k) eqn:E; [apply eqb_ok in E; contradiction|reflexivity].
  - destruct (eqb k k') eqn:E; cbn [dict_get].
    + apply eqb_ok in E. subst k'. destruct (eqb k2 k) eqn:E2; [apply eqb_ok in E2; contradiction|reflexivity].
    + destruct (eqb k2 k'); [reflexivity|exact IH].
Qed.
Lemma dict_get_in (d : dict K V) k v : dict_get eqb d k = Some v -> In (k, v) d.
Proof.
  induction d as [|[k' v'] d IH]; cbn [dict_get]; [discriminate|]. destruct (eqb k k') eqn:E.
  - intros H. injection H as ->. apply eqb_ok in E. subst. left. reflexivity.
  - intros H. right. auto.
Qed.
Lemma in_dict_get (d : dict K V) k v : In (k, v) d -> exists v', dict_get eqb d k = Some v'.
Proof.
  induction d as [|[k' v'] d IH]; cbn [dict_get]; [contradiction|]. destruct (eqb k k') eqn:E; [eauto|].
  intros [H|H]; [|auto]. injection H as -> ->. assert (eqb k k = true) by (apply eqb_ok; reflexivity). congruence.
Qed.
Lemma dict_get_cons_none (d : dict K V) k : dict_get eqb d k = None -> ~ In k (map fst d).
Proof.
  intros H I. apply in_map_iff in I. destruct I as ([k' v] & E & I). cbn in E. subst k'. destruct (in_dict_get _ _ _ I). congruence.
Qed.
End Dict.

Lemma zlist_eqb_ok a b : zlist_eqb a b = true <-> a = b.
Proof. apply zlist_eqb_eq. Qed.
Lemma zlist_eqb_refl a : zlist_eqb a a = true.
Proof. apply zlist_eqb_eq. reflexivity. Qed.
Lemma zlist_eqb_sym a b : zlist_eqb a b = zlist_eqb b a.
Proof.
  destruct (zlist_eqb a b) eqn:E; symmetry.
  - apply zlist_eqb_eq in E. subst. apply zlist_eqb_refl.
  - destruct (zlist_eqb b a) eqn:F; [|reflexivity]. apply zlist_eqb_eq in F. subst. rewrite zlist_eqb_refl in E. discriminate.
Qed.
Lemma zeqb_ok a b : (a =? b) = true <-> a = b.
Proof. apply Z.eqb_eq. Qed.

Lemma nth_error_firstn_lt {A} (l : list A) : forall n i, (i < n)%nat -> nth_error (firstn n l) i = nth_error l i.
Proof. induction l as [|a l IH]; intros [|n] [|i] H; cbn; try reflexivity; try lia. apply IH. lia. Qed.
Lemma nth_error_ext {A} (l : list A) : forall l', (forall i, nth_error l i = nth_error l' i) -> l = l'.
Proof.
  induction l as [|a l IH]; intros [|b l'] H.
  - reflexivity.
  - specialize (H 0%nat). discriminate.
  - specialize (H 0%nat). discriminate.
  - pose proof (H 0%nat) as H0. injection H0 as ->. f_equal. apply IH. intros i. exact (H (S i)).
Qed.

(** * The table invariant *)

Definition has_text (x : text) (t : token) : bool := opt_eqb zlist_eqb (tk_text t) (Some x).
(** The text index finds the first token with that text. *)
Definition map_ok (st : symtab) : Prop := forall x, dict_get zlist_eqb (st_map st) x = find (has_text x) (st_syms st).
(** SIDs count up from one. *)
Definition dense (l : list token) : Prop := forall i t, nth_error l i = Some t -> tk_sid t = Some (Z.of_nat i + 1).
Definition table_ok (st : symtab) : Prop := map_ok st /\ dense (st_syms st) /\ st_max st = zlen (st_syms st).

Lemma find_app {A} (f : A -> bool) l1 l2 : find f (l1 ++ l2) = match find f l1 with Some x => Some x | None => find f l2 end.
Proof. induction l1 as [|a l1 IH]; [reflexivity|]. cbn [app find]. destruct (f a); [reflexivity|exact IH]. Qed.

Lemma st_add_map st t : map_ok st -> map_ok (st_add st t).
Proof.
  intros M x. unfold st_add; cbn [st_map st_syms]. rewrite find_app, <- (M x). cbn [find]. unfold has_text.
  destruct (tk_text t) as [y|] eqn:T; cbn [opt_eqb].
  - destruct (dict_get zlist_eqb (st_map st) y) as [u|] eqn:G.
    + destruct (dict_get zlist_eqb (st_map st) x) as [w|] eqn:G2; [reflexivity|].
      destruct (zlist_eqb y x) eqn:E; [apply zlist_eqb_eq in E; subst; congruence|reflexivity].
    + destruct (zlist_eqb y x) eqn:E.
      * apply zlist_eqb_eq in E. subst y. rewrite (dict_get_set_same zlist_eqb zlist_eqb_ok), G. reflexivity.
      * rewrite (dict_get_set_other zlist_eqb zlist_eqb_ok); [destruct (dict_get zlist_eqb (st_map st) x); reflexivity|].
        intros ->. rewrite zlist_eqb_refl in E. discriminate.
  - destruct (dict_get zlist_eqb (st_map st) x); reflexivity.
Qed.

Lemma dense_snoc l t : dense l -> tk_sid t = Some (zlen l + 1) -> dense (l ++ [t]).
Proof.
  intros D S i u H. destruct (Nat.lt_ge_cases i (length l)).
  - rewrite nth_error_app1 in H by auto. auto.
  - rewrite nth_error_app2 in H by auto. destruct (i - length l)%nat as [|k] eqn:E; [|destruct k; discriminate].
    cbn in H. injection H as <-. replace i with (length l) by lia. exact S.
Qed.

(** [st'] is [st] with the tokens [more] appended, everything else but the size unchanged. *)
Definition extends (st st' : symtab) (more : list token) : Prop :=
  st_type st' = st_type st /\ st_name st' = st_name st /\ st_version st' = st_version st /\
  st_imports st' = st_imports st /\ st_sub st' = st_sub st /\ st_syms st' = st_syms st ++ more.

Lemma extends_refl st : extends st st [].
Proof. unfold extends. rewrite app_nil_r. auto 10. Qed.
Lemma extends_trans a b c m1 m2 : extends a b m1 -> extends b c m2 -> extends a c (m1 ++ m2).
Proof. intros (A1 & A2 & A3 & A4 & A5 & A6) (B1 & B2 & B3 & B4 & B5 & B6). unfold extends. rewrite B6, A6, app_assoc. repeat split; congruence. Qed.

Lemma added st x l : table_ok st ->
  let st' := st_add (set_max st (st_max st + 1)) (mktok x (Some (st_max st + 1)) l) in
  table_ok st' /\ extends st st' [mktok x (Some (st_max st + 1)) l].
Proof.
  intros (M & D & S) st'. split; [split; [|split]|].
  - apply st_add_map. exact M.
  - unfold st'. cbn [st_add set_max st_syms]. apply dense_snoc; [exact D|]. cbn [tk_sid]. rewrite S. reflexivity.
  - unfold st'. cbn [st_add set_max st_syms st_max]. rewrite zlen_app, S. reflexivity.
  - unfold extends, st'. cbn. auto 10.
Qed.

(** Contents: text and location of each token, in SID order. *)
Definition content_of (t : token) : option text * option location := (tk_text t, tk_loc t).
Definition content (l : list token) : list (option text * option location) := map content_of l.

(** Adding a list of tokens by a step that appends one token each, or none. *)
Lemma fold_adds {A} (f : symtab -> A -> symtab) (item : symtab -> A -> option (option text * option location)) (l : list A) :
  (forall st a, f st a = match item st a with
     | Some (x, l) => st_add (set_max st (st_max st + 1)) (mktok x (Some (st_max st + 1)) l) | None => st end) ->
  (forall st st' a m, extends st st' m -> item st' a = item st a) ->
  forall st, table_ok st ->
  exists more, table_ok (fold_left f l st) /\ extends st (fold_left f l st) more /\
    content more = flat_map (fun a => match item st a with Some c => [c] | None => [] end) l.
Proof.
  intros F I. induction l as [|a l IH]; intros st T; cbn [fold_left flat_map].
  - exists []. split; [exact T|]. split; [apply extends_refl|reflexivity].
  - rewrite F. destruct (item st a) as [[x loc]|] eqn:E.
    + destruct (added st x loc T) as [T' X]. destruct (IH _ T') as (more & T2 & X2 & C).
      exists ([mktok x (Some (st_max st + 1)) loc] ++ more). split; [exact T2|]. split; [eapply extends_trans; eauto|].
      unfold content. rewrite map_app. f_equal. unfold content in C. rewrite C. apply flat_map_ext. intros b. rewrite (I _ _ b _ X). reflexivity.
    + destruct (IH _ T) as (more & T2 & X2 & C). exists more. auto.
Qed.

(** * Construction *)

Definition bare (ty : ttype) name version imports sub : symtab := mkst ty name version imports sub 0 [] [].
Definition base (ty : ttype) name version imports sub : symtab :=
  if is_local ty || is_system ty
  then set_max (fold_left st_add system_tokens (bare ty name version imports sub)) (zlen system_tokens)
  else bare ty name version imports sub.

Lemma fold_add_map l : forall st, map_ok st -> map_ok (fold_left st_add l st).
Proof. induction l as [|t l IH]; intros st M; [exact M|]. cbn [fold_left]. apply IH. apply st_add_map. exact M. Qed.

Lemma fold_add_fields l : forall st,
  st_type (fold_left st_add l st) = st_type st /\ st_name (fold_left st_add l st) = st_name st /\
  st_version (fold_left st_add l st) = st_version st /\ st_imports (fold_left st_add l st) = st_imports st /\
  st_sub (fold_left st_add l st) = st_sub st /\ st_syms (fold_left st_add l st) = st_syms st ++ l.
Proof.
  induction l as [|t l IH]; intros st; cbn [fold_left]; [rewrite app_nil_r; auto 10|].
  destruct (IH (st_add st t)) as (A & B & C & D & E & F). rewrite A, B, C, D, E, F.
  cbn [st_add st_type st_name st_version st_imports st_sub st_syms]. rewrite <- app_assoc. auto 10.
Qed.

Lemma system_dense : dense system_tokens.
Proof.
  intros i t. do 9 (destruct i as [|i]; [intros H; injection H as <-; reflexivity|]). destruct i; discriminate.
Qed.
Lemma system_start l st : map_ok st -> st_syms st = [] -> dense l ->
  let st' := set_max (fold_left st_add l st) (zlen l) in
  table_ok st' /\ st_type st' = st_type st /\ st_name st' = st_name st /\ st_version st' = st_version st /\
  st_imports st' = st_imports st /\ st_sub st' = st_sub st /\ st_syms st' = l.
Proof.
  intros M E D st'. destruct (fold_add_fields l st) as (F1 & F2 & F3 & F4 & F5 & F6). rewrite E in F6. cbn [app] in F6.
  pose proof (fold_add_map l st M) as M'. unfold st'; clear st'.
  cbn [set_max st_type st_name st_version st_imports st_sub st_syms]. split; [|auto 10].
  split; [exact M'|]. cbn [set_max st_syms st_max]. rewrite F6. auto.
Qed.
Lemma base_ok ty name version imports sub :
  let b := base ty name version imports sub in
  table_ok b /\ st_type b = ty /\ st_name b = name /\ st_version b = version /\ st_imports b = imports /\ st_sub b = sub /\
  st_syms b = (if is_local ty || is_system ty then system_tokens else []).
Proof.
  assert (MB : map_ok (bare ty name version imports sub)) by (intros x; reflexivity).
  unfold base. destruct (is_local ty || is_system ty).
  - exact (system_start system_tokens (bare ty name version imports sub) MB eq_refl system_dense).
  - split; [|auto 10]. split; [exact MB|]. split; [|reflexivity]. intros i t H. destruct i; discriminate.
Qed.

(** What a table gets from one import. *)
Definition imported (ty : ttype) (table : symtab) : list token :=
  if is_shared ty then st_syms table else filter (takes_import table) (st_syms table).

Definition legal_args (ty : ttype) (name : option text) (version : option Z) (imports : option (list symtab)) : Prop :=
  match ty with
  | SystemTable => imports = None /\ name = Some TEXT_ION /\ exists v, version = Some v /\ 0 < v
  | SharedTable => exists n v, name = Some n /\ version = Some v /\ 0 < v
  | LocalTable => name = None /\ version = None
  end.

Lemma new_checks ty symbols name version imports sub :
  match st_new ty symbols name version imports sub with
  | Ok _ => legal_args ty name version imports
  | Err e => e = ValueError /\ ~ legal_args ty name version imports
  end.
Proof.
  unfold st_new, legal_args. destruct ty; cbn [is_system is_shared is_local andb].
  - destruct imports as [l|]; [split; [reflexivity|intros (? & _); discriminate]|].
    destruct name as [n|]; [|split; [reflexivity|intros (_ & ? & _); discriminate]].
    destruct version as [v|]; [|split; [reflexivity|intros (_ & _ & ? & ? & _); discriminate]].
    destruct (v <=? 0) eqn:V; [split; [reflexivity|intros (_ & _ & w & E & W); injection E as ->; lia]|].
    cbn [opt_eqb]. destruct (zlist_eqb n TEXT_ION) eqn:N; cbn [negb].
    + apply zlist_eqb_eq in N. subst. split; [reflexivity|]. split; [reflexivity|]. exists v. split; [reflexivity|lia].
    + split; [reflexivity|]. intros (_ & E & _). injection E as ->. rewrite zlist_eqb_refl in N. discriminate.
  - destruct name as [n|]; [|split; [reflexivity|intros (? & ? & ? & _); discriminate]].
    destruct version as [v|]; [|split; [reflexivity|intros (? & ? & _ & ? & _); discriminate]].
    destruct (v <=? 0) eqn:V; [split; [reflexivity|intros (? & w & _ & E & W); injection E as ->; lia]|].
    exists n, v. repeat split; lia.
  - destruct name as [n|], version as [v|]; try (split; [reflexivity|intros [? ?]; discriminate]). auto.
Qed.

Definition shared_locs (name : option text) (first : Z) (l : list token) : Prop :=
  forall i t, nth_error l i = Some t -> tk_loc t = Some (mkloc (match name with Some n => n | None => [] end) (first + Z.of_nat i)).

(** The contents of a fresh table. *)
Theorem new_layout ty symbols name version imports sub st :
  st_new ty symbols name version imports sub = Ok st ->
  table_ok st /\ st_type st = ty /\ st_name st = name /\ st_version st = version /\ st_imports st = imports /\ st_sub st = sub /\
  map tk_text (st_syms st) =
    (if is_shared ty then [] else map tk_text system_tokens) ++
    (if is_system ty then map tk_text system_tokens else
     map tk_text (flat_map (imported ty) (match imports with Some l => l | None => [] end)) ++ symbols) /\
  (ty = LocalTable ->
   content (st_syms st) = content system_tokens ++
     content (flat_map (imported ty) (match imports with Some l => l | None => [] end)) ++ map (fun x => (x, None)) symbols) /\
  (ty = SharedTable -> shared_locs name 1 (st_syms st)).
Proof.
  intros H. pose proof (new_checks ty symbols name version imports sub) as CK. rewrite H in CK.
  assert (E : st = if is_system ty then base ty name version imports sub else
    fold_left (fun st x => fst (add_text st x)) symbols
     (fold_left (fun st table =>
                fold_left (fun st t => if is_shared ty then add_shared st t
                                       else if takes_import table t then add_import st t else st)
                          (st_syms table) st)
              (match imports with Some l => l | None => [] end) (base ty name version imports sub))).
  { unfold st_new in H. unfold legal_args in CK. destruct ty; cbn [is_system is_shared is_local andb] in H.
    - destruct CK as (-> & -> & v & -> & V). cbn [andb fold_left] in H.
      replace (v <=? 0) with false in H by lia. cbn [opt_eqb] in H. rewrite zlist_eqb_refl in H. injection H as <-. reflexivity.
    - destruct CK as (n & v & -> & -> & V). replace (v <=? 0) with false in H by lia. injection H as <-. reflexivity.
    - destruct CK as (-> & ->). injection H as <-. reflexivity. }
  clear H. pose proof (base_ok ty name version imports sub) as (T & B1 & B2 & B3 & B4 & B5 & B6).
  set (b := base ty name version imports sub) in *. clearbody b.
  destruct (is_system ty) eqn:SY.
  { subst st. destruct ty; try discriminate. split; [exact T|]. do 5 (split; [assumption|]). split; [rewrite B6; reflexivity|]. split; discriminate. }
  (* imports *)
  assert (IMP : forall ims b0, table_ok b0 -> st_type b0 = ty -> st_name b0 = name -> exists more,
    let b1 := fold_left (fun st table => fold_left (fun st t => if is_shared ty then add_shared st t
                                       else if takes_import table t then add_import st t else st) (st_syms table) st) ims b0 in
    table_ok b1 /\ extends b0 b1 more /\ map tk_text more = map tk_text (flat_map (imported ty) ims) /\
    (ty = LocalTable -> content more = content (flat_map (imported ty) ims)) /\
    (ty = SharedTable -> shared_locs name 1 (st_syms b0) -> shared_locs name 1 (st_syms b1))).
  { induction ims as [|im ims IH]; intros b0 T0 TY NM; cbn [fold_left flat_map].
    - exists []. split; [exact T0|]. split; [apply extends_refl|]. split; [reflexivity|]. split; auto.
    - assert (G : exists m1, let b1 := fold_left (fun st t => if is_shared ty then add_shared st t
                                       else if takes_import im t then add_import st t else st) (st_syms im) b0 in
        table_ok b1 /\ extends b0 b1 m1 /\ map tk_text m1 = map tk_text (imported ty im) /\
        (ty = LocalTable -> content m1 = content (imported ty im)) /\
        (ty = SharedTable -> shared_locs name 1 (st_syms b0) -> shared_locs name 1 (st_syms b1))).
      { destruct ty; try discriminate; cbn [is_shared imported].
        - (* shared: the location depends on the SID, so go by hand *)
          clear - T0 TY NM. unfold imported; cbn [is_shared]. revert b0 T0 TY NM. induction (st_syms im) as [|t l IHl]; intros b0 T0 TY NM; cbn [fold_left map].
          + exists []. split; [exact T0|]. split; [apply extends_refl|]. split; [reflexivity|]. split; [discriminate|auto].
          + destruct (added b0 (tk_text t) (Some (import_location b0 (st_max b0 + 1))) T0) as [T1 X1]. fold (add_shared b0 t) in T1, X1.
            destruct (IHl (add_shared b0 t) T1) as (m & T2 & X2 & C2 & _ & L2); [apply X1 || (destruct X1; congruence)|destruct X1 as (_ & ? & _); congruence|].
            exists ([mktok (tk_text t) (Some (st_max b0 + 1)) (Some (import_location b0 (st_max b0 + 1)))] ++ m).
            split; [exact T2|]. split; [eapply extends_trans; eauto|]. split; [cbn [app map tk_text]; rewrite C2; reflexivity|].
            split; [discriminate|]. intros E L. apply L2; [reflexivity|]. destruct X1 as (_ & _ & _ & _ & _ & ->).
            intros i u U. destruct (Nat.lt_ge_cases i (length (st_syms b0))).
            * rewrite nth_error_app1 in U by auto. auto.
            * rewrite nth_error_app2 in U by auto. destruct (i - length (st_syms b0))%nat as [|k] eqn:EK; [|destruct k; discriminate].
              cbn in U. injection U as <-. cbn [tk_loc]. unfold import_location. rewrite NM.
              destruct T0 as (_ & _ & ->). unfold zlen. do 2 f_equal. lia.
        - destruct (fold_adds (fun st t => if takes_import im t then add_import st t else st)
            (fun st t => if takes_import im t then Some (tk_text t, tk_loc t) else None) (st_syms im)) with (st := b0) as (m & T1 & X1 & C1).
          + intros st0 t. destruct (takes_import im t); reflexivity.
          + reflexivity.
          + exact T0.
          + exists m. assert (C2 : content m = content (filter (takes_import im) (st_syms im))).
            { rewrite C1. clear. induction (st_syms im) as [|t l IH]; [reflexivity|]. cbn [flat_map filter].
              destruct (takes_import im t); cbn [app content map]; rewrite IH; reflexivity. }
            split; [exact T1|]. split; [exact X1|]. unfold imported; cbn [is_shared].
            split; [apply (f_equal (map fst)) in C2; unfold content in C2; rewrite !map_map in C2; exact C2|]. split; [intros _; exact C2|discriminate]. }
      destruct G as (m1 & T1 & X1 & C1 & D1 & L1). destruct (IH _ T1) as (m2 & T2 & X2 & C2 & D2 & L2);
        [destruct X1; congruence|destruct X1 as (_ & ? & _); congruence|].
      exists (m1 ++ m2). split; [exact T2|]. split; [eapply extends_trans; eauto|]. rewrite !map_app, C1, C2. split; [reflexivity|].
      split; [intros E0; unfold content in *; rewrite !map_app, D1, D2 by exact E0; reflexivity|]. auto. }
  destruct (IMP (match imports with Some l => l | None => [] end) b T B1 B2) as (m1 & T1 & X1 & C1 & D1 & L1). cbn zeta in *.
  set (b1 := fold_left _ _ b) in *. clearbody b1. clear IMP.
  assert (TXT : forall b0, table_ok b0 -> st_type b0 = ty -> st_name b0 = name -> exists more,
    let b2 := fold_left (fun st x => fst (add_text st x)) symbols b0 in
    table_ok b2 /\ extends b0 b2 more /\ map tk_text more = symbols /\
    (ty = LocalTable -> content more = map (fun x => (x, None)) symbols) /\
    (ty = SharedTable -> shared_locs name 1 (st_syms b0) -> shared_locs name 1 (st_syms b2))).
  { clear - SY. induction symbols as [|x symbols IH]; intros b0 T0 TY NM; cbn [fold_left map].
    - exists []. split; [exact T0|]. split; [apply extends_refl|]. split; [reflexivity|]. split; auto.
    - set (loc := if is_shared (st_type b0) then Some (import_location b0 (st_max b0 + 1)) else None).
      destruct (added b0 x loc T0) as [T1 X1]. change (fst (add_text b0 x)) with (st_add (set_max b0 (st_max b0 + 1)) (mktok x (Some (st_max b0 + 1)) loc)).
      set (b1 := st_add _ _) in *. destruct (IH b1 T1) as (m & T2 & X2 & C2 & D2 & L2); [destruct X1; congruence|destruct X1 as (_ & ? & _); congruence|].
      exists ([mktok x (Some (st_max b0 + 1)) loc] ++ m).
      split; [exact T2|]. split; [eapply extends_trans; eauto|]. split; [cbn [app map tk_text]; rewrite C2; reflexivity|].
      split.
      + intros E. cbn [app content map]. unfold content in D2. rewrite D2 by exact E. unfold content_of; cbn [tk_text tk_loc].
        unfold loc. rewrite TY, E. reflexivity.
      + intros E L. apply L2; [exact E|]. destruct X1 as (_ & _ & _ & _ & _ & ->).
        intros i u U. destruct (Nat.lt_ge_cases i (length (st_syms b0))).
        * rewrite nth_error_app1 in U by auto. auto.
        * rewrite nth_error_app2 in U by auto. destruct (i - length (st_syms b0))%nat as [|k] eqn:EK; [|destruct k; discriminate].
          cbn in U. injection U as <-. cbn [tk_loc]. unfold loc. rewrite TY, E. cbn [is_shared]. unfold import_location. rewrite NM.
          destruct T0 as (_ & _ & ->). unfold zlen. do 2 f_equal. lia. }
  destruct X1 as (Y1 & Y2 & Y3 & Y4 & Y5 & Y6).
  destruct (TXT b1 T1 ltac:(congruence) ltac:(congruence)) as (m2 & T2 & (Z1 & Z2 & Z3 & Z4 & Z5 & Z6) & C2 & D2 & L2). cbn zeta in *.
  subst st. set (b2 := fold_left _ symbols b1) in *. clearbody b2.
  assert (SL : ty = SharedTable -> shared_locs name 1 (st_syms b2)).
  { intros E. apply (L2 E), (L1 E). rewrite B6, E. intros i t U. destruct i; discriminate. }
  split; [exact T2|]. do 5 (split; [congruence|]). split; [|split; [|exact SL]]; rewrite Z6, Y6, B6.
  - destruct ty; try discriminate; cbn [is_local is_system is_shared orb app]; rewrite !map_app, C1, C2; [reflexivity|].
    rewrite <- app_assoc. reflexivity.
  - intros E. rewrite E in *. cbn [is_local orb]. unfold content in *. rewrite !map_app, D1, D2 by reflexivity. rewrite <- app_assoc. reflexivity.
Qed.

(** * Lookups *)

Theorem sid_lookup st d k : table_ok st ->
  (1 <= k <= st_max st -> exists t, get_sid st k d = Some t /\ nth_error (st_syms st) (Z.to_nat (k - 1)) = Some t /\ tk_sid t = Some k) /\
  (k < 0 \/ st_max st < k -> get_sid st k d = d).
Proof.
  intros (_ & D & M). unfold get_sid. rewrite M. split.
  - intros K. replace (k =? 0) with false by lia. replace ((k - 1 <? 0) || (zlen (st_syms st) <? k)) with false by lia.
    destruct (nth_error (st_syms st) (Z.to_nat (k - 1))) as [t|] eqn:N.
    + exists t. split; [reflexivity|]. split; [reflexivity|]. rewrite (D _ _ N). f_equal. lia.
    + apply nth_error_None in N. unfold zlen in K. lia.
  - intros K. pose proof (zlen_nonneg (st_syms st)). replace (k =? 0) with false by lia.
    replace ((k - 1 <? 0) || (zlen (st_syms st) <? k)) with true by lia. reflexivity.
Qed.

Lemma find_first {A} (f : A -> bool) l x : find f l = Some x <->
  exists i, nth_error l i = Some x /\ f x = true /\ forall j y, (j < i)%nat -> nth_error l j = Some y -> f y = false.
Proof.
  induction l as [|a l IH]; cbn [find].
  - split; [discriminate|]. intros ([|i] & H & _); discriminate.
  - destruct (f a) eqn:F.
    + split.
      * intros H. injection H as ->. exists 0%nat. split; [reflexivity|]. split; [exact F|]. intros j y J. lia.
      * intros ([|i] & H & Fx & J); cbn in H; [exact H|]. specialize (J 0%nat a ltac:(lia) eq_refl). congruence.
    + rewrite IH. split.
      * intros (i & H & Fx & J). exists (S i). split; [exact H|]. split; [exact Fx|].
        intros [|j] y L N; cbn in N; [injection N as <-; exact F|]. apply (J j); [lia|exact N].
      * intros ([|i] & H & Fx & J); cbn in H; [injection H as ->; congruence|]. exists i. split; [exact H|]. split; [exact Fx|].
        intros j y L N. apply (J (S j)); [lia|exact N].
Qed.

Lemma has_text_eq x t : has_text x t = true <-> tk_text t = Some x.
Proof.
  unfold has_text. destruct (tk_text t) as [y|]; cbn [opt_eqb]; [|split; discriminate].
  rewrite zlist_eqb_eq. split; [intros ->; reflexivity|intros H; injection H as ->; reflexivity].
Qed.

Theorem text_lookup st d x t : table_ok st ->
  (get_text st x d = Some t <->
   exists k, 1 <= k <= st_max st /\ get_sid st k None = Some t /\ tk_text t = Some x /\
     forall j u, 1 <= j < k -> get_sid st j None = Some u -> tk_text u <> Some x).
Proof.
  intros T. pose proof T as (M & D & S). unfold get_text. rewrite M, find_first. split.
  - intros (i & N & F & J). exists (Z.of_nat i + 1). apply has_text_eq in F.
    assert (L : (i < length (st_syms st))%nat) by (apply nth_error_Some; congruence).
    assert (K : 1 <= Z.of_nat i + 1 <= st_max st) by (rewrite S; unfold zlen; lia).
    split; [exact K|]. split.
    + destruct (proj1 (sid_lookup st None _ T) K) as (u & -> & N2 & _). rewrite <- N2, <- N. f_equal. lia.
    + split; [exact F|]. intros j u JL G. destruct (proj1 (sid_lookup st None j T) ltac:(lia)) as (u' & G2 & N2 & _).
      intros E. apply has_text_eq in E. rewrite (J (Z.to_nat (j - 1)) u) in E; [discriminate|lia|congruence].
  - intros (k & K & G & F & J). exists (Z.to_nat (k - 1)).
    destruct (proj1 (sid_lookup st None k T) K) as (u & G2 & N2 & _). rewrite G in G2. injection G2 as <-.
    split; [exact N2|]. split; [apply has_text_eq; exact F|]. intros j y JL N.
    destruct (has_text x y) eqn:H; [|reflexivity]. apply has_text_eq in H. exfalso.
    assert (L : (j < length (st_syms st))%nat) by (apply nth_error_Some; congruence).
    destruct (proj1 (sid_lookup st None (Z.of_nat j + 1) T)) as (u' & G3 & N3 & _); [rewrite S; unfold zlen; lia|].
    apply (J (Z.of_nat j + 1) y); [lia| |exact H]. rewrite G3, <- N, <- N3. f_equal. lia.
Qed.

(** * Interning *)

Fixpoint intern_all (st : symtab) (xs : list text) : res symtab :=
  match xs with
  | [] => Ok st
  | x :: xs' => let* (_, st') := intern st x in intern_all st' xs'
  end.

Theorem intern_spec st x : table_ok st ->
  if is_shared (st_type st) then intern st x = Err TypeError
  else exists t st', intern st x = Ok (t, st') /\ table_ok st' /\ tk_text t = Some x /\
    match get_text st x None with
    | Some u => t = u /\ st' = st
    | None => t = mktok (Some x) (Some (st_max st + 1)) None /\ st_max st' = st_max st + 1 /\ extends st st' [t]
    end.
Proof.
  intros T. unfold intern. destruct (is_shared (st_type st)) eqn:SH; [reflexivity|].
  destruct (get_text st x None) as [u|] eqn:G.
  - exists u, st. split; [reflexivity|]. split; [exact T|]. split; [|auto]. apply (text_lookup st None x u T) in G. destruct G as (k & _ & _ & E & _). exact E.
  - destruct (added st (Some x) None T) as [T' X]. unfold add_text. rewrite SH. do 2 eexists. split; [reflexivity|].
    split; [exact T'|]. split; [reflexivity|]. split; [reflexivity|]. split; [|exact X]. destruct T' as (_ & _ & ->). destruct X as (_ & _ & _ & _ & _ & ->).
    rewrite zlen_app. destruct T as (_ & _ & ->). reflexivity.
Qed.

Lemma intern_all_ok xs : forall st st', table_ok st -> intern_all st xs = Ok st' -> table_ok st' /\ exists more, extends st st' more /\
  (is_shared (st_type st) = false -> Forall (fun t => tk_loc t = None) more).
Proof.
  induction xs as [|x xs IH]; intros st st' T H; cbn [intern_all] in H.
  - injection H as <-. split; [exact T|]. exists []. split; [apply extends_refl|constructor].
  - pose proof (intern_spec st x T) as I. destruct (is_shared (st_type st)) eqn:SH; [rewrite I in H; discriminate|].
    destruct I as (t & s1 & E & T1 & _ & C). rewrite E in H. cbn [bind] in H. destruct (IH s1 st' T1 H) as (T2 & m & X & F). split; [exact T2|].
    destruct (get_text st x None) as [u|].
    + destruct C as [_ ->]. exists m. auto.
    + destruct C as (-> & _ & X1). exists ([mktok (Some x) (Some (st_max st + 1)) None] ++ m). split; [eapply extends_trans; eauto|].
      intros _. constructor; [reflexivity|]. apply F. destruct X1 as [-> _]. exact SH.
Qed.

Theorem extends_keeps st st' more d : table_ok st -> table_ok st' -> extends st st' more ->
  (forall k, 1 <= k <= st_max st -> get_sid st' k d = get_sid st k d) /\
  (forall x t, get_text st x d = Some t -> get_text st' x d = Some t).
Proof.
  intros T T' (_ & _ & _ & _ & _ & X). split.
  - intros k K. destruct (proj1 (sid_lookup st d k T) K) as (t & -> & N & _).
    assert (K' : 1 <= k <= st_max st') by (destruct T' as (_ & _ & ->); rewrite X, zlen_app; destruct T as (_ & _ & M); pose proof (zlen_nonneg more); lia).
    destruct (proj1 (sid_lookup st' d k T') K') as (t' & -> & N' & _). rewrite X, nth_error_app1 in N'; [congruence|].
    apply nth_error_Some. congruence.
  - intros x t. unfold get_text. destruct T as (M & _), T' as (M' & _). rewrite M, M', X, find_app. intros ->. reflexivity.
Qed.

(** A table an application can have: constructed, then used for interning. *)
Definition built (st : symtab) : Prop :=
  exists ty symbols name version imports sub st0 xs,
    st_new ty symbols name version imports sub = Ok st0 /\ intern_all st0 xs = Ok st.
Lemma built_ok st : built st -> table_ok st.
Proof.
  intros (ty & symbols & name & version & imports & sub & st0 & xs & N & I). destruct (new_layout _ _ _ _ _ _ _ N) as [T _].
  exact (proj1 (intern_all_ok xs st0 st T I)).
Qed.

(** * Substitutes *)

Lemma texts_nth st k t : table_ok st -> 1 <= k <= st_max st -> get_sid st k None = Some t ->
  nth_error (map tk_text (st_syms st)) (Z.to_nat (k - 1)) = Some (tk_text t).
Proof.
  intros T K G. destruct (proj1 (sid_lookup st None k T) K) as (u & G2 & N & _). rewrite G in G2. injection G2 as <-.
  rewrite nth_error_map, N. reflexivity.
Qed.

Lemma shared_from_texts symbols name version sub st :
  st_new SharedTable symbols name version None sub = Ok st ->
  table_ok st /\ st_type st = SharedTable /\ st_name st = name /\ st_version st = version /\ st_sub st = sub /\
  st_max st = zlen symbols /\
  (forall k, 1 <= k <= zlen symbols -> exists x n, nth_error symbols (Z.to_nat (k - 1)) = Some x /\ name = Some n /\
     get_sid st k None = Some (mktok x (Some k) (Some (mkloc n k)))).
Proof.
  intros H. pose proof (new_checks SharedTable symbols name version None sub) as CK. rewrite H in CK.
  destruct CK as (n & v & -> & -> & V).
  destruct (new_layout _ _ _ _ _ _ _ H) as (T & A & B & C & _ & D & L & _ & SL). cbn in L. specialize (SL eq_refl).
  assert (M : st_max st = zlen symbols) by (destruct T as (_ & _ & ->); rewrite <- L; unfold zlen; rewrite map_length; reflexivity).
  split; [exact T|]. do 5 (split; [assumption|]). intros k K. rewrite <- M in K.
  destruct (proj1 (sid_lookup st None k T) K) as ([x s l] & G & N & S). cbn in S. subst s.
  exists x, n. split; [rewrite <- L, nth_error_map, N; reflexivity|]. split; [reflexivity|]. rewrite G. do 3 f_equal.
  pose proof (SL _ _ N) as Q. cbn [tk_loc] in Q. rewrite Q. replace (1 + Z.of_nat (Z.to_nat (k - 1))) with k by lia. reflexivity.
Qed.

Theorem placeholder_spec name version max_id :
  match placeholder_symbol_table (Some name) version max_id with
  | Ok st => 0 < version /\ 0 <= max_id /\ table_ok st /\ st_type st = SharedTable /\ st_name st = Some name /\ st_version st = Some version /\
      st_sub st = true /\ st_max st = max_id /\
      (forall k, 1 <= k <= max_id -> get_sid st k None = Some (mktok None (Some k) (Some (mkloc name k))))
  | Err e => e = ValueError /\ (version <= 0 \/ max_id < 0)
  end.
Proof.
  unfold placeholder_symbol_table. destruct (version <=? 0) eqn:V; [split; [reflexivity|lia]|].
  destruct (max_id <? 0) eqn:M; [split; [reflexivity|lia]|].
  pose proof (new_checks SharedTable (repeat None (Z.to_nat max_id)) (Some name) (Some version) None true) as CK.
  destruct (st_new SharedTable _ _ _ _ _) as [st|e] eqn:E; [|destruct CK as [_ CK]; exfalso; apply CK; exists name, version; repeat split; lia].
  destruct (shared_from_texts _ _ _ _ _ E) as (T & A & B & C & D & MX & G).
  assert (LN : zlen (repeat (@None text) (Z.to_nat max_id)) = max_id) by (unfold zlen; rewrite repeat_length; lia).
  split; [lia|]. split; [lia|]. split; [exact T|]. do 4 (split; [assumption|]). split; [congruence|].
  intros k K. destruct (G k ltac:(lia)) as (x & n & N & EN & ->). injection EN as <-.
  apply nth_error_In in N. apply repeat_spec in N. subst x. reflexivity.
Qed.

Theorem substitute_spec table version max_id : table_ok table -> st_type table = SharedTable -> st_name table <> None ->
  match substitute_symbol_table table version max_id with
  | Ok st => 0 < version /\ 0 <= max_id /\ table_ok st /\ st_type st = SharedTable /\ st_name st = st_name table /\ st_version st = Some version /\
      st_sub st = true /\ st_max st = max_id /\
      (forall k n, 1 <= k <= max_id -> st_name table = Some n ->
         get_sid st k None = Some (mktok (match get_sid table k None with Some t => tk_text t | None => None end) (Some k) (Some (mkloc n k))))
  | Err e => e = ValueError /\ (version <= 0 \/ max_id < 0)
  end.
Proof.
  intros T TY NM. unfold substitute_symbol_table. rewrite TY. cbn [is_shared negb].
  destruct (version <=? 0) eqn:V; [split; [reflexivity|lia]|].
  destruct (max_id <? 0) eqn:M; [split; [reflexivity|lia]|].
  set (symbols := if _ <=? _ then _ else _).
  pose proof (new_checks SharedTable symbols (st_name table) (Some version) None true) as CK.
  destruct (st_new SharedTable symbols _ _ _ _) as [st|e] eqn:E;
    [|destruct CK as [_ CK]; exfalso; apply CK; destruct (st_name table) as [n|]; [exists n, version; repeat split; lia|congruence]].
  destruct (shared_from_texts _ _ _ _ _ E) as (T' & A & B & C & D & MX & G).
  pose proof T as (_ & _ & TM). pose proof (zlen_nonneg (st_syms table)) as ZN.
  assert (LN : zlen symbols = max_id).
  { unfold symbols. destruct (max_id <=? st_max table) eqn:LE.
    - unfold zlen. rewrite map_length. fold (zlen (ztake max_id (st_syms table))). apply zlen_ztake. lia.
    - rewrite zlen_app. unfold zlen at 1 2. rewrite map_length, repeat_length. fold (zlen (st_syms table)). lia. }
  split; [lia|]. split; [lia|]. split; [exact T'|]. do 4 (split; [assumption|]). split; [congruence|].
  intros k n K N. destruct (G k ltac:(lia)) as (x & n' & NE & EN & ->). assert (n' = n) by congruence. subst n'. do 3 f_equal.
  destruct (Z_le_gt_dec k (st_max table)) as [KL|KL].
  - destruct (proj1 (sid_lookup table None k T) ltac:(lia)) as (u & -> & NU & _).
    assert (Some x = Some (tk_text u)) as Q; [|congruence]. rewrite <- NE. unfold symbols. destruct (max_id <=? st_max table) eqn:LE.
    + rewrite nth_error_map. unfold ztake. rewrite nth_error_firstn_lt by lia. rewrite NU. reflexivity.
    + rewrite nth_error_app1 by (rewrite map_length; apply nth_error_Some; congruence). rewrite nth_error_map, NU. reflexivity.
  - rewrite (proj2 (sid_lookup table None k T)) by lia. unfold symbols in NE. replace (max_id <=? st_max table) with false in NE by lia.
    rewrite nth_error_app2 in NE by (rewrite map_length; unfold zlen in *; lia). apply nth_error_In, repeat_spec in NE. exact NE.
Qed.

(** * Appending to a local table *)

Definition not_ion (t : token) : Prop := match tk_loc t with Some l => loc_name l <> TEXT_ION | None => True end.

Theorem append_keeps cur more symbols st : st_type cur = LocalTable -> table_ok cur ->
  st_syms cur = system_tokens ++ more -> Forall not_ion more ->
  local_symbol_table (Some [cur]) symbols = Ok st ->
  table_ok st /\ st_max st = st_max cur + zlen symbols /\
  (forall k, 1 <= k <= st_max cur -> get_sid st k None = get_sid cur k None) /\
  (forall i x, nth_error symbols i = Some x ->
     get_sid st (st_max cur + 1 + Z.of_nat i) None = Some (mktok x (Some (st_max cur + 1 + Z.of_nat i)) None)).
Proof.
  intros TY T SY NI H. unfold local_symbol_table in H. destruct (new_layout _ _ _ _ _ _ _ H) as (T' & _ & _ & _ & _ & _ & _ & L & _).
  specialize (L eq_refl). cbn [flat_map] in L. rewrite app_nil_r in L.
  assert (FI : imported LocalTable cur = more).
  { unfold imported. cbn [is_shared]. rewrite SY, filter_app.
    assert (F1 : filter (takes_import cur) system_tokens = []).
    { unfold system_tokens, takes_import. rewrite TY. cbn [is_local negb orb]. cbn [filter tk_loc system_token loc_name]. rewrite !zlist_eqb_refl. reflexivity. }
    rewrite F1. cbn [app]. clear - NI TY. induction NI as [|t l N _ IH]; [reflexivity|]. cbn [filter]. unfold takes_import at 1.
    rewrite TY. cbn [is_local negb orb]. unfold not_ion in N. destruct (tk_loc t) as [loc|].
    - destruct (zlist_eqb (loc_name loc) TEXT_ION) eqn:E; [apply zlist_eqb_eq in E; contradiction|]. cbn [negb]. rewrite IH. reflexivity.
    - rewrite IH. reflexivity. }
  rewrite FI in L.
  assert (LC : content (st_syms st) = content (st_syms cur) ++ map (fun x => (x, None)) symbols).
  { rewrite L, SY. unfold content. rewrite map_app, app_assoc. reflexivity. }
  pose proof T as (_ & _ & MC). pose proof T' as (_ & _ & MS).
  assert (LEN : zlen (st_syms st) = zlen (st_syms cur) + zlen symbols).
  { apply (f_equal (@zlen _)) in LC. rewrite zlen_app in LC. unfold content, zlen in *. rewrite !map_length in LC. exact LC. }
  assert (LOOK : forall k x l, 1 <= k -> nth_error (content (st_syms st)) (Z.to_nat (k - 1)) = Some (x, l) ->
    get_sid st k None = Some (mktok x (Some k) l)).
  { intros k x l K N. assert (KL : k <= st_max st).
    { assert (Z.to_nat (k - 1) < length (content (st_syms st)))%nat by (apply nth_error_Some; congruence).
      unfold content in *. rewrite map_length in *. rewrite MS. unfold zlen. lia. }
    destruct (proj1 (sid_lookup st None k T') ltac:(lia)) as ([x' s' l'] & -> & N2 & S2). cbn in S2. subst s'.
    unfold content in N. rewrite nth_error_map, N2 in N. cbn in N. injection N as -> ->. reflexivity. }
  split; [exact T'|]. split; [lia|]. split.
  - intros k K. destruct (proj1 (sid_lookup cur None k T) K) as ([x s l] & -> & N & S). cbn in S. subst s.
    apply LOOK; [lia|]. rewrite LC, nth_error_app1.
    + unfold content. rewrite nth_error_map, N. reflexivity.
    + unfold content. rewrite map_length. apply nth_error_Some. congruence.
  - intros i x N. apply LOOK; [pose proof (zlen_nonneg (st_syms cur)); lia|]. rewrite LC, nth_error_app2.
    + unfold content. rewrite map_length, nth_error_map. replace (Z.to_nat _ - _)%nat with i; [rewrite N; reflexivity|].
      rewrite MC. unfold zlen. lia.
    + unfold content. rewrite map_length, MC. unfold zlen. lia.
Qed.

(** Local tables built from imports none of which is named "$ion". *)
Definition sound_import (im : symtab) : Prop := built im /\ st_type im <> SystemTable /\ st_name im <> Some TEXT_ION.

Lemma shared_import_not_ion im : built im -> st_type im = SharedTable -> st_name im <> Some TEXT_ION -> Forall not_ion (st_syms im).
Proof.
  intros (ty & symbols & name & version & imports & sub & st0 & xs & N & I) TY NM.
  destruct (new_layout _ _ _ _ _ _ _ N) as (T & A & B & _ & _ & _ & _ & _ & SL).
  assert (im = st0 /\ ty = SharedTable) as [-> ->].
  { destruct xs as [|x xs]; cbn [intern_all] in I; [injection I as <-; split; congruence|].
    pose proof (intern_spec st0 x T) as S. rewrite A in S. destruct (is_shared ty) eqn:SH; [rewrite S in I; discriminate|].
    exfalso. destruct (intern_all_ok (x :: xs) st0 im T I) as (_ & m & (X & _) & _). destruct ty; try discriminate. congruence. }
  apply Forall_forall. intros t IN. apply In_nth_error in IN. destruct IN as [i IN]. unfold not_ion. rewrite (SL eq_refl i t IN).
  cbn [loc_name]. pose proof (new_checks SharedTable symbols name version imports sub) as CK. rewrite N in CK. destruct CK as (n & v & -> & _).
  intros E. apply NM. rewrite B, E. reflexivity.
Qed.

Theorem local_more imports symbols xs st0 cur : Forall sound_import imports ->
  local_symbol_table (Some imports) symbols = Ok st0 -> intern_all st0 xs = Ok cur ->
  st_type cur = LocalTable /\ table_ok cur /\ exists more, st_syms cur = system_tokens ++ more /\ Forall not_ion more.
Proof.
  intros IM N I. unfold local_symbol_table in N. destruct (new_layout _ _ _ _ _ _ _ N) as (T & A & _ & _ & _ & _ & _ & L & _). specialize (L eq_refl).
  destruct (intern_all_ok xs st0 cur T I) as (T' & m & X & F). rewrite A in F. specialize (F eq_refl). destruct X as (X1 & _ & _ & _ & _ & X6).
  split; [congruence|]. split; [exact T'|]. set (rest := content (flat_map (imported LocalTable) imports) ++ map (fun x => (x, None)) symbols) in L.
  assert (S0 : exists m0, st_syms st0 = system_tokens ++ m0 /\ content m0 = rest).
  { exists (skipn 9 (st_syms st0)). split.
    - rewrite <- (firstn_skipn 9 (st_syms st0)) at 1. f_equal.
      apply nth_error_ext. intros i. destruct (Nat.lt_ge_cases i 9) as [LT|GE].
      + rewrite nth_error_firstn_lt by exact LT.
        assert (C : nth_error (content (st_syms st0)) i = nth_error (content system_tokens) i).
        { rewrite L. apply nth_error_app1. exact LT. }
        unfold content in C. rewrite !nth_error_map in C. destruct T as (_ & D & _).
        destruct (nth_error (st_syms st0) i) as [[x s l]|] eqn:E1, (nth_error system_tokens i) as [[x2 s2 l2]|] eqn:E2; cbn in C; try discriminate; [|reflexivity].
        pose proof (D _ _ E1) as D1. pose proof (system_dense _ _ E2) as D2. cbn in D1, D2, C. injection C as -> ->. congruence.
      + transitivity (@None token); [apply nth_error_None; rewrite firstn_length; lia|symmetry; apply nth_error_None; exact GE].
    - unfold content in *. rewrite <- skipn_map, L. reflexivity. }
  destruct S0 as (m0 & S0 & C0). exists (m0 ++ m). split; [rewrite X6, S0, app_assoc; reflexivity|]. apply Forall_app. split.
  - assert (FR : Forall (fun c => match snd c with Some l => loc_name l <> TEXT_ION | None => True end) rest).
    { unfold rest. apply Forall_app. split.
      - unfold content. apply Forall_map, Forall_forall. intros t IN. apply in_flat_map in IN. destruct IN as (im & IN & IT).
        rewrite Forall_forall in IM. destruct (IM im IN) as (B & TY & NM). unfold imported in IT. cbn [is_shared] in IT.
        apply filter_In in IT. destruct IT as [IT TK]. cbn [content_of snd].
        destruct (st_type im) eqn:ET; [congruence| |].
        + pose proof (shared_import_not_ion im B ET NM) as SN. rewrite Forall_forall in SN. exact (SN t IT).
        + unfold takes_import in TK. rewrite ET in TK. cbn [is_local negb orb] in TK. destruct (tk_loc t) as [loc|]; [|exact Logic.I].
          intros E. rewrite E, zlist_eqb_refl in TK. discriminate.
      - apply Forall_map, Forall_forall. intros x _. exact Logic.I. }
    rewrite <- C0 in FR. unfold content in FR. rewrite Forall_map in FR. exact FR.
  - eapply Forall_impl; [|exact F]. intros t E. unfold not_ion. rewrite E. exact Logic.I.
Qed.

(** * The catalog *)

Fixpoint register_all (c : catalog) (h : list symtab) : res catalog :=
  match h with
  | [] => Ok c
  | t :: h' => let* c' := register c t in register_all c' h'
  end.

(** What a history of registrations leaves under a name and version: the last table registered. *)
Definition is_entry (name : text) (version : Z) (t : symtab) : bool :=
  opt_eqb zlist_eqb (st_name t) (Some name) && opt_eqb Z.eqb (st_version t) (Some version).
Definition latest (h : list symtab) (name : text) (version : Z) : option symtab := find (is_entry name version) (rev h).
Definition named_table (t : symtab) : Prop := st_name t <> None /\ st_version t <> None.

Definition cat_ok (c : catalog) (h : list symtab) : Prop :=
  forall name, match dict_get zlist_eqb c name with
               | None => Forall (fun t => st_name t <> Some name) h
               | Some vs => vs <> [] /\ forall v, dict_get Z.eqb vs v = latest h name v
               end.

Lemma latest_snoc h t name v : latest (h ++ [t]) name v = if is_entry name v t then Some t else latest h name v.
Proof. unfold latest. rewrite rev_app_distr. reflexivity. Qed.
Lemma latest_none h name v : Forall (fun t => st_name t <> Some name) h -> latest h name v = None.
Proof.
  intros F. unfold latest. destruct (find _ _) as [t|] eqn:E; [|reflexivity]. apply find_some in E. destruct E as [I E].
  rewrite <- in_rev in I. rewrite Forall_forall in F. exfalso. apply (F t I). unfold is_entry in E. apply andb_prop in E. destruct E as [E _].
  destruct (st_name t); [|discriminate]. cbn in E. apply zlist_eqb_eq in E. congruence.
Qed.

Lemma register_ok c h t c' : cat_ok c h -> named_table t -> register c t = Ok c' -> cat_ok c' (h ++ [t]) /\ st_type t = SharedTable /\ st_sub t = false.
Proof.
  intros C [NN VN] H. unfold register in H. destruct (st_type t) eqn:TY; cbn [is_system is_shared negb] in H; try discriminate.
  destruct (st_sub t) eqn:SB; [discriminate|]. destruct (st_name t) as [n|] eqn:N; [|congruence]. destruct (st_version t) as [w|] eqn:V; [|congruence].
  injection H as <-. split; [|auto]. intros name. destruct (zlist_eqb name n) eqn:E.
  - apply zlist_eqb_eq in E. subst name. rewrite (dict_get_set_same zlist_eqb zlist_eqb_ok). split.
    + destruct (match dict_get zlist_eqb c n with Some vs => vs | None => [] end) as [|[k x] d]; cbn [dict_set]; [discriminate|]. destruct (w =? k); discriminate.
    + intros v. rewrite latest_snoc. unfold is_entry. rewrite N, V. cbn [opt_eqb]. rewrite zlist_eqb_refl. cbn [andb].
      destruct (w =? v) eqn:EV.
      * apply Z.eqb_eq in EV. subst v. apply (dict_get_set_same Z.eqb zeqb_ok).
      * rewrite (dict_get_set_other Z.eqb zeqb_ok) by lia. specialize (C n). destruct (dict_get zlist_eqb c n) as [vs|]; [apply C|].
        rewrite latest_none by exact C. reflexivity.
  - rewrite (dict_get_set_other zlist_eqb zlist_eqb_ok) by (intros ->; rewrite zlist_eqb_refl in E; discriminate).
    specialize (C name). destruct (dict_get zlist_eqb c name) as [vs|].
    + destruct C as [C1 C2]. split; [exact C1|]. intros v. rewrite latest_snoc, C2. unfold is_entry. rewrite N. cbn [opt_eqb].
      rewrite zlist_eqb_sym, E. reflexivity.
    + apply Forall_app. split; [exact C|]. constructor; [|constructor]. rewrite N. intros Q. injection Q as ->. rewrite zlist_eqb_refl in E. discriminate.
Qed.

Lemma register_all_ok h : forall c h0 c', cat_ok c h0 -> Forall named_table h -> Forall (fun t => st_type t = SharedTable /\ st_sub t = false) h0 ->
  register_all c h = Ok c' ->
  cat_ok c' (h0 ++ h) /\ Forall (fun t => st_type t = SharedTable /\ st_sub t = false) (h0 ++ h).
Proof.
  induction h as [|t h IH]; intros c h0 c' C N S H; cbn [register_all] in H.
  - injection H as <-. rewrite app_nil_r. auto.
  - inversion N as [|? ? N1 N2]; subst. destruct (register c t) as [c1|] eqn:R; [|discriminate]. cbn [bind] in H.
    destruct (register_ok _ _ _ _ C N1 R) as (C1 & T & SB). specialize (IH c1 (h0 ++ [t]) c' C1 N2). rewrite <- app_assoc in IH. apply IH; [|exact H].
    apply Forall_app. split; [exact S|]. constructor; [auto|constructor].
Qed.

Lemma max_key_spec (vs : dict Z symtab) : forall d, let m := fold_right (fun p m => Z.max (fst p) m) d vs in
  d <= m /\ (m = d \/ In m (map fst vs)) /\ forall v, In v (map fst vs) -> v <= m.
Proof.
  induction vs as [|[k x] vs IH]; intros d; cbn [fold_right map fst In].
  - split; [lia|]. split; [auto|]. intros v [].
  - destruct (IH d) as (A & B & C). cbn zeta in *. set (m := fold_right _ d vs) in *. split; [lia|]. split.
    + destruct (Z.max_spec k m) as [[L ->]|[L ->]]; [destruct B; auto|auto].
    + intros v [->|I]; [lia|]. specialize (C v I). lia.
Qed.
Lemma last_version_spec vs : vs <> [] -> exists m t, last_version vs = Some t /\ dict_get Z.eqb vs m = Some t /\
  forall v t', dict_get Z.eqb vs v = Some t' -> v <= m.
Proof.
  intros N. destruct vs as [|[k x] vs]; [congruence|]. unfold last_version.
  pose proof (max_key_spec ((k, x) :: vs) k) as (A & B & C). cbn zeta in *. set (m := fold_right _ k ((k, x) :: vs)) in *.
  assert (I : In m (map fst ((k, x) :: vs))) by (destruct B as [->|B]; [left; reflexivity|exact B]).
  apply in_map_iff in I. destruct I as ([m' y] & E & I). cbn in E. subst m'.
  destruct (in_dict_get Z.eqb zeqb_ok _ _ _ I) as [t G]. exists m, t. split; [exact G|]. split; [exact G|].
  intros v t' G'. apply (dict_get_in Z.eqb zeqb_ok) in G'. apply C. apply in_map_iff. exists (v, t'). auto.
Qed.

Lemma latest_in h name v t : latest h name v = Some t -> In t h /\ st_name t = Some name /\ st_version t = Some v.
Proof.
  intros H. apply find_some in H. destruct H as [I E]. rewrite <- in_rev in I. split; [exact I|].
  unfold is_entry in E. apply andb_prop in E. destruct E as [E1 E2]. destruct (st_name t), (st_version t); try discriminate.
  cbn in E1, E2. apply zlist_eqb_eq in E1. apply Z.eqb_eq in E2. split; congruence.
Qed.

(** The answer of a catalog after a history [h]. *)
Definition answer (h : list symtab) (name : text) (version : Z) (max_id : option Z) (r : res symtab) : Prop :=
  if (version <=? 0) || (match max_id with Some m => m <? 0 | None => false end) then r = Err ValueError
  else match latest h name version, max_id with
  | Some t, None => r = Ok t
  | Some t, Some m => if st_max t =? m then r = Ok t else r = substitute_symbol_table t version m
  | None, None => r = Err CannotSubstituteTable
  | None, Some m =>
    (Forall (fun t => st_name t <> Some name) h /\ r = placeholder_symbol_table (Some name) version m) \/
    (exists v t, latest h name v = Some t /\ (forall v' t', latest h name v' = Some t' -> v' <= v) /\
       r = substitute_symbol_table t version m)
  end.

Theorem resolve_answers h c name version max_id : Forall named_table h -> register_all catalog_new h = Ok c ->
  answer h name version max_id (resolve c name version max_id).
Proof.
  intros N R. destruct (register_all_ok h catalog_new [] c ltac:(intros n; constructor) N ltac:(constructor) R) as [C S]. cbn [app] in *.
  unfold answer, resolve. destruct (version <=? 0) eqn:V; [reflexivity|]. cbn [orb].
  destruct (match max_id with Some m => m <? 0 | None => false end); [reflexivity|].
  specialize (C name). destruct (dict_get zlist_eqb c name) as [vs|].
  - destruct C as [NE G]. rewrite G. destruct (latest h name version) as [t|] eqn:L.
    + destruct (latest_in _ _ _ _ L) as (_ & _ & TV). rewrite TV. cbn [opt_eqb]. rewrite Z.eqb_refl. cbn [andb].
      destruct max_id as [m|]; [|reflexivity]. destruct (st_max t =? m); reflexivity.
    + destruct (last_version_spec vs NE) as (mv & t & -> & GM & MX). rewrite G in GM. destruct (latest_in _ _ _ _ GM) as (_ & _ & TV). rewrite TV.
      assert (mv <> version) by congruence. cbn [opt_eqb]. replace (mv =? version) with false by lia. cbn [andb].
      destruct max_id as [m|]; [|reflexivity]. right. exists mv, t. split; [exact GM|]. split; [|reflexivity].
      intros v' t' L'. apply (MX v' t'). rewrite G. exact L'.
  - rewrite latest_none by exact C. destruct max_id as [m|]; [left; auto|reflexivity].
Qed.

Theorem resolved_identity h c name version max_id t : Forall (fun t => named_table t /\ table_ok t) h -> register_all catalog_new h = Ok c ->
  resolve c name version max_id = Ok t ->
  st_name t = Some name /\ st_version t = Some version /\ (forall m, max_id = Some m -> st_max t = m) /\ table_ok t /\ st_type t = SharedTable.
Proof.
  intros N R H. assert (N1 : Forall named_table h) by (eapply Forall_impl; [|exact N]; (intros ? [Q _]; exact Q)).
  pose proof (resolve_answers h c name version max_id N1 R) as A. rewrite H in A. clear H.
  destruct (register_all_ok h catalog_new [] c ltac:(intros n; constructor) N1 ltac:(constructor) R) as [_ S]. cbn [app] in S.
  assert (IN : forall u v, latest h name v = Some u -> named_table u /\ table_ok u /\ st_type u = SharedTable /\ st_name u = Some name /\ st_version u = Some v).
  { intros u v L. destruct (latest_in _ _ _ _ L) as (I & A1 & A2). rewrite Forall_forall in N, S. destruct (N u I), (S u I). auto. }
  assert (SUB : forall u v m, latest h name v = Some u -> Ok t = substitute_symbol_table u version m ->
    st_name t = Some name /\ st_version t = Some version /\ st_max t = m /\ table_ok t /\ st_type t = SharedTable).
  { intros u v m L E. destruct (IN u v L) as (_ & T & TY & NM & _). pose proof (substitute_spec u version m T TY ltac:(congruence)) as SP.
    rewrite <- E in SP. destruct SP as (_ & _ & T2 & TY2 & NM2 & V2 & _ & M2 & _). rewrite NM2. auto 10. }
  unfold answer in A. destruct (_ || _); [discriminate|]. destruct (latest h name version) as [u|] eqn:L; destruct max_id as [m|].
  - destruct (st_max u =? m) eqn:M.
    + injection A as ->. destruct (IN u version L) as (_ & T & TY & NM & VV). split; [exact NM|]. split; [exact VV|]. split; [|auto].
      intros m' E. injection E as <-. lia.
    + destruct (SUB u version m L A) as (A1 & A2 & A3 & A4 & A5). split; [exact A1|]. split; [exact A2|]. split; [|auto]. intros m' E. congruence.
  - injection A as ->. destruct (IN u version L) as (_ & T & TY & NM & VV). split; [exact NM|]. split; [exact VV|]. split; [discriminate|auto].
  - destruct A as [[_ A]|(v & u & LU & _ & A)].
    + pose proof (placeholder_spec name version m) as SP. rewrite <- A in SP. destruct SP as (_ & _ & T2 & TY2 & NM2 & V2 & _ & M2 & _).
      split; [exact NM2|]. split; [exact V2|]. split; [|auto]. intros m' E. congruence.
    + destruct (SUB u v m LU A) as (A1 & A2 & A3 & A4 & A5). split; [exact A1|]. split; [exact A2|]. split; [|auto]. intros m' E. congruence.
  - discriminate.
Qed.
