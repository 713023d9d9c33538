(** Lazily computed attributes: proofs. *)
From Verif Require Import Base BaseFacts CoreModel BufferModel BinReaderModel SymbolsModel ManagedModel LazyModel.
Local Open Scope nat_scope.

Lemma nth_upd {B} (l : list B) : forall i j x, nth_error (upd l i x) j = if (i =? j) && (j <? length l) then Some x else nth_error l j.
Proof.
  induction l as [|y l IH]; intros i j x; cbn [upd length].
  - destruct j; rewrite andb_false_r; reflexivity.
  - destruct i as [|i], j as [|j]; try reflexivity. cbn [nth_error]. rewrite IH. reflexivity.
Qed.
Lemma length_upd {B} (l : list B) : forall i x, length (upd l i x) = length l.
Proof. induction l as [|y l IH]; intros [|i] x; cbn [upd length]; auto. Qed.

(** * Thunks *)
Section THUNKS.
Context {A : Type}.
Variable parser : nat -> nat -> res A.

(** The parser an event goes back to, by the history: [origins rs xs] for the events made so far. *)
Fixpoint origins (rs : list nat) (xs : list laction) : list nat :=
  match xs with
  | [] => rs
  | ARead k :: r => origins (rs ++ [k]) r
  | ADerive a :: r => origins (rs ++ [nth a rs 0]) r
  | AValue _ :: r => origins rs r
  end.
Definition successes (log : list (nat * res A)) (k : nat) : list A :=
  flat_map (fun p => if fst p =? k then match snd p with Ok v => [v] | Err _ => [] end else []) log.

Record linv (h : lheap A) (rs : list nat) : Prop := mkinv {
  li_len : length (lh_thunks h) = length rs;
  li_parser : forall i k m, nth_error (lh_thunks h) i = Some (mkthunk (Parser k) m) ->
    nth i rs 0 = k /\ (forall v, m = Some v -> successes (lh_log h) k = [v]) /\ (m = None -> successes (lh_log h) k = []);
  li_wrapped : forall i b m, nth_error (lh_thunks h) i = Some (mkthunk (Wrapped b) m) ->
    b < i /\ nth i rs 0 = nth b rs 0 /\ (forall v, m = Some v -> successes (lh_log h) (nth i rs 0) = [v]);
  li_unread : forall k, ~ In k rs -> successes (lh_log h) k = [];
  li_one : forall k, length (successes (lh_log h) k) <= 1;
  li_distinct : forall i j k m m', nth_error (lh_thunks h) i = Some (mkthunk (Parser k) m) -> nth_error (lh_thunks h) j = Some (mkthunk (Parser k) m') -> i = j
}.

Lemma successes_app l1 l2 k : successes (l1 ++ l2) k = successes l1 k ++ successes l2 k.
Proof. apply flat_map_app. Qed.

Lemma call_spec : forall fuel h rs a, linv h rs -> a < length rs -> a < fuel ->
  let '(r, h') := call parser fuel h a in
  linv h' rs /\ (exists ext, lh_log h' = lh_log h ++ ext) /\
  (forall v, r = Ok v -> successes (lh_log h') (nth a rs 0) = [v]) /\
  (forall v, successes (lh_log h) (nth a rs 0) = [v] -> r = Ok v /\ lh_log h' = lh_log h).
Proof.
  induction fuel as [|f IH]; intros h rs a I L F; [lia|]. cbn [call].
  destruct (nth_error (lh_thunks h) a) as [[dl m]|] eqn:N; [|apply nth_error_None in N; rewrite (li_len _ _ I) in N; lia].
  cbn [th_value th_delegate]. destruct m as [v|].
  - split; [exact I|]. split; [exists []; rewrite app_nil_r; reflexivity|].
    assert (S : successes (lh_log h) (nth a rs 0) = [v]).
    { destruct dl as [k|b].
      - destruct (li_parser _ _ I a k _ N) as (<- & S & _). apply S; reflexivity.
      - destruct (li_wrapped _ _ I a b _ N) as (_ & _ & S). apply S; reflexivity. }
    split; [intros w [= <-]; exact S|]. intros w W. split; [congruence|reflexivity].
  - destruct dl as [k|b].
    + destruct (li_parser _ _ I a k None N) as (K & _ & S0). specialize (S0 eq_refl).
      destruct (parser k (evaluations h k)) as [v|e].
      * cbn [lh_thunks lh_log].
        assert (SK : forall j, successes (lh_log h ++ [(k, Ok v)]) j = successes (lh_log h) j ++ (if k =? j then [v] else [])).
        { intros j. rewrite successes_app. f_equal. unfold successes. cbn [flat_map fst snd]. rewrite app_nil_r. reflexivity. }
        assert (SKK : successes (lh_log h ++ [(k, Ok v)]) k = [v]) by (rewrite SK, S0, Nat.eqb_refl; reflexivity).
        split; [constructor; cbn [lh_thunks lh_log]|].
        -- rewrite length_upd. apply I.
        -- intros i k' m' H. rewrite nth_upd in H. destruct ((a =? i) && (i <? length (lh_thunks h))) eqn:E.
           ++ injection H as <- <-. apply andb_prop in E as [E _]. apply Nat.eqb_eq in E. subst i. split; [exact K|]. split; [intros w [= <-]; exact SKK|discriminate].
           ++ destruct (li_parser _ _ I i k' m' H) as (A1 & A2 & A3). split; [exact A1|].
              assert (NE : k =? k' = false).
              { apply Nat.eqb_neq. intros <-. assert (i = a) by (eapply (li_distinct _ _ I); eassumption). subst i.
                rewrite Nat.eqb_refl in E. cbn in E. apply Nat.ltb_ge in E. rewrite (li_len _ _ I) in E. lia. }
              rewrite SK, NE, app_nil_r. auto.
        -- intros i b m' H. rewrite nth_upd in H. destruct ((a =? i) && (i <? length (lh_thunks h))) eqn:E; [discriminate|].
           destruct (li_wrapped _ _ I i b m' H) as (A1 & A2 & A3). split; [exact A1|]. split; [exact A2|]. intros w W. rewrite SK.
           destruct (k =? nth i rs 0) eqn:Q; [|rewrite app_nil_r; auto]. apply Nat.eqb_eq in Q. rewrite (A3 w W) in *. rewrite <- Q, S0 in *. specialize (A3 w W). discriminate.
        -- intros j J. rewrite SK. destruct (k =? j) eqn:Q; [|rewrite app_nil_r; apply (li_unread _ _ I); exact J].
           apply Nat.eqb_eq in Q. subst j. exfalso. apply J. rewrite <- K. apply nth_In. exact L.
        -- intros j. rewrite SK. destruct (k =? j) eqn:Q; [|rewrite app_nil_r; apply (li_one _ _ I)]. apply Nat.eqb_eq in Q. subst j. rewrite S0. cbn. lia.
        -- intros i j k' m1 m2 H1 H2. rewrite nth_upd in H1, H2.
           destruct ((a =? i) && (i <? length (lh_thunks h))) eqn:E1; destruct ((a =? j) && (j <? length (lh_thunks h))) eqn:E2.
           ++ apply andb_prop in E1 as [E1 _]. apply andb_prop in E2 as [E2 _]. apply Nat.eqb_eq in E1, E2. congruence.
           ++ injection H1 as <- <-. apply andb_prop in E1 as [E1 _]. apply Nat.eqb_eq in E1. subst i. eapply (li_distinct _ _ I); eassumption.
           ++ injection H2 as <- <-. apply andb_prop in E2 as [E2 _]. apply Nat.eqb_eq in E2. subst j. eapply (li_distinct _ _ I); eassumption.
           ++ eapply (li_distinct _ _ I); eassumption.
        -- split; [eauto|]. rewrite K. split; [intros w [= <-]; exact SKK|]. intros w W. rewrite S0 in W. discriminate.
      * cbn [lh_thunks lh_log].
        assert (SK : forall j, successes (lh_log h ++ [(k, Err e)]) j = successes (lh_log h) j).
        { intros j. rewrite successes_app. unfold successes at 2. cbn [flat_map fst snd]. destruct (k =? j); apply app_nil_r. }
        split; [|split; [eauto|split; [discriminate|]]].
        -- constructor; cbn [lh_thunks lh_log]; [apply I| | | | |apply (li_distinct _ _ I)].
           ++ intros i k' m' H. rewrite SK. apply (li_parser _ _ I _ _ _ H).
           ++ intros i b m' H. destruct (li_wrapped _ _ I _ _ _ H) as (A1 & A2 & A3). split; [exact A1|]. split; [exact A2|]. intros w W. rewrite SK. auto.
           ++ intros j J. rewrite SK. apply (li_unread _ _ I). exact J.
           ++ intros j. rewrite SK. apply (li_one _ _ I).
        -- rewrite K, S0. discriminate.
    + destruct (li_wrapped _ _ I a b None N) as (LT & R & _).
      pose proof (IH h rs b I ltac:(lia) ltac:(lia)) as C. destruct (call parser f h b) as [r h1]. destruct C as (I1 & X & S1 & S2).
      rewrite R. destruct r as [v|e].
      * cbn [lh_thunks lh_log]. specialize (S1 v eq_refl). split; [constructor; cbn [lh_thunks lh_log]|].
        -- rewrite length_upd. apply I1.
        -- intros i k' m' H. rewrite nth_upd in H. destruct ((a =? i) && (i <? length (lh_thunks h1))) eqn:E; [discriminate|]. apply (li_parser _ _ I1 i k' m' H).
        -- intros i b' m' H. rewrite nth_upd in H. destruct ((a =? i) && (i <? length (lh_thunks h1))) eqn:E.
           ++ injection H as <- <-. apply andb_prop in E as [E _]. apply Nat.eqb_eq in E. subst i. split; [exact LT|]. split; [exact R|]. intros w [= <-]. rewrite R. exact S1.
           ++ apply (li_wrapped _ _ I1 i b' m' H).
        -- apply (li_unread _ _ I1).
        -- apply (li_one _ _ I1).
        -- intros i j k' m1 m2 H1 H2. rewrite nth_upd in H1, H2.
           destruct ((a =? i) && (i <? length (lh_thunks h1))); [discriminate|]. destruct ((a =? j) && (j <? length (lh_thunks h1))); [discriminate|].
           eapply (li_distinct _ _ I1); eassumption.
        -- split; [exact X|]. split; [intros w [= <-]; exact S1|]. intros w W. destruct (S2 w W) as [[= ->] EL]. auto.
      * split; [exact I1|]. split; [exact X|]. split; [discriminate|]. intros w W. destruct (S2 w W) as [Q _]. discriminate.
Qed.

Lemma read_inv h rs k : linv h rs -> ~ In k rs -> linv (mkheap (lh_thunks h ++ [mkthunk (Parser k) None]) (lh_log h)) (rs ++ [k]).
Proof.
  intros I NI. pose proof (li_len _ _ I) as LE.
  assert (D : forall i t, nth_error (lh_thunks h ++ [mkthunk (Parser k) None]) i = Some t ->
     (i < length rs /\ nth_error (lh_thunks h) i = Some t) \/ (i = length rs /\ t = mkthunk (Parser k) None)).
  { intros i t H. destruct (Nat.lt_ge_cases i (length rs)) as [L|G]; [left; split; [exact L|]; rewrite nth_error_app1 in H by lia; exact H|].
    right. rewrite nth_error_app2 in H by lia. rewrite LE in H. destruct (i - length rs) as [|j] eqn:E; cbn in H; [injection H as <-; split; [lia|reflexivity]|destruct j; discriminate]. }
  assert (NT : forall i m, nth_error (lh_thunks h) i = Some (mkthunk (Parser k) m) -> False).
  { intros i m H. destruct (li_parser _ _ I i k m H) as (K & _). apply NI. rewrite <- K. apply nth_In. rewrite <- LE. apply nth_error_Some. congruence. }
  constructor; cbn [lh_thunks lh_log].
  - rewrite !app_length, LE. reflexivity.
  - intros i k' m H. destruct (D i _ H) as [[L H']|[-> E]].
    + destruct (li_parser _ _ I i k' m H') as (A1 & A2). rewrite app_nth1 by exact L. auto.
    + injection E as -> ->. rewrite app_nth2, Nat.sub_diag by lia. split; [reflexivity|]. split; [discriminate|]. intros _. apply (li_unread _ _ I). exact NI.
  - intros i b m H. destruct (D i _ H) as [[L H']|[-> E]]; [|discriminate].
    destruct (li_wrapped _ _ I i b m H') as (A1 & A2 & A3). rewrite !app_nth1 by lia. auto.
  - intros j J. apply (li_unread _ _ I). intros Q. apply J. apply in_or_app. auto.
  - apply (li_one _ _ I).
  - intros i j k' m m' H1 H2. destruct (D i _ H1) as [[L1 H1']|[-> E1]]; destruct (D j _ H2) as [[L2 H2']|[-> E2]]; try reflexivity.
    + eapply (li_distinct _ _ I); eassumption.
    + injection E2 as -> ->. exfalso. eapply NT; eassumption.
    + injection E1 as -> ->. exfalso. eapply NT; eassumption.
Qed.
Lemma derive_inv h rs a : linv h rs -> a < length rs -> linv (mkheap (lh_thunks h ++ [mkthunk (Wrapped a) None]) (lh_log h)) (rs ++ [nth a rs 0]).
Proof.
  intros I L0. pose proof (li_len _ _ I) as LE.
  assert (D : forall i t, nth_error (lh_thunks h ++ [mkthunk (Wrapped a) None]) i = Some t ->
     (i < length rs /\ nth_error (lh_thunks h) i = Some t) \/ (i = length rs /\ t = mkthunk (Wrapped a) None)).
  { intros i t H. destruct (Nat.lt_ge_cases i (length rs)) as [L|G]; [left; split; [exact L|]; rewrite nth_error_app1 in H by lia; exact H|].
    right. rewrite nth_error_app2 in H by lia. rewrite LE in H. destruct (i - length rs) as [|j] eqn:E; cbn in H; [injection H as <-; split; [lia|reflexivity]|destruct j; discriminate]. }
  constructor; cbn [lh_thunks lh_log].
  - rewrite !app_length, LE. reflexivity.
  - intros i k' m H. destruct (D i _ H) as [[L H']|[-> E]]; [|discriminate].
    destruct (li_parser _ _ I i k' m H') as (A1 & A2). rewrite app_nth1 by exact L. auto.
  - intros i b m H. destruct (D i _ H) as [[L H']|[-> E]].
    + destruct (li_wrapped _ _ I i b m H') as (A1 & A2 & A3). rewrite !app_nth1 by lia. auto.
    + injection E as -> ->. rewrite (app_nth2 rs [_] 0 (n := length rs)), Nat.sub_diag by lia. rewrite app_nth1 by lia. split; [lia|]. split; [reflexivity|discriminate].
  - intros j J. apply (li_unread _ _ I). intros Q. apply J. apply in_or_app. auto.
  - apply (li_one _ _ I).
  - intros i j k' m m' H1 H2. destruct (D i _ H1) as [[L1 H1']|[-> E1]]; [|discriminate]. destruct (D j _ H2) as [[L2 H2']|[-> E2]]; [|discriminate].
    eapply (li_distinct _ _ I); eassumption.
Qed.

Lemma origins_app xs : forall rs, exists ext, origins rs xs = rs ++ ext.
Proof.
  induction xs as [|[k|a|a] xs IH]; intros rs; cbn [origins].
  - exists []. rewrite app_nil_r. reflexivity.
  - destruct (IH (rs ++ [k])) as [e ->]. rewrite <- app_assoc. eauto.
  - destruct (IH (rs ++ [nth a rs 0])) as [e ->]. rewrite <- app_assoc. eauto.
  - apply IH.
Qed.

(** What a history does: every forcing that succeeds gives the one success of its parser. *)
Theorem lrun_spec xs : forall h rs ks, linv h rs -> (forall k, In k rs -> In k ks) -> possible (length rs) ks xs ->
  let '(os, h') := lrun parser h xs in
  let rs' := origins rs xs in
  linv h' rs' /\ (exists ext, lh_log h' = lh_log h ++ ext) /\
  (forall i a, nth_error xs i = Some (AValue a) -> exists r, nth_error os i = Some (Some r) /\
     (forall v, r = Ok v -> successes (lh_log h') (nth a rs' 0) = [v]) /\
     (forall v, successes (lh_log h) (nth a rs' 0) = [v] -> r = Ok v) /\
     forall j b v, j < i -> nth_error xs j = Some (AValue b) -> nth_error os j = Some (Some (Ok v)) -> nth b rs' 0 = nth a rs' 0 -> r = Ok v).
Proof.
  induction xs as [|x xs IH]; intros h rs ks I SUB P; cbn [lrun origins].
  - split; [exact I|]. split; [exists []; rewrite app_nil_r; reflexivity|]. intros [|i] a; discriminate.
  - assert (KEEP : forall log ext k (v : A), successes log k = [v] -> length (successes (log ++ ext) k) <= 1 -> successes (log ++ ext) k = [v]).
    { intros log ext k v S. rewrite successes_app, S. destruct (successes ext k); [reflexivity|cbn; lia]. }
    destruct x as [k|a|a]; cbn [possible lstep] in *.
    + destruct P as [NK P].
      assert (I' := read_inv h rs k I ltac:(auto)).
      pose proof (IH _ (rs ++ [k]) (k :: ks) I') as G. rewrite app_length in G. cbn [length] in G. rewrite Nat.add_1_r in G.
      assert (SUB' : forall j, In j (rs ++ [k]) -> In j (k :: ks)) by (intros j J; apply in_app_or in J as [J|[J|[]]]; [right; auto|left; exact J]).
      specialize (G SUB' P). destruct (lrun parser _ xs) as [os h'] eqn:LR. destruct G as (A1 & A2 & A3).
      split; [exact A1|]. split; [exact A2|].
      intros [|i] a; [discriminate|]. cbn [nth_error]. intros N. destruct (A3 i a N) as (r & R1 & R2 & R3 & R4). exists r. split; [exact R1|]. split; [exact R2|]. split; [exact R3|].
      intros [|j] b v J; [discriminate|]. cbn [nth_error]. intros. eapply R4; eauto. lia.
    + destruct P as [LA P].
      assert (I' := derive_inv h rs a I LA).
      pose proof (IH _ (rs ++ [nth a rs 0]) ks I') as G. rewrite app_length in G. cbn [length] in G. rewrite Nat.add_1_r in G.
      assert (SUB' : forall j, In j (rs ++ [nth a rs 0]) -> In j ks) by (intros j J; apply in_app_or in J as [J|[J|[]]]; [auto|subst j; apply SUB, nth_In, LA]).
      specialize (G SUB' P). destruct (lrun parser _ xs) as [os h'] eqn:LR. destruct G as (A1 & A2 & A3).
      split; [exact A1|]. split; [exact A2|].
      intros [|i] b; [discriminate|]. cbn [nth_error]. intros N. destruct (A3 i b N) as (r & R1 & R2 & R3 & R4). exists r. split; [exact R1|]. split; [exact R2|]. split; [exact R3|].
      intros [|j] c v J; [discriminate|]. cbn [nth_error]. intros. eapply R4; eauto. lia.
    + destruct P as [LA P]. pose proof (call_spec (S a) h rs a I LA ltac:(lia)) as C. destruct (call parser (S a) h a) as [r0 h1]. destruct C as (I1 & (e1 & X1) & C1 & C2).
      pose proof (IH h1 rs ks I1 SUB P) as G. destruct (lrun parser h1 xs) as [os h'] eqn:LR. destruct G as (A1 & (e2 & A2) & A3).
      destruct (origins_app xs rs) as [eo EO].
      assert (NA : nth a (origins rs xs) 0 = nth a rs 0) by (rewrite EO, app_nth1 by exact LA; reflexivity).
      assert (FIN : forall k v, successes (lh_log h1) k = [v] -> successes (lh_log h') k = [v]).
      { intros k v S. rewrite A2. apply KEEP; [exact S|]. rewrite <- A2. apply (li_one _ _ A1). }
      assert (FIN0 : forall k v, successes (lh_log h) k = [v] -> successes (lh_log h1) k = [v]).
      { intros k v S. rewrite X1. apply KEEP; [exact S|]. rewrite <- X1. apply (li_one _ _ I1). }
      split; [exact A1|]. split; [exists (e1 ++ e2); rewrite A2, X1, app_assoc; reflexivity|].
      intros [|i] b; cbn [nth_error].
      * intros [= <-]. exists r0. split; [reflexivity|]. rewrite NA. split; [intros v V; apply FIN, C1, V|]. split; [intros v S; apply C2, S|]. intros j; lia.
      * intros N. destruct (A3 i b N) as (r & R1 & R2 & R3 & R4). exists r. split; [exact R1|]. split; [exact R2|]. split; [intros v S; apply R3, FIN0, S|].
        intros [|j] c v J; cbn [nth_error].
        -- intros [= <-] [= ->] E. apply R3. rewrite <- E, NA. apply C1. reflexivity.
        -- intros. eapply R4; eauto. lia.
Qed.
End THUNKS.

Lemma linv_new {A} : @linv A lheap_new [].
Proof.
  constructor; cbn; try (intros; destruct i; discriminate); auto.
Qed.

(** * Events of the managed reader *)

(** The eager program: all the attributes of an event are computed when it is handed out, before
    anything after it is read. *)
Record computed := mkcomputed { cp_value : res (option scalar); cp_field : res (option token); cp_annot : res (list token) }.
Definition compute_now (u : mevent) : computed := mkcomputed (me_value u) (me_field u) (me_annotations u).
Definition look (c : computed) (a : attribute) : answered :=
  match a with AtValue => GotValue (cp_value c) | AtField => GotField (cp_field c) | AtAnnotations => GotAnnotations (cp_annot c) end.
Fixpoint eager_program (fuel : nat) (cat : catalog) (mr : mreader) (objs : list computed) (acts : list act) : list seen :=
  match acts with
  | [] => []
  | Send d :: r =>
    match mreader_send fuel cat mr d with
    | (Ok u, mr') => SawEvent (ev_type (me_ev u)) (ev_ion_type (me_ev u)) (ev_depth (me_ev u)) :: eager_program fuel cat mr' (objs ++ [compute_now u]) r
    | (Err e, mr') => SawExc e :: eager_program fuel cat mr' objs r
    end
  | Look i a :: r =>
    match nth_error objs i with
    | None => SawNothing :: eager_program fuel cat mr objs r
    | Some c => SawAttr (look c a) :: eager_program fuel cat mr objs r
    end
  end.

Definition hs_valid (h : hstate) : Prop := hs_ctx h < length (hs_heap h).
Definition hs_state (h : hstate) : mstate := mkms (table_at (hs_heap h) (hs_ctx h)) (hs_proc h).
Definition grows (h h' : hstate) : Prop := exists ext, hs_heap h' = hs_heap h ++ ext.
Lemma grows_refl h : grows h h. Proof. exists []. rewrite app_nil_r. reflexivity. Qed.
Lemma grows_trans a b c : grows a b -> grows b c -> grows a c.
Proof. intros [x X] [y Y]. exists (x ++ y). rewrite Y, X, app_assoc. reflexivity. Qed.
Lemma table_grows h h' c : grows h h' -> c < length (hs_heap h) -> table_at (hs_heap h') c = table_at (hs_heap h) c.
Proof. intros [e E] L. unfold table_at. rewrite E, app_nth1 by exact L. reflexivity. Qed.
Lemma new_context_ok h t p : hs_valid (new_context h t p) /\ grows h (new_context h t p) /\ hs_state (new_context h t p) = mkms t p.
Proof.
  unfold hs_valid, hs_state, new_context, table_at. cbn [hs_ctx hs_heap hs_proc]. split; [rewrite app_length; cbn; lia|]. split; [exists [t]; reflexivity|].
  rewrite app_nth2, Nat.sub_diag by lia. reflexivity.
Qed.

Lemma hr_step_sim cat h e : hs_valid h ->
  match hr_step cat h e with
  | Err x => mr_step cat (hs_state h) e = Err x
  | Ok (h', d) => mr_step cat (hs_state h) e = Ok (hs_state h', d) /\ hs_valid h' /\ grows h h'
  end.
Proof.
  intros V. unfold hr_step, mr_step. cbn [hs_state ms_proc ms_table].
  assert (SAME : forall p, hs_valid (mkhs (hs_heap h) (hs_ctx h) p) /\ grows h (mkhs (hs_heap h) (hs_ctx h) p)) by (intros p; split; [exact V|exists []; rewrite app_nil_r; reflexivity]).
  assert (HE : h = mkhs (hs_heap h) (hs_ctx h) (hs_proc h)) by (destruct h; reflexivity).
  assert (STAY : forall d : option devent, Ok (hs_state h, d) = Ok (hs_state h, d) /\ hs_valid h /\ grows h h) by (intros d; split; [reflexivity|]; split; [exact V|apply grows_refl]).
  assert (EQ : hs_proc h = None -> hs_state h = mkms (table_at (hs_heap h) (hs_ctx h)) None) by (unfold hs_state; intros ->; reflexivity).
  destruct (hs_proc h) as [p|] eqn:P.
  - destruct (is_stream_signal (ev_type e)); [unfold hs_state; rewrite P; auto using grows_refl|].
    destruct (lp_step cat (table_at (hs_heap h) (hs_ctx h)) p e) as [[d p'|t]|x]; cbn [bind]; [| |reflexivity].
    + split; [reflexivity|]. apply SAME.
    + destruct (new_context_ok h t None) as (A & B & C). split; [f_equal; f_equal; symmetry; exact C|]. auto.
  - replace (mkms (table_at (hs_heap h) (hs_ctx h)) None) with (hs_state h) by (apply EQ; reflexivity). destruct (new_context_ok h system_table None) as (A & B & C).
    destruct (ev_depth e) as [[|z|z]|]; auto.
    destruct (ev_type e) eqn:T; destruct (ev_ion_type e) as [[]|]; destruct (ev_annot e) as [|a l]; auto;
      try (destruct (is_version_1_0 e); [split; [f_equal; f_equal; symmetry; exact C|auto]|reflexivity]);
      try (destruct (symbol_value e) as [[t|]|x]; cbn [bind]; auto;
           destruct (resolve_token (table_at (hs_heap h) (hs_ctx h)) t) as [r|x]; cbn [bind]; auto; destruct (is_text (tk_text r) TEXT_ION_1_0); auto).
    destruct (resolve_token (table_at (hs_heap h) (hs_ctx h)) a) as [r|x]; cbn [bind]; [|reflexivity].
    destruct (is_text (tk_text r) TEXT_ION_SYMBOL_TABLE); [split; [reflexivity|apply SAME]|apply STAY].
Qed.

Lemma hreader_sim cat fuel : forall h r d, hs_valid h ->
  match hreader_send fuel cat (h, r) d with
  | (Err x, (h', r')) => mreader_send fuel cat (hs_state h, r) d = (Err x, (hs_state h', r')) /\ hs_valid h' /\ grows h h'
  | (Ok o, (h', r')) => mreader_send fuel cat (hs_state h, r) d = (Ok (mkme (he_ev o) (table_at (hs_heap h') (he_ctx o))), (hs_state h', r')) /\
      hs_valid h' /\ grows h h' /\ he_ctx o < length (hs_heap h') /\ he_value o = None /\ he_field o = None /\ he_annot o = None
  end.
Proof.
  induction fuel as [|f IH]; intros h r d V; cbn [hreader_send mreader_send fst snd]; [auto using grows_refl|].
  destruct (reader_send r d) as [[ev|x] r']; [|auto using grows_refl].
  pose proof (hr_step_sim cat h ev V) as S. destruct (hr_step cat h ev) as [[h' [d'|]]|x].
  - destruct S as (S & V' & G). rewrite S. pose proof (IH h' r' d' V') as H. destruct (hreader_send f cat (h', r') d') as [[o|x] [h2 r2]].
    + destruct H as (A1 & A2 & A3 & A4). split; [exact A1|]. split; [exact A2|]. split; [eapply grows_trans; eassumption|exact A4].
    + destruct H as (A1 & A2 & A3). split; [exact A1|]. split; [exact A2|]. eapply grows_trans; eassumption.
  - destruct S as (S & V' & G). rewrite S. cbn [he_ev he_ctx he_value he_field he_annot ms_table hs_state]. auto 10.
  - rewrite S. cbn [hs_state]. auto using grows_refl.
Qed.

(** An object and what was computed for it at once. *)
Definition agrees {B} (m : option B) (c : res B) : Prop := match m with None => True | Some v => c = Ok v end.
Definition object_ok (heap : list symtab) (o : hevent) (c : computed) : Prop :=
  he_ctx o < length heap /\ c = compute_now (mkme (he_ev o) (table_at heap (he_ctx o))) /\
  agrees (he_value o) (cp_value c) /\ agrees (he_field o) (cp_field c) /\ agrees (he_annot o) (cp_annot c).
Lemma object_grows h h' o c : grows h h' -> object_ok (hs_heap h) o c -> object_ok (hs_heap h') o c.
Proof.
  intros G (L & E & R). split; [destruct G as [e ->]; rewrite app_length; lia|]. split; [|exact R].
  rewrite (table_grows h h' _ G L). exact E.
Qed.
Lemma memo_agrees {B} (m : option B) (c : res B) : agrees m c -> fst (memo m c) = c /\ agrees (snd (memo m c)) c.
Proof. destruct m as [v|]; cbn; [intros ->; auto|]. destruct c; cbn; auto. Qed.
Lemma force_ok heap o c a : object_ok heap o c ->
  fst (force_attr heap o a) = look c a /\ object_ok heap (snd (force_attr heap o a)) c.
Proof.
  intros (L & E & R1 & R2 & R3). unfold force_attr. subst c. cbn [compute_now cp_value cp_field cp_annot] in *.
  destruct a; cbn [look].
  - pose proof (memo_agrees _ _ R1) as [M1 M2]. destruct (memo _ _) as [r m]. cbn [fst snd] in *. subst r. split; [reflexivity|].
    split; [exact L|]. split; [reflexivity|]. cbn. auto.
  - pose proof (memo_agrees _ _ R2) as [M1 M2]. destruct (memo _ _) as [r m]. cbn [fst snd] in *. subst r. split; [reflexivity|].
    split; [exact L|]. split; [reflexivity|]. cbn. auto.
  - pose proof (memo_agrees _ _ R3) as [M1 M2]. destruct (memo _ _) as [r m]. cbn [fst snd] in *. subst r. split; [reflexivity|].
    split; [exact L|]. split; [reflexivity|]. cbn. auto.
Qed.

Lemma Forall2_nth {B C} (P : B -> C -> Prop) l1 l2 i : Forall2 P l1 l2 ->
  match nth_error l1 i, nth_error l2 i with Some a, Some b => P a b | None, None => True | _, _ => False end.
Proof. intros H. revert i. induction H; intros [|i]; cbn [nth_error]; auto. apply IHForall2. Qed.
Lemma Forall2_upd {B C} (P : B -> C -> Prop) l1 l2 i a b : Forall2 P l1 l2 -> nth_error l2 i = Some b -> P a b -> Forall2 P (upd l1 i a) l2.
Proof.
  intros H. revert i. induction H; intros [|i] N Q; cbn in *; try discriminate; try (constructor; auto).
  injection N as ->. exact Q.
Qed.

Theorem lazy_is_eager cat fuel acts : forall h r objs cs, hs_valid h -> Forall2 (object_ok (hs_heap h)) objs cs ->
  hprogram fuel cat (h, r) objs acts = eager_program fuel cat (hs_state h, r) cs acts.
Proof.
  induction acts as [|[d|i a] acts IH]; intros h r objs cs V O; cbn [hprogram eager_program]; [reflexivity| |].
  - pose proof (hreader_sim cat fuel h r d V) as S. destruct (hreader_send fuel cat (h, r) d) as [[o|x] [h' r']].
    + destruct S as (-> & V' & G & L & M1 & M2 & M3). cbn [me_ev]. f_equal. apply IH; [exact V'|]. apply Forall2_app.
      * clear - O G. induction O; constructor; auto. eapply object_grows; eassumption.
      * constructor; [|constructor]. split; [exact L|]. split; [reflexivity|]. rewrite M1, M2, M3. cbn. auto.
    + destruct S as (-> & V' & G). f_equal. apply IH; [exact V'|]. clear - O G. induction O; constructor; auto. eapply object_grows; eassumption.
  - pose proof (Forall2_nth _ _ _ i O) as N. destruct (nth_error objs i) as [o|]; destruct (nth_error cs i) as [c|] eqn:NC; try contradiction.
    + cbn [fst]. destruct (force_ok _ _ _ a N) as [F1 F2]. destruct (force_attr (hs_heap h) o a) as [x o']. cbn [fst snd] in *. subst x. f_equal.
      apply IH; [exact V|]. eapply Forall2_upd; eassumption.
    + f_equal. apply IH; assumption.
Qed.
