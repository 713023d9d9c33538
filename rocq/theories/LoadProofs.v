(** [load] makes of a stream of events what it means. *)
From Verif Require Import Base BaseFacts CoreModel BinWriterModel BinReaderModel TimestampFacts SymbolsModel ManagedModel MultimapModel MultimapProofs Cursor ManagedSpec SimpleionModel SimpleionSpec SimpleionProofs LoadSpec.
Local Open Scope Z_scope.

(** * Structs: items added one by one are gathered by key *)
Section GATHER.
Context {V : Type}.
Notation item := (option text * V)%type.
Notation add := (fun (m : multimap (option text) V) (p : item) => mm_add_item name_eqb m (fst p) (snd p)).
Definition alike (k : option text) (l : list item) : list item := filter (fun p => same_name k (fst p)) l.
Definition others (k : option text) (l : list item) : list item := filter (fun p => negb (same_name k (fst p))) l.
Definition vals (k : option text) (l : list item) : list V := map snd (alike k l).
Fixpoint groups_from (n : nat) (l : list item) : multimap (option text) V :=
  match n, l with S n', (k, v) :: r => (k, v :: vals k r) :: groups_from n' (others k r) | _, _ => [] end.
Definition groups (l : list item) := groups_from (length l) l.

Lemma same_ok a b : same_name a b = true <-> a = b. Proof. apply name_eqb_ok. Qed.
Lemma same_refl a : same_name a a = true. Proof. apply same_ok. reflexivity. Qed.
Lemma same_not a b : same_name a b = false <-> a <> b.
Proof. rewrite <- same_ok. destruct (same_name a b); split; congruence. Qed.
Lemma others_length k l : (length (others k l) <= length l)%nat.
Proof. induction l as [|p l IH]; cbn [others filter length]; [lia|]. unfold others in IH. destruct (negb _); cbn [length]; lia. Qed.
Lemma groups_fuel n : forall m l, (length l <= n)%nat -> (length l <= m)%nat -> groups_from n l = groups_from m l.
Proof.
  induction n as [|n IH]; intros m l N M; [destruct l; [destruct m; reflexivity|cbn in N; lia]|].
  destruct l as [|[k v] l]; [destruct m; reflexivity|]. destruct m as [|m]; [cbn in M; lia|]. cbn [groups_from]. f_equal. cbn [length] in *. pose proof (others_length k l). apply IH; lia.
Qed.
Lemma groups_cons k v r : groups ((k, v) :: r) = (k, v :: vals k r) :: groups (others k r).
Proof. unfold groups. cbn [length groups_from]. f_equal. apply groups_fuel; [apply others_length|lia]. Qed.
Lemma gathered_fuel n : forall m (l : list item), (length l <= n)%nat -> (length l <= m)%nat -> gathered_from n l = gathered_from m l.
Proof.
  induction n as [|n IH]; intros m l N M; [destruct l; [destruct m; reflexivity|cbn in N; lia]|].
  destruct l as [|[k v] l]; [destruct m; reflexivity|]. destruct m as [|m]; [cbn in M; lia|]. cbn [gathered_from]. do 2 f_equal. cbn [length] in *. pose proof (others_length k l). unfold others in *. apply IH; lia.
Qed.
Lemma gathered_cons k v r : gathered ((k, v) :: r) = (k, v) :: alike k r ++ gathered (others k r).
Proof. unfold gathered. cbn [length gathered_from]. do 2 f_equal. apply gathered_fuel; [apply others_length|lia]. Qed.

Lemma alike_pairs k l : map (pair k) (vals k l) = alike k l.
Proof.
  unfold vals, alike. induction l as [|[k' v] l IH]; [reflexivity|]. cbn [filter fst]. destruct (same_name k k') eqn:E; [|exact IH]. apply same_ok in E. subst k'. cbn [map snd]. rewrite IH. reflexivity.
Qed.
Lemma groups_items : forall n l, (length l <= n)%nat -> mm_items (groups l) = gathered l.
Proof.
  induction n as [|n IH]; intros [|[k v] l] N; try reflexivity; [cbn in N; lia|]. rewrite groups_cons, gathered_cons. unfold mm_items in *. cbn [flat_map fst snd map]. rewrite alike_pairs. cbn [app length] in *. do 2 f_equal.
  pose proof (others_length k l). apply IH. lia.
Qed.
Lemma groups_keys : forall n l, (length l <= n)%nat -> (forall k, In k (map fst (groups l)) -> In k (map fst l)) /\ NoDup (map fst (groups l)) /\ Forall (fun p => snd p <> []) (groups l).
Proof.
  induction n as [|n IH]; intros [|[k v] l] N; try (cbn; split; [tauto|split; constructor]); [cbn in N; lia|]. rewrite groups_cons. cbn [map fst]. pose proof (others_length k l). cbn [length] in N.
  destruct (IH (others k l)) as (K & ND & NE); [lia|].
  assert (KO : forall k', In k' (map fst (groups (others k l))) -> In k' (map fst l) /\ k' <> k).
  { intros k' I. apply K in I. apply in_map_iff in I. destruct I as (p & <- & I). unfold others in I. apply filter_In in I. destruct I as (I & E). split; [apply in_map; exact I|].
    intros <-. rewrite same_refl in E. discriminate. }
  split; [|split].
  - intros k' [<-|I]; [left; reflexivity|]. right. apply KO, I.
  - constructor; [|exact ND]. intros I. apply KO in I. tauto.
  - constructor; [discriminate|exact NE].
Qed.

Definition outside (d : multimap (option text) V) (l : list item) : list item := filter (fun p => negb (existsb (fun q => same_name (fst q) (fst p)) d)) l.
Lemma in_keys d k : existsb (fun q : option text * list V => same_name (fst q) k) d = true <-> In k (map fst d).
Proof.
  rewrite existsb_exists. split.
  - intros (q & I & E). apply same_ok in E. subst k. apply in_map. exact I.
  - intros I. apply in_map_iff in I. destruct I as (q & <- & I). exists q. split; [exact I|apply same_refl].
Qed.
Definition grown (k : option text) (v : V) (d : multimap (option text) V) : multimap (option text) V :=
  map (fun p => if same_name k (fst p) then (fst p, snd p ++ [v]) else p) d.
Lemma set_grown (d : multimap (option text) V) k v : NoDup (map fst d) -> In k (map fst d) -> exists vs, dict_get name_eqb d k = Some vs /\ dict_set name_eqb d k (vs ++ [v]) = grown k v d.
Proof.
  induction d as [|[k' vs] d IH]; intros ND I; [destruct I|]. cbn [dict_get dict_set map fst In] in *. inversion ND as [|? ? N1 N2]; subst. unfold grown. cbn [map fst snd]. fold (grown k v d).
  change (same_name k k') with (name_eqb k k').
  destruct (name_eqb k k') eqn:E.
  - apply name_eqb_ok in E. subst k'. exists vs. split; [reflexivity|]. f_equal. unfold grown. symmetry. rewrite <- (map_id d) at 2. apply map_ext_in. intros p J.
    destruct (same_name k (fst p)) eqn:E; [|reflexivity]. apply same_ok in E. exfalso. apply N1. rewrite E. apply in_map. exact J.
  - destruct I as [->|I]; [pose proof (same_refl k) as R; unfold same_name in R; unfold name_eqb in E; congruence|]. destruct (IH N2 I) as (ws & A & B). exists ws. split; [exact A|]. f_equal. exact B.
Qed.
Lemma grown_keys k v d : map fst (grown k v d) = map fst d.
Proof. unfold grown. rewrite map_map. apply map_ext. intros p. destruct (same_name k (fst p)); reflexivity. Qed.
Lemma existsb_keys (d d' : multimap (option text) V) k : map fst d = map fst d' -> existsb (fun q => same_name (fst q) k) d = existsb (fun q => same_name (fst q) k) d'.
Proof.
  intros E. destruct (existsb _ d) eqn:A; symmetry.
  - apply in_keys. rewrite <- E. apply in_keys. exact A.
  - destruct (existsb (fun q => same_name (fst q) k) d') eqn:B; [|reflexivity]. apply in_keys in B. rewrite <- E in B. apply in_keys in B. congruence.
Qed.
Lemma filter_ext' {A} (p q : A -> bool) l : (forall x, p x = q x) -> filter p l = filter q l.
Proof. intros H. induction l as [|x l IH]; [reflexivity|]. cbn [filter]. rewrite H, IH. reflexivity. Qed.
Lemma filter_filter {A} (p q : A -> bool) l : filter p (filter q l) = filter (fun x => q x && p x) l.
Proof. induction l as [|x l IH]; [reflexivity|]. cbn [filter]. destruct (q x); cbn [filter andb]; rewrite IH; reflexivity. Qed.

Theorem fold_add items : forall d, NoDup (map fst d) -> fold_left add items d = map (fun p => (fst p, snd p ++ vals (fst p) items)) d ++ groups (outside d items).
Proof.
  induction items as [|[k v] items IH]; intros d ND; cbn [fold_left fst snd].
  - cbn [outside filter]. unfold groups. cbn [length groups_from]. rewrite app_nil_r. rewrite <- (map_id d) at 1. apply map_ext. intros [k vs]. cbn. rewrite app_nil_r. reflexivity.
  - destruct (existsb (fun q => same_name (fst q) k) d) eqn:IN.
    + pose proof (proj1 (in_keys _ _) IN) as IK. destruct (set_grown d k v ND IK) as (vs & A & B). unfold mm_add_item at 2. rewrite A, append_is_app, B.
      rewrite IH by (rewrite grown_keys; exact ND). f_equal.
      * unfold grown. rewrite map_map. apply map_ext_in. intros [k' ws] _. cbn [fst snd]. unfold vals, alike. cbn [filter fst]. destruct (same_name k k') eqn:E; cbn [fst snd].
        -- apply same_ok in E. subst k'. rewrite same_refl. cbn [map snd]. rewrite <- app_assoc. reflexivity.
        -- replace (same_name k' k) with false; [reflexivity|]. symmetry. apply same_not. apply same_not in E. congruence.
      * f_equal. unfold outside at 2. cbn [filter fst]. rewrite IN. cbn [negb]. apply filter_ext'. intros p. f_equal. apply existsb_keys, grown_keys.
    + assert (NI : ~ In k (map fst d)) by (intros I; apply in_keys in I; congruence). unfold mm_add_item at 2. rewrite dict_get_notin by exact NI. unfold mm_setitem, mv_new. rewrite dict_set_new by exact NI.
      rewrite IH.
      2: { rewrite map_app. cbn [map fst]. apply (NoDup_Add (a := k) (l := map fst d)); [|split; assumption]. pose proof (Add_app k (map fst d) []) as AA. rewrite app_nil_r in AA. exact AA. }
      rewrite map_app, <- app_assoc. cbn [map app fst snd]. f_equal.
      * apply map_ext_in. intros [k' ws] I. cbn [fst snd]. unfold vals, alike. cbn [filter fst]. replace (same_name k' k) with false; [reflexivity|]. symmetry. apply same_not. intros ->. apply NI. apply (in_map fst) in I. exact I.
      * unfold outside at 2. cbn [filter fst]. rewrite IN. cbn [negb]. fold (outside d items). rewrite groups_cons.
        assert (E1 : vals k (outside d items) = vals k items).
        { unfold vals, alike, outside. rewrite filter_filter. f_equal. apply filter_ext'. intros p. destruct (same_name k (fst p)) eqn:E; [|apply andb_false_r]. apply same_ok in E. rewrite <- E, IN. reflexivity. }
        assert (E2 : others k (outside d items) = outside (d ++ [(k, [v])]) items).
        { unfold others, outside. rewrite filter_filter. apply filter_ext'. intros p. rewrite existsb_app. cbn [existsb fst]. rewrite orb_false_r, negb_orb. reflexivity. }
        rewrite E1, E2. reflexivity.
Qed.
Corollary fold_gathers items : exists m, fold_left add items [] = m /\ mm_items m = gathered items /\ NoDup (map fst m) /\ Forall (fun p => snd p <> []) m.
Proof.
  exists (groups items). split.
  - rewrite fold_add by constructor. cbn [map app]. f_equal. unfold outside. cbn [existsb negb]. induction items as [|p l IH]; [reflexivity|]. cbn [filter]. rewrite IH. reflexivity.
  - split; [apply (groups_items (length items)); lia|]. apply (groups_keys (length items)). lia.
Qed.
End GATHER.
Lemma gathered_map {A B} (g : A -> B) : forall n (l : list (option text * A)), (length l <= n)%nat -> gathered (map (fun p => (fst p, g (snd p))) l) = map (fun p => (fst p, g (snd p))) (gathered l).
Proof.
  assert (FM : forall (q : option text -> bool) (l : list (option text * A)), filter (fun p => q (fst p)) (map (fun p => (fst p, g (snd p))) l) = map (fun p => (fst p, g (snd p))) (filter (fun p => q (fst p)) l)).
  { intros q l. induction l as [|[k v] l IH]; [reflexivity|]. cbn [map filter fst snd]. destruct (q k); cbn [map fst snd]; rewrite IH; reflexivity. }
  induction n as [|n IH]; intros [|[k v] l] N; try reflexivity; [cbn in N; lia|]. cbn [map fst snd]. rewrite !gathered_cons. cbn [map fst snd]. rewrite map_app. f_equal. f_equal.
  - apply (FM (fun x => same_name k x)).
  - unfold others. rewrite (FM (fun x => negb (same_name k x))). apply IH. pose proof (others_length k l). unfold others in *. cbn in N. lia.
Qed.

(** * Trees of events *)
Fixpoint feeds {F : Type} (next : F -> res (mevent * F)) (s : F) (us : list mevent) (fin : stop) : Prop :=
  match us with
  | [] => match fin with
          | SEnd => exists u s', next s = Ok (u, s') /\ ev_type (me_ev u) = EStreamEnd
          | SExc e => next s = Err e
          | SMore => False
          end
  | u :: r => exists s', next s = Ok (u, s') /\ feeds next s' r fin
  end.
Fixpoint formed (t : etree mevent) : Prop :=
  match t with
  | Leaf u => ev_type (me_ev u) = EScalar
  | Branch u ks f => ev_type (me_ev u) = EContainerStart /\ ev_type (me_ev f) = EContainerEnd /\ fold_right (fun k P => formed k /\ P) True ks
  end.
Lemma formed_kids ks : fold_right (fun k P => formed k /\ P) True ks <-> Forall formed ks.
Proof.
  induction ks as [|k ks IH]; cbn [fold_right]; split; intros H; auto; [destruct H; constructor; tauto|]. inversion H; subst. tauto.
Qed.
(** The timestamps of the events are as the constructor makes them, with a precision. *)
Definition steady (s : scalar) : Prop := py_scalar TTimestamp s = Ok s /\ content s = s.
Definition sound (u : mevent) : Prop := forall s, valued u (Some s) -> steady s.

Lemma symbol_resolves table t x : symbol_text table t x -> exists r, resolve_token table t = Ok r /\ tk_text r = x.
Proof.
  unfold symbol_text, resolve_token. destruct (tk_text t) as [s|] eqn:T.
  - intros ->. exists t. auto.
  - intros (sid & r & S & G & ->). rewrite S, G. exists r. auto.
Qed.
Lemma annotations_resolve u an : annotated u an -> exists rs, me_annotations u = Ok rs /\ map tk_text rs = an.
Proof.
  unfold annotated, me_annotations. generalize (ev_annot (me_ev u)) as l. intros l H. induction H as [|t x l an E H IH]; [exists []; auto|].
  destruct (symbol_resolves _ _ _ E) as (r & R & X). destruct IH as (rs & A & B). exists (r :: rs). cbn [mapM map]. rewrite R, A. cbn [bind]. rewrite X, B. auto.
Qed.
Lemma called_resolves u k : called u k -> exists r, me_field u = Ok (Some r) /\ tk_text r = k.
Proof. intros (f & F & S). unfold me_field. rewrite F. destruct (symbol_resolves _ _ _ S) as (r & R & X). rewrite R. exists r. auto. Qed.

Lemma fits_plain t s : class_fits t s -> t <> TSymbol -> iontype_eqb t TNull || is_container t = false.
Proof. destruct t, s; cbn; intros; tauto || reflexivity. Qed.
Lemma steady_scalar t s : class_fits t s -> steady s -> py_scalar t s = Ok s.
Proof. intros C (P & _). destruct t; try reflexivity. exact P. Qed.

Section LOADS.
Variable tas : bool.
Definition good (v : pyval) (i : ionval) : Prop := meaning tas v = i /\ loaded v.
(** A value is loaded in [N] steps or fewer. *)
Definition loads_as (t : etree mevent) (i : ionval) : Prop :=
  exists v N, good v i /\ forall (F : Type) (next : F -> res (mevent * F)) s us fin, feeds next s (flatten t ++ us) fin ->
    exists s', feeds next s' us fin /\
    forall f until out, (N <= f)%nat -> load_into (S f) next s until out = (let* out := target_add out (first_event t) v in load_into f next s' until out).

Lemma leaf_loads u i : means (Leaf u) i -> formed (Leaf u) -> sound u -> loads_as (Leaf u) i.
Proof.
  intros M FO SO. cbn [formed] in FO.
  assert (L : exists v, good v i /\ load_scalar u = Ok v).
  { inversion M as [u0 t an TY AN VA|u0 an k x TY AN VA SY|u0 t an s TY NT AN VA CF| |]; subst; destruct (annotations_resolve _ _ AN) as (rs & AR & AT); unfold typed, valued in *.
    - exists (PNull t (map ATok rs)). split; [split; [cbn; rewrite tok_texts, AT; reflexivity|constructor]|]. unfold load_scalar, me_value. rewrite VA, TY. cbn [bind].
      replace (match t with TSymbol => Ok None | _ => Ok None end) with (@Ok (option scalar) None) by (destruct t; reflexivity). destruct t; cbn [bind]; rewrite AR; reflexivity.
    - destruct (symbol_resolves _ _ _ SY) as (r & R & X). exists (PIon TSymbol (map ATok rs) (VSymbol r)). split; [split; [cbn; rewrite tok_texts, AT, X; reflexivity|constructor; reflexivity || exact Logic.I]|].
      unfold load_scalar, me_value. rewrite VA, TY. cbn [bind]. rewrite R. cbn [bind iontype_eqb iontype_num Z.eqb Pos.eqb is_container orb py_scalar]. rewrite AR. reflexivity.
    - pose proof (SO s VA) as ST. exists (PIon t (map ATok rs) s). split.
      + split; [|constructor; [exact CF|apply ST]]. cbn [meaning_by]. rewrite tok_texts, AT. unfold ion_scalar_by. rewrite (proj2 ST). destruct t; reflexivity || congruence.
      + unfold load_scalar, me_value. rewrite VA, TY. cbn [bind]. replace (match t with TSymbol => _ | _ => Ok (Some s) end) with (Ok (Some s)) by (destruct t; reflexivity || congruence). cbn [bind].
        rewrite (fits_plain t s CF NT), (steady_scalar t s CF ST). cbn [bind]. rewrite AR. reflexivity. }
  destruct L as (v & G & LS). exists v, 0%nat. split; [exact G|]. intros F next s us fin (s' & NX & FE). exists s'. split; [exact FE|]. intros f until out _.
  cbn [load_into]. rewrite NX. cbn [bind first_event]. rewrite FO, until_scalar, LS. reflexivity.
Qed.
Lemma list_loads ks l : Forall2 loads_as ks l -> exists l' N, (map (meaning tas) l' = l /\ Forall loaded l') /\
  forall (F : Type) (next : F -> res (mevent * F)) s us fin, feeds next s (flat_map flatten ks ++ us) fin -> exists s', feeds next s' us fin /\
    forall f until acc, (N <= f)%nat -> load_into (length ks + f) next s until (OnList acc) = load_into f next s' until (OnList (acc ++ l')).
Proof.
  induction 1 as [|k i ks l L LS IH].
  - exists [], 0%nat. split; [split; [reflexivity|constructor]|]. intros F next s us fin FE. exists s. split; [exact FE|]. intros f until acc _. rewrite app_nil_r. reflexivity.
  - destruct L as (v & N1 & [E1 O1] & L1). destruct IH as (l' & N2 & [E2 O2] & L2). exists (v :: l'), (N1 + N2)%nat. split; [split; [cbn [map]; congruence|constructor; assumption]|].
    intros F next s us fin FE. cbn [flat_map] in FE. rewrite <- app_assoc in FE. destruct (L1 F next s _ fin FE) as (s1 & FE1 & LL1). destruct (L2 F next s1 us fin FE1) as (s2 & FE2 & LL2). exists s2. split; [exact FE2|].
    intros f until acc LE. cbn [length plus]. rewrite LL1 by lia. cbn [target_add bind]. rewrite LL2 by lia. rewrite <- app_assoc. reflexivity.
Qed.
Lemma fields_loads ks l : Forall2 (fun k (p : option text * ionval) => called (first_event k) (fst p) /\ loads_as k (snd p)) ks l ->
  exists l' N, (map (fun p => (fst p, meaning tas (snd p))) l' = l /\ Forall (fun p => loaded (snd p)) l') /\
  forall (F : Type) (next : F -> res (mevent * F)) s us fin, feeds next s (flat_map flatten ks ++ us) fin -> exists s', feeds next s' us fin /\
    forall f until acc, (N <= f)%nat -> load_into (length ks + f) next s until (OnMap acc) =
      load_into f next s' until (OnMap (fold_left (fun m p => mm_add_item name_eqb m (fst p) (snd p)) l' acc)).
Proof.
  induction 1 as [|k [x i] ks l [C L] LS IH]; cbn [fst snd] in *.
  - exists [], 0%nat. split; [split; [reflexivity|constructor]|]. intros F next s us fin FE. exists s. split; [exact FE|]. reflexivity.
  - destruct L as (v & N1 & [E1 O1] & L1). destruct IH as (l' & N2 & [E2 O2] & L2). exists ((x, v) :: l'), (N1 + N2)%nat. split; [split; [cbn [map fst snd]; congruence|constructor; assumption]|].
    destruct (called_resolves _ _ C) as (r & MF & TK).
    intros F next s us fin FE. cbn [flat_map] in FE. rewrite <- app_assoc in FE. destruct (L1 F next s _ fin FE) as (s1 & FE1 & LL1). destruct (L2 F next s1 us fin FE1) as (s2 & FE2 & LL2). exists s2. split; [exact FE2|].
    intros f until acc LE. cbn [length plus]. rewrite LL1 by lia. cbn [target_add bind]. rewrite MF. cbn [bind]. rewrite LL2 by lia. cbn [fold_left fst snd]. rewrite TK. reflexivity.
Qed.
Lemma branch_loads u ks e t i got :
  ev_type (me_ev u) = EContainerStart -> ev_type (me_ev e) = EContainerEnd -> typed u t ->
  (exists N, forall (F : Type) (next : F -> res (mevent * F)) s us fin, feeds next s (flat_map flatten ks ++ us) fin -> exists s', feeds next s' us fin /\
    forall f until, (N <= f)%nat -> load_into (length ks + f) next s until (target_new t) = load_into f next s' until got) ->
  (exists rs, me_annotations u = Ok rs /\ good (target_value t rs got) i) -> loads_as (Branch u ks e) i.
Proof.
  intros T1 T2 TY (N & L) (rs & AR & G). exists (target_value t rs got), (length ks + S N)%nat. split; [exact G|].
  intros F next s us fin FE. cbn [flatten app] in FE. rewrite <- app_assoc in FE. destruct FE as (s1 & N1 & FE). destruct (L F next s1 _ fin FE) as (s2 & (s3 & N3 & FE3) & LL). exists s3. split; [exact FE3|].
  intros f until out LE. cbn [load_into first_event]. rewrite N1. cbn [bind]. unfold typed in TY. rewrite T1, until_start, TY. cbn [bind]. rewrite AR. cbn [bind].
  replace f with (length ks + (f - length ks))%nat at 1 by lia. rewrite LL by lia. destruct (f - length ks)%nat as [|g] eqn:EG; [lia|]. cbn [load_into]. rewrite N3. cbn [bind]. rewrite T2. reflexivity.
Qed.
Lemma gathered_Forall {V} (P : V -> Prop) : forall n (l : list (option text * V)), (length l <= n)%nat -> Forall (fun p => P (snd p)) l -> Forall (fun p => P (snd p)) (gathered l).
Proof.
  assert (FF : forall q (l : list (option text * V)), Forall (fun p => P (snd p)) l -> Forall (fun p => P (snd p)) (filter q l)).
  { intros q l H. induction H as [|p l H1 H2 IH]; [constructor|]. cbn [filter]. destruct (q p); [constructor; assumption|exact IH]. }
  induction n as [|n IH]; intros [|[k v] l] L H; try exact (Forall_nil _); [cbn in L; lia|]. inversion H; subst. rewrite gathered_cons. constructor; [assumption|]. apply Forall_app. split; [apply FF; assumption|].
  apply IH; [pose proof (others_length k l); cbn in L; lia|apply FF; assumption].
Qed.
Lemma value_loads t : forall i, means t i -> formed t -> Forall sound (flatten t) -> loads_as t i.
Proof.
  induction t as [u|u ks e IH] using tree_induction; intros i M FO SO.
  - apply leaf_loads; [exact M|exact FO|]. inversion SO; subst; assumption.
  - cbn [formed] in FO. destruct FO as (T1 & T2 & FK). apply formed_kids in FK. cbn [flatten] in SO. inversion SO as [|? ? S1 S2]; subst. apply Forall_app in S2. destruct S2 as (S2 & _).
    assert (SK : Forall (fun k => Forall sound (flatten k)) ks).
    { clear - S2. induction ks as [|k ks IHk]; [constructor|]. cbn [flat_map] in S2. apply Forall_app in S2. destruct S2. constructor; [assumption|auto]. }
    inversion M as [| | |u0 ks0 f0 t an l TY TT AN KS|u0 ks0 f0 an l TY AN KS]; subst; destruct (annotations_resolve _ _ AN) as (rs & AR & AT).
    + assert (LS : Forall2 loads_as ks l).
      { clear - IH FK SK KS. induction KS as [|k i ks l K KS IHk]; [constructor|]. inversion IH; subst. inversion FK; subst. inversion SK; subst. constructor; auto. }
      destruct (list_loads ks l LS) as (l' & N & [E O] & L). apply (branch_loads u ks e t _ (OnList l') T1 T2 TY).
      * exists N. intros F next s us fin FE. destruct (L F next s us fin FE) as (s' & FE' & LL). exists s'. split; [exact FE'|]. intros f until LE.
        replace (target_new t) with (OnList []) by (destruct TT; subst; reflexivity). rewrite LL by exact LE. reflexivity.
      * exists rs. split; [exact AR|]. split; [cbn; rewrite tok_texts, AT, E; reflexivity|constructor; exact O].
    + assert (LS : Forall2 (fun k (p : option text * ionval) => called (first_event k) (fst p) /\ loads_as k (snd p)) ks l).
      { clear - IH FK SK KS. induction KS as [|k i ks l [C K] KS IHk]; [constructor|]. inversion IH; subst. inversion FK; subst. inversion SK; subst. constructor; auto. }
      destruct (fields_loads ks l LS) as (l' & N & [E O] & L). destruct (fold_gathers l') as (m & ME & MI & MK & MN).
      apply (branch_loads u ks e TStruct _ (OnMap m) T1 T2 TY).
      * exists N. intros F next s us fin FE. destruct (L F next s us fin FE) as (s' & FE' & LL). exists s'. split; [exact FE'|]. intros f until LE.
        change (target_new TStruct) with (OnMap (@nil (option text * list pyval))). rewrite LL by exact LE. rewrite ME. reflexivity.
      * exists rs. split; [exact AR|]. split.
        -- cbn [target_value meaning_by]. rewrite tok_texts, AT. f_equal.
           rewrite <- E, (gathered_map (meaning tas) (length l')), <- MI by lia. unfold mm_items. rewrite flat_map_concat_map, flat_map_concat_map, concat_map, map_map. f_equal. apply map_ext. intros [k vs]. cbn [fst snd]. rewrite map_map. reflexivity.
        -- cbn [target_value]. constructor; [exact MK|]. assert (OI : Forall (fun p => loaded (snd p)) (mm_items m)) by (rewrite MI; apply (gathered_Forall loaded (length l')); [lia|exact O]).
           apply Forall_forall. intros p I. rewrite Forall_forall in MN. split; [apply MN; exact I|]. apply Forall_forall. intros x J. rewrite Forall_forall in OI.
           apply (OI (fst p, x)). unfold mm_items. apply in_flat_map. exists p. split; [exact I|]. apply in_map. exact J.
Qed.

(** A whole stream. *)
Theorem stream_loads_as ts vs fin : Forall2 means ts vs -> Forall formed ts -> Forall sound (flat_map flatten ts) ->
  exists l N, (map (meaning tas) l = vs /\ Forall loaded l) /\
  forall (F : Type) (next : F -> res (mevent * F)) s, feeds next s (flat_map flatten ts) fin ->
    forall f, (N <= f)%nat -> match fin with
    | SEnd => exists s', load_into f next s EStreamEnd (OnList []) = Ok (OnList l, s')
    | SExc e => load_into f next s EStreamEnd (OnList []) = Err e
    | SMore => False
    end.
Proof.
  intros M FO SO. assert (LS : Forall2 loads_as ts vs).
  { clear - M FO SO. induction M as [|t v ts vs K M IH]; [constructor|]. inversion FO; subst. cbn [flat_map] in SO. apply Forall_app in SO. destruct SO. constructor; [apply value_loads; assumption|auto]. }
  destruct (list_loads ts vs LS) as (l & N & G & L). exists l, (length ts + S N)%nat. split; [exact G|]. intros F next s FE f LE. rewrite <- (app_nil_r (flat_map flatten ts)) in FE.
  destruct (L F next s [] fin FE) as (s' & FE' & LL). replace f with (length ts + (f - length ts))%nat by lia. rewrite LL by lia. destruct (f - length ts)%nat as [|g] eqn:EG; [lia|]. cbn [load_into app feeds] in *.
  destruct fin as [| |e]; [contradiction| |].
  - destruct FE' as (u & s2 & NX & T). rewrite NX. cbn [bind]. rewrite T. cbn [is_until]. eauto.
  - rewrite FE'. reflexivity.
Qed.
End LOADS.
