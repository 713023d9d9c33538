(** C80: the classes that [record] and [Enum] of amazon.ion.util declare. *)
From Coq Require Import String.
From Verif Require Import Base BaseFacts CoreModel SymbolsModel TextReaderModel UtilModel.
Local Open Scope Z_scope.
Local Open Scope list_scope.

(** * Specification: records *)
Section RECORDS.
Context {V : Type}.
(** The names a field may have: ASCII identifiers that start with a letter and are no keyword of Python. *)
Definition letter (c : Z) : Prop := 65 <= c <= 90 \/ 97 <= c <= 122.
Definition reserved : list text := map chars
  ["False"; "None"; "True"; "and"; "as"; "assert"; "async"; "await"; "break"; "class"; "continue"; "def"; "del"; "elif"; "else"; "except";
   "finally"; "for"; "from"; "global"; "if"; "import"; "in"; "is"; "lambda"; "nonlocal"; "not"; "or"; "pass"; "raise"; "return"; "try";
   "while"; "with"; "yield"]%string.
Definition proper_name (n : text) : Prop :=
  (exists c r, n = c :: r /\ letter c /\ forall x, In x r -> letter x \/ 48 <= x <= 57 \/ x = 95) /\ ~ In n reserved.
(** The declared fields, base after base. *)
Definition fields_of (bases : list (option (list (decl V)))) (ds : list (decl V)) : Prop :=
  ds = concat (map (fun b => match b with Some l => l | None => [] end) bases).
(** A declaration that makes a class: first fields without a default, then fields with one, and the names are proper and distinct. *)
Definition well_declared (ds : list (decl V)) (plain : list text) (defaulted : list (text * V)) : Prop :=
  ds = map DName plain ++ map (fun p => DPair (fst p) (snd p)) defaulted /\
  NoDup (plain ++ map fst defaulted) /\ Forall proper_name (plain ++ map fst defaulted).
Definition name_is (d : decl V) (n : text) : Prop := match d with DName m => m = n | DPair m _ => m = n | DOther => False end.
Definition default_is (d : decl V) : option V := match d with DPair _ v => Some v | _ => None end.
(** The value that the keywords of a call give to a name. *)
Definition keyword (kw : list (text * V)) (d : decl V) (r : option V) : Prop :=
  match r with
  | Some v => exists n, name_is d n /\ In (n, v) kw
  | None => forall n v, name_is d n -> ~ In (n, v) kw
  end.
(** What a field of a new instance holds: the argument in its position, or else the one given by its name, or else its default. *)
Definition holds (pos : list V) (kw : list (text * V)) (i : nat) (d : decl V) (v : V) : Prop :=
  match nth_error pos i with
  | Some p => v = p
  | None => exists r, keyword kw d r /\ match r with Some k => v = k | None => default_is d = Some v end
  end.
Definition built (ds : list (decl V)) (pos : list V) (kw : list (text * V)) (vs : list V) : Prop :=
  (List.length pos <= List.length ds)%nat /\
  (forall n v, In (n, v) kw -> exists i d, nth_error ds i = Some d /\ name_is d n /\ (List.length pos <= i)%nat) /\
  List.length vs = List.length ds /\
  forall i d v, nth_error ds i = Some d -> nth_error vs i = Some v -> holds pos kw i d v.
End RECORDS.

(** * Proofs *)
Section PROOFS.
Context {V : Type}.
Implicit Types ds : list (decl V).
Lemma gather_says ds : forall has names defaults,
  match gather has names defaults ds with
  | Ok (a, b) => exists ps (qs : list (text * V)), ds = map DName ps ++ map (fun p => DPair (fst p) (snd p)) qs /\ a = names ++ ps ++ map fst qs /\ b = defaults ++ map snd qs /\ (has = true -> ps = [])
  | Err e => e = ValueError
  end.
Proof.
  induction ds as [|[n|n d|] ds IH]; intros has names defaults; cbn [gather]; [exists [], []; cbn; rewrite !app_nil_r; auto| | |reflexivity].
  - destruct has; [reflexivity|]. specialize (IH false (names ++ [n]) defaults). destruct (gather _ _ _ ds) as [[a b]|e]; [|exact IH]. destruct IH as (ps & qs & -> & -> & -> & _).
    exists (n :: ps), qs. cbn. rewrite <- app_assoc. repeat split; auto. discriminate.
  - specialize (IH true (names ++ [n]) (defaults ++ [d])). destruct (gather _ _ _ ds) as [[a b]|e]; [|exact IH]. destruct IH as (ps & qs & -> & -> & -> & P). rewrite (P eq_refl).
    exists [], ((n, d) :: qs). cbn. rewrite <- !app_assoc. repeat split; auto.
Qed.
Lemma gather_plain ps ds : forall names (defaults : list V), gather false names defaults (map DName ps ++ ds) = gather false (names ++ ps) defaults ds.
Proof. induction ps as [|p ps IH]; intros names defaults; cbn [map app gather]; [now rewrite app_nil_r|]. rewrite IH, <- app_assoc. reflexivity. Qed.
Lemma gather_pairs (qs : list (text * V)) : forall has names defaults, gather has names defaults (map (fun p => DPair (fst p) (snd p)) qs) = Ok (names ++ map fst qs, defaults ++ map snd qs).
Proof. induction qs as [|[n d] qs IH]; intros has names defaults; cbn [map gather fst snd]; [now rewrite !app_nil_r|]. rewrite IH, <- !app_assoc. reflexivity. Qed.
Lemma gather_back ps (qs : list (text * V)) : gather false [] [] (map DName ps ++ map (fun p => DPair (fst p) (snd p)) qs) = Ok (ps ++ map fst qs, map snd qs).
Proof. rewrite gather_plain. exact (gather_pairs qs _ _ _). Qed.

Lemma known_in n l : known n l = true <-> In n l.
Proof. unfold known. rewrite existsb_exists. split; [intros (x & I & E); apply zlist_eqb_eq in E; now subst|intros I; exists n; split; [exact I|now apply zlist_eqb_eq]]. Qed.
Lemma start_says c : name_start c = true <-> letter c \/ c = 95. Proof. unfold name_start, letter. lia. Qed.
Lemma char_says c : name_char c = true <-> letter c \/ 48 <= c <= 57 \/ c = 95. Proof. unfold name_char, name_start, letter. lia. Qed.
Lemma reserved_keywords : keywords = reserved. Proof. vm_compute. reflexivity. Qed.
Lemma name_says n : name_ok n = true <-> proper_name n.
Proof.
  unfold name_ok, proper_name. destruct n as [|c r]; [split; [discriminate|intros ((c & r & E & _) & _); discriminate]|]. rewrite !andb_true_iff, !negb_true_iff, forallb_forall, start_says, Z.eqb_neq.
  rewrite <- reserved_keywords, <- known_in. split.
  - intros (((S & F) & U) & K). split; [|congruence]. exists c, r. split; [reflexivity|]. split; [tauto|]. intros x I. apply char_says, F, I.
  - intros ((c' & r' & E & L & F) & K). injection E as <- <-. repeat split; auto.
    + intros x I. apply char_says, F, I.
    + intros ->. unfold letter in L. lia.
    + destruct (known (c :: r) keywords); [contradiction K; reflexivity|reflexivity].
Qed.
Lemma tuple_says names : forall seen, namedtuple_ok seen names = true <-> Forall proper_name names /\ NoDup names /\ forall n, In n names -> ~ In n seen.
Proof.
  induction names as [|n r IH]; intros seen; cbn [namedtuple_ok]; [split; [intros _; repeat split; [constructor|constructor|intros n []]|reflexivity]|].
  rewrite !andb_true_iff, negb_true_iff, IH, name_says. split.
  - intros ((N & K) & F & D & S). assert (~ In n seen) by (rewrite <- known_in; congruence). split; [now constructor|]. split.
    + constructor; [|exact D]. intros I. apply (S n I). now left.
    + intros m [<-|I]; [assumption|]. intros J. apply (S m I). now right.
  - intros (F & D & S). inversion F; subst. inversion D; subst. split; [split; [assumption|]|split; [assumption|split; [assumption|]]].
    + destruct (known n seen) eqn:K; [|reflexivity]. destruct (S n (or_introl eq_refl) (proj1 (known_in _ _) K)).
    + intros m I [<-|J]; [contradiction|]. exact (S m (or_intror I) J).
Qed.
Lemma flat_concat {A B} (f : A -> list B) l : flat_map f l = concat (map f l).
Proof. induction l as [|a l IH]; [reflexivity|]. cbn. now rewrite IH. Qed.

Theorem declared_class (bases : list (option (list (decl V)))) ds : fields_of bases ds -> (exists l, In (Some l) bases) ->
  forall c, declare bases = Ok (Some c) <-> exists plain defaulted, well_declared ds plain defaulted /\ c = mkrec (plain ++ map fst defaulted) (map snd defaulted).
Proof.
  intros F (l & I) c. unfold declare. assert (X : existsb (fun b => match b with Some _ => true | None => false end) bases = true) by (apply existsb_exists; exists (Some l); auto). rewrite X, flat_concat, <- F. clear X F.
  split.
  - pose proof (gather_says ds false [] []) as G. destruct (gather false [] [] ds) as [[a b]|e]; cbn [bind]; [|discriminate]. destruct G as (ps & qs & -> & -> & -> & _). cbn [app]. destruct (namedtuple_ok [] _) eqn:T; [|discriminate].
    intros [= <-]. apply tuple_says in T. destruct T as (P & D & _). exists ps, qs. split; [split; [reflexivity|]; split; assumption|reflexivity].
  - intros (ps & qs & (-> & D & P) & ->). rewrite gather_back. cbn [bind]. assert (T : namedtuple_ok [] (ps ++ map fst qs) = true) by (apply tuple_says; repeat split; auto). now rewrite T.
Qed.
Theorem declared_refused (bases : list (option (list (decl V)))) e : declare bases = Err e -> e = ValueError.
Proof.
  unfold declare. destruct (existsb _ _); [|discriminate]. set (ds := flat_map _ bases). pose proof (gather_says ds false [] []) as G. destruct (gather false [] [] ds) as [[a b]|x]; cbn [bind]; [destruct (namedtuple_ok [] a); congruence|congruence].
Qed.

(** ** Arguments *)
Lemma fill_pos_says names : forall pos : list V, match fill_pos names pos with
  | Ok s => (List.length pos <= List.length names)%nat /\ s = map Some pos ++ repeat None (List.length names - List.length pos)
  | Err e => e = TypeError /\ (List.length names < List.length pos)%nat
  end.
Proof.
  induction names as [|n ns IH]; intros [|p ps]; cbn [fill_pos].
  - split; [cbn; lia|reflexivity].
  - split; [reflexivity|cbn; lia].
  - specialize (IH []). destruct (fill_pos ns []) as [s|e]; cbn [bind]; [|destruct IH as (_ & L); cbn in L; lia]. destruct IH as (_ & ->). split; [cbn; lia|]. cbn. now rewrite Nat.sub_0_r.
  - specialize (IH ps). destruct (fill_pos ns ps) as [s|e]; cbn [bind]; [|destruct IH as (-> & L); split; [reflexivity|cbn; lia]]. destruct IH as (L & ->). split; [cbn; lia|reflexivity].
Qed.
Lemma fill_key_says names : forall (slots : list (option V)) k v, NoDup names -> List.length slots = List.length names ->
  match fill_key names slots k v with
  | Ok s => List.length s = List.length names /\ exists i, nth_error names i = Some k /\ nth_error slots i = Some None /\ forall j, nth_error s j = if Nat.eqb j i then Some (Some v) else nth_error slots j
  | Err e => e = TypeError /\ ~ exists i, nth_error names i = Some k /\ nth_error slots i = Some None
  end.
Proof.
  induction names as [|n ns IH]; intros [|s ss] k v D L; try discriminate L; cbn [fill_key].
  - split; [reflexivity|]. intros (i & E & _). destruct i; discriminate.
  - inversion D as [|? ? NI D']; subst. injection L as L. destruct (zlist_eqb n k) eqn:E.
    + apply zlist_eqb_eq in E. subst k. destruct s as [w|].
      * split; [reflexivity|]. intros (i & A & B). destruct i as [|i]; [discriminate B|]. cbn in A. apply nth_error_In in A. contradiction.
      * split; [cbn; lia|]. exists 0%nat. split; [reflexivity|]. split; [reflexivity|]. intros [|j]; reflexivity.
    + specialize (IH ss k v D' L). destruct (fill_key ns ss k v) as [r|e]; cbn [bind].
      * destruct IH as (LR & i & A & B & C). split; [cbn; lia|]. exists (S i). split; [exact A|]. split; [exact B|]. intros [|j]; [reflexivity|]. cbn. exact (C j).
      * destruct IH as (-> & N). split; [reflexivity|]. intros ([|i] & A & B); [cbn in A; injection A as ->; assert (T : zlist_eqb k k = true) by (now apply zlist_eqb_eq); congruence|]. apply N. exists i. auto.
Qed.
Lemma nodup_nth {A} (l : list A) i j x : NoDup l -> nth_error l i = Some x -> nth_error l j = Some x -> i = j.
Proof. intros D A1 B. apply (proj1 (NoDup_nth_error l) D); [apply nth_error_Some; congruence|congruence]. Qed.
Definition slot (kw : list (text * V)) (n : text) (o : option V) (r : option V) : Prop :=
  match o with
  | Some v => r = Some v /\ forall w, ~ In (n, w) kw
  | None => match r with Some v => In (n, v) kw | None => forall w, ~ In (n, w) kw end
  end.
Lemma fill_keys_says names (kw : list (text * V)) : forall slots, NoDup names -> NoDup (map fst kw) -> List.length slots = List.length names ->
  match fill_keys names slots kw with
  | Ok s => List.length s = List.length names /\ (forall k v, In (k, v) kw -> exists i, nth_error names i = Some k /\ nth_error slots i = Some None) /\
            forall i n o, nth_error names i = Some n -> nth_error slots i = Some o -> exists r, nth_error s i = Some r /\ slot kw n o r
  | Err e => e = TypeError /\ exists k v, In (k, v) kw /\ ~ exists i, nth_error names i = Some k /\ nth_error slots i = Some None
  end.
Proof.
  induction kw as [|[k v] kw IH]; intros slots D DK L; cbn [fill_keys].
  - split; [exact L|]. split; [intros ? ? []|]. intros i n o A B. exists o. split; [exact B|]. destruct o; cbn; auto.
  - cbn [map fst] in DK. inversion DK as [|? ? NK DK']; subst. pose proof (fill_key_says names slots k v D L) as K. destruct (fill_key names slots k v) as [s|e]; cbn [bind].
    + destruct K as (LS & i & A & B & C). specialize (IH s D DK' LS). assert (NE : forall k' v', In (k', v') kw -> k' <> k) by (intros k' v' I ->; apply NK; change k with (fst (k, v')); now apply in_map).
      destruct (fill_keys names s kw) as [r|e].
      * destruct IH as (LR & G & R). split; [exact LR|]. split.
        -- intros k' v' [[= <- <-]|I]; [eauto|]. destruct (G k' v' I) as (j & J1 & J2). exists j. split; [exact J1|]. rewrite C in J2. destruct (Nat.eqb j i); [discriminate|exact J2].
        -- intros j n o J1 J2. specialize (C j). destruct (Nat.eqb j i) eqn:E.
           ++ apply Nat.eqb_eq in E. subst j. assert (n = k) as -> by congruence. assert (o = None) as -> by congruence. destruct (R i k (Some v) A C) as (r' & R1 & (-> & N)). exists (Some v). split; [exact R1|]. cbn. now left.
           ++ apply Nat.eqb_neq in E. rewrite J2 in C. destruct (R j n o J1 C) as (r' & R1 & R2). exists r'. split; [exact R1|].
              assert (n <> k) by (intros ->; apply E; exact (nodup_nth names j i k D J1 A)). unfold slot in *. destruct o as [w|]; [destruct R2 as (-> & N); split; [reflexivity|intros w' [X|I]; [congruence|exact (N w' I)]]|].
              destruct r' as [w|]; [now right|intros w' [X|I]; [congruence|exact (R2 w' I)]].
      * destruct IH as (-> & k' & v' & I & N). split; [reflexivity|]. exists k', v'. split; [now right|]. intros (j & J1 & J2). apply N. exists j. split; [exact J1|]. rewrite C.
        destruct (Nat.eqb j i) eqn:E; [|exact J2]. apply Nat.eqb_eq in E. subst j. exfalso. apply (NE k' v' I). congruence.
    + destruct K as (-> & N). split; [reflexivity|]. exists k, v. split; [now left|exact N].
Qed.
Lemma fill_defaults_says : forall skip (slots : list (option V)) defaults, List.length slots = (skip + List.length defaults)%nat ->
  match fill_defaults skip slots defaults with
  | Ok vs => List.length vs = List.length slots /\ forall i o v, nth_error slots i = Some o -> nth_error vs i = Some v ->
               match o with Some w => v = w | None => (skip <= i)%nat /\ nth_error defaults (i - skip) = Some v end
  | Err e => e = TypeError /\ exists i, (i < skip)%nat /\ nth_error slots i = Some None
  end.
Proof.
  induction skip as [|k IH].
  - intros slots. induction slots as [|s ss IHs]; intros [|d ds] L; try discriminate L; cbn [fill_defaults].
    + split; [reflexivity|]. intros [|i] o v H; discriminate.
    + injection L as L. specialize (IHs ds L). destruct (fill_defaults 0 ss ds) as [r|e]; cbn [bind]; [|destruct IHs as (_ & i & H & _); lia]. destruct IHs as (LR & R). split; [cbn; lia|].
      intros [|i] o v A B; cbn in A, B.
      * injection A as ->. injection B as <-. destruct o; [reflexivity|split; [lia|reflexivity]].
      * specialize (R i o v A B). destruct o; [exact R|]. destruct R as (_ & R). split; [lia|]. rewrite Nat.sub_0_r in *. exact R.
  - intros [|s ss] ds L; [discriminate L|]. cbn [fill_defaults]. injection L as L. destruct s as [w|]; [|split; [reflexivity|exists 0%nat; split; [lia|reflexivity]]].
    specialize (IH ss ds L). destruct (fill_defaults k ss ds) as [r|e]; cbn [bind].
    + destruct IH as (LR & R). split; [cbn; lia|]. intros [|i] o v A B; cbn in A, B; [injection A as <-; injection B as <-; reflexivity|]. specialize (R i o v A B). destruct o; [exact R|]. destruct R as (X & R). split; [lia|exact R].
    + destruct IH as (-> & i & A & B). split; [reflexivity|]. exists (S i). split; [lia|exact B].
Qed.

(** ** Building an instance *)
Lemma same_list {A} (l : list A) : forall r, List.length l = List.length r -> (forall i x y, nth_error l i = Some x -> nth_error r i = Some y -> x = y) -> l = r.
Proof.
  induction l as [|a l IH]; intros [|b r] L H; try discriminate L; [reflexivity|]. f_equal; [exact (H 0%nat a b eq_refl eq_refl)|]. injection L as L. apply IH; [exact L|]. intros i x y X Y. exact (H (S i) x y X Y).
Qed.
Section BUILT.
Variables (plain : list text) (defaulted : list (text * V)).
Notation N := (plain ++ map fst defaulted).
Notation DS := (map DName plain ++ map (fun p => DPair (fst p) (snd p)) defaulted).
Lemma field_at i d : nth_error DS i = Some d -> exists n, nth_error N i = Some n /\ (forall m, name_is d m <-> m = n) /\
  default_is d = if Nat.ltb i (List.length plain) then None else nth_error (map snd defaulted) (i - List.length plain).
Proof.
  intros E. destruct (Nat.ltb i (List.length plain)) eqn:L.
  - apply Nat.ltb_lt in L. rewrite nth_error_app1 in E by (now rewrite map_length). rewrite nth_error_app1 by exact L. rewrite nth_error_map in E. destruct (nth_error plain i) as [n|]; [|discriminate]. injection E as <-. exists n. cbn. split; [reflexivity|]. split; [intros m; split; congruence|reflexivity].
  - apply Nat.ltb_ge in L. rewrite nth_error_app2 in E by (now rewrite map_length). rewrite nth_error_app2 by exact L. rewrite map_length in E. rewrite !nth_error_map in *. destruct (nth_error defaulted _) as [[n v]|]; [|discriminate]. injection E as <-. exists n. cbn. split; [reflexivity|]. split; [intros m; split; congruence|reflexivity].
Qed.
Lemma same_length : List.length DS = List.length N. Proof. rewrite !app_length, !map_length. reflexivity. Qed.
Lemma slots_at (pos : list V) n i : (List.length pos <= n)%nat -> nth_error (map Some pos ++ repeat (@None V) (n - List.length pos)) i =
  match nth_error pos i with Some p => Some (Some p) | None => if Nat.ltb i n then Some None else None end.
Proof.
  intros L. destruct (nth_error pos i) as [p|] eqn:E.
  - rewrite nth_error_app1 by (rewrite map_length; apply nth_error_Some; congruence). now rewrite nth_error_map, E.
  - apply nth_error_None in E. rewrite nth_error_app2 by (now rewrite map_length). rewrite map_length. destruct (Nat.ltb i n) eqn:B.
    + apply Nat.ltb_lt in B. apply nth_error_repeat. lia.
    + apply Nat.ltb_ge in B. apply nth_error_None. rewrite repeat_length. lia.
Qed.
Variable kw : list (text * V).
Hypothesis DK : NoDup (map fst kw).
Lemma key_once n v w : In (n, v) kw -> In (n, w) kw -> v = w.
Proof.
  clear plain defaulted. induction kw as [|[k x] l IH]; [intros []|]. cbn [map fst] in DK. inversion DK as [|? ? NI D]; subst.
  intros [A1|A1] [B|B]; [congruence| | |now apply IH]; exfalso; apply NI; [injection A1 as -> ->; change n with (fst (n, w))|injection B as -> ->; change n with (fst (n, v))]; now apply in_map.
Qed.
Lemma holds_once pos i d v w : (exists n, forall m, name_is d m <-> m = n) -> holds pos kw i d v -> holds pos kw i d w -> v = w.
Proof.
  intros (n & NM) A1 B. unfold holds in *. destruct (nth_error pos i); [congruence|]. destruct A1 as (r1 & K1 & R1), B as (r2 & K2 & R2). destruct r1 as [x1|], r2 as [x2|]; cbn in *.
  - destruct K1 as (m1 & M1 & I1), K2 as (m2 & M2 & I2). apply NM in M1, M2. subst m1 m2. pose proof (key_once _ _ _ I1 I2). congruence.
  - destruct K1 as (m1 & M1 & I1). destruct (K2 _ _ M1 I1).
  - destruct K2 as (m1 & M1 & I1). destruct (K1 _ _ M1 I1).
  - congruence.
Qed.
Hypothesis DN : NoDup N.
Variable pos : list V.
Notation made := (construct (mkrec N (map snd defaulted)) pos kw).
Lemma construct_says : match made with
  | Ok vs => built DS pos kw vs
  | Err e => e = TypeError /\ forall vs, ~ built DS pos kw vs
  end.
Proof.
  unfold construct. cbn [rc_names rc_defaults]. pose proof (fill_pos_says N pos) as P. destruct (fill_pos N pos) as [s0|e]; cbn [bind].
  2: { destruct P as (-> & L). split; [reflexivity|]. intros vs (B & _). rewrite same_length in B. lia. }
  destruct P as (LP & ->). set (s0 := map Some pos ++ repeat None (List.length N - List.length pos)).
  assert (SA : forall i, nth_error s0 i = match nth_error pos i with Some p => Some (Some p) | None => if Nat.ltb i (List.length N) then Some None else None end) by (intros i; apply slots_at; exact LP).
  assert (L0 : List.length s0 = List.length N) by (unfold s0; rewrite app_length, map_length, repeat_length; lia). clearbody s0.
  pose proof (fill_keys_says N kw s0 DN DK L0) as K. destruct (fill_keys N s0 kw) as [s1|e]; cbn [bind].
  2: { destruct K as (-> & k & v & I & NO). split; [reflexivity|]. intros vs (_ & B & _). destruct (B k v I) as (i & d & E & M & LE). apply NO. exists i. destruct (field_at i d E) as (n & F1 & F2 & _). apply F2 in M. subst k. split; [exact F1|].
       rewrite SA. rewrite (proj2 (nth_error_None pos i) LE). assert (X : (i < List.length N)%nat) by (apply nth_error_Some; congruence). apply Nat.ltb_lt in X. now rewrite X. }
  destruct K as (L1 & KG & KS). assert (LD : (List.length N - List.length (map snd defaulted) = List.length plain)%nat) by (rewrite app_length, !map_length; lia). rewrite LD.
  assert (L2 : List.length s1 = (List.length plain + List.length (map snd defaulted))%nat) by (rewrite L1, app_length, !map_length; reflexivity).
  pose proof (fill_defaults_says (List.length plain) s1 (map snd defaulted) L2) as D. destruct (fill_defaults _ s1 _) as [vs|e].
  - destruct D as (LV & D). split; [now rewrite same_length|]. split.
    { intros n v I. destruct (KG n v I) as (i & A & B). destruct (nth_error DS i) as [d|] eqn:E.
      - exists i, d. destruct (field_at i d E) as (n' & F1 & F2 & _). split; [exact E|]. split; [apply F2; congruence|]. rewrite SA in B. destruct (nth_error pos i) eqn:X; [discriminate|]. now apply nth_error_None.
      - exfalso. apply nth_error_None in E. rewrite same_length in E. assert (i < List.length N)%nat by (apply nth_error_Some; congruence). lia. }
    split; [rewrite LV, L1; symmetry; apply same_length|]. intros i d v E V1. destruct (field_at i d E) as (n & F1 & F2 & F3).
    assert (LI : (i < List.length N)%nat) by (apply nth_error_Some; congruence). destruct (nth_error s0 i) as [o|] eqn:S0; [|apply nth_error_None in S0; lia]. destruct (KS i n o F1 S0) as (r & R1 & R2). specialize (D i r v R1 V1).
    unfold holds. rewrite SA in S0. destruct (nth_error pos i) as [p|].
    + injection S0 as <-. destruct R2 as (-> & _). exact D.
    + apply Nat.ltb_lt in LI. rewrite LI in S0. injection S0 as <-. cbn [slot] in R2. exists r. destruct r as [w|].
      * split; [exists n; split; [now apply F2|exact R2]|exact D].
      * split; [intros m x M; apply F2 in M; subst m; apply R2|]. rewrite F3. destruct D as (G & D). assert (X : Nat.ltb i (List.length plain) = false) by (apply Nat.ltb_ge; exact G). rewrite X. exact D.
  - destruct D as (-> & i & LI & NO). split; [reflexivity|]. intros vs (_ & _ & B3 & B4).
    assert (X : (i < List.length DS)%nat) by (rewrite app_length, map_length; lia). destruct (nth_error DS i) as [d|] eqn:E; [|apply nth_error_None in E; lia]. destruct (nth_error vs i) as [v|] eqn:V1; [|apply nth_error_None in V1; lia].
    specialize (B4 i d v E V1). destruct (field_at i d E) as (n & F1 & F2 & F3). destruct (nth_error s0 i) as [o|] eqn:S0; [|apply nth_error_None in S0; rewrite same_length in X; lia]. destruct (KS i n o F1 S0) as (r & R1 & R2).
    assert (r = None) as -> by congruence. unfold holds in B4. rewrite SA in S0. destruct (nth_error pos i) as [p|]; [injection S0 as <-; destruct R2; discriminate|].
    assert (Y : Nat.ltb i (List.length N) = true) by (apply Nat.ltb_lt; apply nth_error_Some; congruence). rewrite Y in S0. injection S0 as <-. cbn [slot] in R2. apply Nat.ltb_lt in LI. rewrite LI in F3.
    destruct B4 as (r & K1 & K2). destruct r as [w|]; [destruct K1 as (m & M & I); apply F2 in M; subst m; exact (R2 w I)|congruence].
Qed.
Theorem construct_iff vs : made = Ok vs <-> built DS pos kw vs.
Proof.
  pose proof construct_says as C. destruct made as [ws|e]; [|destruct C as (_ & C); split; [discriminate|intros B; destruct (C vs B)]].
  split; [intros [= <-]; exact C|]. intros B. f_equal. destruct C as (_ & _ & C3 & C4), B as (_ & _ & B3 & B4). apply same_list; [congruence|].
  intros i x y X Y. destruct (nth_error DS i) as [d|] eqn:E; [|exfalso; apply nth_error_None in E; assert (i < List.length ws)%nat by (apply nth_error_Some; congruence); lia].
  destruct (field_at i d E) as (n & _ & F2 & _). exact (holds_once pos i d x y (ex_intro _ n F2) (C4 i d x E X) (B4 i d y E Y)).
Qed.
End BUILT.
End PROOFS.

(** * Specification: enumerations *)
(** A class body gives each name once.  A member: a name that does not start with an underscore, bound to an int. *)
Definition hidden (n : text) : Prop := exists r, n = 95 :: r.
Definition declares (attrs : list (text * attr)) (n : text) (z : Z) : Prop := In (n, AInt z) attrs /\ ~ hidden n.
(** The last name with the value. *)
Definition names_value (attrs : list (text * attr)) (n : text) (z : Z) : Prop :=
  exists before later, attrs = before ++ (n, AInt z) :: later /\ ~ hidden n /\ forall m, ~ declares later m z.

Section ENUM.
Lemma hidden_magic n : magic n = true <-> hidden n.
Proof. unfold magic, hidden. destruct n as [|c r]; [split; [discriminate|intros (r & E); discriminate]|]. rewrite Z.eqb_eq. split; [intros ->; eauto|intros (r' & E); congruence]. Qed.
Lemma get_in {K W} (eqb : K -> K -> bool) (S : forall a b, eqb a b = true <-> a = b) (d : dict K W) k v : NoDup (map fst d) -> dict_get eqb d k = Some v <-> In (k, v) d.
Proof.
  intros D. induction d as [|[k' w] d IH]; cbn [dict_get]; [split; [discriminate|intros []]|]. cbn [map fst] in D. inversion D as [|? ? NI D']; subst. destruct (eqb k k') eqn:E.
  - apply S in E. subst k'. split; [intros [= ->]; now left|intros [[= ->]|I]; [reflexivity|]]. exfalso. apply NI. change k with (fst (k, v)). now apply in_map.
  - rewrite IH by exact D'. split; [now right|intros [[= <- <-]|I]; [|exact I]]. assert (X : eqb k' k' = true) by now apply S. congruence.
Qed.
Lemma get_set (d : dict Z member) k v k' : dict_get Z.eqb (dict_set Z.eqb d k v) k' = if Z.eqb k' k then Some v else dict_get Z.eqb d k'.
Proof.
  induction d as [|[a w] d IH]; cbn [dict_set dict_get]; [reflexivity|]. destruct (k =? a) eqn:E; cbn [dict_get].
  - apply Z.eqb_eq in E. subst a. destruct (k' =? k); reflexivity.
  - destruct (k' =? a) eqn:E2; [|exact IH]. apply Z.eqb_eq in E2. subst a. rewrite Z.eqb_sym, E. reflexivity.
Qed.
Lemma set_keys_in (d : dict Z member) k v x : In x (map fst (dict_set Z.eqb d k v)) -> x = k \/ In x (map fst d).
Proof. induction d as [|[a w] d IH]; cbn [dict_set]; [intros [<-|[]]; now left|]. destruct (k =? a) eqn:E; cbn; [apply Z.eqb_eq in E; subst a; intros [<-|I]; auto|]. intros [<-|I]; [auto|]. destruct (IH I); auto. Qed.
Lemma set_once (d : dict Z member) k v : NoDup (map fst d) -> NoDup (map fst (dict_set Z.eqb d k v)).
Proof.
  induction d as [|[a w] d IH]; cbn [dict_set]; intros D; [constructor; [intros []|constructor]|]. cbn [map fst] in D. inversion D as [|? ? NI D']; subst. destruct (k =? a) eqn:E; cbn.
  - apply Z.eqb_eq in E. subst a. now constructor.
  - constructor; [|now apply IH]. intros I. apply set_keys_in in I as [->|I]; [rewrite Z.eqb_refl in E; discriminate|contradiction].
Qed.
Lemma enum_snoc l n a : forall e, declare_enum (l ++ [(n, a)]) e = let* x := declare_enum l e in declare_enum [(n, a)] x.
Proof. induction l as [|[m b] l IH]; intros e; cbn [app]; [reflexivity|]. cbn [declare_enum]. destruct (magic m); [apply IH|]. destruct b; [apply IH|apply IH|reflexivity]. Qed.
Record enum_of (l : list (text * attr)) (e : eclass) : Prop := {
  eo_attrs : forall n m, In (n, m) (ec_attrs e) <-> exists z, m = (n, z) /\ declares l n z;
  eo_once : NoDup (map fst (ec_attrs e));
  eo_members : forall z m, dict_get Z.eqb (ec_members e) z = Some m <-> exists n, m = (n, z) /\ names_value l n z;
  eo_values : NoDup (map fst (ec_members e)) }.
Lemma declares_snoc l n a m z : declares (l ++ [(n, a)]) m z <-> declares l m z \/ (m = n /\ a = AInt z /\ ~ hidden m).
Proof. unfold declares. rewrite in_app_iff. cbn. split; [intros ([I|[X|[]]] & H); [auto|injection X as -> ->; auto]|intros [(I & H)|(-> & -> & H)]; auto]. Qed.
Lemma names_snoc l n a m z : names_value (l ++ [(n, a)]) m z <-> (m = n /\ a = AInt z /\ ~ hidden m) \/ (names_value l m z /\ ~ (a = AInt z /\ ~ hidden n)).
Proof.
  unfold names_value. split.
  - intros (b & r & E & H & L). destruct r as [|r0 r] using rev_ind.
    + apply app_inj_tail in E as (-> & [= <- <-]). left. auto.
    + clear IHr. rewrite app_comm_cons, app_assoc in E. apply app_inj_tail in E as (-> & <-). right. split.
      * exists b, r. split; [reflexivity|]. split; [exact H|]. intros k D. apply (L k). apply declares_snoc. now left.
      * intros (-> & N). apply (L n). apply declares_snoc. right. auto.
  - intros [(-> & -> & H)|((b & r & -> & H & L) & N)].
    + exists l, []. split; [reflexivity|]. split; [exact H|]. intros k ([] & _).
    + exists b, (r ++ [(n, a)]). rewrite <- app_assoc. split; [reflexivity|]. split; [exact H|]. intros k D. apply declares_snoc in D as [D|(-> & -> & D)]; [exact (L k D)|]. apply N. auto.
Qed.
Lemma NoDup_app_snoc {A} (l : list A) x : NoDup l -> ~ In x l -> NoDup (l ++ [x]).
Proof. intros D N. apply (NoDup_Add (a := x) (l := l)); [|auto]. pose proof (Add_app x l []) as H. rewrite app_nil_r in H. exact H. Qed.
Lemma enum_says l : NoDup (map fst l) -> match enum_class l with
  | Ok e => enum_of l e /\ forall n, In (n, AThing) l -> hidden n
  | Err x => x = TypeError /\ exists n, In (n, AThing) l /\ ~ hidden n
  end.
Proof.
  unfold enum_class. induction l as [|[n a] l IH] using rev_ind; intros D.
  - cbn. split; [|intros n []]. constructor; cbn; [| |intros z m|constructor].
    + intros n m. split; [intros []|intros (z & _ & ([] & _))].
    + constructor.
    + split; [discriminate|intros (k & _ & b & r & E & _); destruct b; discriminate].
  - rewrite map_app in D. cbn in D. assert (DJ : ~ In n (map fst l)) by (apply NoDup_remove_2 in D; rewrite app_nil_r in D; exact D).
    assert (DL : NoDup (map fst l)) by (apply NoDup_remove_1 in D; rewrite app_nil_r in D; exact D). specialize (IH DL). rewrite enum_snoc.
    destruct (declare_enum l (mkenum [] [])) as [e|x]; cbn [bind].
    2: { destruct IH as (-> & m & I & H). split; [reflexivity|]. exists m. split; [apply in_app_iff; now left|exact H]. }
    destruct IH as ([A B C E] & T). cbn [declare_enum]. destruct (magic n) eqn:MG.
    { apply hidden_magic in MG. split.
      - constructor; auto.
        + intros m w. rewrite A. split; intros (z & -> & X); exists z; (split; [reflexivity|]); rewrite declares_snoc in *; [now left|destruct X as [X|(-> & _ & X)]; [exact X|contradiction]].
        + intros z m. rewrite C. split; intros (k & -> & X); exists k; (split; [reflexivity|]); rewrite names_snoc in *; [right; split; [exact X|tauto]|destruct X as [(-> & _ & X)|(X & _)]; [contradiction|exact X]].
      - intros m I. apply in_app_iff in I as [I|[I|[]]]; [exact (T m I)|injection I as -> ->; exact MG]. }
    assert (NH : ~ hidden n) by (rewrite <- hidden_magic; congruence). destruct a as [z| |].
    + split.
      * constructor; cbn [ec_attrs ec_members].
        -- intros m w. rewrite in_app_iff, A. cbn. split.
           ++ intros [(y & -> & X)|[X|[]]]; [exists y; split; [reflexivity|]; apply declares_snoc; now left|injection X as <- <-; exists z; split; [reflexivity|]; apply declares_snoc; auto].
           ++ intros (y & -> & X). apply declares_snoc in X as [X|(-> & Y & _)]; [left; eauto|right; left; injection Y as ->; reflexivity].
        -- rewrite map_app. cbn. apply NoDup_app_snoc; [exact B|]. intros I. apply in_map_iff in I as ((k & w) & K & I). cbn in K. subst k. apply A in I as (y & _ & (X & _)). apply DJ. apply in_map_iff. exists (n, AInt y). auto.
        -- intros y m. rewrite get_set. destruct (y =? z) eqn:Y.
           ++ apply Z.eqb_eq in Y. subst y. split; [intros [= <-]; exists n; split; [reflexivity|]; apply names_snoc; auto|intros (k & -> & X); apply names_snoc in X as [(-> & _)|(_ & X)]; [reflexivity|destruct X; auto]].
           ++ apply Z.eqb_neq in Y. rewrite C. split; intros (k & -> & X); exists k; (split; [reflexivity|]); rewrite names_snoc in *; [right; split; [exact X|intros ([= ->] & _); congruence]|destruct X as [(_ & [= ->] & _)|(X & _)]; [congruence|exact X]].
        -- now apply set_once.
      * intros m I. apply in_app_iff in I as [I|[I|[]]]; [exact (T m I)|discriminate].
    + split.
      * constructor; auto.
        -- intros m w. rewrite A. split; intros (y & -> & X); exists y; (split; [reflexivity|]); rewrite declares_snoc in *; [now left|destruct X as [X|(_ & X & _)]; [exact X|discriminate]].
        -- intros y m. rewrite C. split; intros (k & -> & X); exists k; (split; [reflexivity|]); rewrite names_snoc in *; [right; split; [exact X|intros (X2 & _); discriminate]|destruct X as [(_ & X & _)|(X & _)]; [discriminate|exact X]].
      * intros m I. apply in_app_iff in I as [I|[I|[]]]; [exact (T m I)|discriminate].
    + split; [reflexivity|]. exists n. split; [apply in_app_iff; right; now left|exact NH].
Qed.
End ENUM.

(** * Theorems *)
(** A class statement over one or more [record(...)] bases makes a class if and only if the fields without a default come
    first and the names are proper and distinct; otherwise it raises ValueError. *)
Theorem C80_record_declared : forall V (bases : list (option (list (decl V)))) ds, fields_of bases ds -> (exists l, In (Some l) bases) ->
  ((exists c, declare bases = Ok (Some c)) <-> exists plain defaulted, well_declared ds plain defaulted) /\
  forall e, declare bases = Err e -> e = ValueError.
Proof.
  intros V bases ds F I. split; [|intros e; apply declared_refused]. split.
  - intros (c & E). apply (declared_class bases ds F I) in E as (p & q & W & _). eauto.
  - intros (p & q & W). eexists. apply (declared_class bases ds F I). eauto.
Qed.
Print Assumptions C80_record_declared.
(** Calling the class builds the instance whose fields hold what the call says, and only a call that says it of every field
    succeeds; any other raises TypeError.  A keyword is given once in a call. *)
Theorem C80_record_built : forall V (bases : list (option (list (decl V)))) ds c, fields_of bases ds -> (exists l, In (Some l) bases) ->
  declare bases = Ok (Some c) -> forall pos kw, NoDup (map fst kw) ->
  (forall vs, construct c pos kw = Ok vs <-> built ds pos kw vs) /\ forall e, construct c pos kw = Err e -> e = TypeError.
Proof.
  intros V bases ds c F I E pos kw DK. apply (declared_class bases ds F I) in E as (p & q & (-> & DN & _) & ->). split.
  - intros vs. apply construct_iff; assumption.
  - intros e X. pose proof (construct_says p q kw DK DN pos) as C. rewrite X in C. apply C.
Qed.
Print Assumptions C80_record_built.
(** An enumeration is declared unless a name without an underscore in front is bound to something that is neither an int nor
    a method; then TypeError is raised. *)
Theorem C80_enum_declared : forall attrs, NoDup (map fst attrs) ->
  match enum_class attrs with
  | Ok _ => forall n, In (n, AThing) attrs -> hidden n
  | Err e => e = TypeError /\ exists n, In (n, AThing) attrs /\ ~ hidden n
  end.
Proof. intros attrs D. pose proof (enum_says attrs D) as S. destruct (enum_class attrs); [apply S|exact S]. Qed.
(** Its attributes are the members as declared; looked up by value it gives the member last declared with the value, and
    KeyError for a value of no member; its iterator gives one member for each value. *)
Theorem C80_enum_members : forall attrs e, NoDup (map fst attrs) -> enum_class attrs = Ok e ->
  (forall n m, enum_attr e n = Some m <-> exists z, m = (n, z) /\ declares attrs n z) /\
  (forall z m, enum_item e z = Ok m <-> exists n, m = (n, z) /\ names_value attrs n z) /\
  (forall z x, enum_item e z = Err x -> x = KeyError /\ forall n, ~ declares attrs n z) /\
  (forall m, In m (enum_iter e) <-> enum_item e (snd m) = Ok m) /\ NoDup (map snd (enum_iter e)).
Proof.
  intros attrs e D E. pose proof (enum_says attrs D) as S. rewrite E in S. destruct S as ([A B C F] & _).
  assert (ITEM : forall z m, enum_item e z = Ok m <-> exists n, m = (n, z) /\ names_value attrs n z).
  { intros z m. rewrite <- C. unfold enum_item. destruct (dict_get Z.eqb (ec_members e) z); split; congruence. }
  assert (LAST : forall l n z, declares l n z -> exists n', names_value l n' z).
  { intros l. induction l as [|[k a] l IH] using rev_ind; intros n z DC; [destruct DC as ([] & _)|]. apply declares_snoc in DC as [DC|(-> & -> & H)].
    - destruct (IH n z DC) as (n' & N). destruct a as [y| |]; [|exists n'; apply names_snoc; right; split; [exact N|intros (X & _); discriminate]|exists n'; apply names_snoc; right; split; [exact N|intros (X & _); discriminate]].
      destruct (Z.eq_dec y z) as [->|Y]; [|exists n'; apply names_snoc; right; split; [exact N|intros ([= X] & _); contradiction]].
      destruct (magic k) eqn:MG; [exists n'; apply names_snoc; right; split; [exact N|intros (_ & X); apply X; now apply hidden_magic]|exists k; apply names_snoc; left; repeat split; rewrite <- hidden_magic; congruence].
    - exists k. apply names_snoc. auto. }
  assert (KEYS : forall z m, In (z, m) (ec_members e) -> exists n, m = (n, z)).
  { intros z m I. apply (get_in Z.eqb Z.eqb_eq _ _ _ F) in I. apply C in I as (n & -> & _). eauto. }
  split; [|split; [exact ITEM|split; [|split]]].
  - intros n m. unfold enum_attr. rewrite (get_in zlist_eqb (fun a b => zlist_eqb_eq a b) _ _ _ B). apply A.
  - intros z x X. unfold enum_item in X. destruct (dict_get Z.eqb (ec_members e) z) as [m|] eqn:G; [discriminate|]. injection X as <-. split; [reflexivity|]. intros n DC. destruct (LAST attrs n z DC) as (n' & N).
    assert (Y : dict_get Z.eqb (ec_members e) z = Some (n', z)) by (apply C; eauto). congruence.
  - intros m. unfold enum_iter, enum_item. rewrite in_map_iff. split.
    + intros ((z & w) & <- & I). destruct (KEYS z w I) as (n & ->). cbn [snd]. apply (get_in Z.eqb Z.eqb_eq _ _ _ F) in I. now rewrite I.
    + intros X. destruct (dict_get Z.eqb (ec_members e) (snd m)) as [w|] eqn:G; [|discriminate]. injection X as ->. exists (snd m, m). split; [reflexivity|]. apply (get_in Z.eqb Z.eqb_eq _ _ _ F). exact G.
  - unfold enum_iter. rewrite map_map. replace (map (fun x : Z * member => snd (snd x)) (ec_members e)) with (map fst (ec_members e)); [exact F|].
    apply map_ext_in. intros (z & w) I. destruct (KEYS z w I) as (n & ->). reflexivity.
Qed.
Print Assumptions C80_enum_members.
(** So when no value is given twice the class and its members determine each other. *)
Theorem C80_enum_lookup : forall attrs e, NoDup (map fst attrs) -> enum_class attrs = Ok e ->
  (forall n m z, declares attrs n z -> declares attrs m z -> n = m) ->
  forall n z, declares attrs n z -> enum_attr e n = Some (n, z) /\ enum_item e z = Ok (n, z) /\ In (n, z) (enum_iter e).
Proof.
  intros attrs e D E U n z DC. destruct (C80_enum_members attrs e D E) as (A & B & C & F & _).
  assert (I : enum_item e z = Ok (n, z)).
  { destruct (enum_item e z) as [m|x] eqn:X; [|destruct (C z x X) as (_ & N); destruct (N n DC)]. pose proof (proj1 (B z m) X) as (n' & -> & (b & l & -> & H & _)). f_equal. f_equal. apply (U n' n z); [|exact DC].
    split; [apply in_app_iff; right; now left|exact H]. }
  split; [apply A; eauto|]. split; [exact I|]. apply F. exact I.
Qed.

(** Concrete cases: the class of events (core.py:107-114), with what is missing and what is too much; the event types
    (core.py:84-89), and an enumeration with two names for one value. *)
Definition name (s : string) : text := chars s.
Definition ion_event : list (decl string) :=
  [DName (name "event_type"); DPair (name "ion_type") "None"; DPair (name "value") "None"; DPair (name "field_name") "None"; DPair (name "annotations") "()"; DPair (name "depth") "None"]%string.
Theorem C80_record_cases :
  (exists c, declare [Some ion_event] = Ok (Some c) /\
     construct c ["SCALAR"; "INT"]%string [(name "depth", "0"); (name "value", "5")]%string = Ok ["SCALAR"; "INT"; "5"; "None"; "()"; "0"]%string /\
     construct c [] [(name "depth", "0")]%string = Err TypeError /\
     construct c ["SCALAR"]%string [(name "event_type", "SCALAR")]%string = Err TypeError /\
     construct c ["SCALAR"]%string [(name "type", "INT")]%string = Err TypeError) /\
  declare [Some ion_event; Some [DName (name "more")]] = Err ValueError /\
  (exists c, declare [Some [DName (name "more")]; Some (DPair (name "last") "1" :: nil)]%string = Ok (Some c)) /\
  declare [Some [DName (name "class") : decl string]] = Err ValueError /\ declare [Some [DName (name "a"); DName (name "a") : decl string]] = Err ValueError.
Proof. vm_compute. repeat split; eexists; repeat split; reflexivity. Qed.
Definition event_types : list (text * attr) :=
  [(name "__doc__", AThing); (name "INCOMPLETE", AInt (-2)); (name "STREAM_END", AInt (-1)); (name "VERSION_MARKER", AInt 0); (name "SCALAR", AInt 1);
   (name "CONTAINER_START", AInt 2); (name "CONTAINER_END", AInt 3); (name "begins_value", AMethod)].
Theorem C80_enum_cases :
  NoDup (map fst event_types) /\
  (exists e, enum_class event_types = Ok e /\ enum_attr e (name "SCALAR") = Some (name "SCALAR", 1) /\ enum_item e (-1) = Ok (name "STREAM_END", -1) /\
     enum_item e 4 = Err KeyError /\ List.length (enum_iter e) = 6%nat /\ enum_attr e (name "begins_value") = None) /\
  (exists e, enum_class [(name "A", AInt 1); (name "B", AInt 1)] = Ok e /\ enum_attr e (name "A") = Some (name "A", 1) /\ enum_item e 1 = Ok (name "B", 1) /\ enum_iter e = [(name "B", 1)]) /\
  enum_class [(name "A", AInt 1); (name "B", AThing)] = Err TypeError.
Proof.
  split; [|vm_compute; repeat split; eexists; repeat split; reflexivity].
  assert (X : forall l : list text, (fix go l := match l with [] => true | n :: r => negb (known n r) && go r end) l = true -> NoDup l).
  { induction l as [|n r IH]; intros H; constructor; apply andb_prop in H as (H1 & H2); [|now apply IH]. intros I. apply known_in in I. rewrite I in H1. discriminate. }
  apply X. vm_compute. reflexivity.
Qed.
