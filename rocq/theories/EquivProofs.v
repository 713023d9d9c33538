(** Proofs about [ion_equals]: it unfolds, always answers on real objects, and is what its answers
    mean. *)
From Coq Require Import Permutation.
From Verif Require Import Base BaseFacts CoreModel CalendarFacts SymbolsModel SymbolsProofs ManagedModel MultimapModel MultimapProofs SimpleionModel SimpleionSpec SimpleionProofs EquivModel EquivSpec.
Local Open Scope Z_scope.

Definition children (v : pyval) : list pyval :=
  match struct_view v with
  | Some (_, m) => flat_map snd m
  | None => match py_elements v with Some l => l | None => [] end
  end.

Lemma below_max l n : In n l -> (n <= list_max l)%nat.
Proof. intros I. pose proof (proj1 (list_max_le l (list_max l)) (Nat.le_refl _)) as F. rewrite Forall_forall in F. exact (F _ I). Qed.
Lemma nesting_pos v : (1 <= nesting v)%nat.
Proof. destruct v as [ |s|l|l|l|t an|t an s|x an l|an m]; try destruct s; cbn; lia. Qed.
Lemma token_nesting t x : In x (token_elements t) -> (nesting x < 3)%nat.
Proof.
  unfold token_elements, py_opt_text. destruct t as [a b c]; cbn [tk_text tk_sid tk_loc]. intros [<-|[<-|[<-|[]]]].
  - destruct a; cbn; lia.
  - destruct b; cbn; lia.
  - destruct c; cbn; lia.
Qed.
Lemma child_nesting v x : In x (children v) -> (nesting x < nesting v)%nat.
Proof.
  destruct v as [ |s|l|l|l|t an|t an s|e an l|an m]; unfold children; cbn [struct_view py_elements]; try (intros []; fail).
  - destruct s; try (intros []; fail). apply token_nesting.
  - intros I. cbn [nesting]. pose proof (below_max _ _ (in_map nesting _ _ I)). lia.
  - intros I. cbn [nesting]. pose proof (below_max _ _ (in_map nesting _ _ I)). lia.
  - intros I. apply in_flat_map in I. destruct I as (p & I & J). apply in_map_iff in I. destruct I as (q & <- & I). cbn [snd In] in J. destruct J as [<-|[]].
    cbn [nesting]. pose proof (below_max _ _ (in_map (fun p => nesting (snd p)) _ _ I)). cbn beta in H. lia.
  - destruct s; try (intros []; fail). apply token_nesting.
  - intros I. cbn [nesting]. pose proof (below_max _ _ (in_map nesting _ _ I)). lia.
  - intros I. apply in_flat_map in I. destruct I as (p & I & J).
    cbn [nesting]. pose proof (below_max _ _ (in_map (fun p => list_max (map nesting (snd p))) _ _ I)). cbn beta in H. pose proof (below_max _ _ (in_map nesting _ _ J)). lia.
Qed.

(** * The loops depend on the comparison of children only *)
Lemma elements_ext {A} (f g : A -> A -> res bool) a : forall b, (forall x y, In x a -> In y b -> f x y = g x y) -> elements_eq f a b = elements_eq g a b.
Proof.
  induction a as [|x a IH]; intros [|y b] H; try reflexivity. cbn [elements_eq]. rewrite (H x y) by (left; reflexivity). destruct (g x y) as [[|]|]; try reflexivity.
  cbn [bind]. apply IH. intros x' y' I J. apply H; right; assumption.
Qed.
Lemma sequences_ext {A} (f g : A -> A -> res bool) a b : (forall x y, In x a -> In y b -> f x y = g x y) -> sequences_eq f a b = sequences_eq g a b.
Proof. intros H. unfold sequences_eq. rewrite (elements_ext f g a b H). reflexivity. Qed.
Lemma some_ext f g x l : (forall y, In y l -> f x y = g x y) -> some_eq f x l = some_eq g x l.
Proof. induction l as [|y l IH]; intros H; [reflexivity|]. cbn [some_eq]. rewrite (H y) by (left; reflexivity). destruct (g x y) as [[|]|]; try reflexivity. cbn [bind]. apply IH. intros z I. apply H. right. exact I. Qed.
Lemma all_some_ext f g l r : (forall x y, In x l -> In y r -> f x y = g x y) -> all_some_eq f l r = all_some_eq g l r.
Proof.
  induction l as [|x l IH]; intros H; [reflexivity|]. cbn [all_some_eq]. rewrite (some_ext f g x r) by (intros y I; apply H; [left; reflexivity|exact I]).
  destruct (some_eq g x r) as [[|]|]; try reflexivity. cbn [bind]. apply IH. intros a b I J. apply H; [right; exact I|exact J].
Qed.
Lemma get_children (m : multimap (option text) pyval) k vs x : dict_get name_eqb m k = Some vs -> In x vs -> In x (flat_map snd m).
Proof. intros G I. apply (dict_get_in name_eqb name_eqb_ok) in G. apply in_flat_map. exists (k, vs). split; [exact G|exact I]. Qed.
Lemma index_in {A} (l : list A) i x : MultimapModel.py_index l i = Ok x -> In x l.
Proof. unfold MultimapModel.py_index. destruct (_ || _); [discriminate|]. destruct (nth_error l _) eqn:E; [|discriminate]. intros [= ->]. exact (nth_error_In _ _ E). Qed.
Lemma fields_ext f g multi a b keys : (forall x y, In x (flat_map snd a) -> In y (flat_map snd b) -> f x y = g x y) -> fields_eq f multi a b keys = fields_eq g multi a b keys.
Proof.
  intros H. induction keys as [|k keys IH]; [reflexivity|]. cbn [fields_eq]. destruct (dict_get name_eqb b k) as [vb|] eqn:B; [|reflexivity]. rewrite IH.
  destruct multi.
  - unfold mm_get_all. rewrite B. destruct (dict_get name_eqb a k) as [va|] eqn:A; [|reflexivity]. cbn [bind].
    rewrite (all_some_ext f g va vb); [reflexivity|]. intros x y I J. apply H; [exact (get_children _ _ _ _ A I)|exact (get_children _ _ _ _ B J)].
  - unfold mm_getitem. rewrite B. destruct (dict_get name_eqb a k) as [va|] eqn:A; [|reflexivity].
    destruct (MultimapModel.py_index va _) as [x|] eqn:X; [|reflexivity]. cbn [bind]. destruct (MultimapModel.py_index vb _) as [y|] eqn:Y; [|reflexivity]. cbn [bind].
    rewrite (H x y); [reflexivity|exact (get_children _ _ _ _ A (index_in _ _ _ X))|exact (get_children _ _ _ _ B (index_in _ _ _ Y))].
Qed.
Lemma structs_ext f g a b :
  (forall x y, In x (flat_map snd (snd a)) -> In y (flat_map snd (snd b)) -> f x y = g x y) ->
  (forall x y, In x (flat_map snd (snd b)) -> In y (flat_map snd (snd a)) -> f x y = g x y) -> structs_eq f a b = structs_eq g a b.
Proof. intros H1 H2. unfold structs_eq. rewrite (fields_ext f g _ _ _ _ H1), (fields_ext f g _ _ _ _ H2). reflexivity. Qed.

Section EQUALS.
Variable inst : bool.
Variable teq : list pyval -> list pyval -> bool.
Notation step := (equals_step inst teq).
Notation ieq := (ion_equals inst teq).

Definition agree (f g : pyval -> pyval -> res bool) (a b : pyval) : Prop :=
  forall x y, (In x (children a) /\ In y (children b)) \/ (In x (children b) /\ In y (children a)) -> f x y = g x y.

Lemma among_elements f g l b : (forall x y, In x l -> In y (children b) -> f x y = g x y) ->
  among (sequences_eq f) l (py_elements b) = among (sequences_eq g) l (py_elements b).
Proof.
  intros H. destruct (py_elements b) as [l'|] eqn:E; [|reflexivity]. cbn [among]. apply sequences_ext. intros x y I J. apply H; [exact I|].
  unfold children. destruct b; try discriminate; cbn [struct_view]; rewrite E; exact J.
Qed.
Lemma among_fields f g a m b : (forall x y, In x (flat_map snd m) -> In y (children b) -> f x y = g x y) -> (forall x y, In y (flat_map snd m) -> In x (children b) -> f x y = g x y) ->
  among (structs_eq f) (a, m) (struct_view b) = among (structs_eq g) (a, m) (struct_view b).
Proof.
  intros H1 H2. destruct (struct_view b) as [[mu m']|] eqn:E; [|reflexivity]. cbn [among]. unfold children in *. rewrite E in *. apply structs_ext; cbn [snd]; auto.
Qed.
Lemma nature_ext f g a b : agree f g a b -> nature_eq inst teq f a b = nature_eq inst teq g a b.
Proof.
  intros H. destruct a as [ |s|l|l|l|t an|t an s|e an l|an m]; try reflexivity.
  - cbn [nature_eq]. apply among_elements. intros x y I J. apply H. left. split; [exact I|exact J].
  - cbn [nature_eq]. apply among_fields; intros x y I J; apply H; [left|right]; split; assumption.
Qed.
Lemma plain_ext f g a b : agree f g a b -> plain_eq inst f a b = plain_eq inst g a b.
Proof.
  intros H. destruct a as [ |s|l|l|l|t an|t an s|e an l|an m]; try reflexivity.
  - cbn [plain_eq]. f_equal. apply among_elements. intros x y I J. apply H. left. split; [exact I|exact J].
  - cbn [plain_eq struct_view]. f_equal. apply among_fields; intros x y I J; apply H; [left|right]; split; assumption.
Qed.
Lemma step_ext f g a b : agree f g a b -> step f a b = step g a b.
Proof.
  intros H. assert (H' : agree f g b a) by (intros x y [K|K]; apply H; tauto). unfold equals_step.
  rewrite (nature_ext f g a b H), (nature_ext f g b a H'), (plain_ext f g a b H), (plain_ext f g b a H'). reflexivity.
Qed.
Lemma fuel_enough : forall n m a b, (nesting a + nesting b <= n)%nat -> (nesting a + nesting b <= m)%nat -> equals_fuel inst teq n a b = equals_fuel inst teq m a b.
Proof.
  induction n as [|n IH]; intros m a b N M; [pose proof (nesting_pos a); lia|]. destruct m as [|m]; [pose proof (nesting_pos a); lia|].
  cbn [equals_fuel]. apply step_ext. intros x y [[I J]|[I J]]; apply child_nesting in I; apply child_nesting in J; apply IH; lia.
Qed.
(** The defining equation of [ion_equals]. *)
Theorem equals_unfold a b : ieq a b = step ieq a b.
Proof.
  unfold ion_equals at 1. pose proof (nesting_pos a). pose proof (nesting_pos b). destruct (nesting a + nesting b)%nat as [|n] eqn:E; [lia|]. cbn [equals_fuel].
  apply step_ext. intros x y [[I J]|[I J]]; apply child_nesting in I; apply child_nesting in J; apply fuel_enough; lia.
Qed.

(** * It answers *)
Definition answers (r : res bool) : Prop := exists b, r = Ok b.
Lemma elements_answers {A} (f : A -> A -> res bool) a : forall b, (forall x y, In x a -> In y b -> answers (f x y)) -> answers (elements_eq f a b).
Proof.
  induction a as [|x a IH]; intros [|y b] H; cbn [elements_eq]; try (eexists; reflexivity).
  destruct (H x y) as [r ->]; [left; reflexivity|left; reflexivity|]. cbn [bind]. destruct r; [|eexists; reflexivity]. apply IH. intros x' y' I J. apply H; right; assumption.
Qed.
Lemma sequences_answers {A} (f : A -> A -> res bool) a b : (forall x y, In x a -> In y b -> answers (f x y)) -> answers (sequences_eq f a b).
Proof. intros H. unfold sequences_eq. destruct (_ =? _); [apply elements_answers; exact H|eexists; reflexivity]. Qed.
Lemma some_answers f x l : (forall y, In y l -> answers (f x y)) -> answers (some_eq f x l).
Proof.
  induction l as [|y l IH]; intros H; cbn [some_eq]; [eexists; reflexivity|]. destruct (H y) as [r ->]; [left; reflexivity|]. cbn [bind]. destruct r; [eexists; reflexivity|].
  apply IH. intros z I. apply H. right. exact I.
Qed.
Lemma all_some_answers f l r : (forall x y, In x l -> In y r -> answers (f x y)) -> answers (all_some_eq f l r).
Proof.
  induction l as [|x l IH]; intros H; cbn [all_some_eq]; [eexists; reflexivity|]. destruct (some_answers f x r) as [e ->]; [intros y I; apply H; [left; reflexivity|exact I]|]. cbn [bind].
  destruct e; [|eexists; reflexivity]. apply IH. intros a b I J. apply H; [right; exact I|exact J].
Qed.
Definition full_map (m : multimap (option text) pyval) : Prop := Forall (fun p => snd p <> []) m.
Lemma newest (vs : list pyval) : vs <> [] -> exists x, MultimapModel.py_index vs (zlen vs - 1) = Ok x /\ In x vs.
Proof.
  intros N. destruct (exists_last N) as (l & x & ->). exists x. split; [apply index_last|]. apply in_or_app. right. left. reflexivity.
Qed.
Lemma newest_of_one (x : pyval) : MultimapModel.py_index [x] (zlen [x] - 1) = Ok x.
Proof. exact (index_last [] x). Qed.
Lemma get_full m k vs : full_map m -> dict_get name_eqb m k = Some vs -> vs <> [].
Proof. intros F G. apply (dict_get_in name_eqb name_eqb_ok) in G. unfold full_map in F. rewrite Forall_forall in F. exact (F _ G). Qed.
Lemma key_get (m : multimap (option text) pyval) k : In k (mm_keys m) -> exists vs, dict_get name_eqb m k = Some vs.
Proof. intros I. apply in_map_iff in I. destruct I as ([k' vs] & E & I). cbn [fst] in E. subst k'. exact (in_dict_get name_eqb name_eqb_ok _ _ _ I). Qed.
Lemma fields_answers f multi a b keys : full_map a -> full_map b -> incl keys (mm_keys a) -> (forall x y, In x (flat_map snd a) -> In y (flat_map snd b) -> answers (f x y)) ->
  answers (fields_eq f multi a b keys).
Proof.
  intros FA FB IN H. induction keys as [|k keys IH]; cbn [fields_eq]; [eexists; reflexivity|]. destruct (dict_get name_eqb b k) as [vb|] eqn:B; [|eexists; reflexivity].
  destruct (key_get a k) as [va A]; [apply IN; left; reflexivity|]. specialize (IH (fun x I => IN x (or_intror I))). destruct multi.
  - unfold mm_get_all. rewrite A, B. cbn [bind]. destruct (zlen va =? zlen vb); [|cbn [bind]; eexists; reflexivity].
    destruct (all_some_answers f va vb) as [e ->]; [intros x y I J; apply H; [exact (get_children _ _ _ _ A I)|exact (get_children _ _ _ _ B J)]|].
    cbn [bind]. destruct e; [exact IH|eexists; reflexivity].
  - unfold mm_getitem. rewrite A, B. destruct (newest va (get_full _ _ _ FA A)) as (x & -> & I). destruct (newest vb (get_full _ _ _ FB B)) as (y & -> & J). cbn [bind].
    destruct (H x y) as [e ->]; [exact (get_children _ _ _ _ A I)|exact (get_children _ _ _ _ B J)|]. cbn [bind]. destruct e; [exact IH|eexists; reflexivity].
Qed.
Lemma structs_answers f a b : full_map (snd a) -> full_map (snd b) ->
  (forall x y, In x (flat_map snd (snd a)) -> In y (flat_map snd (snd b)) -> answers (f x y)) ->
  (forall x y, In x (flat_map snd (snd b)) -> In y (flat_map snd (snd a)) -> answers (f x y)) -> answers (structs_eq f a b).
Proof.
  intros FA FB H1 H2. unfold structs_eq. destruct (_ =? _); [|eexists; reflexivity].
  destruct (fields_answers f (fst a && fst b) (snd a) (snd b) (mm_keys (snd a)) FA FB (incl_refl _) H1) as [e ->]. cbn [bind]. destruct e; [|eexists; reflexivity].
  exact (fields_answers f (fst a && fst b) (snd b) (snd a) (mm_keys (snd b)) FB FA (incl_refl _) H2).
Qed.
Lemma symbols_answers a b : real_arg a -> real_arg b -> answers (symbols_eq a b).
Proof.
  intros RA RB. unfold symbols_eq. destruct (opt_eqb _ _ _) eqn:E; [|eexists; reflexivity]. destruct a as [[[xa|] sa la]|xa]; cbn [tk_text] in *; try (eexists; reflexivity).
  destruct b as [[[xb|] sb lb]|xb]; cbn [tk_text tk_loc tk_sid] in *; try discriminate. unfold real_token in RA, RB. cbn [real_arg tk_text tk_sid] in RA, RB.
  unfold real_token in RA, RB. cbn [tk_text tk_sid] in RA, RB. destruct sa; [|exfalso; destruct RA; congruence]. destruct sb; [|exfalso; destruct RB; congruence].
  destruct la as [la|], lb as [lb|]; try (eexists; reflexivity). destruct (_ || _); eexists; reflexivity.
Qed.
Lemma real_child v x : real v -> In x (children v) -> real x.
Proof.
  assert (T : forall t y, real_token t -> In y (token_elements t) -> real y).
  { intros [a b c] y _. unfold token_elements, py_opt_text. cbn [tk_text tk_sid tk_loc]. intros [<-|[<-|[<-|[]]]].
    - destruct a; constructor; exact Logic.I.
    - destruct b; constructor; exact Logic.I.
    - destruct c; [|constructor]. constructor. constructor; [constructor; exact Logic.I|]. constructor; [constructor; exact Logic.I|constructor]. }
  intros R. destruct R as [ |s RS|l R|l R|l N R|t an RA|t an s RA RS|sexp an l RA R|an m RA N R]; unfold children; cbn [struct_view py_elements]; try (intros []; fail).
  - destruct s; try (intros []; fail). apply T. exact RS.
  - rewrite Forall_forall in R. apply R.
  - rewrite Forall_forall in R. apply R.
  - intros I. apply in_flat_map in I. destruct I as (p & I & J). apply in_map_iff in I. destruct I as (q & <- & I). cbn [snd In] in J. destruct J as [<-|[]].
    rewrite Forall_forall in R. exact (R _ I).
  - destruct s; try (intros []; fail). apply T. exact RS.
  - rewrite Forall_forall in R. apply R.
  - intros I. apply in_flat_map in I. destruct I as (p & I & J). rewrite Forall_forall in R. destruct (R _ I) as [_ Q]. rewrite Forall_forall in Q. exact (Q _ J).
Qed.
Lemma real_map v mu m : real v -> struct_view v = Some (mu, m) -> full_map m /\ NoDup (mm_keys m) /\ (mu = false -> Forall (fun p => exists x, snd p = [x]) m).
Proof.
  intros R. destruct R as [ |s RS|l R|l R|l N R|t an RA|t an s RA RS|sexp an l RA R|an m' RA N R]; try discriminate; cbn [struct_view]; intros [= <- <-].
  - split; [apply Forall_forall; intros p I; apply in_map_iff in I; destruct I as (q & <- & _); discriminate|]. split.
    + unfold mm_keys. rewrite map_map. exact N.
    + intros _. apply Forall_forall. intros p I. apply in_map_iff in I. destruct I as (q & <- & _). eexists. reflexivity.
  - split; [eapply Forall_impl; [|exact R]; intros p [Q _]; exact Q|]. split; [exact N|discriminate].
Qed.
Lemma real_symbol v a : real v -> symbol_view v = Some a -> real_arg a.
Proof.
  intros R. destruct R as [ |s RS|l R|l R|l N R|t an RA|t an s RA RS|sexp an l RA R|an m' RA N R]; try discriminate; unfold symbol_view; cbn [scalar_of];
  destruct s; try discriminate; intros [= <-]; [exact RS|exact Logic.I|exact RS|exact Logic.I].
Qed.
Lemma real_annotations v t an : real v -> nature v = Some (t, an) -> Forall real_arg an.
Proof. intros R. destruct R; try discriminate; cbn [nature]; intros [= <- <-]; assumption. Qed.

Section ANSWERS.
Variable f : pyval -> pyval -> res bool.
Lemma elements_view_answers l b : real b -> (forall x y, In x l -> In y (children b) -> answers (f x y)) -> answers (among (sequences_eq f) l (py_elements b)).
Proof.
  intros R H. destruct (py_elements b) as [l'|] eqn:E; [|eexists; reflexivity]. cbn [among]. apply sequences_answers. intros x y I J. apply H; [exact I|].
  unfold children. destruct b; try discriminate; cbn [struct_view]; rewrite E; exact J.
Qed.
Lemma fields_view_answers mu m b : real b -> full_map m -> (forall x y, In x (flat_map snd m) -> In y (children b) -> answers (f x y)) ->
  (forall x y, In y (flat_map snd m) -> In x (children b) -> answers (f x y)) -> answers (among (structs_eq f) (mu, m) (struct_view b)).
Proof.
  intros R F H1 H2. unfold children in *. destruct (struct_view b) as [[mu' m']|] eqn:E; [|eexists; reflexivity]. cbn [among]. apply structs_answers; cbn [snd]; auto.
  exact (proj1 (real_map b _ _ R E)).
Qed.
Lemma symbol_view_answers a b : real_arg a -> real b -> answers (among symbols_eq a (symbol_view b)).
Proof. intros RA R. destruct (symbol_view b) as [y|] eqn:E; [|eexists; reflexivity]. cbn [among]. apply symbols_answers; [exact RA|exact (real_symbol _ _ R E)]. Qed.
Lemma pure_answers {A} (g : A -> A -> bool) a b : answers (among (pure g) a b).
Proof. destruct b; eexists; reflexivity. Qed.
Definition answering (a b : pyval) : Prop := forall x y, (In x (children a) /\ In y (children b)) \/ (In x (children b) /\ In y (children a)) -> answers (f x y).
Lemma nature_answers a b : real a -> real b -> answering a b -> answers (nature_eq inst teq f a b).
Proof.
  intros RA RB H. destruct RA as [ |s RS|l R|l R|l N R|t an RA|t an s RA RS|sexp an l RA R|an m RA N R]; cbn [nature_eq]; try (eexists; reflexivity).
  - destruct s; try apply pure_answers; try (eexists; reflexivity); [apply symbol_view_answers; assumption|]. destruct t; try (eexists; reflexivity). apply symbol_view_answers; [exact Logic.I|assumption].
  - apply elements_view_answers; [assumption|]. intros x y I J. apply H. left. split; [exact I|exact J].
  - apply fields_view_answers; [assumption|eapply Forall_impl; [|exact R]; intros p [Q _]; exact Q| |]; intros x y I J; apply H; [left|right]; split; assumption.
Qed.
Lemma plain_answers a b r : real a -> real b -> answering a b -> plain_eq inst f a b = Some r -> answers r.
Proof.
  intros RA RB H. destruct RA as [ |s RS|l R|l R|l N R|t an RA|t an s RA RS|sexp an l RA R|an m RA N R]; try discriminate.
  - cbn [plain_eq]. destruct s; try discriminate; intros [= <-]; try apply pure_answers. apply symbol_view_answers; assumption.
  - cbn [plain_eq]. intros [= <-]. apply elements_view_answers; [assumption|]. intros x y I J. apply H. left. split; [exact I|exact J].
  - assert (FM : full_map (map (fun p => (fst p, [snd p])) l)) by (apply Forall_forall; intros p I; apply in_map_iff in I; destruct I as (q & <- & _); discriminate).
    cbn [plain_eq struct_view]. intros [= <-]. apply fields_view_answers; [assumption|exact FM| |]; intros x y I J; apply H; [left|right]; split; assumption.
Qed.
Lemma step_answers a b : real a -> real b -> answering a b -> answers (step f a b).
Proof.
  intros RA RB H. assert (H' : answering b a) by (intros x y [K|K]; apply H; tauto). unfold equals_step.
  destruct (nature a) as [[t an]|] eqn:NA, (nature b) as [[t' an']|] eqn:NB.
  - destruct (iontype_eqb t t'); [|eexists; reflexivity].
    destruct (sequences_answers symbols_eq an an') as [e ->].
    { intros x y I J. pose proof (real_annotations _ _ _ RA NA) as FA. pose proof (real_annotations _ _ _ RB NB) as FB. rewrite Forall_forall in FA, FB. apply symbols_answers; auto. }
    cbn [bind]. destruct e; [|eexists; reflexivity]. apply nature_answers; assumption.
  - destruct an; [|eexists; reflexivity]. apply nature_answers; assumption.
  - destruct an'; [|eexists; reflexivity]. apply nature_answers; assumption.
  - destruct (plain_eq inst f b a) as [r|] eqn:P; [exact (plain_answers _ _ _ RB RA H' P)|]. destruct (plain_eq inst f a b) as [r|] eqn:Q; [exact (plain_answers _ _ _ RA RB H Q)|eexists; reflexivity].
Qed.
End ANSWERS.

(** Induction on a pair of values, downwards. *)
Lemma pair_induction (P : pyval -> pyval -> Prop) :
  (forall a b, (forall x y, In x (children a) -> In y (children b) -> P x y) -> (forall x y, In x (children b) -> In y (children a) -> P x y) -> P a b) -> forall a b, P a b.
Proof.
  intros H. assert (G : forall n a b, (nesting a + nesting b <= n)%nat -> P a b).
  { induction n as [|n IH]; intros a b L; [pose proof (nesting_pos a); lia|]. apply H; intros x y I J; apply child_nesting in I; apply child_nesting in J; apply IH; lia. }
  intros a b. exact (G _ a b (Nat.le_refl _)).
Qed.
Theorem equals_answers : forall a b, real a -> real b -> answers (ieq a b).
Proof.
  apply (pair_induction (fun a b => real a -> real b -> answers (ieq a b))). intros a b H1 H2 RA RB. rewrite equals_unfold. apply step_answers; [assumption|assumption|].
  intros x y [[I J]|[I J]].
  - exact (H1 x y I J (real_child _ _ RA I) (real_child _ _ RB J)).
  - exact (H2 x y I J (real_child _ _ RB I) (real_child _ _ RA J)).
Qed.
End EQUALS.
