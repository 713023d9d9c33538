(** What a positive answer of [ion_equals] means: reflexivity, symmetry, fields of structs. *)
From Coq Require Import Permutation.
From Verif Require Import Base BaseFacts CoreModel CalendarFacts SymbolsModel SymbolsProofs ManagedModel MultimapModel MultimapProofs SimpleionModel SimpleionSpec SimpleionProofs EquivModel EquivSpec EquivProofs.
Local Open Scope Z_scope.

(** * Positive answers of the loops *)
Lemma elements_true {A} (f : A -> A -> res bool) a : forall b, elements_eq f a b = Ok true <-> Forall2 (fun x y => f x y = Ok true) a b.
Proof.
  induction a as [|x a IH]; intros [|y b]; cbn [elements_eq]; split; intros H; try constructor; try discriminate; try (inversion H; fail).
  - destruct (f x y) as [[|]|]; try discriminate. reflexivity.
  - apply IH. destruct (f x y) as [[|]|]; try discriminate. exact H.
  - inversion H as [|? ? ? ? E F]; subst. rewrite E. cbn [bind]. apply IH. exact F.
Qed.
Lemma sequences_true {A} (f : A -> A -> res bool) a b : sequences_eq f a b = Ok true <-> Forall2 (fun x y => f x y = Ok true) a b.
Proof.
  unfold sequences_eq. rewrite <- elements_true. split.
  - destruct (_ =? _); [exact (fun H => H)|discriminate].
  - intros H. apply elements_true in H. rewrite (proj2 (Z.eqb_eq _ _)); [apply elements_true; exact H|]. unfold zlen. f_equal. induction H; cbn; lia.
Qed.
Lemma some_true f x l : (forall y, In y l -> answers (f x y)) -> (some_eq f x l = Ok true <-> exists y, In y l /\ f x y = Ok true).
Proof.
  intros A. induction l as [|y l IH]; cbn [some_eq]; [split; [discriminate|intros (y & [] & _)]|]. destruct (A y) as [e E]; [left; reflexivity|]. rewrite E. cbn [bind]. destruct e.
  - split; [intros _; exists y; split; [left; reflexivity|exact E]|reflexivity].
  - rewrite IH by (intros z I; apply A; right; exact I). split.
    + intros (z & I & Z). exists z. split; [right; exact I|exact Z].
    + intros (z & [->|I] & Z); [congruence|]. exists z. split; [exact I|exact Z].
Qed.
Lemma all_some_true f l r : (forall x y, In x l -> In y r -> answers (f x y)) -> (all_some_eq f l r = Ok true <-> forall x, In x l -> exists y, In y r /\ f x y = Ok true).
Proof.
  intros A. induction l as [|x l IH]; cbn [all_some_eq]; [split; [intros _ x []|reflexivity]|].
  assert (AX : forall y, In y r -> answers (f x y)) by (intros y I; apply A; [left; reflexivity|exact I]).
  destruct (some_answers f x r AX) as [e E]. rewrite E. cbn [bind]. destruct e.
  - rewrite IH by (intros a b I J; apply A; [right; exact I|exact J]). split.
    + intros H a [<-|I]; [exact (proj1 (some_true f x r AX) E)|exact (H a I)].
    + intros H a I. apply H. right. exact I.
  - split; [discriminate|]. intros H. destruct (proj2 (some_true f x r AX) (H x (or_introl eq_refl))) as []. congruence.
Qed.

(** One round: every key of the one is in the other, with values that agree. *)
Definition agree_at (f : pyval -> pyval -> res bool) (multi : bool) (a b : multimap (option text) pyval) (k : option text) : Prop :=
  exists va vb, dict_get name_eqb a k = Some va /\ dict_get name_eqb b k = Some vb /\
  if multi then zlen va = zlen vb /\ all_some_eq f va vb = Ok true
  else exists x y, MultimapModel.py_index va (zlen va - 1) = Ok x /\ MultimapModel.py_index vb (zlen vb - 1) = Ok y /\ f x y = Ok true.
Lemma fields_true f multi a b keys : fields_eq f multi a b keys = Ok true <-> Forall (agree_at f multi a b) keys.
Proof.
  induction keys as [|k keys IH]; cbn [fields_eq]; [split; [constructor|reflexivity]|]. unfold mm_get_all, mm_getitem.
  rewrite Forall_cons_iff, <- IH. clear IH. split.
  - destruct (dict_get name_eqb b k) as [vb|] eqn:B; [|discriminate]. destruct (dict_get name_eqb a k) as [va|] eqn:A; [|destruct multi; discriminate].
    intros H. assert (H' : fields_eq f multi a b keys = Ok true /\ if multi then zlen va = zlen vb /\ all_some_eq f va vb = Ok true
        else exists x y, MultimapModel.py_index va (zlen va - 1) = Ok x /\ MultimapModel.py_index vb (zlen vb - 1) = Ok y /\ f x y = Ok true).
    { destruct multi; cbn [bind] in H.
      - destruct (zlen va =? zlen vb) eqn:Z; [|discriminate]. destruct (all_some_eq f va vb) as [[|]|]; try discriminate. cbn [bind] in H. split; [exact H|]. split; [apply Z.eqb_eq; exact Z|reflexivity].
      - destruct (MultimapModel.py_index va _) as [x|] eqn:X; [|discriminate]. cbn [bind] in H. destruct (MultimapModel.py_index vb _) as [y|] eqn:Y; [|discriminate]. cbn [bind] in H.
        destruct (f x y) as [[|]|] eqn:E; try discriminate. cbn [bind] in H. split; [exact H|]. exists x, y. auto. }
    destruct H' as [H1 H2]. split; [|exact H1]. exists va, vb. auto.
  - intros [(va & vb & A & B & E) R]. rewrite A, B. cbn [bind]. destruct multi.
    + destruct E as [Z E]. rewrite Z, Z.eqb_refl, E. cbn [bind]. exact R.
    + destruct E as (x & y & -> & -> & E). cbn [bind]. rewrite E. cbn [bind]. exact R.
Qed.
Lemma structs_true f a b : structs_eq f a b = Ok true <->
  mm_len (snd a) = mm_len (snd b) /\ Forall (agree_at f (fst a && fst b) (snd a) (snd b)) (mm_keys (snd a)) /\ Forall (agree_at f (fst a && fst b) (snd b) (snd a)) (mm_keys (snd b)).
Proof.
  unfold structs_eq. rewrite <- !fields_true. split.
  - destruct (_ =? _) eqn:Z; [|discriminate]. apply Z.eqb_eq in Z. destruct (fields_eq f _ (snd a) (snd b) _) as [[|]|]; try discriminate. cbn [bind]. auto.
  - intros (Z & H1 & H2). rewrite (proj2 (Z.eqb_eq _ _) Z), H1. cbn [bind]. exact H2.
Qed.
Lemma structs_swap f a b : structs_eq f a b = Ok true -> structs_eq f b a = Ok true.
Proof. rewrite !structs_true. rewrite (andb_comm (fst b)). intros (Z & H1 & H2). auto. Qed.

(** * Scalars *)
Lemma opt_eqb_spec {A} (e : A -> A -> bool) : (forall x y, e x y = true <-> x = y) -> forall a b, opt_eqb e a b = true <-> a = b.
Proof. intros H [x|] [y|]; cbn; try (split; congruence). rewrite H. split; congruence. Qed.
Lemma prec_eqb_spec a b : prec_eqb a b = true <-> a = b.
Proof. unfold prec_eqb. destruct a, b; cbn; split; congruence. Qed.
Lemma opt_eqb_sym {A} (e : A -> A -> bool) : (forall x y, e x y = e y x) -> forall a b, opt_eqb e a b = opt_eqb e b a.
Proof. intros H [x|] [y|]; cbn; auto. Qed.
Lemma zlist_eqb_sym a b : zlist_eqb a b = zlist_eqb b a.
Proof. destruct (zlist_eqb a b) eqn:E, (zlist_eqb b a) eqn:F; auto; [apply zlist_eqb_eq in E|apply zlist_eqb_eq in F]; subst; rewrite zlist_eqb_refl in *; congruence. Qed.
Lemma symbols_sym a b : symbols_eq a b = symbols_eq b a.
Proof.
  unfold symbols_eq. rewrite (opt_eqb_sym _ zlist_eqb_sym). destruct (opt_eqb _ _ _) eqn:E; [|reflexivity]. apply (opt_eqb_spec _ zlist_eqb_eq) in E. rewrite E.
  destruct (match a with ATok t => tk_text t | AText x => Some x end); [reflexivity|].
  destruct (match a with ATok t => tk_loc t | AText _ => None end) as [[na pa]|], (match b with ATok t => tk_loc t | AText _ => None end) as [[nb pb]|]; try reflexivity; cbn [loc_name loc_pos].
  - rewrite (zlist_eqb_sym na nb), (Z.eqb_sym pa pb). destruct (_ || _); [reflexivity|].
    destruct (match a with ATok t => tk_sid t | AText _ => None end) as [x|], (match b with ATok t => tk_sid t | AText _ => None end) as [y|]; try reflexivity. f_equal. destruct (x =? 0), (y =? 0); reflexivity.
  - destruct (match a with ATok t => tk_sid t | AText _ => None end) as [x|], (match b with ATok t => tk_sid t | AText _ => None end) as [y|]; try reflexivity. f_equal. destruct (x =? 0), (y =? 0); reflexivity.
Qed.
Lemma symbols_refl a : real_arg a -> symbols_eq a a = Ok true.
Proof.
  intros R. unfold symbols_eq. rewrite (proj2 (opt_eqb_spec _ zlist_eqb_eq _ _) eq_refl). destruct a as [[[x|] s l]|x]; cbn [tk_text tk_loc tk_sid] in *; try reflexivity.
  destruct s as [s|]; [|destruct R; cbn [tk_text tk_sid] in *; congruence]. destruct l as [l|].
  - rewrite zlist_eqb_refl, Z.eqb_refl. cbn. rewrite Bool.eqb_reflx. reflexivity.
  - rewrite Bool.eqb_reflx. reflexivity.
Qed.
Lemma dec_num_sym a b : dec_num_eq a b = dec_num_eq b a.
Proof. unfold dec_num_eq. rewrite Z.min_comm. apply Z.eqb_sym. Qed.
Lemma dec_num_refl a : dec_num_eq a a = true.
Proof. unfold dec_num_eq. apply Z.eqb_refl. Qed.
(** Decimals are equal exactly if sign, coefficient and exponent are. *)
Lemma decimals_true a b : 0 <= d_coef a -> 0 <= d_coef b -> (decimals_eq a b = true <-> a = b).
Proof.
  intros PA PB. unfold decimals_eq, dec_total_eq. destruct a as [na ca ea], b as [nb cb eb]; cbn [d_neg d_coef d_exp] in *. split.
  - destruct ((ca =? 0) && (cb =? 0) && xorb na nb); [discriminate|]. intros H. apply andb_true_iff in H. destruct H as [H E]. apply andb_true_iff in H. destruct H as [S N].
    apply Bool.eqb_prop in S. apply Z.eqb_eq in E. subst nb eb. unfold dec_num_eq, dec_units in N. cbn [d_neg d_coef d_exp] in N. rewrite Z.min_id, Z.sub_diag in N.
    apply Z.eqb_eq in N. rewrite !Z.mul_1_r in N. destruct na; f_equal; lia.
  - intros [= -> -> ->]. rewrite Bool.xorb_nilpotent, andb_false_r, Bool.eqb_reflx, dec_num_refl, Z.eqb_refl. reflexivity.
Qed.
Lemma decimals_sym a b : decimals_eq a b = decimals_eq b a.
Proof.
  unfold decimals_eq, dec_total_eq. rewrite (andb_comm (d_coef a =? 0)), (Bool.xorb_comm (d_neg a)), (dec_num_sym a b), (Z.eqb_sym (d_exp a)).
  replace (Bool.eqb (d_neg a) (d_neg b)) with (Bool.eqb (d_neg b) (d_neg a)) by (destruct (d_neg a), (d_neg b); reflexivity). reflexivity.
Qed.
Lemma float_num_sym a b : float_num_eq a b = float_num_eq b a.
Proof. unfold float_num_eq. rewrite (Z.eqb_sym a b), (andb_comm (float_zero a)), (andb_comm (negb (float_nan a))). reflexivity. Qed.
Lemma floats_sym a b : floats_eq a b = floats_eq b a.
Proof. unfold floats_eq. rewrite (andb_comm (float_zero a)), (Bool.xorb_comm (float_negative_zero a)), float_num_sym, (andb_comm (float_nan a)). reflexivity. Qed.
Lemma float_zero_spec x : 0 <= x < 2 ^ 64 -> float_zero x = true -> x = 0 \/ x = 2 ^ 63.
Proof.
  intros R Z. unfold float_zero in Z. apply Z.eqb_eq in Z. apply Z.div_exact in Z; [|lia]. assert (x / 2 ^ 63 < 2) by (apply Z.div_lt_upper_bound; lia).
  assert (0 <= x / 2 ^ 63) by (apply Z.div_pos; lia). assert (Q : x / 2 ^ 63 = 0 \/ x / 2 ^ 63 = 1) by lia. destruct Q as [Q|Q]; rewrite Q in Z; lia.
Qed.
(** Floats are equal exactly if the bits are, or both are NaN. *)
Lemma floats_true a b : 0 <= a < 2 ^ 64 -> 0 <= b < 2 ^ 64 -> (floats_eq a b = true <-> a = b \/ (float_nan a = true /\ float_nan b = true)).
Proof.
  intros RA RB. unfold floats_eq, float_num_eq. destruct (float_zero a && float_zero b) eqn:Z.
  - apply andb_true_iff in Z. destruct Z as [ZA ZB]. apply float_zero_spec in ZA; [|exact RA]. apply float_zero_spec in ZB; [|exact RB].
    destruct ZA as [->| ->], ZB as [->| ->]; vm_compute; split; auto; try discriminate; intros [?|[? ?]]; discriminate.
  - rewrite orb_false_r. destruct (a =? b) eqn:E.
    + apply Z.eqb_eq in E. subst b. destruct (float_nan a); cbn; split; auto.
    + apply Z.eqb_neq in E. rewrite andb_false_r. cbn [orb]. rewrite andb_true_iff. tauto.
Qed.
Lemma fields_sym a b : datetime_fields_eq a b = datetime_fields_eq b a.
Proof. unfold datetime_fields_eq. rewrite (Z.eqb_sym (dt_year a)), (Z.eqb_sym (dt_month a)), (Z.eqb_sym (dt_day a)), (Z.eqb_sym (dt_hour a)), (Z.eqb_sym (dt_minute a)), (Z.eqb_sym (dt_second a)), (Z.eqb_sym (dt_micro a)). reflexivity. Qed.
Lemma prec_eqb_sym a b : prec_eqb a b = prec_eqb b a.
Proof. apply Z.eqb_sym. Qed.
Lemma timestamps_sym a b : timestamps_eq a b = timestamps_eq b a.
Proof.
  unfold timestamps_eq. rewrite (opt_eqb_sym _ Z.eqb_sym (dt_off (ts_datetime a))), (fields_sym (ts_datetime a)).
  destruct a as [x|x], b as [y|y]; try reflexivity. cbn [ts_datetime]. rewrite (opt_eqb_sym _ prec_eqb_sym (ts_prec x)), (Z.eqb_sym (ts_fprec x)), (dec_num_sym (ts_frac x)). reflexivity.
Qed.
Lemma timestamps_refl a : timestamps_eq a a = true.
Proof.
  unfold timestamps_eq. rewrite (proj2 (opt_eqb_spec _ Z.eqb_eq _ _) eq_refl). cbn [negb].
  assert (F : forall d, datetime_fields_eq d d = true) by (intros d; unfold datetime_fields_eq; rewrite !Z.eqb_refl; reflexivity).
  destruct a as [x|x]; [|apply F]. rewrite (proj2 (opt_eqb_spec _ prec_eqb_spec _ _) eq_refl), Z.eqb_refl, dec_num_refl. cbn [andb]. apply F.
Qed.
Lemma stamp_sym inst a b : stamp_eq inst a b = stamp_eq inst b a.
Proof. unfold stamp_eq. destruct inst; [apply Z.eqb_sym|apply timestamps_sym]. Qed.
Lemma stamp_refl inst a : stamp_eq inst a a = true.
Proof. unfold stamp_eq. destruct inst; [apply Z.eqb_refl|apply timestamps_refl]. Qed.

Section MEANING.
Variable inst : bool.
Variable teq : list pyval -> list pyval -> bool.
Notation ieq := (ion_equals inst teq).

(** * Reflexive *)
Lemma value_induction (P : pyval -> Prop) : (forall v, (forall x, In x (children v) -> P x) -> P v) -> forall v, P v.
Proof.
  intros H. assert (G : forall n v, (nesting v <= n)%nat -> P v).
  { induction n as [|n IH]; intros v L; [pose proof (nesting_pos v); lia|]. apply H. intros x I. apply child_nesting in I. apply IH. lia. }
  intros v. exact (G _ v (Nat.le_refl _)).
Qed.
Lemma agree_refl f multi m k : full_map m -> (forall x, In x (flat_map snd m) -> f x x = Ok true) ->
  (forall x y, In x (flat_map snd m) -> In y (flat_map snd m) -> answers (f x y)) -> In k (mm_keys m) -> agree_at f multi m m k.
Proof.
  intros F R A I. destruct (key_get m k I) as [vs G]. exists vs, vs. split; [exact G|]. split; [exact G|]. destruct multi.
  - split; [reflexivity|]. apply all_some_true; [intros x y X Y; apply A; [exact (get_children _ _ _ _ G X)|exact (get_children _ _ _ _ G Y)]|]. intros x X. exists x. split; [exact X|]. apply R. exact (get_children _ _ _ _ G X).
  - destruct (newest vs (get_full _ _ _ F G)) as (x & E & X). exists x, x. split; [exact E|]. split; [exact E|]. apply R. exact (get_children _ _ _ _ G X).
Qed.
Lemma same_elements {A} (f : A -> A -> res bool) l : (forall x, In x l -> f x x = Ok true) -> sequences_eq f l l = Ok true.
Proof. intros H. apply sequences_true. induction l as [|x l IH]; constructor; [apply H; left; reflexivity|]. apply IH. intros y I. apply H. right. exact I. Qed.
Lemma int_refl n : int_eq_num n (VInt n) = true.
Proof. apply Z.eqb_refl. Qed.
Theorem equals_refl : (forall l, teq l l = true) -> forall v, real v -> ieq v v = Ok true.
Proof.
  intros TR. apply (value_induction (fun v => real v -> ieq v v = Ok true)). intros v IH R. rewrite equals_unfold. unfold equals_step.
  assert (FR : forall x, In x (children v) -> ieq x x = Ok true) by (intros x I; apply IH; [exact I|exact (real_child _ _ R I)]).
  assert (FA : forall x y, In x (children v) -> In y (children v) -> answers (ieq x y)) by (intros x y I J; apply equals_answers; [exact (real_child _ _ R I)|exact (real_child _ _ R J)]).
  assert (AN : forall an, Forall real_arg an -> sequences_eq symbols_eq an an = Ok true).
  { intros an F. apply same_elements. intros x I. rewrite Forall_forall in F. apply symbols_refl. exact (F x I). }
  destruct R as [ |s RS|l R|l R|l N R|t an RA|t an s RA RS|sexp an l RA R|an m RA N R]; cbn [nature].
  - reflexivity.
  - destruct s; cbn [plain_eq python_eq among datetime_view decimal_view float_view symbol_view scalar_of pure].
    + destruct b; reflexivity.
    + rewrite int_refl. reflexivity.
    + unfold pure. f_equal. apply floats_true; auto.
    + unfold pure. f_equal. apply decimals_true; auto.
    + unfold pure. f_equal. apply stamp_refl.
    + apply symbols_refl. exact RS.
    + rewrite zlist_eqb_refl. reflexivity.
    + rewrite zlist_eqb_refl. reflexivity.
  - cbn [plain_eq py_elements among]. apply same_elements. exact FR.
  - cbn [plain_eq python_eq]. rewrite TR. reflexivity.
  - cbn [plain_eq struct_view among]. apply structs_true. cbn [fst snd andb].
    assert (FM : full_map (map (fun p => (fst p, [snd p])) l)) by (apply Forall_forall; intros p I; apply in_map_iff in I; destruct I as (q & <- & _); discriminate).
    split; [reflexivity|]. split; apply Forall_forall; intros k I; apply agree_refl; assumption.
  - rewrite (proj2 (Z.eqb_eq _ _) eq_refl : iontype_eqb t t = true), AN by assumption. reflexivity.
  - rewrite (proj2 (Z.eqb_eq _ _) eq_refl : iontype_eqb t t = true), AN by assumption. cbn [bind nature_eq].
    destruct s; cbn [plain_eq python_eq among datetime_view decimal_view float_view symbol_view scalar_of pure].
    + destruct b; reflexivity.
    + rewrite int_refl. reflexivity.
    + unfold pure. f_equal. apply floats_true; auto.
    + unfold pure. f_equal. apply decimals_true; auto.
    + unfold pure. f_equal. apply stamp_refl.
    + apply symbols_refl. exact RS.
    + destruct t; try (rewrite zlist_eqb_refl; reflexivity). apply symbols_refl. exact Logic.I.
    + rewrite zlist_eqb_refl. reflexivity.
  - rewrite (proj2 (Z.eqb_eq _ _) eq_refl : iontype_eqb (if sexp then TSexp else TList) _ = true), AN by assumption. cbn [bind nature_eq py_elements among]. apply same_elements. exact FR.
  - rewrite (AN an RA). cbn [bind nature_eq struct_view among iontype_eqb iontype_num Z.eqb]. cbn [bind].
    apply structs_true. cbn [fst snd andb]. assert (FM : full_map m) by (eapply Forall_impl; [|exact R]; intros p [Q _]; exact Q).
    split; [reflexivity|]. split; apply Forall_forall; intros k I; apply agree_refl; assumption.
Qed.

(** * Symmetric, unless plain lists meet plain symbol tokens *)
Variable lists tokens : bool.
Hypothesis apart : lists && tokens = false.
Hypothesis teq_sym : forall x y, teq x y = teq y x.
Lemma typed_child v x : typed lists tokens v -> In x (children v) -> typed lists tokens x.
Proof.
  assert (T : forall t y, In y (token_elements t) -> typed lists tokens y).
  { intros [a b c] y. unfold token_elements, py_opt_text. cbn [tk_text tk_sid tk_loc]. intros [<-|[<-|[<-|[]]]].
    - destruct a; constructor; exact Logic.I.
    - destruct b; constructor; exact Logic.I.
    - destruct c; [|constructor]. constructor. constructor; [constructor; exact Logic.I|]. constructor; [constructor; exact Logic.I|constructor]. }
  intros R. destruct R as [ |s RS|l RL R|l R|l R|t an|t an s RS|sexp an l R|an m R]; unfold children; cbn [struct_view py_elements]; try (intros []; fail).
  - destruct s; try (intros []; fail). apply T.
  - rewrite Forall_forall in R. apply R.
  - rewrite Forall_forall in R. apply R.
  - intros I. apply in_flat_map in I. destruct I as (p & I & J). apply in_map_iff in I. destruct I as (q & <- & I). cbn [snd In] in J. destruct J as [<-|[]].
    rewrite Forall_forall in R. exact (R _ I).
  - destruct s; try (intros []; fail). apply T.
  - rewrite Forall_forall in R. apply R.
  - intros I. apply in_flat_map in I. destruct I as (p & I & J). rewrite Forall_forall in R. specialize (R _ I). rewrite Forall_forall in R. exact (R _ J).
Qed.
Lemma elements_swap {A} (f : A -> A -> res bool) l l' : (forall x y, In x l -> In y l' -> f x y = Ok true -> f y x = Ok true) -> sequences_eq f l l' = Ok true -> sequences_eq f l' l = Ok true.
Proof.
  intros H. rewrite !sequences_true. revert l' H. induction l as [|x l IH]; intros l' H F; inversion F; subst; constructor.
  - apply H; [left; reflexivity|left; reflexivity|assumption].
  - apply IH; [|assumption]. intros a b I J. apply H; right; assumption.
Qed.
Lemma annotations_swap an an' : sequences_eq symbols_eq an an' = Ok true -> sequences_eq symbols_eq an' an = Ok true.
Proof. rewrite !sequences_true. induction 1; constructor; [rewrite symbols_sym; assumption|assumption]. Qed.
Lemma int_sym x y : int_eq_num x (VInt y) = int_eq_num y (VInt x).
Proof. apply Z.eqb_sym. Qed.
Definition swaps (f : pyval -> pyval -> res bool) (a b : pyval) : Prop := forall x y, In x (children a) -> In y (children b) -> f x y = Ok true -> f y x = Ok true.
Lemma nature_swap f a b t an an' : typed lists tokens a -> typed lists tokens b -> nature a = Some (t, an) -> nature b = Some (t, an') ->
  swaps f a b -> nature_eq inst teq f a b = Ok true -> nature_eq inst teq f b a = Ok true.
Proof.
  intros TA TB NA NB SW. destruct TA as [ |s RS|l RL R|l R|l R|ta ana|ta ana s RS|sexp ana l R|ana m R]; try discriminate; cbn [nature] in NA; injection NA as <- <-.
  - cbn [nature_eq]. destruct b; try discriminate. reflexivity.
  - destruct TB as [ |s' RS'|l' RL' R'|l' R'|l' R'|tb anb|tb anb s' RS'|sexp' anb l' R'|anb m' R']; try discriminate; cbn [nature] in NB; injection NB as NB <-.
    + subst tb. cbn [nature_eq]. destruct ta, s; try contradiction; discriminate.
    + subst tb. cbn [nature_eq]. destruct ta, s; try contradiction; destruct s'; try contradiction; cbn [among datetime_view symbol_view decimal_view float_view scalar_of pure];
        try (rewrite symbols_sym; exact (fun H => H)); unfold pure;
        try (rewrite floats_sym; exact (fun H => H)); try (rewrite decimals_sym; exact (fun H => H)); try (rewrite stamp_sym; exact (fun H => H));
        try (cbn [python_eq scalar_of int_eq_num]; rewrite Z.eqb_sym; exact (fun H => H)); try (cbn [python_eq scalar_of int_eq_num]; rewrite zlist_eqb_sym; exact (fun H => H)).
    + destruct ta, sexp', s; try contradiction; discriminate.
    + destruct ta, s; try contradiction; discriminate.
  - destruct TB as [ |s' RS'|l' RL' R'|l' R'|l' R'|tb anb|tb anb s' RS'|sexp' anb l' R'|anb m' R']; try discriminate; cbn [nature] in NB; injection NB as NB <-.
    + subst tb. destruct sexp, s'; contradiction.
    + cbn [nature_eq py_elements among]. apply elements_swap. exact SW.
  - destruct TB as [ |s' RS'|l' RL' R'|l' R'|l' R'|tb anb|tb anb s' RS'|sexp' anb l' R'|anb m' R']; try discriminate; cbn [nature] in NB; injection NB as <-.
    cbn [nature_eq struct_view among]. apply structs_swap.
Qed.
Lemma plain_swap f a b : typed lists tokens a -> typed lists tokens b -> nature a = None -> nature b = None -> swaps f a b -> swaps f b a ->
  equals_step inst teq f a b = Ok true -> equals_step inst teq f b a = Ok true.
Proof.
  intros TA TB NA NB SW SW'. unfold equals_step. rewrite NA, NB. 
  destruct TA as [ |s RS|l RL R|l R|l R|ta ana|ta ana s RS|sexp ana l R|ana m R]; try discriminate; clear NA;
  destruct TB as [ |s' RS'|l' RL' R'|l' R'|l' R'|tb anb|tb anb s' RS'|sexp' anb l' R'|anb m' R']; try discriminate; clear NB;
  try destruct s; try destruct s';
  cbn [plain_eq py_elements struct_view among datetime_view symbol_view decimal_view float_view scalar_of python_eq pure int_eq_num]; unfold pure;
  try discriminate; try (exact (fun H => H));
  try (rewrite symbols_sym; exact (fun H => H));
  try (rewrite floats_sym; exact (fun H => H)); try (rewrite decimals_sym; exact (fun H => H)); try (rewrite stamp_sym; exact (fun H => H));
  try (rewrite Z.eqb_sym; exact (fun H => H)); try (rewrite zlist_eqb_sym; exact (fun H => H)); try (rewrite teq_sym; exact (fun H => H));
  try (apply structs_swap); try (apply elements_swap; first [exact SW|exact SW']);
  try (exfalso; rewrite RL, RS' in apart; discriminate); try (exfalso; rewrite RL', RS in apart; discriminate).
Qed.
Theorem equals_swap : forall a b, real a -> real b -> typed lists tokens a -> typed lists tokens b -> ieq a b = Ok true -> ieq b a = Ok true.
Proof.
  apply (pair_induction (fun a b => real a -> real b -> typed lists tokens a -> typed lists tokens b -> ieq a b = Ok true -> ieq b a = Ok true)).
  intros a b H1 H2 RA RB TA TB.
  assert (SW : swaps ieq a b) by (intros x y I J; apply H1; [assumption|assumption|exact (real_child _ _ RA I)|exact (real_child _ _ RB J)|exact (typed_child _ _ TA I)|exact (typed_child _ _ TB J)]).
  assert (SW' : swaps ieq b a) by (intros x y I J; apply H2; [assumption|assumption|exact (real_child _ _ RB I)|exact (real_child _ _ RA J)|exact (typed_child _ _ TB I)|exact (typed_child _ _ TA J)]).
  rewrite !(equals_unfold inst teq). destruct (nature a) as [[t an]|] eqn:NA, (nature b) as [[t' an']|] eqn:NB.
  - unfold equals_step. rewrite NA, NB. destruct (iontype_eqb t t') eqn:T; [|discriminate].
    assert (t' = t) by (destruct t, t'; try discriminate; reflexivity). subst t'. rewrite T.
    destruct (sequences_eq symbols_eq an an') as [[|]|] eqn:S; try discriminate. rewrite (annotations_swap _ _ S). cbn [bind]. exact (nature_swap _ _ _ _ _ _ TA TB NA NB SW).
  - unfold equals_step. rewrite NA, NB. exact (fun H => H).
  - unfold equals_step. rewrite NA, NB. exact (fun H => H).
  - apply plain_swap; assumption.
Qed.
Theorem equals_symmetric a b : real a -> real b -> typed lists tokens a -> typed lists tokens b -> ieq a b = ieq b a.
Proof.
  intros RA RB TA TB. destruct (equals_answers inst teq a b RA RB) as [[|] E]; destruct (equals_answers inst teq b a RB RA) as [[|] F]; rewrite E, F; try reflexivity.
  - rewrite (equals_swap a b RA RB TA TB E) in F. congruence.
  - rewrite (equals_swap b a RB RA TB TA F) in E. congruence.
Qed.
End MEANING.
