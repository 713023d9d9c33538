(** Property theorems C35-C38: [ion_equals].

    [ion_equals inst teq a b] is the model (EquivModel): [inst] is the flag timestamps_instants_only,
    [teq] stands for Python's own [==] on two plain tuples, which the code falls back to.
    Values are restricted to objects that can be constructed ([real], EquivSpec). *)
From Coq Require Import String Permutation.
From Verif Require Import Base BaseFacts CoreModel CalendarFacts SymbolsModel SymbolsProofs ManagedModel MultimapModel MultimapProofs SimpleionModel SimpleionSpec SimpleionProofs EquivModel EquivSpec EquivProofs EquivMeaning EquivStructs.
Local Open Scope Z_scope.

(** [ion_equals] always answers: it ends, and raises nothing. *)
Theorem C35_answers : forall inst teq a b, real a -> real b -> exists r, ion_equals inst teq a b = Ok r.
Proof. intros inst teq a b RA RB. exact (equals_answers inst teq a b RA RB). Qed.
Print Assumptions C35_answers.
(** C35.  Every value equals itself. *)
Theorem C35_reflexive : forall inst teq v, (forall l, teq l l = true) -> real v -> ion_equals inst teq v v = Ok true.
Proof. intros inst teq v T R. exact (equals_refl inst teq T v R). Qed.
Print Assumptions C35_reflexive.

(** C36, as far as it holds: the order of the operands does not matter if no plain list occurs in
    them, or no plain symbol token. *)
Theorem C36_symmetric_partial : forall inst teq lists tokens a b,
  (forall x y, teq x y = teq y x) -> lists && tokens = false ->
  real a -> real b -> typed lists tokens a -> typed lists tokens b ->
  ion_equals inst teq a b = ion_equals inst teq b a.
Proof. intros inst teq lists tokens a b TS LT RA RB TA TB. exact (equals_symmetric inst teq lists tokens LT TS a b RA RB TA TB). Qed.
Print Assumptions C36_symmetric_partial.
(** In particular for any two values that [load] returns, which have Ion nature throughout. *)
Inductive all_nature : pyval -> Prop :=
| an_null t an : all_nature (PNull t an)
| an_ion t an s : class_fits t s -> all_nature (PIon t an s)
| an_seq sexp an l : Forall all_nature l -> all_nature (PSeq sexp an l)
| an_struct an m : Forall (fun p => Forall all_nature (snd p)) m -> all_nature (PStruct an m).
Lemma all_nature_typed v : all_nature v -> typed false false v.
Proof.
  induction v as [ |s|l IH|l IH|l IH|t an|t an s|sexp an l IH|an m IH] using pyval_induction; intros A; inversion A; subst.
  - constructor.
  - constructor. assumption.
  - constructor. rewrite Forall_forall in *. auto.
  - constructor. rewrite Forall_forall in *. intros p I. match goal with H : forall _, In _ m -> Forall all_nature _ |- _ => specialize (H p I) end. specialize (IH p I). rewrite Forall_forall in *. auto.
Qed.
Theorem C36_symmetric_with_nature : forall inst teq a b, (forall x y, teq x y = teq y x) -> real a -> real b -> all_nature a -> all_nature b -> ion_equals inst teq a b = ion_equals inst teq b a.
Proof. intros inst teq a b TS RA RB NA NB. exact (C36_symmetric_partial inst teq false false a b TS eq_refl RA RB (all_nature_typed _ NA) (all_nature_typed _ NB)). Qed.
(** Not in general: a symbol token is a tuple of three, and a list that starts the comparison takes it
    for a sequence. *)
Theorem C36_list_token_refuted : forall inst teq,
  let token := PPlain (VSymbol (text_token (txt "a"))) in
  let list := PList [PPlain (VString (txt "a")); PNone; PNone] in
  ion_equals inst teq token list = Ok true /\ ion_equals inst teq list token = Ok false.
Proof. intros inst teq. split; vm_compute; reflexivity. Qed.

(** C37.  What equality of structs is (dicts or Ion structs, in any combination): the same
    annotations; each name occurs equally often; every field has an equal field of the same name in the
    other. *)
Theorem C37_fields : forall inst teq a b fa fb,
  real a -> real b -> fields_of a = Some fa -> fields_of b = Some fb ->
  (ion_equals inst teq a b = Ok true <->
   Forall2 same_symbol (annotations_of a) (annotations_of b) /\
   (forall name, times name fa = times name fb) /\
   (forall name x, In (name, x) fa -> exists y, In (name, y) fb /\ ion_equals inst teq x y = Ok true) /\
   (forall name y, In (name, y) fb -> exists x, In (name, x) fa /\ ion_equals inst teq y x = Ok true)).
Proof.
  intros inst teq a b fa fb RA RB FA FB.
  destruct (struct_view a) as [[ma A]|] eqn:VA; [|destruct a; discriminate]. destruct (struct_view b) as [[mb B]|] eqn:VB; [|destruct b; discriminate].
  rewrite (fields_items _ _ _ VA) in FA. injection FA as <-. rewrite (fields_items _ _ _ VB) in FB. injection FB as <-.
  destruct (real_map a ma A RA VA) as (F1 & N1 & S1). destruct (real_map b mb B RB VB) as (F2 & N2 & S2).
  assert (CA : children a = flat_map snd A) by (unfold children; rewrite VA; reflexivity). assert (CB : children b = flat_map snd B) by (unfold children; rewrite VB; reflexivity).
  assert (FX : structs_eq (ion_equals inst teq) (ma, A) (mb, B) = Ok true <-> same_fields (ion_equals inst teq) (mm_items A) (mm_items B)).
  { apply structs_fields; cbn [fst snd]; try assumption; rewrite <- ?CA, <- ?CB; intros x y I J; apply equals_answers;
      first [exact (real_child _ _ RA I)|exact (real_child _ _ RB I)|exact (real_child _ _ RA J)|exact (real_child _ _ RB J)]. }
  assert (SAME : forall an an', Forall real_arg an -> Forall real_arg an' -> (sequences_eq symbols_eq an an' = Ok true <-> Forall2 same_symbol an an')).
  { intros an an' R1 R2. rewrite sequences_true. split; intros H; induction H; constructor; inversion R1; inversion R2; subst; try (apply symbols_true; assumption); auto. }
  change (ion_equals inst teq a b = Ok true <-> Forall2 same_symbol (annotations_of a) (annotations_of b) /\ same_fields (ion_equals inst teq) (mm_items A) (mm_items B)). rewrite <- FX.
  assert (SW : structs_eq (ion_equals inst teq) (mb, B) (ma, A) = Ok true <-> structs_eq (ion_equals inst teq) (ma, A) (mb, B) = Ok true) by (split; apply structs_swap).
  rewrite equals_unfold. unfold equals_step.
  destruct a as [ |s|l|l|l|t an|t an s|e an l|an m]; try discriminate; destruct b as [ |s'|l'|l'|l'|t' an'|t' an' s'|e' an' l'|an' m']; try discriminate;
    cbn [struct_view] in VA, VB; injection VA as <- <-; injection VB as <- <-; cbn [nature annotations_of plain_eq struct_view among nature_eq].
  - rewrite SW. split; [intros H; split; [constructor|exact H]|tauto].
  - destruct an'; [rewrite SW; split; [intros H; split; [constructor|exact H]|tauto]|]. split; [discriminate|]. intros [H _]. inversion H.
  - destruct an; [split; [intros H; split; [constructor|exact H]|tauto]|]. split; [discriminate|]. intros [H _]. inversion H.
  - inversion RA; subst. inversion RB; subst. rewrite <- SAME by assumption. cbn [iontype_eqb iontype_num Z.eqb]. change (iontype_eqb TStruct TStruct) with true. cbn [bind].
    destruct (sequences_eq symbols_eq an an') as [[|]|]; cbn [bind]; (split; [intros H; split; [reflexivity|exact H]|tauto]) || (split; [discriminate|intros [? _]; discriminate]).
Qed.
Print Assumptions C37_fields.

(** The fields of two structs match: in some order, name by name and value by value (the values are
    compared in both orders). *)
Definition match_up inst teq (fa fb : list (option text * pyval)) : Prop :=
  exists fb', Permutation fb fb' /\
  Forall2 (fun p q => fst p = fst q /\ ion_equals inst teq (snd p) (snd q) = Ok true /\ ion_equals inst teq (snd q) (snd p) = Ok true) fa fb'.
Lemma Forall2_In {X Y} (P : X -> Y -> Prop) l l' : Forall2 P l l' -> (forall x, In x l -> exists y, In y l' /\ P x y) /\ (forall y, In y l' -> exists x, In x l /\ P x y).
Proof.
  induction 1 as [|x y l l' H F [IH1 IH2]]; [split; intros ? []|]. split.
  - intros z [<-|I]; [exists y; split; [left; reflexivity|exact H]|]. destruct (IH1 z I) as (w & J & K). exists w. split; [right; exact J|exact K].
  - intros z [<-|I]; [exists x; split; [left; reflexivity|exact H]|]. destruct (IH2 z I) as (w & J & K). exists w. split; [right; exact J|exact K].
Qed.
(** Structs whose fields match as multisets are equal, fields in any order, names repeated or not. *)
Theorem C37_matching_is_equal : forall inst teq a b fa fb,
  real a -> real b -> fields_of a = Some fa -> fields_of b = Some fb -> Forall2 same_symbol (annotations_of a) (annotations_of b) ->
  match_up inst teq fa fb -> ion_equals inst teq a b = Ok true.
Proof.
  intros inst teq a b fa fb RA RB FA FB AN (fb' & P & M). apply (C37_fields inst teq a b fa fb RA RB FA FB). split; [exact AN|]. destruct (Forall2_In _ _ _ M) as [M1 M2]. repeat split.
  - intros name. unfold times. rewrite (proj1 (Permutation_count_occ name_dec _ _) (Permutation_map fst P)). f_equal. clear M1 M2 P FA. induction M as [|p q l l' (E & _) F IH]; [reflexivity|]. cbn [map]. rewrite E, IH. reflexivity.
  - intros name x I. destruct (M1 _ I) as ([n y] & J & E & H & _). cbn [fst snd] in *. subst n. exists y. split; [|exact H]. exact (Permutation_in _ (Permutation_sym P) J).
  - intros name y I. destruct (M2 (name, y) (Permutation_in _ P I)) as ([n x] & J & E & _ & H). cbn [fst snd] in *. subst n. exists x. split; [exact J|exact H].
Qed.
Print Assumptions C37_matching_is_equal.
(** Where no name is repeated: equal exactly if the annotations are the same and the fields match as
    multisets. *)
Theorem C37_distinct_names : forall inst teq a b fa fb,
  real a -> real b -> fields_of a = Some fa -> fields_of b = Some fb -> NoDup (map fst fa) -> NoDup (map fst fb) ->
  (ion_equals inst teq a b = Ok true <-> Forall2 same_symbol (annotations_of a) (annotations_of b) /\ match_up inst teq fa fb).
Proof.
  intros inst teq a b fa fb RA RB FA FB NA NB. split; [|intros [AN M]; exact (C37_matching_is_equal inst teq a b fa fb RA RB FA FB AN M)].
  intros H. apply (C37_fields inst teq a b fa fb RA RB FA FB) in H. destruct H as (AN & T & C & D). split; [exact AN|]. clear FA FB RA RB AN.
  set (R := fun p q : option text * pyval => fst p = fst q /\ ion_equals inst teq (snd p) (snd q) = Ok true /\ ion_equals inst teq (snd q) (snd p) = Ok true).
  assert (EX : forall p, In p fa -> exists q, In q fb /\ R p q).
  { intros [n x] I. destruct (C n x I) as (y & J & E). exists (n, y). split; [exact J|]. split; [reflexivity|]. split; [exact E|]. destruct (D n y J) as (x' & I' & E'). cbn [fst snd].
    assert (x' = x); [|subst; exact E']. clear -NA I I'. induction fa as [|[m z] l IH]; [destruct I|]. cbn [map fst] in NA. inversion NA as [|? ? NI N']; subst.
    destruct I as [E1|I], I' as [E2|I']; [congruence| | |exact (IH N' I I')].
    - exfalso. apply NI. apply in_map_iff. exists (n, x'). split; [cbn; congruence|exact I'].
    - exfalso. apply NI. apply in_map_iff. exists (n, x). split; [cbn; congruence|exact I]. }
  assert (L : length fa = length fb) by (pose proof (same_times_len fa fb T) as Q; unfold zlen in Q; lia).
  assert (BUILD : exists fb', Forall2 R fa fb' /\ incl fb' fb).
  { clear -EX. induction fa as [|p l IH]; [exists []; split; [constructor|intros ? []]|]. destruct (EX p) as (q & I & E); [left; reflexivity|]. destruct IH as (l' & F & IN); [intros r J; apply EX; right; exact J|].
    exists (q :: l'). split; [constructor; assumption|]. intros z [<-|Z]; [exact I|exact (IN z Z)]. }
  destruct BUILD as (fb' & F & IN). exists fb'. split; [|exact F]. apply Permutation_sym.
  assert (NAMES : map fst fb' = map fst fa) by (clear -F; induction F as [|p q l l' (E & _) F IH]; [reflexivity|]; cbn [map]; rewrite E, IH; reflexivity).
  assert (L' : length fb' = length fa) by (rewrite <- (map_length fst fb'), NAMES, map_length; reflexivity).
  apply NoDup_Permutation_bis; [apply (NoDup_map_inv fst); rewrite NAMES; exact NA|lia|exact IN].
Qed.
Print Assumptions C37_distinct_names.
(** Not with repeated names: {a: 1, a: 1, a: 2} and {a: 1, a: 2, a: 2} count as equal. *)
Theorem C37_repeated_refuted : forall inst teq,
  let one := PIon TInt [] (VInt 1) in let two := PIon TInt [] (VInt 2) in
  let a := PStruct [] [(Some (txt "a"), [one; one; two])] in
  let b := PStruct [] [(Some (txt "a"), [one; two; two])] in
  real a /\ real b /\ ion_equals inst teq a b = Ok true /\ ion_equals inst teq one two = Ok false.
Proof.
  intros inst teq one two a b. repeat split; try (vm_compute; reflexivity); repeat constructor; try discriminate; intros [].
Qed.

(** C38.  The same number, with or without an Ion nature. *)
Definition number (v : pyval) (t : iontype) (s : scalar) : Prop := v = PPlain s \/ v = PIon t [] s.
Theorem C38_decimals : forall inst teq a b x y, number a TDecimal (VDecimal x) -> number b TDecimal (VDecimal y) -> 0 <= d_coef x -> 0 <= d_coef y ->
  (ion_equals inst teq a b = Ok true <-> d_neg x = d_neg y /\ d_coef x = d_coef y /\ d_exp x = d_exp y).
Proof.
  intros inst teq a b x y NA NB PX PY. assert (E : x = y <-> d_neg x = d_neg y /\ d_coef x = d_coef y /\ d_exp x = d_exp y) by (destruct x, y; cbn; split; [intros [= -> -> ->]; auto|intros (-> & -> & ->); reflexivity]).
  rewrite <- E, <- (decimals_true x y PX PY).
  destruct NA as [->| ->], NB as [->| ->]; rewrite equals_unfold; cbn; unfold pure; rewrite ?(decimals_sym y x); split; [intros [= ->]; reflexivity|intros ->; reflexivity| | | | | |]; try (intros [= ->]; reflexivity); intros ->; reflexivity.
Qed.
Print Assumptions C38_decimals.
Theorem C38_floats : forall inst teq a b x y, number a TFloat (VFloat x) -> number b TFloat (VFloat y) -> 0 <= x < 2 ^ 64 -> 0 <= y < 2 ^ 64 ->
  (ion_equals inst teq a b = Ok true <-> x = y \/ (2047 * 2 ^ 52 < x mod 2 ^ 63 /\ 2047 * 2 ^ 52 < y mod 2 ^ 63)).
Proof.
  intros inst teq a b x y NA NB RX RY. assert (E : x = y \/ (2047 * 2 ^ 52 < x mod 2 ^ 63 /\ 2047 * 2 ^ 52 < y mod 2 ^ 63) <-> x = y \/ (float_nan x = true /\ float_nan y = true)).
  { unfold float_nan. rewrite !Z.ltb_lt. reflexivity. }
  rewrite E, <- (floats_true x y RX RY).
  destruct NA as [->| ->], NB as [->| ->]; rewrite equals_unfold; cbn; unfold pure; rewrite ?(floats_sym y x); split; try (intros [= ->]; reflexivity); intros ->; reflexivity.
Qed.
Print Assumptions C38_floats.
Theorem C38_ints : forall inst teq a b x y, number a TInt (VInt x) -> number b TInt (VInt y) -> (ion_equals inst teq a b = Ok true <-> x = y).
Proof.
  intros inst teq a b x y NA NB. rewrite <- Z.eqb_eq.
  destruct NA as [->| ->], NB as [->| ->]; rewrite equals_unfold; cbn; rewrite ?(Z.eqb_sym y x); split; try (intros [= ->]; reflexivity); intros ->; reflexivity.
Qed.
(** Values with an Ion nature are equal only if their Ion types and annotations are; an annotated
    value never equals one without annotations. *)
Theorem C38_types_and_annotations : forall inst teq a b, real a -> real b -> ion_equals inst teq a b = Ok true ->
  Forall2 same_symbol (annotations_of a) (annotations_of b) /\ (forall t an t' an', nature a = Some (t, an) -> nature b = Some (t', an') -> t = t').
Proof.
  intros inst teq a b RA RB. rewrite equals_unfold. unfold equals_step.
  assert (NONE : forall v, nature v = None -> annotations_of v = []) by (intros v; destruct v; try discriminate; reflexivity).
  assert (SOME : forall v t an, nature v = Some (t, an) -> annotations_of v = an) by (intros v t an; destruct v; try discriminate; intros [= <- <-]; reflexivity).
  destruct (nature a) as [[t an]|] eqn:NA, (nature b) as [[t' an']|] eqn:NB.
  - rewrite (SOME _ _ _ NA), (SOME _ _ _ NB). destruct (iontype_eqb t t') eqn:T; [|discriminate].
    destruct (sequences_eq symbols_eq an an') as [[|]|] eqn:S; try discriminate. intros _. apply sequences_true in S. split.
    + pose proof (real_annotations _ _ _ RA NA) as F. pose proof (real_annotations _ _ _ RB NB) as F'. clear -S F F'. induction S; constructor; inversion F; inversion F'; subst; [apply symbols_true; assumption|auto].
    + intros ? ? ? ? [= <- <-] [= <- <-]. destruct t, t'; try discriminate; reflexivity.
  - rewrite (SOME _ _ _ NA), (NONE _ NB). destruct an; [intros _|discriminate]. split; [constructor|]. intros ? ? ? ? _ [=].
  - rewrite (NONE _ NA), (SOME _ _ _ NB). destruct an'; [intros _|discriminate]. split; [constructor|]. intros ? ? ? ? [=].
  - rewrite (NONE _ NA), (NONE _ NB). intros _. split; [constructor|]. intros ? ? ? ? [=].
Qed.
Print Assumptions C38_types_and_annotations.
(** A typed null equals just the nulls of its type with the same annotations, and None if it is the null without a type and annotations,
    on either side. *)
Theorem C38_nulls : forall inst teq t an b, real (PNull t an) -> real b ->
  let null_too := (exists an', b = PNull t an' /\ Forall2 same_symbol an an') \/ (t = TNull /\ an = [] /\ b = PNone) in
  (ion_equals inst teq (PNull t an) b = Ok true <-> null_too) /\ (ion_equals inst teq b (PNull t an) = Ok true <-> null_too).
Proof.
  intros inst teq t an b RA RB null_too.
  assert (FA : Forall real_arg an) by (inversion RA; assumption).
  assert (TT : forall x y, iontype_eqb x y = true <-> x = y) by (intros x y; destruct x, y; cbn; split; congruence).
  assert (SEQ : forall x y, Forall real_arg x -> Forall real_arg y -> sequences_eq symbols_eq x y = Ok true <-> Forall2 same_symbol x y).
  { intros x y FX FY. rewrite sequences_true. split; intros S.
    - induction S; constructor; inversion FX; inversion FY; subst; [apply symbols_true; assumption|auto].
    - induction S; constructor; inversion FX; inversion FY; subst; [apply symbols_true; assumption|auto]. }
  assert (SYM : forall x y, Forall2 same_symbol x y -> Forall2 same_symbol y x).
  { intros x y S. induction S as [|u v x y [U V] _ IH]; constructor; [|exact IH]. split; [congruence|].
    destruct u as [u|u], v as [v|v]; auto. cbn in U. intros W. destruct V as (V1 & V2); [congruence|]. split; [congruence|tauto]. }
  unfold null_too. split; rewrite equals_unfold; unfold equals_step; cbn [nature].
  - assert (N : forall x, nature x = None -> b = x -> (forall an', x <> PNull t an') ->
       (match an with [] => nature_eq inst teq (ion_equals inst teq) (PNull t an) x | _ => Ok false end = Ok true <-> t = TNull /\ an = [] /\ x = PNone)).
    { intros x NX _ _. destruct an; [|split; [discriminate|intros (_ & [=] & _)]]. destruct x; try discriminate; cbn [nature_eq]; try (split; [discriminate|intros (_ & _ & [=])]; fail).
      split; [intros [= H]; apply TT in H; auto|intros (-> & _ & _); reflexivity]. }
    destruct (nature b) as [[t' an']|] eqn:NB.
    + pose proof (real_annotations _ _ _ RB NB) as FB. destruct (iontype_eqb t t') eqn:E.
      * apply TT in E. subst t'. destruct (sequences_eq symbols_eq an an') as [[|]|] eqn:S; cbn [bind].
        -- apply SEQ in S; auto. destruct b; try discriminate; cbn [nature_eq].
           injection NB as <- <-. split; [intros _; left; eauto|reflexivity].
           all: split; [discriminate|intros [(? & [=] & _)|(_ & _ & [=])]].
        -- split; [discriminate|]. intros [(an2 & -> & F2)|(_ & _ & ->)]; [|discriminate]. injection NB as <-. apply SEQ in F2; auto. congruence.
        -- split; [discriminate|]. intros [(an2 & -> & F2)|(_ & _ & ->)]; [|discriminate]. injection NB as <-. apply SEQ in F2; auto. congruence.
      * cbn [bind]. split; [discriminate|]. intros [(an2 & -> & F2)|(_ & _ & ->)]; [|discriminate]. injection NB as <- <-. rewrite (proj2 (TT t t) eq_refl) in E. discriminate.
    + rewrite (N b NB eq_refl) by (intros an' ->; discriminate). split; [auto|]. intros [(an2 & -> & _)|H]; [discriminate|exact H].
  - destruct (nature b) as [[t' an']|] eqn:NB.
    + pose proof (real_annotations _ _ _ RB NB) as FB. destruct (iontype_eqb t' t) eqn:E.
      * apply TT in E. subst t'. destruct (sequences_eq symbols_eq an' an) as [[|]|] eqn:S; cbn [bind].
        -- apply SEQ in S; auto. destruct b; try discriminate; cbn [nature_eq].
           injection NB as <- <-. split; [intros _; left; eauto|reflexivity].
           all: split; [|intros [(? & [=] & _)|(_ & _ & [=])]]. all: try discriminate.
           all: match goal with |- context [PIon ?t0 _ ?s] => destruct s; cbn; try discriminate; destruct t0; discriminate end.
        -- split; [discriminate|]. intros [(an2 & -> & F2)|(_ & _ & ->)]; [|discriminate]. injection NB as <-. apply SYM, SEQ in F2; auto. congruence.
        -- split; [discriminate|]. intros [(an2 & -> & F2)|(_ & _ & ->)]; [|discriminate]. injection NB as <-. apply SYM, SEQ in F2; auto. congruence.
      * cbn [bind]. split; [discriminate|]. intros [(an2 & -> & F2)|(_ & _ & ->)]; [|discriminate]. injection NB as <- <-. rewrite (proj2 (TT t t) eq_refl) in E. discriminate.
    + destruct an; [|split; [discriminate|intros [(an2 & -> & _)|(_ & [=] & _)]; discriminate]].
      destruct b; try discriminate; cbn [nature_eq]; try (split; [discriminate|intros [(an2 & [=] & _)|(_ & _ & [=])]]; fail).
      split; [intros [= H]; apply TT in H; auto|intros [(an2 & [=] & _)|(-> & _ & _)]; reflexivity].
Qed.
(** Python's own number comparison shows through where only the int has an Ion nature, and for
    booleans. *)
Theorem C38_mixed_numbers : forall inst teq,
  ion_equals inst teq (PIon TInt [] (VInt 1)) (PPlain (VFloat 0x3FF0000000000000)) = Ok true /\
  ion_equals inst teq (PIon TInt [] (VInt 1)) (PPlain (VDecimal (mkdec false 10 (-1)))) = Ok true /\
  ion_equals inst teq (PPlain (VBool true)) (PPlain (VInt 1)) = Ok true /\
  ion_equals inst teq (PPlain (VInt 1)) (PPlain (VFloat 0x3FF0000000000000)) = Ok false.
Proof. intros inst teq. repeat split. Qed.

(** Cases: -0.0 and 0.0, 1.0 and 1.00, NaNs, nested structs in another order. *)
Example C38_cases : forall inst teq,
  ion_equals inst teq (PPlain (VFloat 0)) (PPlain (VFloat (2 ^ 63))) = Ok false /\
  ion_equals inst teq (PPlain (VFloat 0x7FF8000000000000)) (PIon TFloat [] (VFloat 0xFFF8000000000001)) = Ok true /\
  ion_equals inst teq (PPlain (VDecimal (mkdec false 10 (-1)))) (PPlain (VDecimal (mkdec false 100 (-2)))) = Ok false /\
  ion_equals inst teq (PDict [(Some (txt "a"), PList [PNone; PPlain (VInt 5)]); (Some (txt "b"), PTuple [])])
    (PStruct [] [(Some (txt "b"), [PSeq true [] []]); (Some (txt "a"), [PSeq false [] [PNull TNull []; PIon TInt [] (VInt 5)]])]) = Ok true.
Proof. intros inst teq. repeat split. Qed.

(** C55.  Timestamps (with or without nature).  Under the data model: the same offset, known or not,
    the same date and time to the microsecond and, where both are Timestamps, the same precision, the
    same number of fractional digits (up to six) and the same fraction; a Timestamp equals a plain
    datetime only if it has precision SECOND with six digits. *)
Definition rational (d : dec) (m : Z) : Z := (if d_neg d then - d_coef d else d_coef d) * 10 ^ (d_exp d - m).
Definition same_fraction (x y : dec) : Prop := forall m, m <= d_exp x -> m <= d_exp y -> rational x m = rational y m.
Definition date_time (x : tsvalue) : dtime := match x with TsStamp t => ts_dt t | TsPlain d => d end.
Definition same_precision (x y : tsvalue) : Prop :=
  match x, y with
  | TsStamp s, TsStamp t => ts_prec s = ts_prec t /\ ts_fprec s = ts_fprec t /\ same_fraction (ts_frac s) (ts_frac t)
  | TsStamp s, TsPlain _ | TsPlain _, TsStamp s => ts_prec s = Some PSecond /\ ts_fprec s = 6
  | TsPlain _, TsPlain _ => True
  end.
Lemma fraction_true x y : dec_num_eq x y = true <-> same_fraction x y.
Proof.
  unfold dec_num_eq, same_fraction. rewrite Z.eqb_eq. change dec_units with rational. split.
  - intros E m L1 L2. set (k := Z.min (d_exp x) (d_exp y)) in *. assert (M : m <= k) by (unfold k; lia). unfold rational in *.
    replace (d_exp x - m) with ((d_exp x - k) + (k - m)) by lia. replace (d_exp y - m) with ((d_exp y - k) + (k - m)) by lia. rewrite !Z.pow_add_r by (unfold k; lia). rewrite !Z.mul_assoc, E. reflexivity.
  - intros H. apply H; lia.
Qed.
Lemma fields_true_iff d e : dt_off d = dt_off e -> (datetime_fields_eq d e = true <-> d = e).
Proof.
  intros O. unfold datetime_fields_eq. rewrite !andb_true_iff, !Z.eqb_eq. destruct d, e; cbn in *. split; [intros ((((((-> & ->) & ->) & ->) & ->) & ->) & ->); congruence|intros [= -> -> -> -> -> -> -> _]; auto 10].
Qed.
Theorem C55_timestamps : forall teq a b x y, number a TTimestamp (VTimestamp x) -> number b TTimestamp (VTimestamp y) ->
  (ion_equals false teq a b = Ok true <-> date_time x = date_time y /\ same_precision x y).
Proof.
  intros teq a b x y NA NB.
  assert (T : timestamps_eq x y = true <-> date_time x = date_time y /\ same_precision x y).
  { unfold timestamps_eq. change ts_datetime with date_time. destruct (opt_eqb Z.eqb (dt_off (date_time x)) (dt_off (date_time y))) eqn:O; cbn [negb].
    2: { split; [discriminate|]. intros [E _]. rewrite E, (proj2 (opt_eqb_spec _ Z.eqb_eq _ _) eq_refl) in O. discriminate. }
    apply (opt_eqb_spec _ Z.eqb_eq) in O.
    assert (G : forall c (P : Prop), (c = true <-> P) -> ((if c then datetime_fields_eq (date_time x) (date_time y) else false) = true <-> date_time x = date_time y /\ P)).
    { intros c P CP. rewrite <- (fields_true_iff _ _ O), <- CP. destruct c; [tauto|]. split; [discriminate|tauto]. }
    apply G. assert (M : forall t, full_micro t = true <-> ts_prec t = Some PSecond /\ ts_fprec t = 6) by (intros t; unfold full_micro; rewrite andb_true_iff, Z.eqb_eq, (opt_eqb_spec _ prec_eqb_spec); reflexivity).
    destruct x, y; cbn [same_precision]; try apply M; [|tauto]. rewrite !andb_true_iff, Z.eqb_eq, (opt_eqb_spec _ prec_eqb_spec), fraction_true. tauto. }
  rewrite <- T. destruct NA as [->| ->], NB as [->| ->]; rewrite equals_unfold; cbn; unfold pure, stamp_eq; rewrite ?(timestamps_sym y x); split; try (intros [= ->]; reflexivity); intros ->; reflexivity.
Qed.
Print Assumptions C55_timestamps.
(** With timestamps_instants_only: the same instant, unknown offsets taken for UTC. *)
Theorem C55_instants : forall teq a b x y, number a TTimestamp (VTimestamp x) -> number b TTimestamp (VTimestamp y) ->
  let utc t := seconds_of (date_time t) - match dt_off (date_time t) with Some o => o | None => 0 end in
  0 <= dt_micro (date_time x) < 1000000 -> 0 <= dt_micro (date_time y) < 1000000 ->
  (ion_equals true teq a b = Ok true <-> utc x = utc y /\ dt_micro (date_time x) = dt_micro (date_time y)).
Proof.
  intros teq a b x y NA NB utc MX MY.
  assert (T : instants_eq x y = true <-> utc x = utc y /\ dt_micro (date_time x) = dt_micro (date_time y)).
  { unfold instants_eq, instant. change ts_datetime with date_time. fold (utc x) (utc y). rewrite Z.eqb_eq. lia. }
  rewrite <- T. assert (SY : instants_eq y x = instants_eq x y) by apply Z.eqb_sym.
  destruct NA as [->| ->], NB as [->| ->]; rewrite equals_unfold; cbn [equals_step nature plain_eq nature_eq datetime_view scalar_of among]; unfold pure, stamp_eq; rewrite ?SY; cbn [bind iontype_eqb iontype_num Z.eqb Pos.eqb sequences_eq elements_eq]; split; try (intros [= ->]; reflexivity); try (intros ->; reflexivity); cbn; try (intros [= ->]; reflexivity); try (intros ->; reflexivity).
Qed.
Print Assumptions C55_instants.
(** The digits beyond microseconds count by value only: 0.1234567 and 0.12345670 are equal. *)
Theorem C55_precision_beyond_micro : forall teq,
  let t f := PPlain (VTimestamp (TsStamp (mkts (mkdt 2020 1 1 0 0 0 123456 None) (Some PSecond) 6 f))) in
  ion_equals false teq (t (mkdec false 1234567 (-7))) (t (mkdec false 12345670 (-8))) = Ok true.
Proof. intros teq. reflexivity. Qed.

(** Symbols, booleans, texts and octets. *)
Theorem C38_symbols : forall inst teq a b x y, number a TSymbol (VSymbol x) -> number b TSymbol (VSymbol y) -> real_token x -> real_token y ->
  (ion_equals inst teq a b = Ok true <-> same_symbol (ATok x) (ATok y)).
Proof.
  intros inst teq a b x y NA NB RX RY. rewrite <- (symbols_true (ATok x) (ATok y) RX RY).
  destruct NA as [->| ->], NB as [->| ->]; rewrite equals_unfold; cbn [equals_step nature plain_eq nature_eq symbol_view scalar_of among]; rewrite ?(symbols_sym (ATok y) (ATok x)); reflexivity || (cbn; reflexivity).
Qed.
Theorem C38_texts : forall inst teq a b x y, number a TString (VString x) -> number b TString (VString y) -> (ion_equals inst teq a b = Ok true <-> x = y).
Proof.
  intros inst teq a b x y NA NB. rewrite <- zlist_eqb_eq.
  destruct NA as [->| ->], NB as [->| ->]; rewrite equals_unfold; cbn; rewrite ?(zlist_eqb_sym y x); split; try (intros [= ->]; reflexivity); intros ->; reflexivity.
Qed.
Theorem C38_octets : forall inst teq a b t x y, t = TBlob \/ t = TClob -> number a t (VBytes x) -> number b t (VBytes y) -> (ion_equals inst teq a b = Ok true <-> x = y).
Proof.
  intros inst teq a b t x y TT NA NB. rewrite <- zlist_eqb_eq.
  destruct TT as [-> | ->]; destruct NA as [->| ->], NB as [->| ->]; rewrite equals_unfold; cbn; rewrite ?(zlist_eqb_sym y x); split; try (intros [= ->]; reflexivity); intros ->; reflexivity.
Qed.
(** Sequences: element by element (a list or a plain tuple against anything but a plain tuple, which
    Python compares itself). *)
Theorem C38_sequences : forall inst teq sexp an l sexp' an' l', real (PSeq sexp an l) -> real (PSeq sexp' an' l') ->
  (ion_equals inst teq (PSeq sexp an l) (PSeq sexp' an' l') = Ok true <->
   sexp = sexp' /\ Forall2 same_symbol an an' /\ Forall2 (fun x y => ion_equals inst teq x y = Ok true) l l').
Proof.
  intros inst teq sexp an l sexp' an' l' RA RB. inversion RA; inversion RB; subst. rewrite equals_unfold. cbn [equals_step nature nature_eq py_elements among]. rewrite <- sequences_true.
  assert (AN : sequences_eq symbols_eq an an' = Ok true <-> Forall2 same_symbol an an').
  { rewrite sequences_true. split; intros H; clear RA RB; induction H; constructor; repeat match goal with F : Forall real_arg (_ :: _) |- _ => inversion F; clear F; subst end; try (apply symbols_true; assumption); auto. }
  rewrite <- AN. destruct sexp, sexp'; cbn [iontype_eqb iontype_num]; try (split; [discriminate|intros [? _]; discriminate]); cbn [Z.eqb Pos.eqb].
  all: destruct (sequences_eq symbols_eq an an') as [[|]|]; cbn; (split; [intros H'; repeat split; exact H'|tauto]) || (split; [discriminate|intros (_ & ? & _); discriminate]).
Qed.
Print Assumptions C38_sequences.
