(** What is loaded from a dumped value equals it under [ion_equals]. *)
From Coq Require Import Permutation.
From Verif Require Import Base BaseFacts CoreModel CalendarFacts ScalarFacts ScalarProofs WriterProofs SymbolsModel SymbolsProofs ManagedModel ManagedSpec ManagedAccept MultimapModel MultimapProofs
  SimpleionModel SimpleionSpec SimpleionProofs EquivModel EquivSpec EquivProofs EquivMeaning EquivStructs Props_Equiv.
Local Open Scope Z_scope.

(** Symbols and annotations of known text, timestamps of a definite precision. *)
Definition definite_scalar (s : scalar) : Prop :=
  match s with VSymbol t => tk_text t <> None | VTimestamp (TsStamp x) => ts_prec x <> None | _ => True end.
Definition definite_names (an : list symarg) : Prop := Forall (fun a => text_of a <> None) an.
Inductive definite : pyval -> Prop :=
| de_none : definite PNone
| de_plain s : definite_scalar s -> definite (PPlain s)
| de_list l : Forall definite l -> definite (PList l)
| de_tuple l : Forall definite l -> definite (PTuple l)
| de_dict l : Forall (fun p => definite (snd p)) l -> definite (PDict l)
| de_null t an : definite_names an -> definite (PNull t an)
| de_ion t an s : definite_names an -> definite_scalar s -> definite (PIon t an s)
| de_seq sexp an l : definite_names an -> Forall definite l -> definite (PSeq sexp an l)
| de_struct an m : definite_names an -> Forall (fun p => Forall definite (snd p)) m -> definite (PStruct an m).

Lemma good_real a : good_arg a -> real_arg a.
Proof. destruct a as [t|x]; [|exact (fun _ => Logic.I)]. unfold good_arg. cbn [arg_text real_arg]. unfold real_token. destruct (tk_text t); [left; discriminate|intros E; right; congruence]. Qed.
Lemma good_reals an : Forall good_arg an -> Forall real_arg an.
Proof. apply Forall_impl. exact good_real. Qed.
Lemma ok_real t s : scalar_ok t s -> real_scalar s.
Proof.
  destruct (iontype_eqb t TSymbol) eqn:E.
  - assert (t = TSymbol) as -> by (destruct t; try discriminate; reflexivity). intros (S & a & A & G). destruct s; try exact Logic.I; try exact S. injection A as <-. exact (good_real _ G).
  - intros S. assert (SP : scalar_portable t s) by (destruct t; try discriminate; exact S). clear S. pose proof (portable_sane _ _ SP) as SA. destruct s; try exact Logic.I; try exact SA.
    destruct t; try discriminate E; cbn in SP; contradiction.
Qed.
Section RELOAD.
Variable inst : bool.
Variable teq : list pyval -> list pyval -> bool.
Variable tas : bool.
(** What is asked of the format. *)
Variable names : symarg -> Prop.
Variable scalars : iontype -> scalar -> Prop.
Variable keys : option text -> pyval -> Prop.
Variable keep : scalar -> scalar.
Hypothesis names_real : forall a, names a -> real_arg a.
Hypothesis scalars_real : forall t s, scalars t s -> real_scalar s.
Hypothesis scalars_symbol : forall s, scalars TSymbol s -> exists a, symbol_arg s = Some a.
Hypothesis keep_real : forall s, real_scalar s -> real_scalar (keep s).
Hypothesis keep_equal : forall s, definite_scalar s ->
  match keep s, s with
  | VTimestamp x, VTimestamp y => stamp_eq inst x y = true
  | VTimestamp _, _ => False
  | VFloat x, VFloat y => real_scalar s -> floats_eq x y = true
  | _, _ => keep s = s
  end.
Lemma storable_real v : storable_by names scalars keys v -> real v.
Proof.
  induction v as [ |s|l IH|l IH|l IH|t an|t an s|sexp an l IH|an m IH] using pyval_induction; intros S; inversion S; subst; constructor; try assumption; try (eapply Forall_impl; [exact names_real|assumption]); try (eapply scalars_real; eassumption);
    rewrite Forall_forall in *; auto.
  - intros p I. apply (IH p I). match goal with H : forall x, In x l -> _ /\ storable_by _ _ _ _ |- _ => exact (proj2 (H p I)) end.
  - intros p I. match goal with H : forall x, In x m -> _ <> [] /\ _ |- _ => destruct (H p I) as [N F] end. split; [exact N|]. specialize (IH p I). rewrite Forall_forall in *. intros x X. apply (IH x X). exact (proj2 (F x X)).
Qed.
Notation ieq := (ion_equals inst teq).
Definition recovers (v v' : pyval) : Prop := real v' /\ ieq v' v = Ok true /\ ieq v v' = Ok true.

Lemma same_names (an : list token) (bs : list symarg) : definite_names bs -> map arg_text (map ATok an) = map arg_text bs ->
  Forall real_arg (map ATok an) /\ Forall2 same_symbol (map ATok an) bs /\ Forall2 same_symbol bs (map ATok an).
Proof.
  revert bs. induction an as [|t an IH]; intros [|b bs] D E; try discriminate; [repeat split; constructor|]. cbn [map] in *. injection E as E1 E2. inversion D as [|? ? D1 D2]; subst.
  destruct (IH bs D2 E2) as (R & F & G). cbn [arg_text] in E1.
  assert (TX : tk_text t = text_of b) by (rewrite E1; destruct b; reflexivity). assert (N : tk_text t <> None) by congruence. repeat split.
  - constructor; [|exact R]. left. exact N.
  - constructor; [|exact F]. split; [exact TX|]. destruct b; [|exact Logic.I]. intros Z. congruence.
  - constructor; [|exact G]. split; [symmetry; exact TX|]. destruct b; [|exact Logic.I]. cbn [text_of] in TX. intros Z. congruence.
Qed.
Lemma same_symbols an bs : Forall real_arg an -> Forall real_arg bs -> Forall2 same_symbol an bs -> sequences_eq symbols_eq an bs = Ok true.
Proof. intros R1 R2 F. apply sequences_true. induction F; constructor; inversion R1; inversion R2; subst; [apply symbols_true; assumption|auto]. Qed.
Lemma elements_recover l l' : Forall2 recovers l l' -> sequences_eq ieq l' l = Ok true /\ sequences_eq ieq l l' = Ok true.
Proof. intros F. rewrite !sequences_true. induction F as [|v v' l l' (_ & A & B) F [IH1 IH2]]; split; constructor; assumption. Qed.
Lemma type_refl t : iontype_eqb t t = true. Proof. apply Z.eqb_refl. Qed.

(** Scalars with and without a nature. *)
Definition scalar_form (v : pyval) (t : iontype) (an : list symarg) (s : scalar) : Prop := (v = PPlain s /\ an = []) \/ v = PIon t an s.
Lemma scalar_recovers v t an s v' : scalar_form v t an s -> scalars t s -> real v -> definite_scalar s -> definite_names an -> loaded_by keep v' -> meaning_by keep tas v' = ion_scalar_by keep t (map arg_text an) s -> recovers v v'.
Proof.
  intros SF OK RV DS DN LO M. unfold recovers.
  assert (SH : exists an' s', v' = PIon t (map ATok an') s' /\ class_fits t s' /\ keep s' = s' /\ map arg_text (map ATok an') = map arg_text an /\
    match t with TSymbol => exists a b, symbol_arg s' = Some a /\ symbol_arg s = Some b /\ arg_text a = arg_text b | _ => s' = keep s end).
  { inversion LO as [t0 a0|t0 a0 s0 CF CC|e0 a0 l0 F0|a0 m0 N0 F0]; subst; cbn [meaning_by] in M; unfold ion_scalar_by in M; try (destruct t; discriminate M).
    exists a0, s0. assert (t0 = t) by (destruct t0, t; try discriminate M; reflexivity). subst t0. split; [reflexivity|]. split; [exact CF|]. split; [exact CC|].
    destruct (iontype_eqb t TSymbol) eqn:ET.
    - assert (t = TSymbol) as -> by (destruct t; try discriminate; reflexivity). injection M as M1 M2. split; [exact M1|]. destruct (scalars_symbol _ OK) as (b & B). rewrite B in M2. destruct s0; try contradiction; cbn [symbol_arg] in *; eexists; exists b; repeat split; exact M2 || exact B.
    - assert (MM : IScalar t (map arg_text (map ATok a0)) (keep s0) = IScalar t (map arg_text an) (keep s)) by (destruct t; try discriminate; exact M). injection MM as M1 M2. split; [exact M1|]. destruct t; try discriminate; congruence. }
  destruct SH as (an' & s' & -> & CF & CC & AN & SV). destruct (same_names an' an DN AN) as (RA' & F1 & F2).
  assert (RA : Forall real_arg an) by (destruct SF as [[-> ->]| ->]; [constructor|inversion RV; assumption]).
  assert (RS : real_scalar s) by (destruct SF as [[-> _]| ->]; inversion RV; assumption).
  assert (RS' : real_scalar s').
  { destruct (iontype_eqb t TSymbol) eqn:ET.
    - assert (t = TSymbol) as -> by (destruct t; try discriminate; reflexivity). destruct SV as (a & b & A & B & E). destruct s'; try contradiction; [|exact Logic.I]. injection A as <-. left. cbn [arg_text] in E. rewrite E.
      destruct s; try discriminate B; injection B as <-; cbn [arg_text]; [exact DS|discriminate].
    - assert (s' = keep s) as -> by (destruct t; try discriminate; exact SV). apply keep_real, RS. }
  split; [constructor; assumption|].
  assert (A1 : sequences_eq symbols_eq (map ATok an') an = Ok true) by (apply same_symbols; assumption).
  assert (A2 : sequences_eq symbols_eq an (map ATok an') = Ok true) by (apply same_symbols; assumption).
  assert (NE : nature_eq inst teq ieq (PIon t (map ATok an') s') v = Ok true /\ (v = PIon t an s -> nature_eq inst teq ieq v (PIon t (map ATok an') s') = Ok true)).
  { destruct (iontype_eqb t TSymbol) eqn:ET.
    - assert (t = TSymbol) as -> by (destruct t; try discriminate; reflexivity). destruct SV as (a & b & A & B & E).
      assert (SY : symbols_eq a b = Ok true /\ symbols_eq b a = Ok true).
      { rewrite (symbols_sym b a). split; unfold symbols_eq; change (match a with ATok t => tk_text t | AText x => Some x end) with (text_of a); change (match b with ATok t => tk_text t | AText x => Some x end) with (text_of b);
          (assert (TE : text_of a = text_of b) by (destruct a, b; exact E)); rewrite TE, (proj2 (opt_eqb_spec _ zlist_eqb_eq _ _) eq_refl); destruct (text_of b) eqn:TB; try reflexivity;
          exfalso; destruct s; try discriminate B; injection B as <-; cbn [text_of] in TB; congruence. }
      destruct s'; try contradiction; injection A as <-; (destruct s; try discriminate B; injection B as <-); destruct SF as [[-> ->]| ->]; cbn [nature_eq symbol_view scalar_of among]; (split; [exact (proj1 SY)|]); (discriminate || (intros _; exact (proj2 SY))).
    - assert (SC : s' = keep s) by (destruct t; try discriminate; exact SV). pose proof (keep_equal s DS) as CE. rewrite <- SC in CE.
      assert (TN : t <> TSymbol) by (intros ->; discriminate).
      clear SC SV. destruct s'; destruct s; try contradiction; try discriminate CE.
      all: try (destruct t; contradiction).
      all: try (injection CE as CE; subst).
      all: destruct SF as [[-> ->]| ->]; cbn [nature_eq datetime_view decimal_view float_view symbol_view scalar_of among]; unfold pure.
      all: try (cbn [python_eq scalar_of int_eq_num]; split; [rewrite ?Z.eqb_refl, ?zlist_eqb_refl; reflexivity|discriminate || (intros _; rewrite ?Z.eqb_refl, ?zlist_eqb_refl; reflexivity)]).
      all: try (specialize (CE RS); split; [rewrite CE; reflexivity|discriminate || (intros _; rewrite floats_sym, CE; reflexivity)]).
      all: try (split; [f_equal; apply decimals_true; auto|discriminate || (intros _; f_equal; apply decimals_true; auto)]).
      all: try (split; [rewrite CE; reflexivity|discriminate || (intros _; rewrite stamp_sym, CE; reflexivity)]).
      all: try (destruct t; try contradiction; cbn [python_eq scalar_of]; (split; [rewrite zlist_eqb_refl; reflexivity|discriminate || (intros _; rewrite zlist_eqb_refl; reflexivity)])). }
  destruct NE as [N1 N2]. rewrite !(equals_unfold inst teq). unfold equals_step. cbn [nature].
  destruct SF as [[-> ->]| ->]; cbn [nature].
  - apply map_eq_nil in AN. apply map_eq_nil in AN. subst an'. split; exact N1.
  - rewrite type_refl. split; [rewrite A1; exact N1|rewrite A2; exact (N2 eq_refl)].
Qed.

(** Sequences and structs. *)
Lemma list_recovers l l' : (forall x, In x l -> (storable_by names scalars keys) x /\ definite x) -> (forall x, In x l -> forall x', (loaded_by keep) x' -> meaning_by keep tas x' = meaning_by keep tas x -> recovers x x') ->
  Forall (loaded_by keep) l' -> map (meaning_by keep tas) l' = map (meaning_by keep tas) l -> Forall2 recovers l l' /\ Forall real l'.
Proof.
  revert l'. induction l as [|x l IH]; intros [|x' l'] OK R LO M; try discriminate; [split; constructor|]. cbn [map] in M. injection M as M1 M2. inversion LO as [|? ? LO1 LO2]; subst.
  assert (RX : recovers x x') by (apply R; [left; reflexivity|assumption|assumption]).
  destruct (IH l') as [F1 F2]; [intros y I; apply OK; right; exact I|intros y I; apply R; right; exact I|exact LO2|exact M2|]. split; constructor; try assumption. exact (proj1 RX).
Qed.
Lemma sequence_recovers v sexp an l v' : (exists f, v = f l /\ (f = PList /\ an = [] /\ sexp = false \/ f = PTuple /\ an = [] /\ sexp = tas \/ f = PSeq sexp an)) -> real v -> definite_names an ->
  (forall x, In x l -> (storable_by names scalars keys) x /\ definite x) -> (forall x, In x l -> forall x', (loaded_by keep) x' -> meaning_by keep tas x' = meaning_by keep tas x -> recovers x x') ->
  loaded_by keep v' -> meaning_by keep tas v' = ISeq sexp (map arg_text an) (map (meaning_by keep tas) l) -> recovers v v'.
Proof.
  intros (f & -> & FF) RV DN OK R LO M. inversion LO as [t0 a0|t0 a0 s0 CF CC|e0 a0 l0 F0|a0 m0 N0 F0]; subst; cbn [meaning_by] in M; unfold ion_scalar_by in M; try (destruct t0; discriminate M); try discriminate M.
  injection M as -> AN ML. destruct (list_recovers l l0 OK R F0 ML) as [RL RR]. destruct (elements_recover _ _ RL) as [E1 E2]. destruct (same_names a0 an DN AN) as (RA' & S1 & S2).
  split; [constructor; assumption|]. rewrite !(equals_unfold inst teq). unfold equals_step. cbn [nature].
  destruct FF as [(-> & -> & _)|[(-> & -> & _)| ->]]; cbn [nature].
  - apply map_eq_nil in AN. apply map_eq_nil in AN. subst a0. cbn [map nature_eq py_elements among]. split; exact E1.
  - apply map_eq_nil in AN. apply map_eq_nil in AN. subst a0. cbn [map nature_eq py_elements among]. split; exact E1.
  - assert (RA : Forall real_arg an) by (inversion RV; assumption). rewrite type_refl, (same_symbols _ _ RA' RA S1), (same_symbols _ _ RA RA' S2). cbn [bind nature_eq py_elements among]. auto.
Qed.
Lemma struct_recovers v fs v' : fields_of v = Some fs -> real v -> definite_names (annotations_of v) ->
  (forall p, In p fs -> (storable_by names scalars keys) (snd p) /\ definite (snd p)) -> (forall p, In p fs -> forall x', (loaded_by keep) x' -> meaning_by keep tas x' = meaning_by keep tas (snd p) -> recovers (snd p) x') ->
  loaded_by keep v' -> meaning_by keep tas v' = IStruct (map arg_text (annotations_of v)) (map (fun p => (fst p, meaning_by keep tas (snd p))) fs) -> recovers v v'.
Proof.
  intros FV RV DN OK R LO M. inversion LO as [t0 a0|t0 a0 s0 CF CC|e0 a0 l0 F0|a0 m0 N0 F0]; subst; cbn [meaning_by] in M; unfold ion_scalar_by in M; try (destruct t0; discriminate M); try discriminate M.
  rewrite meaning_items in M. injection M as AN ML. destruct (same_names a0 _ DN AN) as (RA' & S1 & S2).
  assert (LI : Forall (fun p => loaded_by keep (snd p)) (mm_items m0)) by (apply items_Forall; eapply Forall_impl; [|exact F0]; intros p [_ Q]; exact Q).
  assert (F2 : Forall2 (fun p q => fst p = fst q /\ recovers (snd q) (snd p)) (mm_items m0) fs).
  { clear -OK R ML LI. revert ML LI. generalize (mm_items m0) as fs'. induction fs as [|p fs IH]; intros [|p' fs'] M L; try discriminate; constructor.
    - cbn [map] in M. injection M as M1 M2 M3. inversion L; subst. split; [exact M1|]. apply R; [left; reflexivity|assumption|assumption].
    - cbn [map] in M. injection M as M1 M2 M3. inversion L; subst. apply IH; try assumption; intros q I; [apply OK|apply R]; right; exact I. }
  assert (RV' : real (PStruct (map ATok a0) m0)).
  { constructor; [exact RA'|exact N0|]. assert (RI : forall p, In p (mm_items m0) -> real (snd p)) by (intros p I; destruct (proj1 (Forall2_In _ _ _ F2) p I) as (q & _ & _ & Q); exact (proj1 Q)).
    rewrite Forall_forall in *. intros p I. destruct (F0 p I) as [N _]. split; [exact N|]. apply Forall_forall. intros x X. apply (RI (fst p, x)). apply in_flat_map. exists p. split; [exact I|]. apply in_map. exact X. }
  split; [exact RV'|]. split.
  - apply (C37_matching_is_equal inst teq _ _ (mm_items m0) fs RV' RV eq_refl FV S1). exists fs. split; [apply Permutation_refl|]. clear -F2. induction F2 as [|p q l l' (E & _ & A & B) F IH]; constructor; auto.
  - apply (C37_matching_is_equal inst teq _ _ fs (mm_items m0) RV RV' FV eq_refl S2). exists (mm_items m0). split; [apply Permutation_refl|]. clear -F2. induction F2 as [|p q l l' (E & _ & A & B) F IH]; constructor; auto.
Qed.
Theorem reload_equal : forall v, (storable_by names scalars keys) v -> definite v -> forall v', loaded_by keep v' -> meaning_by keep tas v' = meaning_by keep tas v -> recovers v v'.
Proof.
  induction v as [ |s|l IH|l IH|l IH|t an|t an s|sexp an l IH|an m IH] using pyval_induction; intros S D v' LO M; pose proof (storable_real _ S) as RV; inversion S; subst; inversion D; subst.
  - inversion LO as [t0 a0|t0 a0 s0 CF CC|e0 a0 l0 F0|a0 m0 N0 F0]; subst; cbn [meaning_by] in M; unfold ion_scalar_by in M; try (destruct t0; discriminate M); try discriminate M. injection M as -> AN.
    apply map_eq_nil in AN. apply map_eq_nil in AN. subst a0. split; [constructor; constructor|]. rewrite !(equals_unfold inst teq). split; reflexivity.
  - refine (scalar_recovers (PPlain s) (documented_type s) [] s v' (or_introl (conj eq_refl eq_refl)) _ RV _ _ LO M); [assumption|assumption|constructor].
  - refine (sequence_recovers (PList l) false [] l v' _ RV _ _ _ LO M); [exists PList; auto|constructor| |]; rewrite Forall_forall in *; auto.
  - refine (sequence_recovers (PTuple l) tas [] l v' _ RV _ _ _ LO M); [exists PTuple; split; [reflexivity|right; left; auto]|constructor| |]; rewrite Forall_forall in *; auto.
  - rewrite Forall_forall in *. assert (ST : forall p, In p l -> (storable_by names scalars keys) (snd p)) by (intros p I; match goal with H : forall x, In x l -> _ /\ (storable_by names scalars keys) _ |- _ => exact (proj2 (H p I)) end).
    refine (struct_recovers (PDict l) l v' eq_refl RV _ _ _ LO M); [constructor|auto|]. intros p I. apply IH; auto.
  - inversion LO as [t0 a0|t0 a0 s0 CF CC|e0 a0 l0 F0|a0 m0 N0 F0]; subst; cbn [meaning_by] in M; unfold ion_scalar_by in M; try (destruct t0; discriminate M); try discriminate M. injection M as -> AN.
    destruct (same_names a0 an ltac:(assumption) AN) as (RA' & S1 & S2). assert (RA : Forall real_arg an) by (inversion RV; assumption). split; [constructor; exact RA'|]. rewrite !(equals_unfold inst teq). unfold equals_step. cbn [nature].
    rewrite type_refl, (same_symbols _ _ RA' RA S1), (same_symbols _ _ RA RA' S2). split; reflexivity.
  - exact (scalar_recovers (PIon t an s) t an s v' (or_intror eq_refl) ltac:(assumption) RV ltac:(assumption) ltac:(assumption) LO M).
  - refine (sequence_recovers (PSeq sexp an l) sexp an l v' _ RV _ _ _ LO M); [exists (PSeq sexp an); split; [reflexivity|right; right; reflexivity]|assumption| |]; rewrite Forall_forall in *; auto.
  - cbn [meaning_by] in M. rewrite meaning_items in M. match goal with H : Forall (fun p => snd p <> [] /\ _) m |- _ => rename H into ST end. match goal with H : Forall (fun p => Forall definite _) m |- _ => rename H into DF end.
    assert (OK : forall p, In p (mm_items m) -> (storable_by names scalars keys) (snd p) /\ definite (snd p) /\ (forall x', (loaded_by keep) x' -> meaning_by keep tas x' = meaning_by keep tas (snd p) -> recovers (snd p) x')).
    { intros p I. apply in_flat_map in I. destruct I as ([k vs] & I & J). cbn [fst snd] in J. apply in_map_iff in J. destruct J as (x & <- & J). cbn [snd]. rewrite Forall_forall in *.
      destruct (ST _ I) as [_ SX]. pose proof (DF _ I) as DX. pose proof (IH _ I) as IX. cbn [fst snd] in *. rewrite Forall_forall in *. destruct (SX x J) as [_ SX1]. split; [exact SX1|]. split; [exact (DX x J)|]. exact (IX x J SX1 (DX x J)). }
    refine (struct_recovers (PStruct an m) (mm_items m) v' eq_refl RV _ _ _ LO M); [assumption|intros p I; destruct (OK p I) as (A & B & _); auto|intros p I; exact (proj2 (proj2 (OK p I)))].
Qed.
End RELOAD.

(** Binary Ion. *)
Lemma content_equal inst s : definite_scalar s ->
  match content s, s with
  | VTimestamp x, VTimestamp y => stamp_eq inst x y = true
  | VTimestamp _, _ => False
  | VFloat x, VFloat y => real_scalar s -> floats_eq x y = true
  | _, _ => content s = s
  end.
Proof.
  intros D. destruct s as [b|z|b|d|[x|d]|tk|tx|by_]; try reflexivity.
  - intros R. cbn [real_scalar] in R. apply floats_true; auto.
  - cbn [content]. destruct x as [dt p fp fr]. cbn [definite_scalar ts_prec ts_dt ts_fprec ts_frac] in *. destruct p; [|congruence]. apply stamp_refl.
  - cbn [content]. unfold stamp_eq. destruct inst; [apply Z.eqb_refl|]. unfold timestamps_eq. cbn [ts_datetime ts_dt]. rewrite (proj2 (opt_eqb_spec _ Z.eqb_eq _ _) eq_refl). cbn [negb]. cbn. unfold datetime_fields_eq. rewrite !Z.eqb_refl. reflexivity.
Qed.
Lemma content_real s : real_scalar s -> real_scalar (content s).
Proof. destruct s as [b|z|b|d|[x|d]|tk|tx|by_]; intros R; exact R || exact Logic.I. Qed.
Lemma ok_symbol s : scalar_ok TSymbol s -> exists a, symbol_arg s = Some a.
Proof. intros (_ & a & A & _). eauto. Qed.
Definition binary_reload_equal inst teq tas := reload_equal inst teq tas good_arg scalar_ok key_ok content good_real ok_real ok_symbol content_real (content_equal inst).
