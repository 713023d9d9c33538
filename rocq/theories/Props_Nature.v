(** Property theorems C72: values with Ion nature made from plain values, copies and events.

    [from_value], [copy] ([_copy]), [from_event] and [to_event] are the model (NatureModel); None means a
    combination the model leaves out. *)
From Coq Require Import String.
From Verif Require Import Base BaseFacts CoreModel CalendarFacts TimestampFacts BinWriterModel SymbolsModel SymbolsProofs ManagedModel MultimapModel SimpleionModel SimpleionSpec EquivModel EquivSpec EquivProofs EquivMeaning NatureModel.
Local Open Scope Z_scope.

(** * Specification *)

(** A timestamp that was constructed: its constructor, given the stored fields, makes it again. *)
Definition constructed (s : scalar) : Prop :=
  match s with
  | VTimestamp (TsStamp t) =>
    timestamp_new (dt_year (ts_dt t)) (dt_month (ts_dt t)) (dt_day (ts_dt t)) (dt_hour (ts_dt t)) (dt_minute (ts_dt t)) (dt_second (ts_dt t))
                  None (dt_off (ts_dt t)) (ts_prec t) None (Some (ts_frac t)) = Ok t
  | VTimestamp (TsPlain d) => dt_ok d
  | _ => True
  end.
(** Which class is meant for which values. *)
Definition meant_for (c : pyclass) (s : scalar) : Prop :=
  match c, s with
  | IonPyInt, (VBool _ | VInt _) | IonPyFloat, VFloat _ | IonPyDecimal, VDecimal _ | IonPyText, VString _ | IonPyBytes, VBytes _
  | IonPySymbol, (VSymbol _ | VString _) | IonPyTimestamp, VTimestamp _ => True
  | _, _ => False
  end.
(** Which class is used for which type. *)
Definition used_for (c : pyclass) (t : iontype) : Prop :=
  match c, t with
  | IonPyInt, (TBool | TInt) | IonPyFloat, TFloat | IonPyDecimal, TDecimal | IonPyText, (TString | TSymbol) | IonPyBytes, (TClob | TBlob)
  | IonPySymbol, TSymbol | IonPyTimestamp, TTimestamp => True
  | _, _ => False
  end.
Definition newest {A} (l : list A) : list A := match rev l with x :: _ => [x] | [] => [] end.

(** * Proofs *)
Lemma name_eqb_spec a b : name_eqb a b = true <-> a = b.
Proof. apply opt_eqb_spec. exact zlist_eqb_eq. Qed.
Lemma set_tail (m : multimap (option text) pyval) k v : dict_get name_eqb m k = None -> dict_set name_eqb m k v = m ++ [(k, v)].
Proof. induction m as [|[k' v'] m IH]; cbn [dict_get dict_set app]; [reflexivity|]. destruct (name_eqb k k'); [discriminate|]. intros H. rewrite (IH H). reflexivity. Qed.
Lemma set_last (m : multimap (option text) pyval) k v w : dict_get name_eqb m k = None -> dict_set name_eqb (m ++ [(k, v)]) k w = m ++ [(k, w)].
Proof.
  induction m as [|[k' v'] m IH]; cbn [dict_get dict_set app].
  - intros _. rewrite (proj2 (name_eqb_spec k k) eq_refl). reflexivity.
  - destruct (name_eqb k k'); [discriminate|]. intros H. rewrite (IH H). reflexivity.
Qed.
Lemma same_key (vs : list pyval) : forall (m : multimap (option text) pyval) k x, dict_get name_eqb m k = None ->
  fold_left (fun m p => mm_setitem name_eqb m (fst p) (snd p)) (map (pair k) vs) (m ++ [(k, [x])]) = m ++ [(k, newest (x :: vs))].
Proof.
  induction vs as [|v vs IH]; intros m k x N; cbn [map fold_left fst snd]; [reflexivity|]. unfold mm_setitem at 2, mv_new. rewrite (set_last _ _ _ _ N), (IH m k v N). unfold newest. cbn [rev].
  destruct (rev vs) as [|y r]; reflexivity.
Qed.
Lemma copied_items (m : multimap (option text) pyval) : forall acc, NoDup (map fst acc ++ map fst m) -> Forall (fun p => snd p <> []) m ->
  fold_left (fun m p => mm_setitem name_eqb m (fst p) (snd p)) (mm_items m) acc = acc ++ map (fun p => (fst p, newest (snd p))) m.
Proof.
  induction m as [|[k vs] m IH]; intros acc N F; cbn [mm_items flat_map map fst snd]; [rewrite app_nil_r; reflexivity|]. rewrite fold_left_app. apply Forall_cons_iff in F. destruct F as (F1 & F). cbn [snd map fst] in F1, N.
  assert (NG : dict_get name_eqb acc k = None).
  { apply NoDup_remove_2 in N. destruct (dict_get name_eqb acc k) as [v|] eqn:G; [|reflexivity]. exfalso. apply N. apply in_or_app. left. apply (dict_get_in _ name_eqb_spec) in G. exact (in_map fst _ _ G). }
  destruct vs as [|x vs]; [contradiction|]. cbn [map fold_left fst snd]. change (mm_setitem name_eqb acc k x) with (dict_set name_eqb acc k [x]). rewrite (set_tail _ _ _ NG), (same_key _ _ _ _ NG). change (flat_map (fun p => map (pair (fst p)) (snd p)) m) with (mm_items m). rewrite IH; [|rewrite map_app, <- app_assoc; exact N|exact F].
  rewrite <- app_assoc. reflexivity.
Qed.
Lemma copied_map (m : multimap (option text) pyval) : NoDup (map fst m) -> Forall (fun p => snd p <> []) m -> mm_of_items name_eqb (mm_items m) = map (fun p => (fst p, newest (snd p))) m.
Proof. intros N F. exact (copied_items m [] N F). Qed.
Lemma stamp_scalar s : constructed s -> match s with VTimestamp (TsPlain _) => False | VTimestamp _ => True | _ => False end -> py_scalar TTimestamp s = Ok s.
Proof. destruct s as [| | | |[t|d]| | | ]; try contradiction. intros C _. cbn [constructed py_scalar] in *. cbv zeta. rewrite C. reflexivity. Qed.
(** A plain datetime becomes a Timestamp of SECOND precision with six digits. *)
Lemma plain_scalar d : dt_ok d -> py_scalar TTimestamp (VTimestamp (TsPlain d)) = Ok (VTimestamp (TsStamp (mkts d (Some PSecond) 6 (mkdec false (dt_micro d) (-6))))).
Proof.
  intros D. cbn [py_scalar]. unfold timestamp_new. cbn [bind]. change (6 =? 0) with false. cbv iota. change (10 ^ (6 - 6)) with 1. rewrite Z.mod_1_r, Z.div_1_r. cbn [Z.eqb bind].
  destruct d as [y mo dd h mi s us off]. cbn [dt_year dt_month dt_day dt_hour dt_minute dt_second dt_micro dt_off] in *. rewrite (datetime_new_ok _ _ _ _ _ _ _ _ D). cbn [bind].
  destruct D as (_ & _ & _ & _ & _ & U). cbn in U. replace (us <? 0) with false by lia. rewrite Z.abs_eq by lia. reflexivity.
Qed.

(** * Theorems *)

(** C72.  [cls.from_value(t, v, annotations)] of a plain value the class is meant for: the result has the
    type and the annotations given, and (without annotations) equals the plain value. *)
Theorem C72_from_value : forall inst teq c t s an, meant_for c s -> used_for c t -> real_scalar s -> constructed s ->
  exists s', from_value c t (PPlain s) an = Some (Ok (PIon t an s')) /\ class_fits t s' /\ ion_equals inst teq (PIon t [] s') (PPlain s) = Ok true.
Proof.
  intros inst teq c t s an M U R C.
  destruct c, s as [b|z|x|d|ts|tk|tx|bs]; cbn [meant_for] in M; try contradiction; destruct t; cbn [used_for] in U; try contradiction;
    try (eexists; split; [reflexivity|]; split; [exact Logic.I|]; rewrite equals_unfold; unfold equals_step; cbn [nature nature_eq among python_eq scalar_of float_view decimal_view symbol_view datetime_view]; unfold pure;
         rewrite ?zlist_eqb_refl, ?(proj2 (floats_true _ _ R R) (or_introl eq_refl)), ?(proj2 (decimals_true _ _ R R) eq_refl); cbn [int_eq_num]; rewrite ?Z.eqb_refl; reflexivity).
  - eexists. split; [reflexivity|]. split; [exact Logic.I|]. rewrite equals_unfold. unfold equals_step. cbn [nature nature_eq among symbol_view scalar_of]. apply (symbols_refl (AText tx)). exact Logic.I.
  - eexists. split; [reflexivity|]. split; [exact Logic.I|]. rewrite equals_unfold. unfold equals_step. cbn [nature nature_eq among symbol_view scalar_of]. destruct tk as [tt sd lo]. cbn [tk_text tk_sid tk_loc]. apply (symbols_refl (ATok _)). exact R.
  - eexists. split; [reflexivity|]. split; [exact Logic.I|]. rewrite equals_unfold. unfold equals_step. cbn [nature nature_eq among symbol_view scalar_of]. unfold symbols_eq. cbn [tk_text opt_eqb]. rewrite zlist_eqb_refl. reflexivity.
  - destruct ts as [x|d].
    + exists (VTimestamp (TsStamp x)). cbn [from_value construct scalar_of natured_res]. rewrite (stamp_scalar _ C Logic.I). split; [reflexivity|]. split; [exact Logic.I|]. rewrite equals_unfold. unfold equals_step. cbn [nature nature_eq among datetime_view scalar_of].
      unfold pure, stamp_eq. destruct inst; f_equal; [apply Z.eqb_refl|]. unfold timestamps_eq. rewrite !(proj2 (opt_eqb_spec _ Z.eqb_eq _ _) eq_refl). cbn [negb]. rewrite (proj2 (opt_eqb_spec _ prec_eqb_spec _ _) eq_refl), Z.eqb_refl, dec_num_refl. cbn [andb].
      unfold datetime_fields_eq. rewrite !Z.eqb_refl. reflexivity.
    + cbn [constructed] in C. eexists. cbn [from_value construct scalar_of natured_res]. rewrite (plain_scalar d C). split; [reflexivity|]. split; [exact Logic.I|]. rewrite equals_unfold. unfold equals_step. cbn [nature nature_eq among datetime_view scalar_of].
      unfold pure, stamp_eq. destruct inst; f_equal; [apply Z.eqb_refl|]. unfold timestamps_eq. cbn [ts_datetime ts_dt]. rewrite !(proj2 (opt_eqb_spec _ Z.eqb_eq _ _) eq_refl). cbn [negb full_micro]. unfold full_micro. cbn [ts_prec ts_fprec opt_eqb]. change (prec_eqb PSecond PSecond && (6 =? 6)) with true. cbv iota.
      unfold datetime_fields_eq. rewrite !Z.eqb_refl. reflexivity.
Qed.
Print Assumptions C72_from_value.
(** None becomes a null of the type; lists, tuples and dicts keep their contents. *)
Theorem C72_from_containers : forall t an l d,
  (forall c, from_value c t PNone an = Some (Ok (PNull t an))) /\
  from_value IonPyList TSexp (PTuple l) an = Some (Ok (PSeq true an l)) /\
  from_value IonPyList TList (PList l) an = Some (Ok (PSeq false an l)) /\
  (NoDup (map fst d) -> from_value IonPyDict TStruct (PDict d) an = Some (Ok (PStruct an (map (fun p => (fst p, [snd p])) d)))).
Proof.
  intros t an l d. split; [reflexivity|]. split; [reflexivity|]. split; [reflexivity|]. intros N. cbn [from_value construct natured_res bind natured]. do 3 f_equal.
  pose proof (copied_map (map (fun p => (fst p, [snd p])) d)) as Q. rewrite map_map in Q. specialize (Q N). rewrite map_map in Q.
  assert (I : mm_items (map (fun p : option text * pyval => (fst p, [snd p])) d) = d) by (clear; induction d as [|[k v] d IH]; [reflexivity|]; cbn [map fst snd mm_items flat_map app] in *; f_equal; exact IH).
  rewrite I in Q. rewrite Q; [reflexivity|]. apply Forall_map. apply Forall_forall. intros p _. discriminate.
Qed.
Print Assumptions C72_from_containers.

(** A copy is the same value with the same type and annotations: any scalar, null, list or S-expression,
    and any struct that repeats no name. *)
Theorem C72_copy : forall v t an, nature v = Some (t, an) ->
  match v with
  | PIon _ _ s => constructed s /\ (forall b, s <> VBool b) /\ (forall d, s <> VTimestamp (TsPlain d))
  | PStruct _ m => NoDup (map fst m) /\ Forall (fun p => exists x, snd p = [x]) m
  | _ => True
  end -> copy v = Some (Ok v).
Proof.
  intros v t an NA W. unfold copy. rewrite NA. destruct v as [ |s|l|l|l|t' an'|t' an' s|e an' l|an' m]; try discriminate; cbn [nature] in NA; injection NA as <- <-; cbn [class_of].
  - reflexivity.
  - destruct W as (C & NB & NP). destruct s as [b|z|x|d|[x|d]|tk|tx|bs]; try reflexivity; [destruct (NB b eq_refl)| |destruct (NP d eq_refl)|destruct tk; reflexivity].
    cbn [construct scalar_of natured_res]. rewrite (stamp_scalar _ C Logic.I). reflexivity.
  - destruct e; reflexivity.
  - destruct W as (N & F). cbn [construct natured_res bind natured]. rewrite copied_map; [|exact N|]; [|rewrite Forall_forall in *; intros p I; destruct (F p I) as (x & ->); discriminate].
    do 3 f_equal. clear N. induction F as [|[k vs] m (x & E) F IH]; [reflexivity|]. cbn [snd fst map] in *. subst vs. cbn [newest rev app]. rewrite IH. reflexivity.
Qed.
Print Assumptions C72_copy.
(** A struct that repeats names: its copy has the newest value of each name only. *)
Theorem C72_copy_repeated_partial : forall an m, NoDup (map fst m) -> Forall (fun p => snd p <> []) m ->
  copy (PStruct an m) = Some (Ok (PStruct an (map (fun p => (fst p, newest (snd p))) m))).
Proof. intros an m N F. unfold copy. cbn [class_of nature construct natured_res bind natured]. rewrite (copied_map m N F). reflexivity. Qed.
Print Assumptions C72_copy_repeated_partial.
Theorem C72_copy_repeated_refuted : forall inst teq,
  let one := PIon TInt [] (VInt 1) in let two := PIon TInt [] (VInt 2) in
  let v := PStruct [] [(Some (txt "a"), [one; two])] in
  exists w, copy v = Some (Ok w) /\ ion_equals inst teq w v = Ok false.
Proof. intros inst teq. eexists. split; [reflexivity|]. vm_compute. reflexivity. Qed.

(** [cls.from_event(v.to_event(...))] gives the scalar or null back, and for a list or struct an empty
    one of the same type and annotations. *)
Theorem C72_events : forall v c t an et field in_struct depth e, nature v = Some (t, an) -> class_of v = Some c ->
  to_event v et field in_struct depth = Some e ->
  (match v with PIon _ _ s => constructed s /\ (forall b, s <> VBool b) /\ (forall d, s <> VTimestamp (TsPlain d)) | _ => True end) ->
  ue_type e = et /\ ue_ion_type e = Some t /\ ue_annot e = an /\ ue_depth e = depth /\
  (ue_field e = if in_struct then Some (ATok (match field with Some x => mktok (Some x) None None | None => mktok None (Some 0) None end)) else None) /\
  from_event c e = Some (Ok (match v with PSeq s a _ => PSeq s a [] | PStruct a _ => PStruct a [] | _ => v end)).
Proof.
  intros v c t an et field in_struct depth e NA CL TE W. unfold to_event in TE. rewrite NA in TE. injection TE as <-. cbn [ue_type ue_ion_type ue_annot ue_depth ue_field].
  split; [reflexivity|]. split; [reflexivity|]. split; [reflexivity|]. split; [reflexivity|]. split; [unfold nature_field; destruct in_struct, field; reflexivity|].
  destruct v as [ |s|l|l|l|t' an'|t' an' s|e an' l|an' m]; try discriminate; cbn [nature class_of] in NA, CL; injection NA as <- <-; injection CL as <-; unfold from_event; cbn [ue_ion_type ue_value ue_annot ev_force].
  - reflexivity.
  - destruct W as (C & NB & NP). destruct s as [b|z|x|d|[x|d]|tk|tx|bs]; try reflexivity; [destruct (NB b eq_refl)| |destruct (NP d eq_refl)|destruct tk; reflexivity].
    cbn [construct scalar_of natured_res]. rewrite (stamp_scalar _ C Logic.I). reflexivity.
  - destruct e; reflexivity.
  - reflexivity.
Qed.
Print Assumptions C72_events.

Theorem C72_cases :
  let stamp := mkts (mkdt 2020 2 29 1 2 3 120000 (Some 3600)) (Some PSecond) 2 (mkdec false 12 (-2)) in
  constructed (VTimestamp (TsStamp stamp)) /\ constructed (VTimestamp (TsPlain (mkdt 2020 2 29 1 2 3 5 None))) /\
  from_value IonPyTimestamp TTimestamp (PPlain (VTimestamp (TsPlain (mkdt 2020 2 29 1 2 3 5 None)))) [AText (txt "a")] =
    Some (Ok (PIon TTimestamp [AText (txt "a")] (VTimestamp (TsStamp (mkts (mkdt 2020 2 29 1 2 3 5 None) (Some PSecond) 6 (mkdec false 5 (-6))))))) /\
  copy (PIon TTimestamp [AText (txt "a")] (VTimestamp (TsStamp stamp))) = Some (Ok (PIon TTimestamp [AText (txt "a")] (VTimestamp (TsStamp stamp)))) /\
  from_value IonPySymbol TSymbol (PPlain (VString (txt "s"))) [] = Some (Ok (PIon TSymbol [] (VSymbol (text_token (txt "s"))))).
Proof. repeat split; vm_compute; congruence || reflexivity. Qed.
