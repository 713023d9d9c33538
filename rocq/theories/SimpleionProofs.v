(** [loads(dumps(v))]. *)
From Verif Require Import Base BaseFacts FieldsModel BufferModel CoreModel BinWriterModel BinReaderModel BinReaderSpec
  ScalarFacts TimestampFacts ScalarProofs SymbolsModel SymbolsProofs BinReaderSession BinFormat BinFormatFacts WriterFacts WriterProofs MultimapModel MultimapProofs ManagedModel Cursor ManagedSpec
  ManagedWriterFacts ManagedWriterRun ManagedRoundTrip ManagedAccept SimpleionModel SimpleionSpec.
Local Open Scope Z_scope.

Lemma pyval_induction (P : pyval -> Prop) :
  P PNone -> (forall s, P (PPlain s)) -> (forall l, Forall P l -> P (PList l)) -> (forall l, Forall P l -> P (PTuple l)) ->
  (forall l, Forall (fun p => P (snd p)) l -> P (PDict l)) -> (forall t an, P (PNull t an)) -> (forall t an s, P (PIon t an s)) ->
  (forall sexp an l, Forall P l -> P (PSeq sexp an l)) -> (forall an m, Forall (fun p => Forall P (snd p)) m -> P (PStruct an m)) ->
  forall v, P v.
Proof.
  intros H1 H2 H3 H4 H5 H6 H7 H8 H9. fix IH 1. intros [ |s|l|l|l|t an|t an s|sexp an l|an m].
  - exact H1.
  - apply H2.
  - apply H3. induction l; constructor; auto.
  - apply H4. induction l; constructor; auto.
  - apply H5. induction l; constructor; auto.
  - apply H6.
  - apply H7.
  - apply H8. induction l; constructor; auto.
  - apply H9. induction m as [|[k vs] m IHm]; constructor; [|exact IHm]. cbn [snd]. induction vs; constructor; auto.
Qed.

(** The items of a struct, one list for both kinds. *)
Lemma struct_items tas depth (m : multimap (option text) pyval) :
  flat_map (fun p => flat_map (fun x => dump_value tas x (fst p) true depth) (snd p)) m =
  flat_map (fun p => dump_value tas (snd p) (fst p) true depth) (mm_items m).
Proof.
  induction m as [|[k vs] m IH]; [reflexivity|]. cbn [flat_map mm_items fst snd]. unfold mm_items in *. cbn [flat_map fst snd]. rewrite flat_map_app, IH. f_equal.
  induction vs as [|x vs IHv]; [reflexivity|]. cbn [flat_map map fst snd]. rewrite IHv. reflexivity.
Qed.
Lemma meaning_items keep tas (m : multimap (option text) pyval) :
  flat_map (fun p => map (fun x => (fst p, meaning_by keep tas x)) (snd p)) m = map (fun p => (fst p, meaning_by keep tas (snd p))) (mm_items m).
Proof.
  induction m as [|[k vs] m IH]; [reflexivity|]. unfold mm_items in *. cbn [flat_map fst snd]. rewrite map_app, IH. f_equal. rewrite map_map. reflexivity.
Qed.
Lemma name_eqb_ok a b : name_eqb a b = true <-> a = b.
Proof. unfold name_eqb. destruct a as [x|], b as [y|]; cbn; try (split; congruence). rewrite zlist_eqb_eq. split; congruence. Qed.

(** Loading items grouped by key into a new Multimap keeps them as they are. *)
Section GROUPS.
Context {V : Type}.
Notation add := (fun (m : multimap (option text) V) (p : option text * V) => mm_add_item name_eqb m (fst p) (snd p)).
Lemma dict_get_notin (d : multimap (option text) V) k : ~ In k (map fst d) -> dict_get name_eqb d k = None.
Proof.
  induction d as [|[k' v] d IH]; intros N; [reflexivity|]. cbn [dict_get map fst In] in *. destruct (name_eqb k k') eqn:E; [apply name_eqb_ok in E; exfalso; apply N; left; congruence|].
  apply IH. tauto.
Qed.
Lemma dict_set_new (d : multimap (option text) V) k x : ~ In k (map fst d) -> dict_set name_eqb d k x = d ++ [(k, x)].
Proof.
  induction d as [|[k' v] d IH]; intros N; [reflexivity|]. cbn [dict_set map fst In app] in *. destruct (name_eqb k k') eqn:E; [apply name_eqb_ok in E; exfalso; apply N; left; congruence|].
  rewrite IH by tauto. reflexivity.
Qed.
Lemma dict_at_end (d : multimap (option text) V) k x : ~ In k (map fst d) -> dict_get name_eqb (d ++ [(k, x)]) k = Some x /\
  forall y, dict_set name_eqb (d ++ [(k, x)]) k y = d ++ [(k, y)].
Proof.
  assert (RF : name_eqb k k = true) by (apply name_eqb_ok; reflexivity).
  induction d as [|[k' v] d IH]; intros N; cbn [app dict_get dict_set map fst In] in *; [rewrite RF; auto|].
  destruct (name_eqb k k') eqn:E; [apply name_eqb_ok in E; exfalso; apply N; left; congruence|]. destruct IH as [A B]; [tauto|]. split; [exact A|]. intros y. rewrite B. reflexivity.
Qed.
Lemma add_more k vs : forall d x, ~ In k (map fst d) -> fold_left add (map (pair k) vs) (d ++ [(k, x)]) = d ++ [(k, x ++ vs)].
Proof.
  induction vs as [|v vs IH]; intros d x N; cbn [map fold_left fst snd]; [rewrite app_nil_r; reflexivity|].
  destruct (dict_at_end d k x N) as [A B]. unfold mm_add_item at 2. rewrite A, B, append_is_app. rewrite IH by exact N. rewrite <- app_assoc. reflexivity.
Qed.
Lemma add_group k v vs d : ~ In k (map fst d) -> fold_left add (map (pair k) (v :: vs)) d = d ++ [(k, v :: vs)].
Proof.
  intros N. cbn [map fold_left fst snd]. unfold mm_add_item at 2. rewrite dict_get_notin by exact N. unfold mm_setitem, mv_new. rewrite dict_set_new by exact N.
  rewrite add_more by exact N. reflexivity.
Qed.
Lemma split_keys {W} k (ws : list W) rest : forall items : list (option text * V), map fst items = map fst (map (pair k) ws) ++ rest ->
  exists vs more, items = map (pair k) vs ++ more /\ length vs = length ws /\ map fst more = rest.
Proof.
  induction ws as [|w ws IH]; intros items H; cbn [map app] in H; [exists [], items; auto|].
  destruct items as [|[k' v] items]; [discriminate|]. cbn [map fst] in H. injection H as -> H. destruct (IH items H) as (vs & more & -> & L & M).
  exists (v :: vs), more. cbn [map app length]. rewrite L. auto.
Qed.
Lemma regroup {W} (m : multimap (option text) W) : NoDup (map fst m) -> Forall (fun p => snd p <> []) m -> forall items d,
  map fst items = map fst (mm_items m) -> (forall k, In k (map fst d) -> ~ In k (map fst m)) ->
  exists m', fold_left add items d = d ++ m' /\ mm_items m' = items /\ map fst m' = map fst m /\ Forall (fun p => snd p <> []) m'.
Proof.
  induction m as [|[k ws] m IH]; intros ND NE items d E DJ; unfold mm_items in *; cbn [flat_map map fst snd] in *.
  - destruct items; [|discriminate]. exists []. rewrite app_nil_r. repeat split. constructor.
  - inversion ND as [|? ? NI ND']; subst. inversion NE as [|? ? NE1 NE2]; subst. rewrite map_app in E. destruct (split_keys k ws _ items E) as (vs & more & -> & L & M).
    destruct vs as [|v vs]; [destruct ws; [cbn in NE1; congruence|discriminate]|].
    assert (NK : ~ In k (map fst d)) by (intros I; apply (DJ k I); left; reflexivity).
    rewrite fold_left_app, add_group by exact NK. destruct (IH ND' NE2 more (d ++ [(k, v :: vs)]) M) as (m' & -> & IM & KM & NM).
    + intros k' I. rewrite map_app in I. apply in_app_or in I. destruct I as [I|[<-|[]]]; [|exact NI]. intros I2. apply (DJ k' I). right. exact I2.
    + exists ((k, v :: vs) :: m'). rewrite <- app_assoc. split; [reflexivity|]. cbn [flat_map map fst snd]. rewrite IM, KM. split; [reflexivity|]. split; [reflexivity|]. constructor; [discriminate|exact NM].
Qed.
End GROUPS.

(** * Loading *)
Fixpoint serves {F : Type} (next : F -> res (mevent * F)) (s : F) (us : list mevent) : Prop :=
  match us with
  | [] => exists u s', next s = Ok (u, s') /\ ev_type (me_ev u) = EStreamEnd
  | u :: r => exists s', next s = Ok (u, s') /\ serves next s' r
  end.

Lemma tok_texts an : map arg_text (map ATok an) = map tk_text an. Proof. rewrite map_map. reflexivity. Qed.
Lemma until_scalar until : is_until EScalar until = false. Proof. destruct until; reflexivity. Qed.
Lemma until_start until : is_until EContainerStart until = false. Proof. destruct until; reflexivity. Qed.

Lemma py_scalar_read t s : t <> TSymbol -> scalar_portable t s -> py_scalar t (as_read s) = Ok (content s) /\ content (content s) = content s.
Proof.
  intros NT P. destruct t, s as [b|z|b|d|[x|d]|tk|tx|by_]; cbn [scalar_portable] in P; try contradiction; try congruence; try (split; reflexivity).
  - destruct P as (C & _). split; [|reflexivity]. cbn [as_read content py_scalar]. unfold with_prec, eff_prec. cbn [ts_dt ts_prec ts_frac ts_fprec].
    unfold ts_canonical, ts_rebuild in C. rewrite timestamp_new_frac in *. destruct (frac_valid (ts_frac x)); [|discriminate].
    destruct (dec_mul_int (frac_norm (ts_frac x)) 1000000); cbn [bind] in *; [|discriminate].
    match type of C with context [bind ?y _] => destruct y end; cbn [bind] in *; [|discriminate]. injection C as C. pose proof (f_equal ts_dt C) as E1. pose proof (f_equal ts_fprec C) as E2. pose proof (f_equal ts_frac C) as E3.
    cbn [ts_dt ts_fprec ts_frac] in E1, E2, E3. rewrite <- E2. congruence.
  - destruct P as (C & _). split; [|reflexivity]. cbn [as_read content py_scalar plain_stamp ts_dt ts_prec ts_frac ts_fprec].
    unfold ts_canonical, ts_rebuild in C. cbn [plain_stamp ts_dt ts_prec ts_frac] in C. unfold micro_fraction in *. rewrite C. reflexivity.
Qed.

(** Any format: what it can hold, what it keeps of a scalar, and when an event read shows the value
    of an event written. *)
Section LOADING.
Variable names : symarg -> Prop.
Variable scalars : iontype -> scalar -> Prop.
Variable keys : option text -> pyval -> Prop.
Variable shows : uevent -> mevent -> Prop.
Variable keep : scalar -> scalar.
Hypothesis shows_null : forall e u, ev_force (ue_value e) = Ok None -> shows e u -> me_value u = Ok None.
Hypothesis shows_symbol : forall e u s, ue_ion_type e = Some TSymbol -> ue_value e = EvVal s -> scalars TSymbol s -> shows e u ->
  exists a r, symbol_arg s = Some a /\ me_value u = Ok (Some (VSymbol r)) /\ tk_text r = arg_text a.
Hypothesis shows_scalar : forall e u t s, ue_ion_type e = Some t -> t <> TSymbol -> ue_value e = EvVal s -> scalars t s -> shows e u ->
  exists w, me_value u = Ok (Some w) /\ py_scalar t w = Ok (keep s) /\ keep (keep s) = keep s /\ class_fits t (keep s).
Hypothesis keep_symbol : forall k, keep (VSymbol k) = VSymbol k.

Definition one (ins : bool) (field : option text) (open : list iontype) (rest : list uevent) (us : list mevent) (P : pyval -> Prop) : Prop :=
  exists u us2 v' N, mirrors_by shows open rest us2 /\ P v' /\ (ins = true -> exists r, me_field u = Ok (Some r) /\ tk_text r = field) /\
  forall (F : Type) next (s : F), serves next s us -> exists s', serves next s' us2 /\
    forall f until out, (N <= f)%nat -> load_into (S f) next s until out = (let* out := target_add out u v' in load_into f next s' until out).

Definition reads (tas : bool) (v : pyval) : Prop := forall field ins depth open rest us, storable_by names scalars keys v -> (ins = true -> within open = Some TStruct) ->
  mirrors_by shows open (dump_value tas v field ins depth ++ rest) us -> one ins field open rest us (fun v' => meaning_by keep tas v' = meaning_by keep tas v /\ (loaded_by keep) v').

Lemma field_shown (b : bool) field a : (a = plain_field field /\ field <> None \/ a = nature_field true field) -> exists x, a = Some x /\ arg_text x = field.
Proof.
  intros [[-> N]| ->]; [destruct field as [x|]; [exists (AText x); auto|congruence]|]. eexists. split; [reflexivity|]. reflexivity.
Qed.

Lemma names_field ins open e u field : shows_names (within open) e u -> (ins = true -> within open = Some TStruct) ->
  (ue_field e = plain_field field \/ ue_field e = nature_field ins field) -> ins = true -> exists r, me_field u = Ok (Some r) /\ tk_text r = field.
Proof.
  intros (F & _) W FE ->. rewrite (W eq_refl) in F. destruct F as (a & r & E & M & T). exists r. split; [exact M|]. rewrite T. rewrite E in FE.
  destruct FE as [FE|FE]; [destruct field; [|discriminate]; injection FE as ->; reflexivity|]. injection FE as ->. reflexivity.
Qed.

(** Scalars. *)
Lemma one_scalar ins field open e rest us P : mirrors_by shows open (e :: rest) us -> ue_type e = EScalar -> (ins = true -> within open = Some TStruct) ->
  (ue_field e = plain_field field \/ ue_field e = nature_field ins field) ->
  (forall u, ev_ion_type (me_ev u) = ue_ion_type e -> shows_names (within open) e u -> shows e u -> exists v', load_scalar u = Ok v' /\ P v') -> one ins field open rest us P.
Proof.
  intros MI TY W FE LD. inversion MI as [| |o1 e1 es1 u us1 T1 SH SN SV M1| |]; subst.
  - match goal with H : _ \/ _ |- _ => destruct H; congruence end.
  - unfold shape_of in SH. injection SH as S1 S2 S3. destruct (LD u S2 SN SV) as (v' & LV & PV). exists u, us1, v', 0%nat.
    split; [exact M1|]. split; [exact PV|]. split; [exact (names_field _ _ _ _ _ SN W FE)|].
    intros F next s (s' & N & SV'). exists s'. split; [exact SV'|]. intros f until out _. cbn [load_into]. rewrite N. cbn [bind]. rewrite S1, until_scalar, LV. reflexivity.
  - congruence.
  - congruence.
Qed.
Lemma load_null e u t open : ev_ion_type (me_ev u) = ue_ion_type e -> ue_ion_type e = Some t -> shows_names (within open) e u ->
  ev_force (ue_value e) = Ok None -> shows e u ->
  exists an, load_scalar u = Ok (PNull t (map ATok an)) /\ map tk_text an = map arg_text (ue_annot e).
Proof.
  intros S T (_ & an & A & AE) FV V. unfold load_scalar. rewrite (shows_null _ _ FV V), S, T. cbn [bind]. rewrite A. cbn [bind]. eauto.
Qed.
Lemma load_value tas e u t s open : ev_ion_type (me_ev u) = ue_ion_type e -> ue_ion_type e = Some t -> shows_names (within open) e u ->
  ue_value e = EvVal s -> scalars t s -> shows e u ->
  exists v', load_scalar u = Ok v' /\ meaning_by keep tas v' = ion_scalar_by keep t (map arg_text (ue_annot e)) s /\ (loaded_by keep) v'.
Proof.
  intros S T (_ & an & A & AE) FV K V. unfold load_scalar. rewrite S, T.
  assert (AT : map arg_text (map ATok an) = map arg_text (ue_annot e)) by (rewrite tok_texts; exact AE).
  destruct (iontype_eqb t TSymbol) eqn:E.
  - assert (t = TSymbol) as -> by (destruct t; try discriminate; reflexivity).
    destruct (shows_symbol e u s T FV K V) as (a & r & SA & MV & TX). rewrite MV. cbn [bind iontype_eqb iontype_num Z.eqb is_container orb py_scalar]. rewrite A. cbn [bind].
    eexists. split; [reflexivity|]. split; [cbn [meaning_by ion_scalar_by symbol_arg arg_text]; rewrite SA, TX, AT; reflexivity|]. constructor; [exact Logic.I|apply keep_symbol].
  - assert (NT : t <> TSymbol) by (intros ->; discriminate). destruct (shows_scalar e u t s T NT FV K V) as (w & MV & PS & KK & CF). rewrite MV. cbn [bind].
    assert (NN : iontype_eqb t TNull || is_container t = false) by (destruct t; try reflexivity; destruct (keep s); contradiction). rewrite NN, PS. cbn [bind]. rewrite A. cbn [bind].
    eexists. split; [reflexivity|]. split; [cbn [meaning_by]; unfold ion_scalar_by; rewrite AT, KK; destruct t; try reflexivity; congruence|]. constructor; assumption.
Qed.

(** Containers: the sequence of elements, and the items of a struct. *)
Lemma many_list tas l : Forall (reads tas) l -> Forall (storable_by names scalars keys) l -> forall depth open rest us, mirrors_by shows open (flat_map (fun x => dump_value tas x None false depth) l ++ rest) us ->
  exists us2 l' N, mirrors_by shows open rest us2 /\ (map (meaning_by keep tas) l' = map (meaning_by keep tas) l /\ Forall (loaded_by keep) l') /\
  forall (F : Type) next (s : F), serves next s us -> exists s', serves next s' us2 /\ forall f until acc, (N <= f)%nat -> load_into (length l + f) next s until (OnList acc) = load_into f next s' until (OnList (acc ++ l')).
Proof.
  induction l as [|v l IH]; intros R ST depth open rest us M.
  - exists us, [], 0%nat. split; [exact M|]. split; [split; [reflexivity|constructor]|]. intros F next s S. exists s. split; [exact S|]. intros f until acc _. rewrite app_nil_r. reflexivity.
  - inversion R as [|? ? R1 R2]; subst. inversion ST as [|? ? S1 S2]; subst. cbn [flat_map] in M. rewrite <- app_assoc in M.
    destruct (R1 None false depth open _ us S1 ltac:(discriminate) M) as (u & us1 & v' & N1 & M1 & [E1 O1] & _ & L1).
    destruct (IH R2 S2 depth open rest us1 M1) as (us2 & l' & N2 & M2 & [E2 O2] & L2).
    exists us2, (v' :: l'), (N1 + N2)%nat. split; [exact M2|]. split; [split; [cbn [map]; congruence|constructor; assumption]|]. intros F next s SV. destruct (L1 F next s SV) as (s1 & SV1 & LL1).
    destruct (L2 F next s1 SV1) as (s2 & SV2 & LL2). exists s2. split; [exact SV2|]. intros f until acc LE. cbn [length plus]. rewrite LL1 by lia. cbn [target_add bind].
    rewrite LL2 by lia. rewrite <- app_assoc. reflexivity.
Qed.
Lemma many_items tas l : Forall (fun p => reads tas (snd p)) l -> Forall (fun p => storable_by names scalars keys (snd p)) l -> forall depth open rest us,
  within open = Some TStruct -> mirrors_by shows open (flat_map (fun p => dump_value tas (snd p) (fst p) true depth) l ++ rest) us ->
  exists us2 l' N, mirrors_by shows open rest us2 /\ (map (fun p => (fst p, meaning_by keep tas (snd p))) l' = map (fun p => (fst p, meaning_by keep tas (snd p))) l /\ Forall (fun p => (loaded_by keep) (snd p)) l') /\
  forall (F : Type) next (s : F), serves next s us -> exists s', serves next s' us2 /\ forall f until acc, (N <= f)%nat ->
    load_into (length l + f) next s until (OnMap acc) = load_into f next s' until (OnMap (fold_left (fun m p => mm_add_item name_eqb m (fst p) (snd p)) l' acc)).
Proof.
  induction l as [|[k v] l IH]; intros R ST depth open rest us W M.
  - exists us, [], 0%nat. split; [exact M|]. split; [split; [reflexivity|constructor]|]. intros F next s S. exists s. split; [exact S|]. intros f until acc _. reflexivity.
  - inversion R as [|? ? R1 R2]; subst. inversion ST as [|? ? S1 S2]; subst. cbn [flat_map fst snd] in *. rewrite <- app_assoc in M.
    destruct (R1 k true depth open _ us S1 (fun _ => W) M) as (u & us1 & v' & N1 & M1 & [E1 O1] & FN & L1). destruct (FN eq_refl) as (r & MF & TK).
    destruct (IH R2 S2 depth open rest us1 W M1) as (us2 & l' & N2 & M2 & [E2 O2] & L2).
    exists us2, ((k, v') :: l'), (N1 + N2)%nat. split; [exact M2|]. split; [split; [cbn [map fst snd]; congruence|constructor; assumption]|]. intros F next s SV. destruct (L1 F next s SV) as (s1 & SV1 & LL1).
    destruct (L2 F next s1 SV1) as (s2 & SV2 & LL2). exists s2. split; [exact SV2|]. intros f until acc LE. cbn [length plus]. rewrite LL1 by lia. cbn [target_add bind]. rewrite MF. cbn [bind].
    rewrite LL2 by lia. cbn [fold_left fst snd]. rewrite TK. reflexivity.
Qed.

Lemma one_container ins field open e t rest es us (P : pyval -> Prop) : ue_type e = EContainerStart -> ue_ion_type e = Some t ->
  (ins = true -> within open = Some TStruct) -> (ue_field e = plain_field field \/ ue_field e = nature_field ins field) ->
  mirrors_by shows open (e :: es ++ [container_end_event] ++ rest) us ->
  (forall us1, mirrors_by shows (t :: open) (es ++ [container_end_event] ++ rest) us1 -> exists us2 got n N, mirrors_by shows (t :: open) ([container_end_event] ++ rest) us2 /\
     (forall an, map tk_text an = map arg_text (ue_annot e) -> P (target_value t an got)) /\
     forall (F : Type) next (s : F), serves next s us1 -> exists s', serves next s' us2 /\ forall f until, (N <= f)%nat -> load_into (n + f) next s until (target_new t) = load_into f next s' until got) ->
  one ins field open rest us P.
Proof.
  intros TY IT W FE MI K. inversion MI as [| | |o1 e1 t1 es1 u us1 T1 I1 C1 SH SN M1|]; subst; try (match goal with H : _ \/ _ |- _ => destruct H; congruence end); try congruence.
  assert (t1 = t) as -> by congruence. destruct (K us1 M1) as (us2 & got & n & N & M2 & PV & L).
  inversion M2 as [| | | |t2 o2 e2 es2 u2 us3 T2 SH2 M3]; subst; try discriminate.
  unfold shape_of in SH, SH2. injection SH as S1 S2 S3. injection SH2 as Q1 Q2 Q3. pose proof SN as SN'. destruct SN' as (_ & an & A & AE).
  exists u, us3, (target_value t an got), (n + S N)%nat. split; [exact M3|]. split; [exact (PV an AE)|]. split; [exact (names_field _ _ _ _ _ SN W FE)|].
  intros F next s (s1 & N1 & SV1). destruct (L F next s1 SV1) as (s2 & (s3 & N3 & SV3) & LL). exists s3. split; [exact SV3|]. intros f until out LE. cbn [load_into]. rewrite N1. cbn [bind].
  rewrite S1, until_start, S2. cbn [bind]. rewrite A. cbn [bind]. replace f with (n + (f - n))%nat at 1 by lia. rewrite LL by lia.
  destruct (f - n)%nat as [|g] eqn:G; [lia|]. cbn [load_into]. rewrite N3. cbn [bind]. rewrite Q1. cbn [is_until]. reflexivity.
Qed.

Lemma one_sequence tas l : Forall (reads tas) l -> Forall (storable_by names scalars keys) l -> forall ins field open e t depth rest us (P : pyval -> Prop),
  mirrors_by shows open ((e :: flat_map (fun x => dump_value tas x None false depth) l ++ [container_end_event]) ++ rest) us ->
  t = TList \/ t = TSexp -> ue_type e = EContainerStart -> ue_ion_type e = Some t ->
  (ins = true -> within open = Some TStruct) -> (ue_field e = plain_field field \/ ue_field e = nature_field ins field) ->
  (forall an l', map tk_text an = map arg_text (ue_annot e) -> map (meaning_by keep tas) l' = map (meaning_by keep tas) l -> Forall (loaded_by keep) l' -> P (PSeq (match t with TSexp => true | _ => false end) (map ATok an) l')) ->
  one ins field open rest us P.
Proof.
  intros R S ins field open e t depth rest us P M TT TY IT W FE PV. cbn [app] in M. rewrite <- app_assoc in M.
  apply (one_container ins field open e t rest _ us P TY IT W FE M). intros us1 M1.
  destruct (many_list tas l R S depth (t :: open) _ us1 M1) as (us2 & l' & N & M2 & [E O] & L). exists us2, (OnList l'), (length l), N. split; [exact M2|]. split.
  - intros an AE. cbn [target_value]. apply PV; assumption.
  - intros F next s SV. destruct (L F next s SV) as (s' & SV' & LL). exists s'. split; [exact SV'|]. intros f until LE. destruct TT as [-> | ->]; cbn [target_new]; rewrite LL by lia; reflexivity.
Qed.
Lemma one_struct {W} tas (m : multimap (option text) W) l : map fst l = map fst (mm_items m) -> NoDup (map fst m) -> Forall (fun p => snd p <> []) m ->
  Forall (fun p => reads tas (snd p)) l -> Forall (fun p => storable_by names scalars keys (snd p)) l -> forall ins field open e depth rest us (P : pyval -> Prop),
  mirrors_by shows open ((e :: flat_map (fun p => dump_value tas (snd p) (fst p) true depth) l ++ [container_end_event]) ++ rest) us ->
  ue_type e = EContainerStart -> ue_ion_type e = Some TStruct ->
  (ins = true -> within open = Some TStruct) -> (ue_field e = plain_field field \/ ue_field e = nature_field ins field) ->
  (forall an m', map tk_text an = map arg_text (ue_annot e) -> map (fun p => (fst p, meaning_by keep tas (snd p))) (mm_items m') = map (fun p => (fst p, meaning_by keep tas (snd p))) l -> NoDup (map fst m') -> Forall (fun p => snd p <> [] /\ Forall (loaded_by keep) (snd p)) m' ->
     P (PStruct (map ATok an) m')) ->
  one ins field open rest us P.
Proof.
  intros GR ND NE R S ins field open e depth rest us P M TY IT WI FE PV. cbn [app] in M. rewrite <- app_assoc in M.
  apply (one_container ins field open e TStruct rest _ us P TY IT WI FE M). intros us1 M1.
  destruct (many_items tas l R S depth (TStruct :: open) _ us1 eq_refl M1) as (us2 & l' & N & M2 & [E O] & L).
  assert (KE : map fst l' = map fst (mm_items m)).
  { rewrite <- GR. apply (f_equal (map fst)) in E. rewrite !map_map in E. cbn [fst] in E. exact E. }
  destruct (regroup m ND NE l' [] KE ltac:(intros k [])) as (m' & FM & IM & KM & NM). cbn [app] in FM.
  exists us2, (OnMap m'), (length l), N. split; [exact M2|]. split.
  - intros an AE. cbn [target_value]. apply PV; [exact AE|rewrite IM; exact E|rewrite KM; exact ND|]. rewrite <- IM in O. clear -O NM. unfold mm_items in O. induction NM as [|[k vs] m' N F IH]; [constructor|]. cbn [flat_map fst snd] in O. apply Forall_app in O. destruct O as [O1 O2]. constructor; [|exact (IH O2)]. cbn [snd] in *. split; [exact N|]. apply Forall_forall. intros x I. rewrite Forall_forall in O1. exact (O1 (k, x) (in_map (pair k) _ _ I)).
  - intros F next s SV. destruct (L F next s SV) as (s' & SV' & LL). exists s'. split; [exact SV'|]. intros f until LE. cbn [target_new]. rewrite LL by lia. unfold mm_new. rewrite FM. reflexivity.
Qed.

Lemma dict_items (l : list (option text * pyval)) : mm_items (map (fun p => (fst p, [snd p])) l) = l.
Proof. unfold mm_items. induction l as [|[k v] l IH]; [reflexivity|]. cbn [map flat_map fst snd app]. rewrite IH. reflexivity. Qed.
Lemma items_Forall {A} (Q : option text * A -> Prop) m : Forall (fun p => Forall (fun x => Q (fst p, x)) (snd p)) m -> Forall Q (mm_items m).
Proof.
  induction m as [|[k vs] m IH]; intros H; [constructor|]. inversion H as [|? ? H1 H2]; subst. unfold mm_items in *. cbn [flat_map fst snd] in *. apply Forall_app. split; [|exact (IH H2)].
  clear - H1. induction vs as [|v vs IH]; [constructor|]. inversion H1; subst. constructor; auto.
Qed.

Theorem value_reads tas v : reads tas v.
Proof.
  induction v as [ |s|l IH|l IH|l IH|t an|t an s|sexp an l IH|an m IH] using pyval_induction; intros field ins depth open rest us ST W M; inversion ST; subst; cbn [dump_value] in M.
  - refine (one_scalar _ _ _ _ _ _ _ M eq_refl W (or_introl eq_refl) _). intros u S SN SV. destruct (load_null _ _ TNull _ S eq_refl SN eq_refl SV) as (an & L & E).
    eexists. split; [exact L|]. split; [|constructor]. cbn [meaning_by]. rewrite map_map. cbn [ue_annot map] in E. apply map_eq_nil in E. subst. reflexivity.
  - refine (one_scalar _ _ _ _ _ _ _ M eq_refl W (or_introl eq_refl) _). intros u S SN SV. exact (load_value tas _ _ (plain_type s) s _ S eq_refl SN eq_refl ltac:(assumption) SV).
  - refine (one_sequence tas l IH ltac:(assumption) _ _ _ _ TList _ _ _ _ M (or_introl eq_refl) eq_refl eq_refl W (or_introl eq_refl) _).
    intros an l' A E O. split; [|constructor; exact O]. cbn [ue_annot map] in A. apply map_eq_nil in A. subst an. cbn [meaning_by map]. rewrite E. reflexivity.
  - refine (one_sequence tas l IH ltac:(assumption) _ _ _ _ (if tas then TSexp else TList) _ _ _ _ M _ eq_refl eq_refl W (or_introl eq_refl) _); [destruct tas; auto|].
    intros an l' A E O. split; [|constructor; exact O]. cbn [ue_annot map] in A. apply map_eq_nil in A. subst an. cbn [meaning_by map]. rewrite E. destruct tas; reflexivity.
  - match goal with H : Forall _ l, N : NoDup _ |- _ => rename H into FS; rename N into ND end.
    assert (F2 : Forall (fun p => storable_by names scalars keys (snd p)) l) by (eapply Forall_impl; [|exact FS]; intros p [_ Q]; exact Q).
    refine (one_struct tas (map (fun p => (fst p, [snd p])) l) l _ _ _ IH F2 _ _ _ _ _ _ _ _ M eq_refl eq_refl W (or_introl eq_refl) _).
    + rewrite dict_items. reflexivity.
    + rewrite map_map. exact ND.
    + apply Forall_forall. intros p I. apply in_map_iff in I. destruct I as (q & <- & _). discriminate.
    + intros an m' A E O1 O2. split; [|constructor; assumption]. cbn [ue_annot map] in A. apply map_eq_nil in A. subst an. cbn [meaning_by map]. rewrite meaning_items, E. reflexivity.
  - refine (one_scalar _ _ _ _ _ _ _ M eq_refl W (or_intror eq_refl) _). intros u S SN SV. destruct (load_null _ _ t _ S eq_refl SN eq_refl SV) as (an' & L & E).
    eexists. split; [exact L|]. split; [|constructor]. cbn [meaning_by]. rewrite tok_texts, E. reflexivity.
  - refine (one_scalar _ _ _ _ _ _ _ M eq_refl W (or_intror eq_refl) _). intros u S SN SV. exact (load_value tas _ _ t s _ S eq_refl SN eq_refl ltac:(assumption) SV).
  - refine (one_sequence tas l IH ltac:(assumption) _ _ _ _ (if sexp then TSexp else TList) _ _ _ _ M _ eq_refl eq_refl W (or_intror eq_refl) _); [destruct sexp; auto|].
    intros an' l' A E O. split; [|constructor; exact O]. cbn [meaning_by]. rewrite E, tok_texts, A. cbn [ue_annot]. destruct sexp; reflexivity.
  - match goal with H : Forall _ m, N : NoDup _ |- _ => rename H into FS; rename N into ND end. rewrite struct_items in M.
    refine (one_struct tas m (mm_items m) eq_refl ND _ _ _ _ _ _ _ _ _ _ _ M eq_refl eq_refl W (or_intror eq_refl) _).
    + eapply Forall_impl; [|exact FS]. intros p [Q _]; exact Q.
    + apply items_Forall. exact IH.
    + apply items_Forall. eapply Forall_impl; [|exact FS]. intros p [_ Q]. eapply Forall_impl; [|exact Q]. intros x [_ S]. exact S.
    + intros an' m' A E O1 O2. split; [|constructor; assumption]. cbn [meaning_by]. rewrite !meaning_items, E, tok_texts, A. reflexivity.
Qed.

Theorem stream_loads tas l us : Forall (storable_by names scalars keys) l -> mirrors_by shows [] (flat_map (fun x => dump_value tas x None false 0) l) us ->
  exists l' N, (map (meaning_by keep tas) l' = map (meaning_by keep tas) l /\ Forall (loaded_by keep) l') /\ forall (F : Type) next (s : F), serves next s us -> exists s', forall f, (N <= f)%nat -> load_into f next s EStreamEnd (OnList []) = Ok (OnList l', s').
Proof.
  intros STO M. assert (R : Forall (reads tas) l) by (apply Forall_forall; intros v _; apply value_reads).
  rewrite <- (app_nil_r (flat_map _ l)) in M. destruct (many_list tas l R STO 0 [] [] us M) as (us2 & l' & N & M2 & E & L).
  inversion M2; subst. exists l', (length l + S N)%nat. split; [exact E|]. intros F next s SV. destruct (L F next s SV) as (s1 & (u & s2 & NX & T) & LL). exists s2. intros f LE.
  replace f with (length l + (f - length l))%nat by lia. rewrite LL by lia. destruct (f - length l)%nat as [|g] eqn:G; [lia|]. cbn [load_into]. rewrite NX. cbn [bind]. rewrite T. reflexivity.
Qed.
End LOADING.

(** Binary Ion. *)
Lemma binary_null e u : ev_force (ue_value e) = Ok None -> shows_value e u -> me_value u = Ok None.
Proof. intros E V. unfold shows_value in V. rewrite E in V. exact V. Qed.
Lemma binary_symbol e u s : ue_ion_type e = Some TSymbol -> ue_value e = EvVal s -> scalar_ok TSymbol s -> shows_value e u ->
  exists a r, symbol_arg s = Some a /\ me_value u = Ok (Some (VSymbol r)) /\ tk_text r = arg_text a.
Proof. intros T E _ V. unfold shows_value in V. rewrite E in V. cbn [ev_force] in V. rewrite T in V. exact V. Qed.
Lemma binary_scalar e u t s : ue_ion_type e = Some t -> t <> TSymbol -> ue_value e = EvVal s -> scalar_ok t s -> shows_value e u ->
  exists w, me_value u = Ok (Some w) /\ py_scalar t w = Ok (content s) /\ content (content s) = content s /\ class_fits t (content s).
Proof.
  intros T NT E K V. unfold shows_value in V. rewrite E in V. cbn [ev_force] in V. rewrite T in V.
  assert (SP : scalar_portable t s) by (destruct t; try exact K; congruence).
  exists (as_read s). split; [destruct t; try (apply V; exact SP); congruence|]. destruct (py_scalar_read t s NT SP) as [P CC].
  split; [exact P|]. split; [exact CC|]. clear -SP NT. destruct t, s as [?|?|?|?|[?|?]|?|?|?]; try contradiction; try congruence; exact Logic.I.
Qed.
Definition binary_loads := stream_loads good_arg scalar_ok key_ok shows_value content binary_null binary_symbol binary_scalar (fun _ => eq_refl).
