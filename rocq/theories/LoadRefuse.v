(** Values with a symbol that is not known are refused with an IonException. *)
From Verif Require Import Base BaseFacts CoreModel BinWriterModel BinReaderModel SymbolsModel ManagedModel Cursor ManagedSpec MultimapModel SimpleionModel SimpleionSpec SimpleionProofs LoadSpec LoadProofs.
Local Open Scope Z_scope.

(** Everything but the symbols is in order. *)
Definition whole_value (u : mevent) : Prop :=
  exists ty, typed u ty /\ (valued u None \/ exists s, valued u (Some s) /\ steady s /\ (ty = TSymbol -> exists k, s = VSymbol k) /\ class_fits ty s).
Definition field_of (t : etree mevent) : option token := ev_field (me_ev (first_event t)).
Fixpoint readable (t : etree mevent) : Prop :=
  match t with
  | Leaf u => ev_type (me_ev u) = EScalar /\ whole_value u
  | Branch u ks f =>
    ev_type (me_ev u) = EContainerStart /\ ev_type (me_ev f) = EContainerEnd /\ ev_value (me_ev u) = EvNone /\ ev_value (me_ev f) = EvNone /\ ev_field (me_ev f) = None /\ ev_annot (me_ev f) = [] /\
    (typed u TStruct /\ Forall (fun k => field_of k <> None) ks \/ (typed u TList \/ typed u TSexp) /\ Forall (fun k => field_of k = None) ks) /\
    fold_right (fun k P => readable k /\ P) True ks
  end.
Lemma readable_kids ks : fold_right (fun k P => readable k /\ P) True ks <-> Forall readable ks.
Proof.
  induction ks as [|k ks IH]; cbn [fold_right]; split; intros H; auto; [destruct H; constructor; tauto|]. inversion H; subst. tauto.
Qed.
(** Its symbols are known: each has a text, or an identifier of the table in force. *)
Definition known_symbol (table : symtab) (t : token) : Prop := exists x, symbol_text table t x.
Definition known (u : mevent) : Prop :=
  Forall (known_symbol (me_table u)) (ev_annot (me_ev u)) /\
  (forall f, ev_field (me_ev u) = Some f -> known_symbol (me_table u) f) /\
  (forall k, valued u (Some (VSymbol k)) -> known_symbol (me_table u) k).

Lemma known_or table t : (exists x, symbol_text table t x) \/ resolve_token table t = Err IonException.
Proof.
  unfold symbol_text, resolve_token. destruct (tk_text t) as [s|]; [eauto|]. destruct (tk_sid t) as [sid|]; [|auto]. destruct (get_sid table sid None) as [r|] eqn:G; [|auto]. left. exists (tk_text r), sid, r. auto.
Qed.
Lemma annotated_or u : (exists an, annotated u an) \/ me_annotations u = Err IonException.
Proof.
  unfold annotated, me_annotations. induction (ev_annot (me_ev u)) as [|t l IH]; [left; exists []; constructor|]. cbn [mapM].
  destruct (known_or (me_table u) t) as [(x & X)|E]; [|right; rewrite E; reflexivity]. destruct (symbol_resolves _ _ _ X) as (r & R & _). rewrite R. cbn [bind].
  destruct IH as [(an & IH)|IH]; [left; exists (x :: an); constructor; assumption|right; rewrite IH; reflexivity].
Qed.

Section REFUSE.
Variable tas : bool.
Definition refused (t : etree mevent) : Prop :=
  exists N, forall (F : Type) (next : F -> res (mevent * F)) s us fin, feeds next s (flatten t ++ us) fin ->
    forall f until out, (N <= f)%nat -> load_into (S f) next s until out = Err IonException.
Definition items_refused (ks : list (etree mevent)) : Prop :=
  exists N, forall (F : Type) (next : F -> res (mevent * F)) s us fin, feeds next s (flat_map flatten ks ++ us) fin ->
    forall f until acc, (N <= f)%nat -> load_into (length ks + f) next s until (OnList acc) = Err IonException.
Definition fields_refused (ks : list (etree mevent)) : Prop :=
  exists N, forall (F : Type) (next : F -> res (mevent * F)) s us fin, feeds next s (flat_map flatten ks ++ us) fin ->
    forall f until acc, (N <= f)%nat -> load_into (length ks + f) next s until (OnMap acc) = Err IonException.

Lemma readable_formed t : readable t -> formed t.
Proof.
  induction t as [u|u ks e IH] using tree_induction; intros R; [exact (proj1 R)|]. destruct R as (T1 & T2 & _ & _ & _ & _ & _ & KK). apply readable_kids in KK. split; [exact T1|]. split; [exact T2|]. apply formed_kids.
  rewrite Forall_forall in *. auto.
Qed.
Lemma readable_sound t : readable t -> Forall sound (flatten t).
Proof.
  induction t as [u|u ks e IH] using tree_induction; intros R; cbn [flatten].
  - constructor; [|constructor]. destruct R as (_ & ty & _ & V). intros s VS. unfold valued in *. destruct V as [V|(s' & V & ST & _)]; [congruence|]. assert (s' = s) as <- by congruence. exact ST.
  - destruct R as (_ & _ & V1 & V2 & _ & _ & _ & KK). apply readable_kids in KK. constructor; [intros s VS; unfold valued in VS; rewrite V1 in VS; discriminate|]. apply Forall_app. split.
    + apply Forall_flat_map. rewrite Forall_forall in *. auto.
    + constructor; [intros s VS; unfold valued in VS; rewrite V2 in VS; discriminate|constructor].
Qed.
Lemma leaf_or u : readable (Leaf u) -> (exists i, means (Leaf u) i) \/ refused (Leaf u).
Proof.
  intros (T & ty & TY & V). assert (REF : load_scalar u = Err IonException -> refused (Leaf u)).
  { intros E. exists 0%nat. intros F next s us fin (s' & NX & FE) f until out _. cbn [load_into]. rewrite NX. cbn [bind]. rewrite T, until_scalar, E. reflexivity. }
  destruct V as [V|(s & V & ST & SY & CF)].
  - destruct (annotated_or u) as [(an & AN)|E]; [left; eexists; apply (means_null u ty an TY AN V)|right; apply REF]. unfold load_scalar, me_value, valued, typed in *. rewrite V, TY. cbn [bind].
    replace (match ty with TSymbol => Ok None | _ => Ok None end) with (@Ok (option scalar) None) by (destruct ty; reflexivity). destruct ty; cbn [bind]; rewrite E; reflexivity.
  - assert (D : ty = TSymbol \/ ty <> TSymbol) by (destruct ty; (left; reflexivity) || (right; discriminate)). destruct D as [-> | NT].
    + destruct (SY eq_refl) as (k & ->). destruct (known_or (me_table u) k) as [(x & X)|E].
      * destruct (annotated_or u) as [(an & AN)|E]; [left; eexists; exact (means_symbol u an k x TY AN V X)|right; apply REF]. destruct (symbol_resolves _ _ _ X) as (r & R & _).
        unfold load_scalar, me_value, valued, typed in *. rewrite V, TY. cbn [bind]. rewrite R. cbn [bind iontype_eqb iontype_num Z.eqb Pos.eqb is_container orb py_scalar]. rewrite E. reflexivity.
      * right. apply REF. unfold load_scalar, me_value, valued, typed in *. rewrite V, TY. cbn [bind]. rewrite E. reflexivity.
    + destruct (annotated_or u) as [(an & AN)|E]; [left; eexists; exact (means_scalar u ty an s TY NT AN V CF)|right; apply REF].
      unfold load_scalar, me_value, valued, typed in *. rewrite V, TY. cbn [bind]. replace (match ty with TSymbol => _ | _ => Ok (Some s) end) with (Ok (Some s)) by (destruct ty; reflexivity || congruence). cbn [bind].
      rewrite (fits_plain ty s CF NT), (steady_scalar ty s CF ST). cbn [bind]. rewrite E. reflexivity.
Qed.
Lemma items_or ks : Forall (fun k => readable k /\ ((exists i, means k i) \/ refused k)) ks -> (exists l, Forall2 means ks l) \/ items_refused ks.
Proof.
  induction 1 as [|k ks (R & H) HS IH]; [left; exists []; constructor|]. destruct H as [(i & M)|(N & H)].
  - destruct IH as [(l & IH)|(N & IH)]; [left; exists (i :: l); constructor; assumption|]. right.
    destruct (value_loads tas k i M (readable_formed k R) (readable_sound k R)) as (v & N1 & _ & L). exists (N1 + N)%nat. intros F next s us fin FE f until acc LE. cbn [flat_map] in FE. rewrite <- app_assoc in FE.
    destruct (L F next s _ fin FE) as (s1 & FE1 & LL). cbn [length plus]. rewrite LL by lia. cbn [target_add bind]. apply (IH F next s1 us fin FE1). lia.
  - right. exists N. intros F next s us fin FE f until acc LE. cbn [flat_map] in FE. rewrite <- app_assoc in FE. cbn [length plus]. apply (H F next s _ fin FE). lia.
Qed.
Lemma fields_or ks : Forall (fun k => field_of k <> None) ks -> Forall (fun k => readable k /\ ((exists i, means k i) \/ refused k)) ks ->
  (exists l, Forall2 (fun k p => called (first_event k) (fst p) /\ means k (snd p)) ks l) \/ fields_refused ks.
Proof.
  intros NM. induction 1 as [|k ks (R & H) HS IH]; [left; exists []; constructor|]. specialize (IH (Forall_inv_tail NM)). pose proof (Forall_inv NM) as FK. destruct H as [(i & M)|(N & H)].
  - destruct (value_loads tas k i M (readable_formed k R) (readable_sound k R)) as (v & N1 & _ & L).
    destruct (field_of k) as [fk|] eqn:EF; [|congruence]. unfold field_of in EF. destruct (known_or (me_table (first_event k)) fk) as [(x & X)|E].
    + assert (C : called (first_event k) x) by (exists fk; auto). destruct IH as [(l & IH)|(N & IH)]; [left; exists ((x, i) :: l); constructor; [split; [exact C|exact M]|exact IH]|]. right.
      destruct (called_resolves _ _ C) as (r & MF & TK). exists (N1 + N)%nat. intros F next s us fin FE f until acc LE. cbn [flat_map] in FE. rewrite <- app_assoc in FE.
      destruct (L F next s _ fin FE) as (s1 & FE1 & LL). cbn [length plus]. rewrite LL by lia. cbn [target_add bind]. rewrite MF. cbn [bind]. apply (IH F next s1 us fin FE1). lia.
    + right. exists N1. intros F next s us fin FE f until acc LE. cbn [flat_map] in FE. rewrite <- app_assoc in FE.
      destruct (L F next s _ fin FE) as (s1 & FE1 & LL). cbn [length plus]. rewrite LL by lia. cbn [target_add bind]. unfold me_field. rewrite EF, E. reflexivity.
  - right. exists N. intros F next s us fin FE f until acc LE. cbn [flat_map] in FE. rewrite <- app_assoc in FE. cbn [length plus]. apply (H F next s _ fin FE). lia.
Qed.
Theorem value_or t : readable t -> (exists i, means t i) \/ refused t.
Proof.
  induction t as [u|u ks e IH] using tree_induction; intros R; [apply leaf_or; exact R|]. destruct R as (T1 & T2 & _ & _ & _ & _ & KIND & KK). apply readable_kids in KK.
  assert (K : Forall (fun k => readable k /\ ((exists i, means k i) \/ refused k)) ks) by (rewrite Forall_forall in *; intros k I; split; [apply KK; exact I|apply IH; auto]).
  destruct (annotated_or u) as [(an & AN)|E].
  2: { right. exists 0%nat. intros F next s us fin FE f until out _. cbn [flatten app] in FE. destruct FE as (s1 & N1 & FE). cbn [load_into]. rewrite N1. cbn [bind]. rewrite T1, until_start.
       assert (TT : exists ty, ev_ion_type (me_ev u) = Some ty) by (destruct KIND as [(TY & _)|([TY|TY] & _)]; eexists; exact TY). destruct TT as (ty & ->). cbn [bind]. rewrite E. reflexivity. }
  destruct (annotations_resolve _ _ AN) as (rs & AR & _).
  assert (DOWN : forall ty, typed u ty -> (exists N, forall (F : Type) (next : F -> res (mevent * F)) s us fin, feeds next s (flat_map flatten ks ++ us) fin ->
      forall f until, (N <= f)%nat -> load_into (length ks + f) next s until (target_new ty) = Err IonException) -> refused (Branch u ks e)).
  { intros ty TY (N & L). exists (length ks + N)%nat. intros F next s us fin FE f until out LE. cbn [flatten app] in FE. rewrite <- app_assoc in FE. destruct FE as (s1 & N1 & FE). cbn [load_into]. rewrite N1. cbn [bind]. unfold typed in TY.
    rewrite T1, until_start, TY. cbn [bind]. rewrite AR. cbn [bind]. replace f with (length ks + (f - length ks))%nat at 1 by lia. rewrite (L F next s1 _ fin FE) by lia. reflexivity. }
  destruct KIND as [(TY & NM)|(TY & _)].
  - destruct (fields_or ks NM K) as [(l & L)|(N & L)]; [left; eexists; exact (means_struct u ks e an l TY AN L)|right]. apply (DOWN TStruct TY). exists N. intros F next s us fin FE f until LE. exact (L F next s us fin FE f until [] LE).
  - destruct (items_or ks K) as [(l & L)|(N & L)]; [left|right].
    + destruct TY as [TY|TY]; eexists; eapply means_sequence; eauto.
    + destruct TY as [TY|TY]; apply (DOWN _ TY); exists N; intros F next s us fin FE f until LE; exact (L F next s us fin FE f until [] LE).
Qed.
(** What means something has only known symbols. *)
Lemma annotated_known u an : annotated u an -> Forall (known_symbol (me_table u)) (ev_annot (me_ev u)).
Proof. unfold annotated. induction 1 as [|t x l an X H IH]; constructor; [exists x; exact X|exact IH]. Qed.
Lemma means_known t : forall i, means t i -> readable t -> (forall f, field_of t = Some f -> known_symbol (me_table (first_event t)) f) -> Forall known (flatten t).
Proof.
  induction t as [u|u ks e IH] using tree_induction; intros i M R FK; cbn [flatten].
  - constructor; [|constructor]. unfold valued in *.
    inversion M as [u0 t an TY AN VA|u0 an k x TY AN VA SY|u0 t an s TY NT AN VA CF| |]; subst; (split; [exact (annotated_known _ _ AN)|split; [exact FK|]]); unfold valued in *; intros k0 V; try congruence.
    + assert (k = k0) as <- by congruence. exists x. exact SY.
    + assert (s = VSymbol k0) as -> by congruence. destruct t; contradiction || congruence.
  - destruct R as (T1 & T2 & V1 & V2 & F2 & A2 & KIND & KK). apply readable_kids in KK.
    assert (KU : known u).
    { split; [inversion M; subst; eapply annotated_known; eassumption|]. split; [exact FK|]. intros k V. unfold valued in V. rewrite V1 in V. discriminate. }
    assert (KE : known e) by (split; [rewrite A2; constructor|]; split; [rewrite F2; discriminate|]; intros k V; unfold valued in V; rewrite V2 in V; discriminate).
    constructor; [exact KU|]. apply Forall_app. split; [|constructor; [exact KE|constructor]]. apply Forall_flat_map.
    inversion M as [| | |u0 ks0 f0 t an l TY TT AN KS|u0 ks0 f0 an l TY AN KS]; subst.
    + assert (NF : Forall (fun k => field_of k = None) ks).
      { destruct KIND as [(TY' & _)|(_ & NF)]; [|exact NF]. unfold typed in *. rewrite TY in TY'. destruct TT; subst; discriminate. }
      clear - IH KK KS NF. revert l KS. induction IH as [|k ks H HS IHk]; intros l KS; inversion KS; subst; [constructor|]. constructor; [|eapply IHk; eauto using Forall_inv_tail].
      eapply H; [eassumption|exact (Forall_inv KK)|]. rewrite (Forall_inv NF). discriminate.
    + clear - IH KK KS. revert l KS. induction IH as [|k ks H HS IHk]; intros l KS; inversion KS as [|? ? ? ? [C M] KS']; subst; [constructor|]. constructor; [|eapply IHk; eauto using Forall_inv_tail].
      eapply H; [eassumption|exact (Forall_inv KK)|]. intros f E. destruct C as (f' & E' & X). unfold field_of in E. assert (f' = f) as <- by congruence. eexists. exact X.
Qed.
(** And with known symbols it means something. *)
Lemma known_annotated u : known u -> exists an, annotated u an.
Proof. intros (K & _). unfold annotated. induction K as [|t l (x & X) K (an & IH)]; [exists []; constructor|]. exists (x :: an). constructor; assumption. Qed.
Lemma known_means t : readable t -> Forall known (flatten t) -> exists i, means t i.
Proof.
  induction t as [u|u ks e IH] using tree_induction; intros R K; cbn [flatten] in K; pose proof (Forall_inv K) as KU; destruct (known_annotated _ KU) as (an & AN).
  - destruct R as (T & ty & TY & V). destruct V as [V|(s & V & ST & SY & CF)]; [eexists; exact (means_null u ty an TY AN V)|].
    assert (D : ty = TSymbol \/ ty <> TSymbol) by (destruct ty; (left; reflexivity) || (right; discriminate)). destruct D as [-> | NT].
    + destruct (SY eq_refl) as (k & ->). destruct KU as (_ & _ & KV). destruct (KV k V) as (x & X). eexists. exact (means_symbol u an k x TY AN V X).
    + eexists. exact (means_scalar u ty an s TY NT AN V CF).
  - destruct R as (T1 & T2 & _ & _ & _ & _ & KIND & KK). apply readable_kids in KK. apply Forall_inv_tail in K. apply Forall_app in K. destruct K as (K & _). apply Forall_flat_map in K.
    assert (KIDS : Forall (fun k => exists i, means k i) ks) by (rewrite Forall_forall in *; intros k I; apply IH; auto).
    destruct KIND as [(TY & NM)|(TY & _)].
    + assert (L : exists l, Forall2 (fun k p => called (first_event k) (fst p) /\ means k (snd p)) ks l).
      { clear - KIDS NM K. induction KIDS as [|k ks (i & M) KS IHk]; [exists []; constructor|]. destruct (IHk (Forall_inv_tail NM) (Forall_inv_tail K)) as (l & IHl). pose proof (Forall_inv NM) as NK. pose proof (Forall_inv K) as KK.
        destruct (field_of k) as [fk|] eqn:FK; [|congruence]. unfold field_of in FK. assert (KF : known (first_event k)) by (destruct k; exact (Forall_inv KK)). destruct KF as (_ & KF & _). destruct (KF fk FK) as (x & X).
        exists ((x, i) :: l). constructor; [split; [exists fk; auto|exact M]|exact IHl]. }
      destruct L as (l & L). eexists. exact (means_struct u ks e an l TY AN L).
    + assert (L : exists l, Forall2 means ks l).
      { clear - KIDS. induction KIDS as [|k ks (i & M) KS (l & IH)]; [exists []; constructor|]. exists (i :: l). constructor; assumption. }
      destruct L as (l & L). destruct TY as [TY|TY]; eexists; eapply means_sequence; eauto.
Qed.
(** A whole stream. *)
Theorem stream_known us : Forall readable us -> Forall known (flat_map flatten us) -> exists vs, Forall2 means us vs.
Proof.
  intros R K. apply Forall_flat_map in K. induction R as [|u us R RS IH]; [exists []; constructor|]. destruct (known_means u R (Forall_inv K)) as (v & M). destruct (IH (Forall_inv_tail K)) as (vs & L). exists (v :: vs). constructor; assumption.
Qed.
Theorem stream_refused us : Forall readable us -> Forall (fun t => field_of t = None) us -> ~ Forall known (flat_map flatten us) ->
  exists N, forall (F : Type) (next : F -> res (mevent * F)) s fin, feeds next s (flat_map flatten us) fin ->
    forall f, (N <= f)%nat -> load_into f next s EStreamEnd (OnList []) = Err IonException.
Proof.
  intros R NF NK. assert (K : Forall (fun k => readable k /\ ((exists i, means k i) \/ refused k)) us) by (eapply Forall_impl; [|exact R]; intros k Rk; split; [exact Rk|apply value_or; exact Rk]).
  destruct (items_or us K) as [(l & L)|(N & L)].
  - exfalso. apply NK. apply Forall_flat_map. clear - R NF L. induction L as [|u i us l M L IH]; [constructor|]. constructor; [|apply IH; eauto using Forall_inv_tail].
    apply (means_known u i M (Forall_inv R)). rewrite (Forall_inv NF). discriminate.
  - exists (length us + N)%nat. intros F next s fin FE f LE. replace f with (length us + (f - length us))%nat by lia. rewrite <- (app_nil_r (flat_map flatten us)) in FE. apply (L F next s [] fin FE). lia.
Qed.
End REFUSE.
