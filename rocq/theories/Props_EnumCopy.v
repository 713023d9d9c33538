(** C83: copies of types (enumeration members). *)
From Coq Require Import String Lia.
From Verif Require Import Base BaseFacts CoreModel SymbolsModel TextReaderModel UtilModel EnumCopyModel.
Local Open Scope Z_scope.
Local Open Scope list_scope.

(** * Specification *)
(** Objects are numbered in the order in which they come to be, the members of the class first; of which member each is a copy
    (a copy of a copy is a copy of the same member). *)
Fixpoint origins (os : list nat) (which : list nat) : list nat :=
  match which with
  | [] => os
  | i :: r => origins (match nth_error os i with Some k => os ++ [k] | None => os end) r
  end.
(** The types of Ion, by their values. *)
Definition numeric_type (z : Z) : bool := (2 <=? z) && (z <=? 5).
Definition container_type (z : Z) : bool := 10 <=? z.
Definition text_type (z : Z) : bool := (z =? 6) || (z =? 7).
Definition lob_type (z : Z) : bool := (z =? 8) || (z =? 9).
Definition struct_type (z : Z) : bool := z =? 12.

(** * Proofs *)
Section PROOFS.
Lemma bind_length l : forall n, List.length (bind_members n l) = List.length l.
Proof. induction l as [|[a m] l IH]; intros n; simpl; auto. Qed.
Lemma bind_nth l : forall n k, nth_error (bind_members n l) k = option_map (fun m => enum_new (n + k) (snd m)) (nth_error l k).
Proof.
  induction l as [|[a m] l IH]; intros n [|k]; simpl; auto.
  - now rewrite Nat.add_0_r.
  - rewrite IH. now rewrite Nat.add_succ_r.
Qed.
(** The objects [os] and the members [orig] of the class with attributes [l]. *)
Definition good (l : list (text * member)) (os : list eobj) (orig : list nat) : Prop :=
  List.length os = List.length orig /\
  forall j o, nth_error os j = Some o -> exists k n m, nth_error orig j = Some k /\ nth_error l k = Some (n, m) /\ eo_addr o = j /\
    eo_int o = snd m /\ eo_name o = fst m /\ eo_value o = snd m.
Lemma good_class l : good l (bind_members 0 l) (seq 0 (List.length l)).
Proof.
  split; [now rewrite bind_length, seq_length|]. intros j o H. rewrite bind_nth in H. destruct (nth_error l j) as [[n m]|] eqn:E; [|discriminate].
  injection H as <-. exists j, n, m. split; [|cbn; auto].
  assert (j < List.length l)%nat by (apply nth_error_Some; congruence).
  rewrite (nth_error_nth' _ 0%nat) by (now rewrite seq_length). now rewrite seq_nth.
Qed.
Lemma good_copies l which : forall os orig, good l os orig -> good l (copies os which) (origins orig which).
Proof.
  induction which as [|i r IH]; intros os orig H; simpl; [assumption|]. apply IH. destruct H as [HL HG].
  destruct (nth_error os i) as [o|] eqn:E.
  - destruct (HG i o E) as (k & n & m & K & M & _ & I & N & V). rewrite K. split; [rewrite !app_length; cbn; lia|].
    intros j o' H. destruct (Nat.lt_ge_cases j (List.length os)) as [L|L].
    + rewrite nth_error_app1 in H by assumption. rewrite nth_error_app1 by lia. now apply HG.
    + assert (j = List.length os). { assert (j < List.length (os ++ [copy_object (List.length os) o]))%nat by (apply nth_error_Some; congruence). rewrite app_length in H0; cbn in H0; lia. }
      subst j. rewrite nth_error_app2, Nat.sub_diag in H by lia. injection H as <-. exists k, n, m.
      split; [rewrite HL, nth_error_app2, Nat.sub_diag by lia; reflexivity|]. cbn. auto.
  - assert (K : nth_error orig i = None) by (apply nth_error_None; rewrite <- HL; now apply nth_error_None). rewrite K. now split.
Qed.
Lemma origins_more which : forall os k j, nth_error os j = Some k -> nth_error (origins os which) j = Some k.
Proof.
  induction which as [|i r IH]; intros os k j H; simpl; [assumption|]. apply IH. destruct (nth_error os i); [|assumption].
  rewrite nth_error_app1; [assumption|]. apply nth_error_Some; congruence.
Qed.
Lemma copies_more which : forall os k j, nth_error os j = Some k -> nth_error (copies os which) j = Some k.
Proof.
  induction which as [|i r IH]; intros os k j H; simpl; [assumption|]. apply IH. destruct (nth_error os i); [|assumption].
  rewrite nth_error_app1; [assumption|]. apply nth_error_Some; congruence.
Qed.
Definition ion_enum : eclass := Eval vm_compute in match enum_class ion_type_body with Ok e => e | Err _ => mkenum [] [] end.
Lemma ion_enum_ok e : enum_class ion_type_body = Ok e -> e = ion_enum.
Proof. assert (X : enum_class ion_type_body = Ok ion_enum) by (vm_compute; reflexivity). rewrite X. intros [=]; congruence. Qed.
Definition ion_objects : list eobj := Eval vm_compute in class_objects ion_enum.
Lemma ion_objects_ok : class_objects ion_enum = ion_objects.
Proof. vm_compute. reflexivity. Qed.
Lemma is_numeric_ok o : is_numeric ion_objects o = Ok (numeric_type (eo_int o)).
Proof.
  unfold is_numeric. assert (X : attribute ion_objects (chars "INT") = Ok (mkobj 2 2 [73; 78; 84] 2)) by (vm_compute; reflexivity). rewrite X.
  assert (Y : exists n, attribute ion_objects (chars "TIMESTAMP") = Ok (mkobj 5 5 n 5)) by (eexists; vm_compute; reflexivity). destruct Y as [n ->]. reflexivity.
Qed.
Lemma is_container_ok o : is_container ion_objects o = Ok (container_type (eo_int o)).
Proof. unfold is_container. assert (Y : exists n, attribute ion_objects (chars "LIST") = Ok (mkobj 10 10 n 10)) by (eexists; vm_compute; reflexivity). destruct Y as [n ->]. reflexivity. Qed.
Lemma attribute_member n : match attribute ion_objects n with Ok m => (eo_addr m < 13)%nat | Err _ => True end.
Proof.
  unfold attribute. destruct (find _ ion_objects) as [m|] eqn:E; [|exact I]. apply find_some in E as [E _].
  unfold ion_objects in E. repeat (destruct E as [<-|E]; [cbn; lia|]). destruct E.
Qed.
Lemma attribute_there n : In n [chars "SYMBOL"; chars "STRING"; chars "CLOB"; chars "BLOB"; chars "STRUCT"] -> exists m, attribute ion_objects n = Ok m.
Proof. intros H. repeat (destruct H as [<-|H]; [eexists; vm_compute; reflexivity|]). destruct H. Qed.
End PROOFS.

(** * Theorems *)

(** Whatever is copied in whatever order: every object has the name, the value and the int of the member that it comes from, so
    it is equal to it, is ordered as it is, and looks the same member up; but it is that member only if it is not a copy. *)
Theorem C83_copy_partial : forall body e which j o, enum_class body = Ok e ->
  let objects := copies (class_objects e) which in
  let origin := origins (seq 0 (List.length (class_objects e))) which in
  nth_error objects j = Some o ->
  exists k m, nth_error origin j = Some k /\ nth_error objects k = Some m /\ (k < List.length (class_objects e))%nat /\
    eo_name o = eo_name m /\ eo_value o = eo_value m /\ eo_int o = eo_int m /\ enum_item e (eo_int o) = enum_item e (eo_int m) /\
    (same o m = true <-> j = k).
Proof.
  intros body e which j o _ objects origin H. pose proof (good_copies (ec_attrs e) which _ _ (good_class (ec_attrs e))) as [HL G]. fold (class_objects e) in G.
  replace (List.length (ec_attrs e)) with (List.length (class_objects e)) in G by apply bind_length.
  destruct (G j o H) as (k & n & m & K & M & A & I & N & V). exists k, (enum_new k m).
  assert (C : nth_error (class_objects e) k = Some (enum_new k m)) by (unfold class_objects; rewrite bind_nth, M; reflexivity).
  split; [exact K|]. split; [apply copies_more; exact C|]. split; [apply nth_error_Some; congruence|].
  cbn. split; [exact N|]. split; [exact V|]. split; [exact I|]. split; [now rewrite I|].
  unfold same. cbn. rewrite A. apply Nat.eqb_eq.
Qed.
(** The members do not change. *)
Theorem C83_members : forall body e which j m, enum_class body = Ok e -> nth_error (class_objects e) j = Some m ->
  nth_error (copies (class_objects e) which) j = Some m /\ nth_error (origins (seq 0 (List.length (class_objects e))) which) j = Some j.
Proof.
  intros body e which j m _ H. split; [now apply copies_more|]. apply origins_more.
  assert (j < List.length (class_objects e))%nat by (apply nth_error_Some; congruence).
  rewrite (nth_error_nth' _ 0%nat) by (now rewrite seq_length). now rewrite seq_nth.
Qed.

(** The types of Ion: members and copies alike are numeric and containers as their values say; for the members the tests by
    identity are right, too. *)
Theorem C83_types_partial : forall e which j o, enum_class ion_type_body = Ok e ->
  nth_error (copies (class_objects e) which) j = Some o ->
  is_numeric (class_objects e) o = Ok (numeric_type (eo_int o)) /\ is_container (class_objects e) o = Ok (container_type (eo_int o)) /\
  ((j < 13)%nat -> is_text (class_objects e) o = Ok (text_type (eo_int o)) /\ is_lob (class_objects e) o = Ok (lob_type (eo_int o)) /\
     dump_route (class_objects e) o = Ok (if struct_type (eo_int o) then OverItems else if container_type (eo_int o) then OverElements else AsScalar)).
Proof.
  intros e which j o D H. apply ion_enum_ok in D. subst e. rewrite ion_objects_ok in *.
  split; [apply is_numeric_ok|]. split; [apply is_container_ok|]. intros L.
  destruct (nth_error ion_objects j) as [m|] eqn:E; [|apply nth_error_None in E; cbn in E; lia].
  rewrite (copies_more which _ _ _ E) in H. injection H as <-.
  do 13 (destruct j as [|j]; [injection E as <-; vm_compute; auto|]). lia.
Qed.
(** But for every copy they fail: [is_text] and [is_lob] are false, a struct is dumped as if it were a list, and a value that has
    the copy as its type is equal to no value with another type object. *)
Theorem C83_identity_refuted : forall e which j o, enum_class ion_type_body = Ok e ->
  nth_error (copies (class_objects e) which) j = Some o -> (13 <= j)%nat ->
  is_text (class_objects e) o = Ok false /\ is_lob (class_objects e) o = Ok false /\
  dump_route (class_objects e) o = Ok (if container_type (eo_int o) then OverElements else AsScalar) /\
  forall k m, nth_error (copies (class_objects e) which) k = Some m -> types_agree o m = true -> k = j.
Proof.
  intros e which j o D H L. apply ion_enum_ok in D. subst e.
  pose proof (good_copies (ec_attrs ion_enum) which _ _ (good_class (ec_attrs ion_enum))) as [_ G]. fold (class_objects ion_enum) in G. rewrite ion_objects_ok in *.
  destruct (G j o H) as (_ & _ & _ & _ & _ & A & _).
  assert (S : forall n, In n [chars "SYMBOL"; chars "STRING"; chars "CLOB"; chars "BLOB"; chars "STRUCT"] ->
                exists m, attribute ion_objects n = Ok m /\ same o m = false).
  { intros n I. destruct (attribute_there n I) as [m M]. exists m. split; [exact M|]. pose proof (attribute_member n) as K. rewrite M in K.
    unfold same. apply Nat.eqb_neq. lia. }
  split; [|split; [|split]].
  - unfold is_text. destruct (S (chars "SYMBOL")) as (a & -> & Ha); [cbn [In]; tauto|]. destruct (S (chars "STRING")) as (b & -> & Hb); [cbn [In]; tauto|].
    cbn [bind]. rewrite Ha, Hb. reflexivity.
  - unfold is_lob. destruct (S (chars "CLOB")) as (a & -> & Ha); [cbn [In]; tauto|]. destruct (S (chars "BLOB")) as (b & -> & Hb); [cbn [In]; tauto|].
    cbn [bind]. rewrite Ha, Hb. reflexivity.
  - unfold dump_route. rewrite is_container_ok. destruct (S (chars "STRUCT")) as (a & -> & Ha); [cbn [In]; tauto|]. cbn [bind]. rewrite Ha. destruct (container_type (eo_int o)); reflexivity.
  - intros k m K T. destruct (G k m K) as (_ & _ & _ & _ & _ & B & _). unfold types_agree, same in T. apply Nat.eqb_eq in T. congruence.
Qed.
(** A struct and a symbol (with which the hypotheses hold): the types of copies, and of a copy of a copy. *)
Theorem C83_cases : exists e, enum_class ion_type_body = Ok e /\
  let objects := copies (class_objects e) [12; 6; 13]%nat in
  List.length objects = 16%nat /\ map eo_value objects = [0; 1; 2; 3; 4; 5; 6; 7; 8; 9; 10; 11; 12; 12; 6; 12] /\
  map (dump_route (class_objects e)) (skipn 12 objects) = [Ok OverItems; Ok OverElements; Ok AsScalar; Ok OverElements] /\
  map (is_text (class_objects e)) (firstn 3 (skipn 6 objects) ++ skipn 13 objects) = [Ok true; Ok true; Ok false; Ok false; Ok false; Ok false].
Proof.
  exists ion_enum. split; [vm_compute; reflexivity|]. rewrite ion_objects_ok. vm_compute. auto.
Qed.
