(** Property theorems C71: symbol tables that compare equal are interchangeable.

    [st_eqb a b] is [a == b], [st_eqb a b = false] is [a != b] (SymbolsModel).  [built st]: constructed by
    the public constructor, then interned into. *)
From Coq Require Import String.
From Verif Require Import Base BaseFacts CoreModel SymbolsModel SymbolsProofs ManagedModel EquivModel EquivProofs EquivMeaning EventModel Props_Events.
Local Open Scope Z_scope.

Lemma tokens_eqb_spec a : forall b, tokens_eqb a b = true <-> a = b.
Proof. induction a as [|x a IH]; intros [|y b]; cbn [tokens_eqb]; try (split; congruence). rewrite andb_true_iff, token_eqb_spec, IH. split; [intros (-> & ->); reflexivity|intros [= -> ->]; auto]. Qed.
Lemma ttype_eqb_spec a b : ttype_eqb a b = true <-> a = b.
Proof. destruct a, b; cbn; split; congruence. Qed.
Lemma tables_eq a b : st_eqb a b = true <-> st_type a = st_type b /\ st_name a = st_name b /\ st_version a = st_version b /\ st_sub a = st_sub b /\ st_syms a = st_syms b.
Proof. unfold st_eqb. rewrite !andb_true_iff, ttype_eqb_spec, (opt_eqb_spec _ zlist_eqb_eq), (opt_eqb_spec _ Z.eqb_eq), Bool.eqb_true_iff, tokens_eqb_spec. tauto. Qed.

(** C71.  Two tables are equal exactly if they have the same type, name, version and substitute flag, the
    same greatest id, and for every id the same token.  The imports are not compared. *)
Theorem C71_meaning : forall a b, built a -> built b ->
  (st_eqb a b = true <->
   st_type a = st_type b /\ st_name a = st_name b /\ st_version a = st_version b /\ st_sub a = st_sub b /\
   st_max a = st_max b /\ forall k, 1 <= k <= st_max a -> item_sid a k = item_sid b k).
Proof.
  intros a b A B. pose proof (built_ok a A) as TA. pose proof (built_ok b B) as TB. rewrite tables_eq. split.
  - intros (H1 & H2 & H3 & H4 & H5). repeat split; try assumption; [destruct TA as (_ & _ & ->), TB as (_ & _ & ->); congruence|]. intros k _. unfold item_sid, get_sid. rewrite H5. reflexivity.
  - intros (H1 & H2 & H3 & H4 & M & H5). repeat split; try assumption. apply nth_error_ext. intros i.
    destruct (Nat.lt_ge_cases i (length (st_syms a))) as [L|L].
    + assert (K : 1 <= Z.of_nat i + 1 <= st_max a) by (destruct TA as (_ & _ & ->); unfold zlen; lia). specialize (H5 _ K).
      destruct (proj1 (sid_lookup a None _ TA) K) as (t & G & N & _). assert (K' : 1 <= Z.of_nat i + 1 <= st_max b) by lia. destruct (proj1 (sid_lookup b None _ TB) K') as (u & G' & N' & _).
      unfold item_sid in H5. rewrite G, G' in H5. injection H5 as <-. replace (Z.to_nat (Z.of_nat i + 1 - 1)) with i in N, N' by lia. congruence.
    + rewrite (proj2 (nth_error_None _ _) L). symmetry. apply nth_error_None. destruct TA as (_ & _ & MA), TB as (_ & _ & MB). unfold zlen in *. lia.
Qed.
Print Assumptions C71_meaning.

(** Equal tables answer every lookup alike, by text or id, with or without a default, and are as long. *)
Theorem C71_lookups : forall a b, built a -> built b -> st_eqb a b = true ->
  (forall x, item_text a x = item_text b x) /\ (forall k, item_sid a k = item_sid b k) /\
  (forall x d, get_text a x d = get_text b x d) /\ (forall k d, get_sid a k d = get_sid b k d) /\ st_max a = st_max b.
Proof.
  intros a b A B E. pose proof (built_ok a A) as (MA & _ & XA). pose proof (built_ok b B) as (MB & _ & XB). apply tables_eq in E. destruct E as (_ & _ & _ & _ & E).
  assert (GT : forall x d, get_text a x d = get_text b x d) by (intros x d; unfold get_text; rewrite MA, MB, E; reflexivity).
  assert (GS : forall k d, get_sid a k d = get_sid b k d) by (intros k d; unfold get_sid; rewrite E; reflexivity).
  repeat split; auto; [intros x; unfold item_text; rewrite GT; reflexivity|intros k; unfold item_sid; rewrite GS; reflexivity|congruence].
Qed.
Print Assumptions C71_lookups.

(** Interning the same texts in the same order into equal tables gives the same tokens, or the same
    exception, and equal tables again. *)
Theorem C71_interning : forall x a b, built a -> built b -> st_eqb a b = true ->
  match intern a x, intern b x with
  | Ok (t, a'), Ok (u, b') => t = u /\ st_eqb a' b' = true /\ built a' /\ built b'
  | Err e, Err f => e = f
  | _, _ => False
  end.
Proof.
  intros x a b A B E. pose proof (C71_lookups a b A B E) as (_ & _ & GT & _ & M). pose proof (proj1 (tables_eq a b) E) as (H1 & H2 & H3 & H4 & H5).
  assert (BI : forall st t st', built st -> intern st x = Ok (t, st') -> built st').
  { intros st t st' (ty & symbols & name & version & imports & sub & st0 & xs & N & I) J. exists ty, symbols, name, version, imports, sub, st0, (xs ++ [x])%list. split; [exact N|].
    clear N. revert st0 I. induction xs as [|y xs IH]; intros st0 I; cbn [intern_all app] in *; [injection I as ->; rewrite J; reflexivity|].
    destruct (intern st0 y) as [[u s1]|]; [|discriminate]. cbn [bind] in *. apply IH. exact I. }
  destruct (intern a x) as [[t a']|e] eqn:IA, (intern b x) as [[u b']|f] eqn:IB.
  - assert (KA := BI _ _ _ A IA). assert (KB := BI _ _ _ B IB). unfold intern in IA, IB. rewrite <- H1 in IB. destruct (is_shared (st_type a)); [discriminate|]. rewrite <- GT in IB. destruct (get_text a x None).
    + injection IA as <- <-. injection IB as <- <-. auto.
    + destruct (add_text a (Some x)) as [a1 t1] eqn:AA, (add_text b (Some x)) as [b1 u1] eqn:AB. injection IA as -> ->. injection IB as -> ->.
      unfold add_text in AA, AB. rewrite <- M, <- H1 in AB. unfold import_location in AA, AB. rewrite <- H2 in AB. injection AA as <- <-. injection AB as <- <-. split; [reflexivity|]. split; [|auto].
      apply tables_eq. cbn [st_add set_max st_type st_name st_version st_sub st_syms]. rewrite H5. auto.
  - unfold intern in IA, IB. rewrite <- H1 in IB. destruct (is_shared (st_type a)); [discriminate|]. destruct (get_text b x None); [discriminate|]. destruct (add_text b _). discriminate.
  - unfold intern in IA, IB. rewrite <- H1 in IB. destruct (is_shared (st_type a)); [discriminate|]. destruct (get_text a x None); [discriminate|]. destruct (add_text a _). discriminate.
  - unfold intern in IA, IB. rewrite <- H1 in IB. destruct (is_shared (st_type a)); [congruence|]. destruct (get_text b x None); [discriminate|]. destruct (add_text b _). discriminate.
Qed.
Print Assumptions C71_interning.

(** [==] is an equivalence. *)
Theorem C71_equivalence : forall a b c, st_eqb a a = true /\ (st_eqb a b = true -> st_eqb b a = true) /\ (st_eqb a b = true -> st_eqb b c = true -> st_eqb a c = true).
Proof.
  intros a b c. rewrite !tables_eq. split; [auto|]. split.
  - intros (? & ? & ? & ? & ?). auto.
  - intros (H1 & H2 & H3 & H4 & H5) (K1 & K2 & K3 & K4 & K5). repeat split; congruence.
Qed.
Print Assumptions C71_equivalence.

(** Tables made in different ways are equal; one more symbol, another version, the flag make a difference. *)
Definition letters (l : list string) : list (option text) := map (fun s => Some (txt s)) l.
Theorem C71_cases :
  (let* base := shared_symbol_table (txt "t") 1 (letters ["x"; "y"]%string) None in
   let* a := local_symbol_table (Some [base]) (letters ["z"]%string) in
   let* b0 := local_symbol_table (Some [base]) [] in
   let* (_, b) := intern b0 (txt "z") in
   let* c := local_symbol_table None (letters ["x"; "y"; "z"]%string) in
   let* d := shared_symbol_table (txt "t") 2 (letters ["x"; "y"]%string) None in
   let* e := placeholder_symbol_table (Some (txt "t")) 1 2 in
   Ok (st_eqb a b, st_eqb a b0, st_eqb a c, st_eqb base d, st_eqb base e)) = Ok (true, false, false, false, false).
Proof. vm_compute. reflexivity. Qed.
