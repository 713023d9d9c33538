(** C79: [load] and [loads] of Ion text end, with a list of values or one of eleven exceptions, for any text in any pieces
    that holds no star and no backslash and opens no symbol table ([C75_open_comment_hangs] and [C75_open_table_hangs]
    show that these calls can wait for ever). *)
From Coq Require Import String.
From Verif Require Import Base BaseFacts CoreModel BinReaderModel SymbolsModel SymbolsProofs ManagedModel MultimapModel SimpleionModel TextNumbers TextWriterModel TextReaderModel TextReaderChunks TextValueModel Props_BinLoadErrors Props_TextLoadErrors TextEnds TextFinish Props_TextEnds.
From Verif Require TextLoadEnds.
Local Open Scope Z_scope.
Local Open Scope list_scope.

(** The start of a symbol table: a struct on top whose first annotation is $ion_symbol_table, by name or as $3. *)
Definition opens_table (e : event) : Prop :=
  ev_type e = EContainerStart /\ ev_ion_type e = Some TStruct /\ ev_depth e = Some 0 /\
  exists a l, ev_annot e = a :: l /\ (tk_text a = Some (chars "$ion_symbol_table") \/ (tk_text a = None /\ tk_sid a = Some 3)).
(** The events of the text: after so many requests the session has stopped ([C79_reading_ends]). *)
Definition enough (pieces : list (list Z)) : nat := (37 * length_of pieces + 16)%nat.
Definition events_of (src : source) (pieces : list (list Z)) : list event :=
  fst (text_session (match src with OfText => true | OfOctets => false end) text_reader_new pieces (repeat DNext (enough pieces))).

Lemma chosen fuel src cat cs : read_as_text src cs -> load_from fuel src cat cs = load_text fuel (match src with OfText => true | OfOctets => false end) cat cs.
Proof. destruct src; cbn [read_as_text load_from]; intros H; [reflexivity|]. destruct (zlist_eqb _ _) eqn:E; [apply zlist_eqb_eq in E; contradiction|reflexivity]. Qed.
Theorem C79_load_ends : forall history cat src pieces fuel,
  register_all catalog_new history = Ok cat -> read_as_text src pieces ->
  (forall p, In p pieces -> p <> []) -> (forall c, In c (concat pieces) -> c <> 42 /\ c <> 92) ->
  (forall e, In e (events_of src pieces) -> ~ opens_table e) ->
  (3 * enough pieces <= fuel)%nat ->
  match load_from fuel src cat pieces with Ok _ => True | Err e => text_load_exception e end.
Proof.
  intros history cat src pieces fuel R T P F NT L. pose proof (C75_text_load_answers fuel history cat src pieces R T) as W.
  assert (S : load_from fuel src cat pieces <> Err OutOfFuel).
  { rewrite (chosen _ _ _ _ T). assert (NC : no_empty_name cat) by (apply (registered_names _ _ _ R); intros ? ?; discriminate).
    apply (TextLoadEnds.load_text_ends _ cat NC fuel (enough pieces)); [|unfold enough in *; lia|exact L].
    apply TextLoadEnds.session_ending.
    - apply C79_reading_ends; [exact P|unfold enough; lia].
    - apply C79_reading_answers; assumption.
    - exact NT. }
  destruct (load_from fuel src cat pieces) as [vs|e]; [exact Logic.I|]. destruct W as [W| ->]; [exact W|congruence].
Qed.
Print Assumptions C79_load_ends.
(** So the call ends: from some number of steps on the answer is always the same. *)
Theorem C79_load_is_settled : forall history cat src pieces,
  register_all catalog_new history = Ok cat -> read_as_text src pieces ->
  (forall p, In p pieces -> p <> []) -> (forall c, In c (concat pieces) -> c <> 42 /\ c <> 92) ->
  (forall e, In e (events_of src pieces) -> ~ opens_table e) ->
  exists answer, answer <> Err OutOfFuel /\ forall fuel, (3 * enough pieces <= fuel)%nat -> load_from fuel src cat pieces = answer.
Proof.
  intros history cat src pieces R T P F NT. exists (load_from (3 * enough pieces) src cat pieces).
  pose proof (C79_load_ends history cat src pieces _ R T P F NT (le_n _)) as A.
  assert (N : load_from (3 * enough pieces) src cat pieces <> Err OutOfFuel) by (intros E; rewrite E in A; exact A).
  split; [exact N|]. intros fuel L. exact (C75_more_steps _ _ src cat pieces T L N).
Qed.
Print Assumptions C79_load_is_settled.

Lemma free_of (l : list Z) : forallb (fun c => negb (c =? 42) && negb (c =? 92)) l = true -> forall c, In c l -> c <> 42 /\ c <> 92.
Proof. intros B c I. rewrite forallb_forall in B. specialize (B c I). lia. Qed.
Definition named_table (e : event) : bool :=
  match ev_annot e with
  | a :: _ => match tk_text a with Some x => zlist_eqb x (chars "$ion_symbol_table") | None => true end
  | [] => false
  end.
Lemma none_opens l : forallb (fun e => negb (named_table e)) l = true -> forall e, In e l -> ~ opens_table e.
Proof.
  intros B e I (_ & _ & _ & a & r & E & H). rewrite forallb_forall in B. specialize (B e I). unfold named_table in B. rewrite E in B. destruct H as [H|(H & _)]; rewrite H in B; [|discriminate].
  assert (X : zlist_eqb (chars "$ion_symbol_table") (chars "$ion_symbol_table") = true) by (vm_compute; reflexivity). rewrite X in B. discriminate.
Qed.
(** A concrete text that meets the hypotheses, in two pieces. *)
Definition case_pieces : list (list Z) := [chars "a::{b:[1"; chars "]} 'x'"].
Theorem C79_load_case :
  read_as_text OfText case_pieces /\ (forall p, In p case_pieces -> p <> []) /\ (forall c, In c (concat case_pieces) -> c <> 42 /\ c <> 92) /\
  (forall e, In e (events_of OfText case_pieces) -> ~ opens_table e) /\
  exists vs, load_from (3 * enough case_pieces) OfText [] case_pieces = Ok vs /\ List.length vs = 2%nat.
Proof.
  split; [exact Logic.I|]. split; [intros p I; vm_compute in I; intuition congruence|]. split; [apply free_of; vm_compute; reflexivity|]. split.
  - apply none_opens. vm_compute. reflexivity.
  - assert (V : match load_from (3 * enough case_pieces) OfText [] case_pieces with Ok vs => List.length vs | Err _ => 0%nat end = 2%nat) by (vm_compute; reflexivity).
    destruct (load_from _ _ _ _) as [vs|e]; [exists vs; auto|discriminate].
Qed.
(** The hypothesis is needed: the text of [C75_open_table_hangs] meets the others. *)
Theorem C79_open_table_waits : read_as_text OfText open_table /\ (forall c, In c (concat open_table) -> c <> 42 /\ c <> 92) /\
  forall fuel, load_from fuel OfText [] open_table = Err OutOfFuel.
Proof. split; [exact Logic.I|]. split; [apply free_of; vm_compute; reflexivity|]. intros fuel. apply C75_open_table_hangs. Qed.
