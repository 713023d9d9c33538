(** C64: [load] and [loads] of any text of the Ion text grammar give the values the text means. *)
From Coq Require Import String.
From Verif Require Import Base BaseFacts CoreModel BinWriterModel BinReaderModel SymbolsModel ManagedModel Cursor ManagedSpec ManagedReaderFacts MultimapModel SimpleionModel SimpleionSpec SimpleionProofs LoadSpec LoadProofs LoadRefuse
  TextNumbers TextReaderModel TextReaderChunks TextWalk TextValueModel TextManagedReads TextRoundTripSpec TextGrammar TextReadValues TextTrees Props_TextGrammar.
Local Open Scope Z_scope.

(** The four octets that make [load] read binary Ion. *)
Definition binary_marked (src : source) (l : text) : Prop := src = OfOctets /\ exists r, l = [0xE0; 0x01; 0x00; 0xEA] ++ r.
Lemma text_chosen fuel src cat cs : ~ binary_marked src (concat cs) -> load_from fuel src cat cs = load_text fuel (match src with OfText => true | OfOctets => false end) cat cs.
Proof.
  intros N. destruct src; [reflexivity|]. cbn [load_from]. destruct (zlist_eqb (firstn 4 (concat cs)) [0xE0; 0x01; 0x00; 0xEA]) eqn:E; [|reflexivity].
  exfalso. apply N. split; [reflexivity|]. exists (skipn 4 (concat cs)). apply zlist_eqb_eq in E. rewrite <- E. symmetry. apply firstn_skipn.
Qed.

(** What a text of the grammar feeds [load] with. *)
Lemma text_fed uni cat l evs ts us fin : document l evs -> Forall (shaped 0) ts -> flat_map flatten ts = evs -> user_view cat system_table ts = (us, fin) ->
  exists us' N, map (tree_map usettle) us' = us /\ Forall readable us' /\ Forall (fun t => field_of t = None) us' /\
  forall cs fuel, pieces cs -> concat cs = l -> (N <= fuel)%nat -> feeds (text_feeder_next fuel uni cat) (tmreader_new, cs) (flat_map flatten us') fin.
Proof.
  intros DOC SH FL UV. destruct (document_trees _ _ DOC) as (ts0 & (SH0 & PR & FL0) & UN). assert (ts = ts0) as <- by (apply trees_unique; congruence).
  destruct (document_reads l evs uni DOC) as (evs' & sf & AN & W & F). pose proof (all_settle _ _ (document_said _ _ DOC) AN) as AS. rewrite <- FL in AS.
  destruct (trees_unmap settle ts evs' AS) as (ts' & E & FL'). rewrite <- FL' in W.
  destruct (user_view cat system_table ts') as [us' fin'] eqn:UV'. pose proof (view_settle cat ts' system_table us' fin' UV') as VS. rewrite E, UV in VS. injection VS as -> ->.
  assert (SH' : Forall (shaped 0) ts').
  { rewrite <- E, Forall_map in SH. eapply Forall_impl; [|exact SH]. intros t. apply shaped_settle. }
  destruct (view_readable cat system_table ts _ _ SH PR UN UV) as (RD & NF). rewrite Forall_map in RD, NF.
  exists us', (flushes * S (weights ts'))%nat. split; [reflexivity|]. split; [eapply Forall_impl; [|exact RD]; apply readable_settle|]. split; [eapply Forall_impl; [|exact NF]; intros t H; cbv beta in H; rewrite field_settle in H; exact H|].
  intros cs fuel P C LE. exact (text_view uni cat cs ts' sf us' fin' fuel P ltac:(rewrite C; exact W) F SH' UV' LE).
Qed.
Definition unicode (src : source) : bool := match src with OfText => true | OfOctets => false end.

(** A text of the grammar says the events [evs]; [ts] are the trees those events make; to a user with the
    catalog [cat] they are the values [us], each with the symbol table in force there, and then the end of
    the stream or the exception of a symbol table that cannot be read; [us] mean [vs].  Then [load], from
    any source, in whatever pieces the text comes, makes Python values that mean [vs], or raises that exception. *)
Theorem C64_loads_text tas src cat l evs ts us fin vs :
  document l evs -> Forall (shaped 0) ts -> flat_map flatten ts = evs -> user_view cat system_table ts = (us, fin) -> Forall2 means us vs ->
  exists objs N, map (meaning tas) objs = vs /\ Forall loaded objs /\
  forall cs fuel, pieces cs -> concat cs = l -> ~ binary_marked src l -> (N <= fuel)%nat ->
    match fin with
    | SEnd => load_from fuel src cat cs = Ok objs
    | SExc e => load_from fuel src cat cs = Err e
    | SMore => False
    end.
Proof.
  intros DOC SH FL UV MN. destruct (text_fed (unicode src) cat l evs ts us fin DOC SH FL UV) as (us' & M & <- & RD & _ & FEED).
  assert (MN' : Forall2 means us' vs).
  { clear - MN. revert vs MN. induction us' as [|u us IH]; cbn [map]; intros vs MN; inversion MN; subst; constructor; [apply means_settle; assumption|auto]. }
  destruct (stream_loads_as tas us' vs fin MN') as (objs & N & (G & G') & L).
  { eapply Forall_impl; [|exact RD]. apply readable_formed. }
  { apply Forall_flat_map. eapply Forall_impl; [|exact RD]. apply readable_sound. }
  exists objs, (N + M)%nat. split; [exact G|]. split; [exact G'|]. intros cs fuel P C NB LE. rewrite (text_chosen fuel src cat cs) by (rewrite C; exact NB).
  specialize (L _ _ _ (FEED cs fuel P C ltac:(lia)) fuel ltac:(lia)). unfold load_text. change (match src with OfText => true | OfOctets => false end) with (unicode src). destruct fin as [| |e]; [exact L| |].
  - destruct L as (s' & ->). reflexivity.
  - rewrite L. reflexivity.
Qed.
(** If one of the user's values has a symbol without text whose identifier is not in the table in force, in a
    value, an annotation or a field name, [load] raises an IonException. *)
Theorem C64_unknown_symbol src cat l evs ts us fin :
  document l evs -> Forall (shaped 0) ts -> flat_map flatten ts = evs -> user_view cat system_table ts = (us, fin) -> ~ Forall known (flat_map flatten us) ->
  exists N, forall cs fuel, pieces cs -> concat cs = l -> ~ binary_marked src l -> (N <= fuel)%nat -> load_from fuel src cat cs = Err IonException.
Proof.
  intros DOC SH FL UV NK. destruct (text_fed (unicode src) cat l evs ts us fin DOC SH FL UV) as (us' & M & <- & RD & NF & FEED).
  rewrite all_known_settle in NK. destruct (stream_refused true us' RD NF NK) as (N & R). exists (N + M)%nat. intros cs fuel P C NB LE. rewrite (text_chosen fuel src cat cs) by (rewrite C; exact NB).
  unfold load_text. change (match src with OfText => true | OfOctets => false end) with (unicode src). rewrite (R _ _ _ fin (FEED cs fuel P C ltac:(lia)) fuel ltac:(lia)). reflexivity.
Qed.
(** With [single_value]: the only value, or an IonException. *)
Theorem C64_single_value tas src cat l evs ts us vs :
  document l evs -> Forall (shaped 0) ts -> flat_map flatten ts = evs -> user_view cat system_table ts = (us, SEnd) -> Forall2 means us vs ->
  exists N, forall cs fuel, pieces cs -> concat cs = l -> ~ binary_marked src l -> (N <= fuel)%nat ->
    match vs with
    | [v] => exists o, load_one fuel src cat cs = Ok o /\ meaning tas o = v /\ loaded o
    | _ => load_one fuel src cat cs = Err IonException
    end.
Proof.
  intros DOC SH FL UV MN. destruct (C64_loads_text tas src cat l evs ts us SEnd vs DOC SH FL UV MN) as (objs & N & M & L & R). exists N. intros cs fuel P C NB LE. specialize (R cs fuel P C NB LE). unfold load_one. rewrite R. cbn [bind].
  destruct objs as [|o [|o2 objs]]; cbn [map] in M; subst vs; try reflexivity. exists o. split; [reflexivity|]. split; [reflexivity|exact (Forall_inv L)].
Qed.
(** Every text of the grammar has its trees, one way only; to the user they end, or end with an exception; and
    if every symbol in a value has a text or an identifier of the table in force there, they mean values. *)
Theorem C64_every_text cat l evs : document l evs ->
  exists ts, (Forall (shaped 0) ts /\ flat_map flatten ts = evs /\ forall ts', Forall (shaped 0) ts' -> flat_map flatten ts' = evs -> ts' = ts) /\
  exists us fin, user_view cat system_table ts = (us, fin) /\ fin <> SMore /\ (Forall known (flat_map flatten us) -> exists vs, Forall2 means us vs).
Proof.
  intros DOC. destruct (document_trees _ _ DOC) as (ts & (SH & PR & FL) & UN). exists ts. split.
  { split; [exact SH|]. split; [exact FL|]. intros ts' SH' FL'. apply trees_unique; congruence. }
  destruct (user_view cat system_table ts) as [us fin] eqn:UV. exists us, fin. split; [reflexivity|]. split; [|apply stream_known; exact (proj1 (view_readable cat system_table ts us fin SH PR UN UV))].
  clear - UV. generalize system_table UV. clear UV. revert us fin. induction ts as [|t ts IH]; intros us fin table; cbn [user_view].
  - intros [= <- <-]. discriminate.
  - destruct (system_value cat table t) as [[t'|]|e]; [apply IH| |intros [= <- <-]; discriminate]. destruct (user_view cat table ts) as [us0 fin0] eqn:E. intros [= <- <-]. exact (IH _ _ _ E).
Qed.

(** The text of C63's sample means a struct. *)
Definition leaf (t : iontype) (v : scalar) (f : option token) (d : Z) : etree event := Leaf (scalar_ev t (Some v) f [] d).
Definition sample_trees : list (etree event) :=
  [Leaf marker_ev; Branch (start_ev TStruct None [sym "a"] 0)
    [Branch (start_ev TList (Some (sym "b")) [] 1) [leaf TInt (VInt 10) None 2] (end_ev TList 1);
     Branch (start_ev TSexp (Some (sym "c")) [] 1) [leaf TSymbol (VSymbol (sym "+")) None 2; leaf TSymbol (VSymbol (sym "d")) None 2] (end_ev TSexp 1)] (end_ev TStruct 0)].
Definition sample_value : ionval :=
  IStruct [Some (txt "a")] [(Some (txt "b"), ISeq false [] [IScalar TInt [] (VInt 10)]); (Some (txt "c"), ISeq true [] [ISymbol [] (Some (txt "+")); ISymbol [] (Some (txt "d"))])].
Example C64_sample tas src cat : exists us N, user_view cat system_table sample_trees = (us, SEnd) /\ Forall2 means us [sample_value] /\
  forall cs fuel, pieces cs -> concat cs = sample -> (N <= fuel)%nat -> exists o, load_one fuel src cat cs = Ok o /\ meaning tas o = sample_value /\ loaded o.
Proof.
  assert (SH : Forall (shaped 0) sample_trees).
  { unfold sample_trees, leaf. constructor; [|constructor; [|constructor]]; cbn; intuition. }
  assert (MN : Forall2 means (fst (user_view cat system_table sample_trees)) [sample_value]).
  { cbn. constructor; [|constructor]. unfold sample_value. 
    apply (means_struct _ _ _ [Some (txt "a")] [(Some (txt "b"), ISeq false [] [IScalar TInt [] (VInt 10)]); (Some (txt "c"), ISeq true [] [ISymbol [] (Some (txt "+")); ISymbol [] (Some (txt "d"))])]).
    - reflexivity.
    - constructor; [reflexivity|constructor].
    - constructor; [|constructor; [|constructor]]; cbn [first_event fst snd]; (split; [eexists; split; reflexivity|]).
      + apply (means_sequence _ _ _ TList [] [_]); [reflexivity|auto|constructor|]. constructor; [|constructor]. apply means_scalar; [reflexivity|discriminate|constructor|reflexivity|exact Logic.I].
      + apply (means_sequence _ _ _ TSexp [] [_; _]); [reflexivity|auto|constructor|]. constructor; [|constructor; [|constructor]]; (eapply means_symbol; [reflexivity|constructor|reflexivity|reflexivity]). }
  destruct (user_view cat system_table sample_trees) as [us fin] eqn:UV. assert (fin = SEnd) as -> by (vm_compute in UV; congruence). cbn [fst] in MN.
  destruct (C64_single_value tas src cat sample sample_events sample_trees us [sample_value] C63_sample SH eq_refl UV MN) as (N & R). exists us, N. split; [reflexivity|]. split; [exact MN|]. intros cs fuel P C LE. apply R; auto.
  intros (_ & r & E). discriminate E.
Qed.

(** A local symbol table, and a symbol with an identifier in it or out of it. *)
Definition table_text (c : Z) : text := txt "$ion_symbol_table::{symbols:[""x""]} [$1" ++ [c; 93].
Definition table_trees (c : Z) : list (etree event) :=
  [Branch (start_ev TStruct None [sym "$ion_symbol_table"] 0) [Branch (start_ev TList (Some (sym "symbols")) [] 1) [leaf TString (VString (txt "x")) None 2] (end_ev TList 1)] (end_ev TStruct 0);
   Branch (start_ev TList None [] 0) [leaf TSymbol (VSymbol (mktok None (Some (number 10 [49; c])) None)) None 1] (end_ev TList 0)].
Lemma word_name s : bare_symbol (txt s) -> ~ like_sid (txt s) -> plain_name (txt s) (sym s).
Proof. apply name_bare. Qed.
Ltac bare_ := split; [eexists _, _; split; [reflexivity|]; split; [unfold name_start; cbn; lia|]|cbn; intros N; repeat (destruct N as [N|N]; [discriminate N|]); exact N]; repeat (apply Forall_cons; [unfold name_start, digit; cbn; lia|]); apply Forall_nil.
Lemma table_document c : digit c -> document (table_text c) (flat_map flatten (table_trees c)).
Proof.
  intros D. apply (document_of [] (table_text c)); [constructor|].
  apply (stream_value (table_text c) (flatten (hd (Leaf marker_ev) (table_trees c))) (txt "[$1" ++ [c; 93]) (flatten (hd (Leaf marker_ev) (tl (table_trees c))))).
  - apply (value_struct Outside 0 None (txt "$ion_symbol_table::") [sym "$ion_symbol_table"] [] (txt "symbols:[""x""]} [$1" ++ [c; 93])
      [start_ev TList (Some (sym "symbols")) [] 1; scalar_ev TString (Some (VString (txt "x"))) None [] 2; end_ev TList 1] [32] (txt "[$1" ++ [c; 93])).
    + apply (annots_one (txt "$ion_symbol_table") (sym "$ion_symbol_table") [] [] [] []); [constructor|split; constructor|constructor|constructor].
      apply word_name; [bare_|]. unfold like_sid. cbn. intros (ds & E & _ & F). injection E as <-. inversion F as [|? ? X]. unfold digit in X. lia.
    + constructor.
    + apply (fields_last 1 (txt "symbols:") (sym "symbols") (txt "[""x""]} [$1" ++ [c; 93]) _ ([32] ++ txt "[$1" ++ [c; 93])).
      * apply (field_name (txt "symbols") (sym "symbols") [] []); [constructor|split; constructor|constructor]. apply word_name; [bare_|]. unfold like_sid. cbn. intros (ds & E & _). discriminate E.
      * apply (value_list InStruct 1 (Some (sym "symbols")) [] [] [] (txt """x""]} [$1" ++ [c; 93]) [scalar_ev TString (Some (VString (txt "x"))) None [] 2] [] (txt "} [$1" ++ [c; 93])); [constructor|constructor| |].
        -- apply (items_last 2 (txt """x""]} [$1" ++ [c; 93]) _ (txt "} [$1" ++ [c; 93])).
           apply (value_scalar InList 2 None [] [] (txt """x""") TString (Some (VString (txt "x"))) free [] (txt "]} [$1" ++ [c; 93])); [constructor| |exact Logic.I| |unlike].
           ++ apply (text_string InList (txt "x") (txt "x")). apply (body_item false (short_raw 34) true [] (txt "x") (txt "x") [] []); [auto|apply item_raw; [split; cbn; lia|unfold scalar_value; cbn; lia|cbn; lia|cbn; lia]|cbn; lia|constructor].
           ++ apply trailing_gap; [constructor|]. split; [unfold blank; cbn; lia|cbn; lia].
        -- apply trailing_gap; [constructor|]. split; [unfold blank; cbn; lia|cbn; lia].
    + apply trailing_gap; [apply gap_blank; [blank_|constructor]|]. split; [unfold blank; cbn; lia|cbn; lia].
  - apply (stream_value (txt "[$1" ++ [c; 93]) [start_ev TList None [] 0; scalar_ev TSymbol (Some (VSymbol (mktok None (Some (number 10 [49; c])) None))) None [] 1; end_ev TList 0] [] []); [|constructor].
    apply (value_list Outside 0 None [] [] [] (txt "$1" ++ [c; 93]) [scalar_ev TSymbol (Some (VSymbol (mktok None (Some (number 10 [49; c])) None))) None [] 1] [] []); [constructor|constructor| |].
    2: { apply trailing_gap; [constructor|exact Logic.I]. }
    apply (items_last 1 (txt "$1" ++ [c; 93]) _ []).
    apply (value_scalar InList 1 None [] [] (txt "$1" ++ [c]) TSymbol (Some (VSymbol (mktok None (Some (number 10 [49; c])) None))) after_name [] [93]).
    + constructor.
    + apply text_plain_name. apply (name_sid [49; c]); [discriminate|]. repeat constructor; unfold digit in *; lia.
    + cbn. unfold shuts. cbn. tauto.
    + apply trailing_gap; [constructor|]. split; [unfold blank; cbn; lia|cbn; lia].
    + unlike.
Qed.
Lemma table_shaped c : Forall (shaped 0) (table_trees c).
Proof. unfold table_trees, leaf. constructor; [|constructor; [|constructor]]; cbn; intuition. Qed.
Definition table_of (c : Z) (cat : catalog) : symtab := match fst (user_view cat system_table (table_trees c)) with [Branch u _ _] => me_table u | _ => system_table end.
Lemma table_view c cat : c = 48 \/ c = 49 -> user_view cat system_table (table_trees c) = (map (tree_map (fun e => mkme e (table_of c cat))) (tl (table_trees c)), SEnd).
Proof. intros [-> | ->]; vm_compute; reflexivity. Qed.
Example C64_table_sample tas src cat : exists N, forall cs fuel, pieces cs -> concat cs = table_text 48 -> (N <= fuel)%nat ->
  exists o, load_one fuel src cat cs = Ok o /\ meaning tas o = ISeq false [] [ISymbol [] (Some (txt "x"))] /\ loaded o.
Proof.
  assert (D : digit 48) by (unfold digit; lia).
  destruct (C64_single_value tas src cat (table_text 48) _ (table_trees 48) _ [ISeq false [] [ISymbol [] (Some (txt "x"))]] (table_document 48 D) (table_shaped 48) eq_refl (table_view 48 cat ltac:(auto))) as (N & R).
  - unfold table_trees, leaf. cbn [tl map tree_map]. constructor; [|constructor]. apply (means_sequence _ _ _ TList [] [_]); [reflexivity|auto|constructor|]. constructor; [|constructor]. eapply means_symbol; [reflexivity|constructor|reflexivity|].
    exists 10, (mktok (Some (txt "x")) (Some 10) None). split; [reflexivity|]. split; [vm_compute; reflexivity|reflexivity].
  - exists N. intros cs fuel P C LE. apply R; auto. intros (_ & r & E). discriminate E.
Qed.
Example C64_unknown_sample src cat : exists N, forall cs fuel, pieces cs -> concat cs = table_text 49 -> (N <= fuel)%nat -> load_from fuel src cat cs = Err IonException.
Proof.
  assert (D : digit 49) by (unfold digit; lia).
  destruct (C64_unknown_symbol src cat (table_text 49) _ (table_trees 49) _ _ (table_document 49 D) (table_shaped 49) eq_refl (table_view 49 cat ltac:(auto))) as (N & R).
  - unfold table_trees, leaf. cbn [tl map tree_map flat_map flatten app]. intros K. apply Forall_inv_tail in K. destruct (Forall_inv K) as (_ & _ & V). unfold valued in V. cbn [me_ev] in V. destruct (V _ eq_refl) as (x & sid & r & S & G & _). injection S as S. subst sid. vm_compute in G. discriminate G.
  - exists N. intros cs fuel P C LE. apply R; auto. intros (_ & r & E). discriminate E.
Qed.
