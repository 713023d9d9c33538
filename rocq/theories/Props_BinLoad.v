(** C66: [load] and [loads] of any well-formed binary Ion stream give the values the stream means. *)
From Coq Require Import String.
From Verif Require Import Base BaseFacts CoreModel BinWriterModel BinReaderModel BinReaderSession SymbolsModel ManagedModel Cursor ManagedSpec ManagedReaderFacts MultimapModel SimpleionModel SimpleionSpec SimpleionProofs LoadSpec LoadProofs LoadRefuse
  TextValueModel TextGrammar TextReadValues TextTrees Props_Load BinFormat BinScalars BinLoads.
Local Open Scope Z_scope.
Local Open Scope list_scope.

Lemma binary_chosen fuel cat cs ns : concat cs = stream ns -> load_from fuel OfOctets cat cs = load_stream fuel cat cs.
Proof. intros E. cbn [load_from]. rewrite E. reflexivity. Qed.

(** [stream ns] is a well-formed stream of the binary format; [evs] are the events it encodes, each with the value
    its payload denotes; [ts] are the trees those events make; to a user with the catalog [cat] they are the values
    [us], each with the symbol table in force there, and then the end of the stream or the exception of a symbol
    table that cannot be read; [us] mean [vs].  Then [load], in whatever pieces the octets come, makes Python
    values that mean [vs], or raises that exception. *)
Theorem C66_loads_binary tas cat ns evs ts us fin vs :
  stream_ok ns -> octets (stream ns) -> Forall2 clarified (stream_events ns) evs -> Forall (shaped 0) ts -> flat_map flatten ts = evs ->
  user_view cat system_table ts = (us, fin) -> Forall2 means us vs ->
  exists objs N, map (meaning tas) objs = vs /\ Forall loaded objs /\
  forall cs fuel, chunks_ok cs -> concat cs = stream ns -> (N <= fuel)%nat ->
    match fin with
    | SEnd => load_from fuel OfOctets cat cs = Ok objs
    | SExc e => load_from fuel OfOctets cat cs = Err e
    | SMore => False
    end.
Proof.
  intros OK O CL SH FL UV MN. destruct (binary_fed cat ns evs ts us fin OK O CL SH FL UV) as (us' & M & <- & RD & _ & FEED).
  assert (MN' : Forall2 means us' vs).
  { clear - MN. revert vs MN. induction us' as [|u us IH]; cbn [map]; intros vs MN; inversion MN; subst; constructor; [apply means_settle; assumption|auto]. }
  destruct (stream_loads_as tas us' vs fin MN') as (objs & N & (G & G') & L).
  { eapply Forall_impl; [|exact RD]. apply readable_formed. }
  { apply Forall_flat_map. eapply Forall_impl; [|exact RD]. apply readable_sound. }
  exists objs, (N + M)%nat. split; [exact G|]. split; [exact G'|]. intros cs fuel P C LE. rewrite (binary_chosen fuel cat cs ns C).
  specialize (L _ _ _ (FEED cs fuel P C ltac:(lia)) fuel ltac:(lia)). unfold load_stream. destruct fin as [| |e]; [exact L| |].
  - destruct L as (s' & ->). reflexivity.
  - rewrite L. reflexivity.
Qed.
Print Assumptions C66_loads_binary.

(** If one of the user's values has a symbol identifier that is not in the table in force there, in a value, an
    annotation or a field name, [load] raises an IonException. *)
Theorem C66_unknown_symbol cat ns evs ts us fin :
  stream_ok ns -> octets (stream ns) -> Forall2 clarified (stream_events ns) evs -> Forall (shaped 0) ts -> flat_map flatten ts = evs ->
  user_view cat system_table ts = (us, fin) -> ~ Forall known (flat_map flatten us) ->
  exists N, forall cs fuel, chunks_ok cs -> concat cs = stream ns -> (N <= fuel)%nat -> load_from fuel OfOctets cat cs = Err IonException.
Proof.
  intros OK O CL SH FL UV NK. destruct (binary_fed cat ns evs ts us fin OK O CL SH FL UV) as (us' & M & <- & RD & NF & FEED).
  rewrite all_known_settle in NK. destruct (stream_refused true us' RD NF NK) as (N & R). exists (N + M)%nat. intros cs fuel P C LE. rewrite (binary_chosen fuel cat cs ns C).
  unfold load_stream. rewrite (R _ _ _ fin (FEED cs fuel P C ltac:(lia)) fuel ltac:(lia)). reflexivity.
Qed.
Print Assumptions C66_unknown_symbol.

(** With [single_value]: the only value, or an IonException. *)
Theorem C66_single_value tas cat ns evs ts us vs :
  stream_ok ns -> octets (stream ns) -> Forall2 clarified (stream_events ns) evs -> Forall (shaped 0) ts -> flat_map flatten ts = evs ->
  user_view cat system_table ts = (us, SEnd) -> Forall2 means us vs ->
  exists N, forall cs fuel, chunks_ok cs -> concat cs = stream ns -> (N <= fuel)%nat ->
    match vs with
    | [v] => exists o, load_one fuel OfOctets cat cs = Ok o /\ meaning tas o = v /\ loaded o
    | _ => load_one fuel OfOctets cat cs = Err IonException
    end.
Proof.
  intros OK O CL SH FL UV MN. destruct (C66_loads_binary tas cat ns evs ts us SEnd vs OK O CL SH FL UV MN) as (objs & N & M & L & R). exists N. intros cs fuel P C LE. specialize (R cs fuel P C LE). unfold load_one. rewrite R. cbn [bind].
  destruct objs as [|o [|o2 objs]]; cbn [map] in M; subst vs; try reflexivity. exists o. split; [reflexivity|]. split; [reflexivity|exact (Forall_inv L)].
Qed.
Print Assumptions C66_single_value.

(** Every well-formed stream whose payloads all denote values has its trees, one way only; to the user they end, or
    end with an exception; and if every symbol identifier is in the table in force there, they mean values. *)
Theorem C66_every_stream cat ns evs : stream_ok ns -> octets (stream ns) -> Forall2 clarified (stream_events ns) evs ->
  exists ts, (Forall (shaped 0) ts /\ flat_map flatten ts = evs /\ forall ts', Forall (shaped 0) ts' -> flat_map flatten ts' = evs -> ts' = ts) /\
  exists us fin, user_view cat system_table ts = (us, fin) /\ fin <> SMore /\ (Forall known (flat_map flatten us) -> exists vs, Forall2 means us vs).
Proof.
  intros OK O CL. destruct (stream_forest ns evs OK O CL) as ((SH & PR & FL) & UN & _). eexists. split.
  { split; [exact SH|]. split; [exact FL|]. intros ts' SH' FL'. apply trees_unique; congruence. }
  destruct (user_view cat system_table _) as [us fin] eqn:UV. exists us, fin. split; [reflexivity|]. split; [exact (view_ends _ _ _ _ _ UV)|]. apply stream_known; exact (proj1 (view_readable cat system_table _ us fin SH PR UN UV)).
Qed.
Print Assumptions C66_every_stream.

(** A local symbol table with the symbol x, padding, and a list, its length written over-long, of the symbol [sid] and -256. *)
Definition table_stream (sid : Z) : list node :=
  [NCont None (Some (mkwrapper [0xE7] [0x81] [([0x83], 3)])) TStruct [0xD4] [NCont (Some ([0x87], 7)) None TList [0xB2] [NScalar None None TString (EvThunk KString [120]) [0x81; 120]]];
   NPad None [0x01; 0xFF];
   NCont None None TList [0xBE; 0x00; 0x85] [NScalar None None TSymbol (EvThunk KSymbol [sid]) [0x71; sid]; NScalar None None TInt (EvThunk (KInt (-1)) [1; 0]) [0x32; 1; 0]]].
Definition table_tree (sid : Z) : list (etree event) :=
  [Leaf marker_ev;
   Branch (start_ev TStruct None [by_sid 3] 0) [Branch (start_ev TList (Some (by_sid 7)) [] 1) [leaf TString (VString (txt "x")) None 2] (end_ev TList 1)] (end_ev TStruct 0);
   Branch (start_ev TList None [] 0) [leaf TSymbol (VSymbol (by_sid sid)) None 1; leaf TInt (VInt (-256)) None 1] (end_ev TList 0)].
Lemma table_stream_ok sid : stream_ok (table_stream sid).
Proof.
  unfold stream_ok, table_stream. constructor; [|constructor; [|constructor; [|constructor]]].
  - split; [exact Logic.I|]. split.
    + split; [discriminate|]. split; [constructor; [apply (var_last 0 3); lia|constructor]|]. split; [apply (var_last 0 1); lia|]. left. split; [cbv; intuition discriminate|reflexivity].
    + split; [left; split; [discriminate|]; split; [cbv; intuition discriminate|reflexivity]|]. split; [|exact Logic.I].
      split; [apply (var_last 0 7); lia|]. split; [exact Logic.I|]. split; [left; split; [cbv; intuition discriminate|reflexivity]|]. split; [|exact Logic.I].
      split; [exact Logic.I|]. split; [exact Logic.I|]. apply (sc_payload 8 (Some KString) TString [0x81] [120]); [constructor|left; split; [cbv; intuition discriminate|reflexivity]].
  - split; [exact Logic.I|]. split; [exact Logic.I|]. exists [1], [255]. split; [left; split; [cbv; intuition discriminate|reflexivity]|reflexivity].
  - split; [exact Logic.I|]. split; [exact Logic.I|]. split; [right; exists [0x00; 0x85]; split; [apply (var_more 0 0); [lia|]; apply (var_last (0 * 128 + 0) 5); lia|reflexivity]|].
    split; [|split; [|exact Logic.I]]; (split; [exact Logic.I|]); (split; [exact Logic.I|]).
    + apply (sc_payload 7 (Some KSymbol) TSymbol [0x71] [sid]); [constructor|left; split; [cbv; intuition discriminate|reflexivity]].
    + apply (sc_payload 3 (Some (KInt (-1))) TInt [0x32] [1; 0]); [constructor|left; split; [cbv; intuition discriminate|reflexivity]].
Qed.
Lemma table_octets sid : is_octet sid -> octets (stream (table_stream sid)).
Proof. intros S. cbn. repeat (apply Forall_cons; [unfold is_octet in *; lia|]). exact (Forall_nil _). Qed.
Lemma table_clarified sid : Forall2 clarified (stream_events (table_stream sid)) (flat_map flatten (table_tree sid)).
Proof.
  assert (S : forall e, match ev_value e with EvThunk _ _ => False | _ => True end -> clarified e e).
  { intros [ty t v f an d] H. exists v. split; [destruct v; try reflexivity; contradiction|reflexivity]. }
  cbn [stream_events table_stream table_tree flat_map flatten app events]. unfold leaf. cbn [flatten app].
  repeat (apply Forall2_cons; [first [apply S; exact Logic.I|eexists; split; [eexists; split; [|reflexivity]|reflexivity]]|]); [| | |apply Forall2_nil].
  - apply pd_string. apply (utf8_cons [120] 120 [] []); [apply utf8_1; lia|constructor].
  - exact (pd_symbol [sid]).
  - exact (pd_int (-1) [1; 0]).
Qed.
Lemma table_tree_shaped sid : Forall (shaped 0) (table_tree sid).
Proof. unfold table_tree, leaf. constructor; [|constructor; [|constructor; [|constructor]]]; cbn; intuition. Qed.
Definition table_after (cat : catalog) : symtab := match fst (user_view cat system_table (table_tree 10)) with [Branch u _ _] => me_table u | _ => system_table end.
Lemma table_tree_view sid cat : sid = 10 \/ sid = 11 -> user_view cat system_table (table_tree sid) = (map (tree_map (fun e => mkme e (table_after cat))) (tl (tl (table_tree sid))), SEnd).
Proof. intros [-> | ->]; vm_compute; reflexivity. Qed.
Example C66_sample tas cat : exists N, forall cs fuel, chunks_ok cs -> concat cs = stream (table_stream 10) -> (N <= fuel)%nat ->
  exists o, load_one fuel OfOctets cat cs = Ok o /\ meaning tas o = ISeq false [] [ISymbol [] (Some (txt "x")); IScalar TInt [] (VInt (-256))] /\ loaded o.
Proof.
  refine (C66_single_value tas cat (table_stream 10) _ (table_tree 10) _ [ISeq false [] [ISymbol [] (Some (txt "x")); IScalar TInt [] (VInt (-256))]]
    (table_stream_ok 10) (table_octets 10 ltac:(unfold is_octet; lia)) (table_clarified 10) (table_tree_shaped 10) eq_refl (table_tree_view 10 cat ltac:(auto)) _).
  unfold table_tree, leaf. cbn [tl map tree_map]. constructor; [|constructor]. apply (means_sequence _ _ _ TList [] [_; _]); [reflexivity|auto|constructor|]. constructor; [|constructor; [|constructor]].
  - eapply means_symbol; [reflexivity|constructor|reflexivity|]. exists 10, (mktok (Some (txt "x")) (Some 10) None). split; [reflexivity|]. split; [vm_compute; reflexivity|reflexivity].
  - apply means_scalar; [reflexivity|discriminate|constructor|reflexivity|exact Logic.I].
Qed.
Example C66_unknown_sample cat : exists N, forall cs fuel, chunks_ok cs -> concat cs = stream (table_stream 11) -> (N <= fuel)%nat -> load_from fuel OfOctets cat cs = Err IonException.
Proof.
  refine (C66_unknown_symbol cat (table_stream 11) _ (table_tree 11) _ SEnd (table_stream_ok 11) (table_octets 11 ltac:(unfold is_octet; lia)) (table_clarified 11) (table_tree_shaped 11) eq_refl (table_tree_view 11 cat ltac:(auto)) _).
  unfold table_tree, leaf. cbn [tl map tree_map flat_map flatten app]. intros K. apply Forall_inv_tail in K. destruct (Forall_inv K) as (_ & _ & V). unfold valued in V. cbn [me_ev] in V. destruct (V _ eq_refl) as (x & sid & r & S & G & _). injection S as S. subst sid. vm_compute in G. discriminate G.
Qed.
