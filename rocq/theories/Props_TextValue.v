(** C61: the Python value API on text Ion; C62: text Ion is ASCII.  [text_meaning] (SimpleionSpec,
    TextValueSpec) is the Ion value a Python value stands for: type, annotations by text, content (every
    NaN the same), elements in order, fields by text, in order.  [text_storable]: the values text Ion can
    hold. *)
From Coq Require Import String.
From Verif Require Import Base BaseFacts CoreModel ScalarFacts TimestampFacts ScalarProofs BinWriterModel BinReaderModel BinReaderSpec BinReaderSim BinReaderSession SymbolsModel ManagedModel ManagedSpec ManagedRoundTrip ManagedAccept MultimapModel TextReaderChunks TextSymbols TextStream SimpleionModel SimpleionSpec SimpleionProofs SimpleionDump Props_Simpleion
  EquivModel EquivSpec EquivMeaning EquivRoundTrip
  TextWriterModel Props_TextWriter TextReaderModel TextRoundTripSpec Props_TextRoundTrip TextValueModel TextValueSpec TextManaged TextValueProofs TextAscii TextValueLoad.
Local Open Scope Z_scope.

(** * C61 *)

(** [dumps(v, binary=False, indent=..., omit_version_marker=...)] accepts every storable value, and
    [loads] of the text (or of its octets), in any pieces, returns a value with the same meaning. *)
Theorem C61_dumps_loads : forall cat indent omit tas v,
  blank_indent indent -> text_storable v -> ~ text_reserved v ->
  exists s, dumps_text indent omit tas false v = Ok s /\
  exists v', text_meaning tas v' = text_meaning tas v /\ text_loaded v' /\
  exists enough, forall src chunks fuel, pieces chunks -> concat chunks = s -> (enough <= fuel)%nat ->
    load_one fuel src cat chunks = Ok v'.
Proof.
  intros cat indent omit tas v BI ST NR.
  destruct (text_dump_load cat indent omit tas false v BI ltac:(constructor; [exact ST|constructor]) ltac:(constructor; [exact NR|constructor])) as (out & _ & D & _ & l' & [E LO] & enough & L).
  exists out. split; [exact D|]. cbn [top_level map] in E. destruct l' as [|v' [|w l']]; try discriminate. injection E as E. exists v'. split; [exact E|]. split; [inversion LO; assumption|].
  exists enough. intros src chunks fuel P CE LE. unfold load_one. rewrite (L src chunks fuel P CE LE). reflexivity.
Qed.
Print Assumptions C61_dumps_loads.

(** A sequence dumped with [sequence_as_stream] is read back element by element; as a single value only
    if there is exactly one. *)
Theorem C61_streams : forall cat indent omit tas v vs,
  blank_indent indent -> (v = PList vs \/ v = PTuple vs \/ exists sexp an, v = PSeq sexp an vs) ->
  Forall text_storable vs -> Forall (fun x => ~ text_reserved x) vs ->
  exists s, dumps_text indent omit tas true v = Ok s /\
  exists l', map (text_meaning tas) l' = map (text_meaning tas) vs /\ Forall text_loaded l' /\
  exists enough, forall src chunks fuel, pieces chunks -> concat chunks = s -> (enough <= fuel)%nat ->
    load_from fuel src cat chunks = Ok l' /\
    load_one fuel src cat chunks = match l' with [x] => Ok x | _ => Err IonException end.
Proof.
  intros cat indent omit tas v vs BI SV ST NR. assert (T : top_level true v = vs) by (destruct SV as [->|[->|(sexp & an & ->)]]; reflexivity).
  destruct (text_dump_load cat indent omit tas true v BI ltac:(rewrite T; exact ST) ltac:(rewrite T; exact NR)) as (out & _ & D & _ & l' & [E LO] & enough & L). rewrite T in E.
  exists out. split; [exact D|]. exists l'. split; [exact E|]. split; [exact LO|]. exists enough. intros src chunks fuel P CE LE.
  specialize (L src chunks fuel P CE LE). split; [exact L|]. unfold load_one. rewrite L. destruct l' as [|x [|y r]]; reflexivity.
Qed.
Print Assumptions C61_streams.

(** [ion_equals] accepts what comes back ([definite]: symbols and annotations of known text). *)
Lemma name_real a : text_name a -> real_arg a.
Proof. destruct a as [t|x]; [|exact (fun _ => Logic.I)]. unfold text_name. cbn [arg_text real_arg]. unfold real_token. destruct (tk_text t); [left; discriminate|intros E; right; congruence]. Qed.
Lemma text_ok_real t s : text_scalar_ok t s -> real_scalar s.
Proof.
  destruct (iontype_eqb t TSymbol) eqn:E.
  - assert (t = TSymbol) as -> by (destruct t; try discriminate; reflexivity). intros (a & A & G). destruct s; try discriminate A; [|exact Logic.I]. injection A as <-. exact (name_real _ G).
  - intros K. assert (F : scalar_fits t s) by (destruct t; try discriminate; exact K). clear K. destruct t; try discriminate E; destruct s; cbn in F; try contradiction; try exact Logic.I; [exact F|exact (proj1 F)].
Qed.
Lemma text_ok_symbol s : text_scalar_ok TSymbol s -> exists a, symbol_arg s = Some a.
Proof. intros (a & A & _). eauto. Qed.
Lemma text_content_real s : real_scalar s -> real_scalar (text_content s).
Proof. destruct s as [b|z|b|d|[x|d]|tk|tx|by_]; intros R; try exact R; try exact Logic.I. cbn [text_content]. destruct (2047 * 2 ^ 52 <? b mod 2 ^ 63); [cbn; lia|exact R]. Qed.
Lemma text_content_equal inst s : definite_scalar s ->
  match text_content s, s with
  | VTimestamp x, VTimestamp y => stamp_eq inst x y = true
  | VTimestamp _, _ => False
  | VFloat x, VFloat y => real_scalar s -> floats_eq x y = true
  | _, _ => text_content s = s
  end.
Proof.
  intros D. pose proof (content_equal inst s D) as C. destruct s as [b|z|b|d|x|tk|tx|by_]; try exact C. cbn [text_content].
  destruct (2047 * 2 ^ 52 <? b mod 2 ^ 63) eqn:E; [|exact C]. intros R. apply floats_true; [lia|exact R|]. right. split; [reflexivity|exact E].
Qed.
Theorem C61_dumps_loads_equals : forall cat indent omit tas v inst teq,
  blank_indent indent -> text_storable v -> ~ text_reserved v -> definite v ->
  exists s, dumps_text indent omit tas false v = Ok s /\
  exists v' enough, (forall src chunks fuel, pieces chunks -> concat chunks = s -> (enough <= fuel)%nat -> load_one fuel src cat chunks = Ok v') /\
    ion_equals inst teq v' v = Ok true /\ ion_equals inst teq v v' = Ok true.
Proof.
  intros cat indent omit tas v inst teq BI ST NR DE. destruct (C61_dumps_loads cat indent omit tas v BI ST NR) as (s & D & v' & M & LO & enough & L).
  exists s. split; [exact D|]. exists v', enough. split; [exact L|].
  exact (proj2 (reload_equal inst teq tas text_name text_scalar_ok text_key text_content name_real text_ok_real text_ok_symbol text_content_real (text_content_equal inst) v ST DE v' LO M)).
Qed.
Print Assumptions C61_dumps_loads_equals.

(** Text and binary agree: a value that both can hold is read back from either with the same meaning. *)
Fixpoint one_nan (i : ionval) : ionval :=
  match i with
  | INull t an => INull t an
  | ISymbol an x => ISymbol an x
  | IScalar t an s => IScalar t an (text_content s)
  | ISeq sexp an l => ISeq sexp an (map one_nan l)
  | IStruct an fs => IStruct an (map (fun p => (fst p, one_nan (snd p))) fs)
  end.
Lemma text_content_content s : text_content (content s) = text_content s.
Proof. destruct s as [b|z|b|d|[x|d]|tk|tx|by_]; reflexivity. Qed.
Lemma scalar_one_nan t an s : ion_scalar_by text_content t an s = one_nan (ion_scalar t an s).
Proof. unfold ion_scalar_by. destruct t; cbn [one_nan]; rewrite ?text_content_content; reflexivity. Qed.
Lemma meaning_one_nan tas v : text_meaning tas v = one_nan (meaning tas v).
Proof.
  induction v as [ |s|l IH|l IH|l IH|t an|t an s|sexp an l IH|an m IH] using pyval_induction; cbn [meaning_by one_nan]; try reflexivity; try apply scalar_one_nan; f_equal; rewrite ?map_map; try (apply map_ext_in; intros x I; rewrite Forall_forall in IH).
  - exact (IH x I).
  - exact (IH x I).
  - cbn [fst snd]. rewrite (IH x I). reflexivity.
  - exact (IH x I).
  - induction IH as [|p m IP F IH]; cbn [flat_map map]; [reflexivity|]. rewrite map_app, IH, map_map. f_equal. apply map_ext_in. intros x I. rewrite Forall_forall in IP. cbn [fst snd]. rewrite (IP x I). reflexivity.
Qed.
Theorem C61_formats_agree : forall cat imports indent omit tas v,
  Forall (known_import cat) (truthy_imports imports) -> Forall shared_import (truthy_imports imports) -> blank_indent indent ->
  storable v -> text_storable v -> ~ text_reserved v ->
  exists out s v1 v2 enough, dumps_binary imports tas false v = Ok out /\ dumps_text indent omit tas false v = Ok s /\
    (forall chunks fuel, chunks_ok chunks -> concat chunks = out -> (enough <= fuel)%nat -> load_single fuel cat chunks = Ok v1) /\
    (forall src chunks fuel, pieces chunks -> concat chunks = s -> (enough <= fuel)%nat -> load_one fuel src cat chunks = Ok v2) /\
    text_meaning tas v1 = text_meaning tas v2.
Proof.
  intros cat imports indent omit tas v K SI BI SB ST NR.
  destruct (C31_dumps_loads cat imports tas v K SI SB (not_reserved v NR)) as (out & D1 & _ & _ & v1 & M1 & _ & n1 & L1).
  destruct (C61_dumps_loads cat indent omit tas v BI ST NR) as (s & D2 & v2 & M2 & _ & n2 & L2).
  exists out, s, v1, v2, (n1 + n2)%nat. split; [exact D1|]. split; [exact D2|]. split; [intros; apply L1; auto; lia|]. split; [intros; apply L2; auto; lia|].
  rewrite M2, !meaning_one_nan, M1. reflexivity.
Qed.
Print Assumptions C61_formats_agree.

(** What is excluded does fail.  A top-level symbol that spells a version marker is swallowed or
    refused; a struct key [$10] is written without quotes and read as symbol 10; a top-level struct
    annotated $ion_symbol_table is taken for a symbol table; None as the key of a plain value is
    refused; a timestamp without precision cannot be dumped. *)
Theorem C61_reserved_refuted :
  let v := PPlain (VSymbol (text_token (txt "$ion_1_0"))) in
  let w := PPlain (VSymbol (text_token (txt "$ion_2_0"))) in
  dumps_text None false false false v = Ok (txt "$ion_1_0 $ion_1_0 ") /\ load_one 40 OfText [] [txt "$ion_1_0 $ion_1_0 "] = Err IonException /\
  dumps_text None false false false w = Ok (txt "$ion_1_0 $ion_2_0 ") /\ load_one 40 OfText [] [txt "$ion_1_0 $ion_2_0 "] = Err IonException.
Proof. vm_compute. repeat split. Qed.
Theorem C61_sid_key_refuted :
  let v := PDict [(Some (txt "$10"), PPlain (VInt 1))] in
  dumps_text None true false false v = Ok (txt "{$10:1} ") /\ load_one 40 OfText [] [txt "{$10:1} "] = Err IonException /\
  dumps_text None true false false (PDict [(Some (txt "$4"), PPlain (VInt 1))]) = Ok (txt "{$4:1} ") /\
  load_one 40 OfText [] [txt "{$4:1} "] = Ok (PStruct [] [(Some (txt "name"), [PIon TInt [] (VInt 1)])]).
Proof. vm_compute. repeat split. Qed.
Theorem C61_table_refuted :
  let v := PStruct [AText (txt "$ion_symbol_table")] [] in
  dumps_text None true false false v = Ok (txt "$ion_symbol_table::{} ") /\ load_one 40 OfText [] [txt "$ion_symbol_table::{} "] = Err IonException.
Proof. vm_compute. repeat split. Qed.
Theorem C61_none_key_refuted : dumps_text None true false false (PDict [(None, PPlain (VInt 1))]) = Err TypeError.
Proof. reflexivity. Qed.
Theorem C61_no_precision_refuted :
  dumps_text None true false false (PPlain (VTimestamp (TsStamp (mkts (mkdt 2020 1 1 0 0 0 0 (Some 0)) None 0 dec_zero)))) = Err AttributeError.
Proof. reflexivity. Qed.
(** A struct key that is the empty text is accepted here (binary: refused, C33). *)
Example C61_empty_key :
  dumps_text None true false false (PDict [(Some [], PPlain (VInt 1))]) = Ok (txt "{'':1} ") /\
  load_one 40 OfText [] [txt "{'':1} "] = Ok (PStruct [] [(Some [], [PIon TInt [] (VInt 1)])]).
Proof. vm_compute. split; reflexivity. Qed.

(** The sample of C31, with all kinds of values, is storable in text too. *)
Lemma txt_name x : forallb is_scalar x = true -> spells_sid x = false -> text_name (AText x).
Proof.
  intros H N. split; [|intros L; apply like_sid_spec in L; congruence]. apply Forall_forall. intros c I. rewrite forallb_forall in H. specialize (H c I). unfold is_scalar in H. unfold scalar_value. lia.
Qed.
Lemma txt_values x : forallb is_scalar x = true -> Forall scalar_value x.
Proof. intros H. apply Forall_forall. intros c I. rewrite forallb_forall in H. specialize (H c I). unfold is_scalar in H. unfold scalar_value. lia. Qed.
Example C61_sample_storable : text_storable sample_value.
Proof.
  assert (K : forall t, tk_text t <> None -> (forall x, tk_text t = Some x -> text_name (AText x)) -> text_name (ATok t)).
  { intros t N H. unfold text_name. cbn [arg_text]. destruct (tk_text t) as [x|]; [exact (H x eq_refl)|congruence]. }
  apply so_dict.
  { cbn [map fst]. repeat (constructor; [cbn [In]; intuition discriminate|]). constructor. }
  constructor; cbn [fst snd]; [split; [apply txt_name; reflexivity|]|].
  { constructor. constructor; [constructor|]. constructor; [constructor; exact Logic.I|]. constructor; [constructor; exact Logic.I|].
    constructor; [constructor; exact (txt_values (txt "h") eq_refl)|]. constructor; [|constructor]. constructor. cbn. repeat (constructor; [unfold is_octet; lia|]). constructor. }
  constructor; cbn [fst snd]; [split; [apply txt_name; reflexivity|]|].
  { constructor. constructor; [|constructor; [constructor; eexists; split; [reflexivity|]; exact (txt_name (txt "s") eq_refl eq_refl)|constructor]].
    constructor. cbn [documented_type text_scalar_ok scalar_fits datetime_as]. unfold timestamp_fits. cbn [ts_dt dt_off ts_frac ts_prec dt_micro d_coef d_exp d_neg].
    split; [vm_compute; reflexivity|]. split; [split; [reflexivity|lia]|]. split; [exact Logic.I|]. split; [exact Logic.I|]. split; [intros N; exfalso; apply N; reflexivity|]. split; [vm_compute; discriminate|]. split; [vm_compute; discriminate|]. split; [vm_compute; discriminate|reflexivity]. }
  constructor; cbn [fst snd]; [split; [apply txt_name; reflexivity|]|].
  { constructor; [constructor; [apply txt_name; reflexivity|constructor]|]. cbn. repeat (constructor; [unfold is_octet; lia|]). constructor. }
  constructor; cbn [fst snd]; [split; [exact Logic.I|]|constructor].
  constructor.
  { constructor; [apply txt_name; reflexivity|]. constructor; [exact (txt_name (txt "z") eq_refl eq_refl)|constructor]. }
  { cbn [map fst]. repeat (constructor; [cbn [In]; intuition discriminate|]). constructor. }
  constructor; cbn [fst snd]; [split; [discriminate|]|].
  { constructor; [split; [apply txt_name; reflexivity|constructor; [constructor|exact Logic.I]]|]. constructor; [split; [apply txt_name; reflexivity|constructor; exact Logic.I]|constructor]. }
  constructor; cbn [fst snd]; [split; [discriminate|]|].
  { constructor; [split; [exact Logic.I|constructor; constructor]|constructor]. }
  constructor; cbn [fst snd]; [split; [discriminate|]|constructor].
  constructor; [split; [apply txt_name; reflexivity|]|constructor]. constructor; [constructor|]. constructor; [|constructor].
  constructor; [constructor|]. eexists. split; [reflexivity|]. exact (txt_name (txt "w") eq_refl eq_refl).
Qed.
Example C61_sample : ~ text_reserved sample_value /\ definite sample_value /\
  let s := match dumps_text (Some [32; 32]) false true false sample_value with Ok o => o | Err _ => [] end in
  let v' := match load_one 100 OfText [] [firstn 11 s; skipn 11 s] with Ok x => x | Err _ => PNone end in
  dumps_text (Some [32; 32]) false true false sample_value = Ok s /\ load_one 100 OfText [] [firstn 11 s; skipn 11 s] = Ok v' /\ text_meaning true v' = text_meaning true sample_value.
Proof.
  split; [exact (fun H => H)|]. split; [repeat (constructor; cbn); discriminate|]. cbv zeta. split; [vm_compute; reflexivity|]. split; vm_compute; reflexivity.
Qed.

(** * C62: text Ion is ASCII *)

(** Whatever events are written, well nested or not, and whatever the code points in them: if the writer
    accepts them, every octet it wrote is below 128, so the output is its own UTF-8 (and Latin-1, and
    ASCII) decoding.  (Indentation of Ion white space; the value of a blob is octets.) *)
Theorem C62_output_ascii : forall indent es fs out,
  blank_indent indent -> (forall e b, In e es -> ev_force (ue_value e) = Ok (Some (VBytes b)) -> octets b) ->
  text_write_all indent t_init es = Ok (fs, out) -> Forall (fun c => 0 <= c < 128) out /\ utf8_decode out = Ok out.
Proof.
  intros indent es fs out BI OC W.
  assert (A : ascii out).
  { refine (all_ascii indent (blank_ascii _ BI) es t_init fs out _ W). apply Forall_forall. intros e I _ v E. destruct v as [v|]; [|exact Logic.I]. destruct v as [ | | | | | | |b]; try exact Logic.I. exact (OC e b I E). }
  split; [eapply Forall_impl; [|exact A]; intros c C; unfold ascii_char in C; lia|apply ascii_decode, A].
Qed.
Print Assumptions C62_output_ascii.
(** Therefore [dumps] never fails where [dump] succeeds, and returns exactly what [dump] writes. *)
Theorem C62_dumps_is_dump : forall indent omit tas seq v out, blank_indent indent ->
  (forall e b, In e (dump_events tas seq v) -> ev_force (ue_value e) = Ok (Some (VBytes b)) -> octets b) ->
  dump_text indent omit tas seq v = Ok out -> dumps_text indent omit tas seq v = Ok out.
Proof.
  intros indent omit tas seq v out BI OC D. unfold dumps_text. rewrite D. cbn [bind]. unfold dump_text in D. rewrite (blank_accepted _ BI) in D. cbn [bind] in D.
  destruct (text_write_all indent t_init _) as [[fs o]|] eqn:W; cbn [bind] in D; [|discriminate]. injection D as ->. refine (proj2 (C62_output_ascii indent _ fs out BI _ W)).
  intros e b I E. apply in_app_or in I as [I|I]; [destruct omit; cbn [In] in I; [contradiction|destruct I as [<-|[]]; discriminate E]|]. apply in_app_or in I as [I|[<-|[]]]; [eauto|discriminate E].
Qed.
Print Assumptions C62_dumps_is_dump.
(** The indentation does matter: a no-break space is white space to Python, is written as one octet
    (Latin-1), and is not UTF-8. *)
Theorem C62_indent_refuted : dump_text (Some [0xA0]) true false false (PList [PPlain (VInt 1)]) = Ok [91; 10; 0xA0; 49; 10; 93] /\
  dumps_text (Some [0xA0]) true false false (PList [PPlain (VInt 1)]) = Err UnicodeDecodeError.
Proof. vm_compute. split; reflexivity. Qed.
Example C62_case : exists fs out, text_write_all None t_init [mkue EScalar (Some TString) (EvVal (VString [0x1F600; 233; 34; 10])) None [] None; mkue EScalar (Some TClob) (EvVal (VBytes [255; 0])) None [AText [233]] None] = Ok (fs, out) /\
  out = txt """\U0001f600\xe9\""\n"" '\xe9'::{{""\xff\x00""}}".
Proof. eexists _, _. split; [reflexivity|vm_compute; reflexivity]. Qed.
