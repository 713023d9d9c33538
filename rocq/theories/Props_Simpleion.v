(** Property theorems C31-C33: the Python value API on binary Ion.  [meaning] (SimpleionSpec) is the
    Ion value a Python value stands for: type, annotations by text, content, elements in order, fields
    by text, in order.  [storable]: the values binary Ion can hold. *)
From Coq Require Import String.
From Verif Require Import Base BaseFacts FieldsModel BufferModel CoreModel BinWriterModel BinReaderModel BinReaderSpec BinReaderNest
  ScalarFacts TimestampFacts ScalarProofs SymbolsModel SymbolsProofs BinReaderSession BinFormat BinFormatFacts WriterFacts WriterProofs MultimapModel ManagedModel Cursor ManagedSpec
  ManagedRoundTrip ManagedAccept ManagedWriterRun Props_Managed SimpleionModel SimpleionSpec SimpleionProofs SimpleionDump.
Local Open Scope Z_scope.

(** C31.  [dumps] accepts every storable value, its output is recognised as binary by [loads], and
    [loads], reading it in any pieces, returns a value with the same meaning. *)
Theorem C31_dumps_loads : forall cat imports tas v,
  Forall (known_import cat) (truthy_imports imports) -> Forall shared_import (truthy_imports imports) ->
  storable v -> ~ reserved_value v ->
  exists out, dumps_binary imports tas false v = Ok out /\ octets out /\ firstn 4 out = [0xE0; 0x01; 0x00; 0xEA] /\
  exists v', meaning tas v' = meaning tas v /\ loaded v' /\
  exists enough, forall chunks fuel, chunks_ok chunks -> concat chunks = out -> (enough <= fuel)%nat ->
    load_single fuel cat chunks = Ok v'.
Proof.
  intros cat imports tas v K SI ST NR.
  destruct (dump_load cat imports tas false v K SI ltac:(constructor; [exact ST|constructor]) ltac:(constructor; [exact NR|constructor])) as (out & D & OC & IV & l' & [E LO] & enough & L).
  exists out. split; [exact D|]. split; [exact OC|]. split; [exact IV|]. cbn [top_level map] in E.
  destruct l' as [|v' [|w l']]; try discriminate. injection E as E. exists v'. split; [exact E|]. split; [inversion LO; assumption|]. exists enough. intros chunks fuel C CE LE.
  unfold load_single. rewrite (L chunks fuel C CE LE). reflexivity.
Qed.
Print Assumptions C31_dumps_loads.

(** Not every value: a top-level symbol of text $ion_1_0 is dumped, and swallowed by [loads]. *)
Theorem C31_reserved_refuted :
  let v := PPlain (VSymbol (text_token (txt "$ion_1_0"))) in
  let out := match dumps_binary None false false v with Ok o => o | Err _ => [] end in
  dumps_binary None false false v = Ok out /\ load_single 30 [] [out] = Err IonException.
Proof. vm_compute. split; reflexivity. Qed.

(** C32.  A sequence dumped with [sequence_as_stream] is read back element by element; as a single
    value only if there is exactly one element, and with an IonException otherwise. *)
Theorem C32_streams : forall cat imports tas v vs,
  Forall (known_import cat) (truthy_imports imports) -> Forall shared_import (truthy_imports imports) ->
  (v = PList vs \/ v = PTuple vs \/ exists sexp an, v = PSeq sexp an vs) ->
  Forall storable vs -> Forall (fun x => ~ reserved_value x) vs ->
  exists out, dumps_binary imports tas true v = Ok out /\ octets out /\ firstn 4 out = [0xE0; 0x01; 0x00; 0xEA] /\
  exists l', map (meaning tas) l' = map (meaning tas) vs /\ Forall loaded l' /\
  exists enough, forall chunks fuel, chunks_ok chunks -> concat chunks = out -> (enough <= fuel)%nat ->
    load_stream fuel cat chunks = Ok l' /\
    load_single fuel cat chunks = match l' with [x] => Ok x | _ => Err IonException end.
Proof.
  intros cat imports tas v vs K SI SV ST NR. assert (T : top_level true v = vs) by (destruct SV as [->|[->|(sexp & an & ->)]]; reflexivity).
  destruct (dump_load cat imports tas true v K SI ltac:(rewrite T; exact ST) ltac:(rewrite T; exact NR)) as (out & D & OC & IV & l' & [E LO] & enough & L). rewrite T in E.
  exists out. split; [exact D|]. split; [exact OC|]. split; [exact IV|]. exists l'. split; [exact E|]. split; [exact LO|]. exists enough. intros chunks fuel C CE LE.
  specialize (L chunks fuel C CE LE). split; [exact L|]. unfold load_single. rewrite L. destruct l' as [|x [|y r]]; reflexivity.
Qed.
Print Assumptions C32_streams.

(** Anything else is dumped as one value, the flag or not - but a symbol token is a Python tuple, and
    is taken apart. *)
Theorem C32_other_values : forall imports tas v, py_elements v = None -> dumps_binary imports tas true v = dumps_binary imports tas false v.
Proof. intros imports tas v E. unfold dumps_binary, dump_events, top_level. rewrite E. reflexivity. Qed.
Theorem C32_token_refuted :
  let v := PPlain (VSymbol (text_token (txt "a"))) in
  let out := match dumps_binary None false true v with Ok o => o | Err _ => [] end in
  dumps_binary None false true v = Ok out /\
  load_stream 30 [] [out] = Ok [PIon TString [] (VString (txt "a")); PNull TNull []; PNull TNull []].
Proof. vm_compute. split; reflexivity. Qed.

(** C33, as far as it holds: structs with keys of any encodable text, also the empty text or None if
    the values under it have Ion nature, are accepted whatever storable values they hold. *)
Theorem C33_keys_partial : forall imports tas l an m,
  Forall shared_import (truthy_imports imports) ->
  NoDup (map fst l) -> Forall (fun p => key_ok (fst p) (snd p) /\ storable (snd p)) l ->
  Forall good_arg an -> NoDup (map fst m) -> Forall (fun p => snd p <> [] /\ Forall (fun x => key_ok (fst p) x /\ storable x) (snd p)) m ->
  (exists out, dumps_binary imports tas false (PDict l) = Ok out) /\ (exists out, dumps_binary imports tas false (PStruct an m) = Ok out).
Proof.
  intros imports tas l an m SI N1 S1 GA N2 S2.
  assert (G : forall v, storable v -> exists out, dumps_binary imports tas false v = Ok out).
  { intros v ST. unfold dumps_binary, dump_events. cbn [top_level flat_map]. rewrite app_nil_r.
    destruct (value_sends tas v None false 0 [] ST ltac:(split; [discriminate|reflexivity])) as [TA PE].
    destruct (managed_accepts imports _ version_event end_event SI TA PE eq_refl eq_refl) as (out & ->). cbn [bind]. eauto. }
  split; apply G; constructor; assumption.
Qed.
Print Assumptions C33_keys_partial.
(** The empty text as a key of a plain value, and None as a key of one, are refused. *)
Theorem C33_empty_key_refuted :
  dumps_binary None false false (PDict [(Some [], PPlain (VInt 1))]) = Err AttributeError /\
  dumps_binary None false false (PDict [(None, PPlain (VInt 1))]) = Err AttributeError /\
  dumps_binary None false false (PDict [(Some [], PList [])]) = Err AttributeError.
Proof. vm_compute. repeat split. Qed.

(** C27, the other way round: the managed writer accepts every well-nested sequence of events with
    encodable names and values ([takes_all], ManagedAccept). *)
Theorem C27_accepts : forall imports es vm fl, Forall shared_import (truthy_imports imports) -> takes_all [] es [] -> Forall plain_event es ->
  ue_type vm = EVersionMarker -> ue_type fl = EStreamEnd ->
  exists out, managed_write_all imports mwriter_new (vm :: es ++ [fl]) = Ok (mwriter_new, out).
Proof. exact managed_accepts. Qed.
Print Assumptions C27_accepts.

(** A case with all kinds of values. *)
Definition sample_value : pyval :=
  PDict [(Some (txt "a"), PList [PNone; PPlain (VBool true); PPlain (VInt (-300)); PPlain (VString (txt "h")); PPlain (VBytes [1; 2])]);
         (Some (txt "t"), PTuple [PPlain (VTimestamp (TsPlain (mkdt 2020 2 29 1 2 3 4 (Some 3600)))); PPlain (VSymbol (text_token (txt "s")))]);
         (Some [], PIon TClob [AText (txt "x")] (VBytes [7]));
         (None, PStruct [AText (txt "y"); ATok (text_token (txt "z"))]
            [(Some (txt "k"), [PIon TInt [] (VInt 1); PPlain (VInt 2)]); (None, [PNull TBool []]); (Some (txt "name"), [PSeq true [] [PIon TSymbol [] (VString (txt "w"))]])])].
Lemma txt_ok x : forallb is_scalar x = true -> text_ok x.
Proof. intros H. unfold text_ok. apply Forall_forall. apply forallb_forall. exact H. Qed.
Lemma sample_storable : storable sample_value.
Proof.
  assert (T : forall x, forallb is_scalar x = true -> good_arg (AText x)) by (intros x H; exact (txt_ok x H)).
  assert (KEY : forall x v, forallb is_scalar x = true -> x <> [] -> key_ok (Some x) v) by (intros x v H N; split; [exact (txt_ok x H)|congruence]).
  apply so_dict.
  { cbn [map fst]. repeat (constructor; [cbn [In]; intuition discriminate|]). constructor. }
  constructor; cbn [fst snd]; [split; [apply KEY; [reflexivity|discriminate]|]|].
  { constructor. constructor; [constructor|]. constructor; [constructor; exact Logic.I|]. constructor; [constructor; exact Logic.I|].
    constructor; [constructor; exact (txt_ok (txt "h") eq_refl)|]. constructor; [|constructor]. constructor. cbn. repeat (constructor; [unfold is_octet; lia|]). constructor. }
  constructor; cbn [fst snd]; [split; [apply KEY; [reflexivity|discriminate]|]|].
  { constructor. constructor; [|constructor; [constructor; split; [exact Logic.I|]; eexists; split; [reflexivity|]; exact (txt_ok (txt "s") eq_refl)|constructor]].
    constructor. cbn [plain_type scalar_ok scalar_portable plain_stamp]. unfold ts_portable. cbn [ts_dt dt_off ts_frac ts_prec micro_fraction dt_micro d_coef d_exp d_neg eff_prec].
    split; [vm_compute; reflexivity|]. split; [split; [reflexivity|]; split; [lia|]; split; [eexists; vm_compute; reflexivity|vm_compute; discriminate]|].
    repeat (split; [vm_compute; intros; discriminate|]). vm_compute. intros; discriminate. }
  constructor; cbn [fst snd]; [split; [split; [constructor|intros _; exact Logic.I]|]|].
  { constructor; [constructor; [apply T; reflexivity|constructor]|]. cbn. repeat (constructor; [unfold is_octet; lia|]). constructor. }
  constructor; cbn [fst snd]; [split; [exact Logic.I|]|constructor].
  constructor.
  { constructor; [apply T; reflexivity|]. constructor; [exact (txt_ok (txt "z") eq_refl)|constructor]. }
  { cbn [map fst]. repeat (constructor; [cbn [In]; intuition discriminate|]). constructor. }
  constructor; cbn [fst snd]; [split; [discriminate|]|].
  { constructor; [split; [apply KEY; [reflexivity|discriminate]|constructor; [constructor|exact Logic.I]]|]. constructor; [split; [apply KEY; [reflexivity|discriminate]|constructor; exact Logic.I]|constructor]. }
  constructor; cbn [fst snd]; [split; [discriminate|]|].
  { constructor; [split; [exact Logic.I|constructor; constructor]|constructor]. }
  constructor; cbn [fst snd]; [split; [discriminate|]|constructor].
  constructor; [split; [apply KEY; [reflexivity|discriminate]|]|constructor]. constructor; [constructor|]. constructor; [|constructor].
  constructor; [constructor|]. split; [exact Logic.I|]. eexists. split; [reflexivity|]. exact (txt_ok (txt "w") eq_refl).
Qed.
Example C31_sample : storable sample_value /\ ~ reserved_value sample_value /\
  let out := match dumps_binary None true false sample_value with Ok o => o | Err _ => [] end in
  let v' := match load_single 100 [] [firstn 11 out; skipn 11 out] with Ok x => x | Err _ => PNone end in
  dumps_binary None true false sample_value = Ok out /\ load_single 100 [] [firstn 11 out; skipn 11 out] = Ok v' /\ meaning true v' = meaning true sample_value.
Proof.
  split; [exact sample_storable|]. split; [exact (fun H => H)|]. cbv zeta. split; [vm_compute; reflexivity|]. split; vm_compute; reflexivity.
Qed.
