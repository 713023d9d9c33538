(** C78: nothing that is read from Ion text is ill-formed: every text consists of Unicode scalar values (no lone surrogate ever gets
    through, raw or escaped), identifiers are not negative, lobs hold octets, floats have 64 bits. *)
From Coq Require Import String.
From Verif Require Import Base BaseFacts FieldsModel CoreModel BinWriterModel BinReaderModel ScalarFacts SymbolsModel SymbolsProofs ManagedModel SimpleionModel TextReaderChunks TextValueModel LoadedTables TextCharsKept Props_BinLoadErrors Props_TextLoadErrors Props_LoadedValues Props_LoadedText.
Local Open Scope Z_scope.
Local Open Scope list_scope.

(** * Specification *)
Definition proper_token (k : token) : Prop := proper_text (tk_text k) /\ forall n, tk_sid k = Some n -> 0 <= n.
Definition proper_event (e : event) : Prop :=
  Forall proper_token (ev_annot e) /\ (forall f, ev_field e = Some f -> proper_token f) /\
  (forall s, ev_force (ev_value e) = Ok (Some s) -> proper_scalar s).
(** The answers of a reader to whatever it is sent, allowed or not. *)
Fixpoint answers_to (uni : bool) (t : TextReaderModel.treader) (ds : list devent) : list (res event) :=
  match ds with
  | [] => []
  | d :: ds' => let '(x, t') := TextReaderModel.text_send uni t d in x :: answers_to uni t' ds'
  end.

(** * Proofs *)
Lemma token_proper k : speaks text_ok k -> proper_token k.
Proof. intros (A & B). split; [exact (says_proper _ A)|]. intros n E. rewrite E in B. exact B. Qed.
Lemma event_proper e : ev_ok e -> proper_event e.
Proof.
  intros (A & F & V). split; [revert A; apply Forall_impl; exact token_proper|]. split; [intros f E; rewrite E in F; exact (token_proper f F)|]. intros s E. apply kept_proper.
  destruct (ev_value e) as [|x|th d|r|a b]; cbn [ev_force] in E; try discriminate; try contradiction; [injection E as <-; exact V|]. destruct r as [x|]; [|discriminate]. cbn [bind] in E. injection E as <-. exact V.
Qed.
Lemma answers_proper uni ds : forall t, reader_ok t -> Forall (fun x => match x with Ok e => proper_event e | Err _ => True end) (answers_to uni t ds).
Proof.
  induction ds as [|d ds IH]; intros t R; cbn [answers_to]; [constructor|]. destruct (TextReaderModel.text_send uni t d) as [x t'] eqn:E. destruct (reader_ok_send _ _ _ _ _ R E) as (R' & X). constructor; [destruct x; [exact (event_proper _ X)|exact Logic.I]|exact (IH t' R')].
Qed.

(** * Theorems *)
(** Every event of a text reader, whatever characters or octets it is given, in whatever pieces, and whatever it is asked. *)
Theorem C78_events : forall uni ds e, In (Ok e) (answers_to uni TextReaderModel.text_reader_new ds) -> proper_event e.
Proof.
  intros uni ds e I. pose proof (answers_proper uni ds _ reader_ok_new) as F. rewrite Forall_forall in F. exact (F _ I).
Qed.
Print Assumptions C78_events.
(** Every value [load] returns for Ion text. *)
Theorem C78_loaded : forall fuel history cat src cs vs,
  register_all catalog_new history = Ok cat -> Forall encodable history -> read_as_text src cs -> load_from fuel src cat cs = Ok vs -> Forall proper vs.
Proof.
  intros fuel history cat src cs vs R EN T L. pose proof (text_made fuel history cat src cs vs R EN T L) as MV. revert MV. apply Forall_impl. exact text_proper.
Qed.
Print Assumptions C78_loaded.

(** Cases: surrogates in pairs, raw and escaped, are the character they stand for; a lone one is refused, wherever it is. *)
Definition src (s : string) : list Z := TextReaderModel.chars s.
Theorem C78_case_pairs : load_from 200 OfText [] [src """\ud83d\ude00" ++ [55357; 56832] ++ src "\U0001F600"""] = Ok [PIon TString [] (VString [128512; 128512; 128512])].
Proof. vm_compute. reflexivity. Qed.
Theorem C78_case_lone :
  load_from 200 OfText [] [[34; 55357; 34]] = Err ValueError /\ load_from 200 OfText [] [[39; 56832; 39]] = Err ValueError /\
  load_from 200 OfText [] [src """\ud83d"""] = Err IonException /\ load_from 200 OfText [] [src """\ude00"""] = Err ValueError /\
  load_from 200 OfText [] [src "{'''" ++ [55357] ++ src "''':1}"] = Err ValueError /\ load_from 200 OfText [] [src "'\U0000de00'::1"] = Err ValueError /\
  load_from 200 OfText [] [[55357]] = Err IonException.
Proof. vm_compute. repeat split. Qed.
Theorem C78_case_events :
  answers_to true TextReaderModel.text_reader_new [DNext; DData (src "a::""\u00e9"" "); DNext] =
  [Ok stream_end_event; Ok (mkev EScalar (Some TString) (EvVal (VString [233])) None [text_token [97]] (Some 0)); Ok stream_end_event].
Proof. vm_compute. reflexivity. Qed.
