(** C43-C47: what the text writer writes, the text reader reads back. *)
From Coq Require Import String.
From Verif Require Import Base BaseFacts CoreModel ScalarFacts TimestampFacts BinWriterModel BinReaderModel SymbolsModel ManagedModel TextNumbers TextNumbersFacts TextWriterModel Props_TextWriter.
From Verif Require Import TextReaderModel TextReaderFacts TextReaderNest TextReaderChunks TextWalk TextTokens TextNumberTokens TextNumberValues TextFloats TextKeywords TextTimestamps TextQuoted TextBlobs TextSymbols TextStream.
From Verif Require Import TextRoundTripSpec.
Local Open Scope Z_scope.

(** * The specification and the lemmas about the reader *)
Lemma digit_spec c : digit c <-> is_digit c = true.
Proof. unfold digit, is_digit. lia. Qed.
Lemma digits_spec l : Forall digit l <-> forallb is_digit l = true.
Proof. rewrite forallb_forall, Forall_forall. split; intros H x IN; apply digit_spec, H, IN. Qed.
Lemma like_sid_spec t : like_sid t <-> spells_sid t = true.
Proof.
  unfold like_sid, spells_sid. split.
  - intros (ds & -> & N & F). unfold all_digits. destruct ds; [congruence|]. now apply digits_spec.
  - destruct t as [|c t]; [discriminate|]. intros H.
    assert (c = 36 /\ all_digits t = true) as (-> & A) by (destruct c; try discriminate H; repeat (destruct p as [p|p|]; try discriminate H); auto).
    exists t. split; [reflexivity|]. unfold all_digits in A. destruct t; [discriminate|]. split; [discriminate|now apply digits_spec].
Qed.
Lemma like_ivm_spec t : like_ivm t <-> ivm_form t.
Proof.
  unfold like_ivm, ivm_form. split; intros (a & b & -> & A & B & N); exists a, b; (split; [reflexivity|]); (split; [|split; [|exact N]]).
  all: apply Forall_forall; intros x IN; apply digit_spec; match goal with F : Forall _ ?l, I : In x ?l |- _ => rewrite Forall_forall in F; apply F in I; first [exact I|apply digit_spec; exact I] end.
Qed.
Lemma name_sym a : name_fits a -> sym_ok a.
Proof.
  unfold name_fits, sym_ok, text_of, sid_of, sym_text. destruct (match a with ATok k => tk_text k | AText t => Some t end) as [t|] eqn:E.
  - intros (F & N). split; [exact F|]. destruct (spells_sid t) eqn:S1; [|reflexivity]. exfalso. apply N, like_sid_spec, S1.
  - intros (n & S1 & H). destruct a as [k|t]; [|discriminate]. rewrite S1. exact H.
Qed.
Lemma name_writable a : name_fits a -> symbol_fits a.
Proof.
  assert (P : forall t, Forall scalar_value t -> paired t).
  { intros t F. apply paired_iter. exists t. apply iter_code_points. exact F. }
  unfold name_fits, symbol_fits, text_of, sid_of. destruct a as [k|t]; [destruct (tk_text k)|]; [intros (F & _); auto|intros (n & -> & _); discriminate|intros (F & _); auto].
Qed.
Lemma name_same a : name_fits a -> same_symbol a (sym_of a).
Proof.
  unfold name_fits, same_symbol, text_of, sid_of, sym_of, text_token, sid_token. destruct a as [k|t]; [destruct (tk_text k)|]; [reflexivity| |reflexivity].
  intros (n & E & _). exists n. rewrite E. auto.
Qed.
Lemma names_same l : Forall name_fits l -> Forall2 same_symbol l (map sym_of l).
Proof. induction 1; constructor; auto using name_same. Qed.

Lemma stamp_spec t : timestamp_fits t -> ts_textable t.
Proof.
  intros (C & O & P1 & P2 & P3 & R). split; [exact C|]. split; [exact O|]. split; [|exact R].
  destruct (ts_prec t) as [[]|]; try contradiction; cbn; repeat split; intros; try discriminate; try tauto; apply P3; discriminate.
Qed.
Lemma scalar_spec t v : scalar_fits t v -> value_ok t (Some v).
Proof.
  unfold scalar_fits, value_ok. destruct t; try tauto; destruct v as [b|n|b|d|x|k|s|b]; try tauto.
  - destruct x; unfold textable; [apply stamp_spec|apply stamp_spec].
  - apply name_sym.
  - apply name_sym.
Qed.
Lemma nan_spec b : 0 <= b < 2 ^ 64 -> (not_a_number b <-> float_is_nan b = true).
Proof.
  intros B. unfold not_a_number, float_is_nan, inf_bits. split.
  - intros (s & f & -> & S1 & F). destruct S1 as [-> | ->]; apply Z.ltb_lt.
    + rewrite Z.mod_small by lia. lia.
    + replace (1 * 2 ^ 63 + 2047 * 2 ^ 52 + f) with (2047 * 2 ^ 52 + f + 1 * 2 ^ 63) by lia. rewrite Z.mod_add by lia. rewrite Z.mod_small by lia. lia.
  - intros H. apply Z.ltb_lt in H. exists (b / 2 ^ 63), (b mod 2 ^ 63 - 2047 * 2 ^ 52). pose proof (Z.div_mod b (2 ^ 63) ltac:(lia)) as D. pose proof (Z.mod_pos_bound b (2 ^ 63) ltac:(lia)).
    split; [lia|]. split; [|lia]. assert (b / 2 ^ 63 < 2) by (apply Z.div_lt_upper_bound; lia). assert (0 <= b / 2 ^ 63) by (apply Z.div_pos; lia). lia.
Qed.
Lemma read_same t v : scalar_fits t v -> exists w, ev_force (value_read t (Some v)) = Ok (Some w) /\ same_scalar t v w.
Proof.
  unfold scalar_fits, value_read. destruct t; try tauto; destruct v as [b|n|bits|d|x|k|s|b]; try tauto; intros H;
    try (eexists; split; [reflexivity|]; apply same_as_is; cbn; tauto).
  - unfold read_float. destruct (float_is_nan bits) eqn:N; [|destruct (float_is_inf bits) eqn:I].
    + exists (VFloat nan_bits). split; [reflexivity|]. apply (same_nan bits). now apply nan_spec.
    + exists (VFloat bits). split; [cbn [ev_force]; rewrite <- (inf_value bits H I); reflexivity|]. apply same_float. rewrite nan_spec by exact H. congruence.
    + exists (VFloat bits). split; [reflexivity|]. apply same_float. rewrite nan_spec by exact H. congruence.
  - destruct x; (eexists; split; [reflexivity|]); [apply same_stamp|apply same_datetime].
  - eexists. split; [reflexivity|]. apply same_token, (name_same (ATok _) H).
  - eexists. split; [reflexivity|]. apply same_name, (name_same (AText _) H).
Qed.

Lemma in_struct_spec fs open : frames_of fs open -> (in_struct_now fs = true <-> in_a_struct open).
Proof.
  unfold frames_of, in_struct_now, in_a_struct. destruct fs as [|f fs]; [destruct open; discriminate|]. destruct open as [|t o]; cbn [map app]; intros E; injection E as -> _.
  - split; [discriminate|intros (o & E'); discriminate].
  - cbn [is_struct]. destruct t; cbn; (split; intros H; try discriminate; [eauto|reflexivity]) || (split; [discriminate|intros (o' & E'); discriminate]).
Qed.
Lemma depth_spec fs open : frames_of fs open -> zlen fs - 1 = zlen open.
Proof. unfold frames_of, zlen. intros E. apply (f_equal (@List.length _)) in E. rewrite app_length, !map_length in E. cbn in E. lia. Qed.
Lemma top_spec fs open : frames_of fs open -> (length fs = 1%nat <-> open = []).
Proof. unfold frames_of. intros E. apply (f_equal (@List.length _)) in E. rewrite app_length, !map_length in E. cbn in E. destruct open; cbn in E; split; intros; try reflexivity; try discriminate; lia. Qed.
Lemma fits_writable open e : event_fits open e -> writable open e.
Proof.
  intros H BV. destruct (H BV) as (F & A & V). split; [|split].
  - destruct open as [|t o]; [exact I|]. destruct t; try exact I. destruct F as (a & -> & N); [now exists o|]. now apply name_writable.
  - apply Forall_forall. intros a IN. rewrite Forall_forall in A. now apply name_writable, A.
  - intros ET. destruct (V ET) as (t & v & -> & E & FT & _). unfold fits. rewrite E. destruct v as [v|]; [|discriminate].
    unfold scalar_fits in FT. destruct t; try contradiction; destruct v as [b|n|bits|d|x|k|s|b]; try contradiction; try exact I.
    + destruct x; [|exact I]. destruct FT as (_ & _ & P & _). destruct (ts_prec t); [discriminate|contradiction].
    + exact (name_writable (ATok k) FT).
    + exact (name_writable (AText s) FT).
    + apply paired_iter. exists s. now apply iter_code_points.
Qed.
Lemma fits_ok fs open e : frames_of fs open -> event_fits open e -> event_ok fs e.
Proof.
  intros FR H. unfold event_ok.
  assert (NO : begins_value (ue_type e) = true -> names_ok fs e).
  { intros BV. destruct (H BV) as (F & A & _). split.
    - apply Forall_forall. intros a IN. rewrite Forall_forall in A. now apply name_sym, A.
    - intros IS. apply (in_struct_spec _ _ FR) in IS. destruct (F IS) as (a & -> & N). now apply name_sym. }
  destruct (ue_type e) eqn:ET; try exact I; [|apply NO; reflexivity]. split; [apply NO; reflexivity|].
  unfold event_fits in H. rewrite ET in H. destruct (H eq_refl) as (_ & _ & V). destruct (V eq_refl) as (t & v & ET' & E & FT & NI). rewrite ET'. unfold forced. rewrite E. split; [destruct v; [now apply scalar_spec|exact I]|].
  intros IV LN EA. apply (top_spec _ _ FR) in LN. apply (NI LN). unfold spells_ivm. rewrite ET'.
  destruct t; try contradiction IV; try (destruct v as [[]|]; contradiction IV). split; [reflexivity|]. split; [exact EA|].
  destruct v as [[b|n|bits|d|x|k|s|b]|]; try contradiction IV; cbn in IV.
  - unfold ivm_like in IV. cbn in IV. destruct (tk_text k) as [s|] eqn:EK; [|contradiction]. exists (VSymbol k), s. split; [exact E|]. split; [right; eauto|now apply like_ivm_spec].
  - exists (VString s), s. split; [exact E|]. split; [left; reflexivity|now apply like_ivm_spec].
Qed.
Lemma field_spec fs open e : frames_of fs open -> event_fits open e -> begins_value (ue_type e) = true -> same_field open e (field_read fs e).
Proof.
  intros FR H BV. destruct (H BV) as (F & _ & _). unfold field_read. destruct (in_struct_now fs) eqn:IS.
  - assert (IS' := IS). apply (in_struct_spec _ _ FR) in IS'. destruct (F IS') as (a & E & N). rewrite E. cbn. eapply field_in; [exact IS'|exact E|now apply name_same].
  - apply field_out. intros IS'. apply (in_struct_spec _ _ FR) in IS'. congruence.
Qed.
Lemma value_spec e t v : ev_force (ue_value e) = Ok v -> match v with Some v => scalar_fits t v | None => True end -> same_value t (ue_value e) (value_read t v).
Proof.
  intros E FT. destruct v as [v|]; [|apply same_null; [exact E|reflexivity]]. destruct (read_same t v FT) as (w & R & S1). eapply same_some; eassumption.
Qed.

(** Every carried stream is written, and its reading is determined. *)
Lemma carried_written indent : forall es fs open, frames_of fs open -> fs_ok fs -> carried open es ->
  exists fs' out, text_write_all indent fs es = Ok (fs', out) /\ stream_ok indent fs es /\ same_events open es (stream_read indent fs es).
Proof.
  induction es as [|e es IH]; intros fs open FR OK C.
  - cbn [carried] in C. subst open. exists fs, []. split; [reflexivity|]. split; [apply (top_spec _ _ FR); reflexivity|constructor].
  - cbn [carried] in C. destruct C as (EF & C). destruct (nests open e) as [o|] eqn:N; [|contradiction].
    destruct (C48_step indent fs open e FR) as (A & B).
    destruct (proj2 A) as (fs1 & w & T); [split; [congruence|now apply fits_writable]|]. destruct (B _ _ T) as (o' & N' & FR' & _). rewrite N in N'. injection N' as <-.
    destruct (text_write indent fs e) as [cs r] eqn:TE. cbn [snd] in T. subst r.
    destruct (IH fs1 o FR' (write_fs_ok _ _ _ _ _ _ OK TE) C) as (fs2 & out & TA & SO & SE).
    exists fs2, (concat cs ++ wdata w ++ out). split; [cbn [text_write_all]; rewrite TE; cbn [bind]; rewrite TA; reflexivity|].
    split; [cbn [stream_ok]; rewrite TE; cbn [snd]; split; [now apply fits_ok with (open := open)|exact SO]|].
    cbn [stream_read]. rewrite TE. cbn [snd]. unfold events_read. rewrite (depth_spec _ _ FR). unfold nests in N.
    destruct (ue_type e) eqn:ET.
    + discriminate.
    + destruct open; [|discriminate]. injection N as <-. now apply read_stop.
    + destruct open; [|discriminate]. injection N as <-. now apply read_marker.
    + injection N as <-. assert (BV : begins_value (ue_type e) = true) by (rewrite ET; reflexivity). destruct (EF BV) as (_ & AN & V). destruct (V ET) as (t & v & EI & E & FT & _).
      rewrite EI. unfold forced. rewrite E. cbn [app]. apply read_scalar; auto using names_same, value_spec, field_spec.
    + assert (BV : begins_value (ue_type e) = true) by (rewrite ET; reflexivity). destruct (EF BV) as (_ & AN & _). destruct (ue_ion_type e) as [t|] eqn:EI; [|discriminate]. destruct (is_container t) eqn:CT; [|discriminate]. injection N as <-.
      cbn [app]. apply read_open; auto using names_same, field_spec. destruct t; try discriminate; cbn; tauto.
    + destruct open as [|t open]; [discriminate|]. injection N as <-. cbn [app]. unfold frames_of in FR. destruct fs as [|f fs]; [discriminate|]. cbn in FR. injection FR as -> _.
      replace (zlen (t :: open) - 1) with (zlen open) by (rewrite zlen_cons; lia). now apply read_close.
Qed.

(** * C46: streams *)
Lemma blank_ws c : blank c <-> is_ws c = true.
Proof.
  unfold blank. split.
  - intros H. cbn in H. destruct H as [<-|[<-|[<-|[<-|[<-|[<-|[]]]]]]]; reflexivity.
  - intros H. apply is_ws_cases in H. cbn. lia.
Qed.
Lemma blank_text l : Forall blank l <-> ws_text l.
Proof. unfold ws_text. rewrite !Forall_forall. split; intros H x IN; apply blank_ws, H, IN. Qed.
Lemma blank_ok indent : blank_indent indent -> indent_ok indent.
Proof. destruct indent; [apply blank_text|auto]. Qed.

(** Any stream the text format can carry is written, and the text, cut into any pieces, reads back as
    the same events and nothing else, with or without indentation. *)
Theorem C46_round_trip : forall indent es, blank_indent indent -> carried [] es ->
  exists fs out, text_write_all indent t_init es = Ok (fs, out) /\
    forall uni cs, pieces cs -> concat cs = out -> exists evs, same_events [] es evs /\
      forall n, (List.length evs < n)%nat -> text_session uni text_reader_new cs (repeat DNext n) = (evs, SEnd).
Proof.
  intros indent es IO C. destruct (carried_written indent es t_init [] eq_refl (ok_top false) C) as (fs & out & TW & SO & SE).
  exists fs, out. split; [exact TW|]. intros uni cs P CC. exists (stream_read indent t_init es). split; [exact SE|]. intros n L. eapply stream_session; eauto using blank_ok.
Qed.
Print Assumptions C46_round_trip.

(** * C47: indentation *)

(** The tokens of a stream: what is written apart from white space.  [open]: the containers open, each
    with whether a value was written to it. *)
Definition comma (open : list (iontype * bool)) : list (list Z) :=
  match open with (TList, true) :: _ | (TStruct, true) :: _ => [[44]] | _ => [] end.
Definition wrote (open : list (iontype * bool)) : list (iontype * bool) := match open with (t, _) :: o => (t, true) :: o | [] => [] end.
Inductive name_tokens (open : list (iontype * bool)) (e : uevent) : list (list Z) -> Prop :=
| names_field a b o w ans : open = (TStruct, b) :: o -> ue_field e = Some a -> symbol_octets a [58] = Ok w ->
    mapM (fun a => symbol_octets a [58; 58]) (ue_annot e) = Ok ans -> name_tokens open e (w :: ans)
| names_none ans : (forall b o, open <> (TStruct, b) :: o) ->
    mapM (fun a => symbol_octets a [58; 58]) (ue_annot e) = Ok ans -> name_tokens open e ans.
Inductive tokens : list (iontype * bool) -> list uevent -> list (list Z) -> Prop :=
| tokens_done o : tokens o [] []
| tokens_marker e es toks : ue_type e = EVersionMarker -> tokens [] es toks -> tokens [] (e :: es) (txt "$ion_1_0" :: toks)
| tokens_stop e es toks : ue_type e = EStreamEnd -> tokens [] es toks -> tokens [] (e :: es) toks
| tokens_scalar o e v nm w es toks : ue_type e = EScalar -> ev_force (ue_value e) = Ok v -> text_scalar (ue_ion_type e) v = Ok w ->
    name_tokens o e nm -> tokens (wrote o) es toks -> tokens o (e :: es) (comma o ++ nm ++ w :: toks)
| tokens_open o e t nm es toks : ue_type e = EContainerStart -> ue_ion_type e = Some t -> is_container t = true ->
    name_tokens o e nm -> tokens ((t, false) :: wrote o) es toks ->
    tokens o (e :: es) (comma o ++ nm ++ (match t with TStruct => [123] | TList => [91] | _ => [40] end) :: toks)
| tokens_close o e t b es toks : ue_type e = EContainerEnd -> tokens o es toks ->
    tokens ((t, b) :: o) (e :: es) ((match t with TStruct => [125] | TList => [93] | _ => [41] end) :: toks).

Lemma spaced_app t1 o1 : spaced t1 o1 -> forall t2 o2, spaced t2 o2 -> spaced (t1 ++ t2) (o1 ++ o2).
Proof.
  induction 1 as [ws F|ws tok toks out F H IH]; intros t2 o2 H2; [|cbn [app]; rewrite <- !app_assoc; constructor; [exact F|now apply IH]].
  inversion H2; subst; cbn [app]; [constructor; apply Forall_app; auto|]. rewrite app_assoc. constructor; [apply Forall_app; auto|assumption].
Qed.
Lemma spaced_ws ws : ws_text ws -> spaced [] ws.
Proof. intros H. constructor. now apply blank_text. Qed.
Lemma spaced_one tok : spaced [tok] tok.
Proof. rewrite <- (app_nil_r tok) at 2. apply (spaced_token [] tok [] []); constructor. constructor. Qed.
Lemma spaced_all toks : spaced toks (concat toks).
Proof. induction toks as [|t toks IH]; [constructor; constructor|]. cbn [concat]. exact (spaced_app [t] t (spaced_one t) toks _ IH). Qed.
Lemma annotation_tokens l cs : annotation_chunks l = (cs, Ok tt) -> mapM (fun a => symbol_octets a [58; 58]) l = Ok cs.
Proof.
  revert cs. induction l as [|a l IH]; intros cs E; [now injection E as <-|]. cbn [annotation_chunks mapM] in *. destruct (symbol_octets a [58; 58]); [|discriminate]. destruct (annotation_chunks l) as [cs' r]. injection E as <- ->. cbn [bind]. rewrite (IH cs' eq_refl). reflexivity.
Qed.
(** The frames of the writer and the containers open. *)
Definition framed (fs : tstate) (open : list (iontype * bool)) : Prop :=
  exists b, fs = map (fun p => mktf (Some (fst p)) (snd p)) open ++ [mktf None b].
Lemma framed_cons fs open : framed fs open -> exists f below, fs = f :: below /\ match open with (t, b) :: o => f = mktf (Some t) b /\ framed below o | [] => tf_type f = None /\ below = [] end.
Proof. intros (b & ->). destruct open as [|[t h] o]; cbn; eexists _, _; (split; [reflexivity|]); split; try reflexivity. exists b. reflexivity. Qed.
Lemma framed_wrote f below open : framed (f :: below) open -> framed (mktf (tf_type f) true :: below) (wrote open).
Proof. intros (b & E). destruct open as [|[t h] o]; cbn in *; injection E as -> ->; [exists true; reflexivity|exists b; reflexivity]. Qed.
Lemma comma_seps indent f below open et : indent_ok indent -> framed (f :: below) open -> et <> EContainerEnd -> et <> EStreamEnd -> spaced (comma open) (concat (separators indent (length below) f et)).
Proof.
  intros IO FR N1 N2. destruct (seps_value indent (length below) f et IO N1 N2) as (ws & FW & -> & _). apply framed_cons in FR. destruct FR as (f' & b' & E & FR). injection E as <- <-.
  rewrite <- (app_nil_r (comma open)). apply spaced_app; [|now apply spaced_ws].
  destruct open as [|[t b] o]; [destruct FR as (-> & _); cbn; constructor; constructor|]. destruct FR as (-> & _). cbn [tf_type tf_has]. destruct t, b; cbn; first [apply spaced_one|constructor; constructor].
Qed.
Lemma names_spaced indent f below open e c1 c2 : framed (f :: below) open -> begins_value (ue_type e) = true -> field_chunks indent f e = (c1, Ok tt) -> annotation_chunks (ue_annot e) = (c2, Ok tt) ->
  exists nm, name_tokens open e nm /\ spaced nm (concat c1 ++ concat c2).
Proof.
  intros FR BV E1 E2. apply annotation_tokens in E2. apply framed_cons in FR. destruct FR as (f' & b' & E & FR). injection E as <- <-. unfold field_chunks in E1. rewrite BV in E1.
  destruct open as [|[t b] o].
  - destruct FR as (TF & _). rewrite TF in E1. injection E1 as <-. exists c2. split; [apply names_none; [discriminate|exact E2]|]. cbn [concat app]. apply spaced_all.
  - destruct FR as (-> & _). cbn [tf_type] in E1. destruct (iontype_eqb t TStruct) eqn:TS.
    + assert (t = TStruct) as -> by (destruct t; try discriminate; reflexivity). destruct (ue_field e) as [a|] eqn:EF; [|discriminate]. destruct (symbol_octets a [58]) as [w|] eqn:SO; [|discriminate]. injection E1 as <-.
      exists (w :: c2). split; [eapply names_field; eauto|]. change (w :: c2) with ([w] ++ c2). apply spaced_app; [|apply spaced_all]. cbn [concat]. rewrite <- (app_nil_r [w]). apply spaced_app; [apply spaced_one|].
      destruct indent; cbn; apply spaced_ws; repeat constructor.
    + exists c2. assert (c1 = []) as -> by (destruct t; try discriminate; now injection E1). split; [apply names_none; [|exact E2]|apply spaced_all]. intros b0 o0 E. injection E as -> _ _. discriminate TS.
Qed.

(** Whatever the indentation, the output is the stream's tokens with white space between them. *)
Theorem C47_only_white_space : forall indent es fs out, blank_indent indent -> text_write_all indent t_init es = Ok (fs, out) ->
  exists toks, tokens [] es toks /\ spaced toks out.
Proof.
  intros indent es fs out IO. apply blank_ok in IO. assert (G : forall es f0 open fs out, framed f0 open -> text_write_all indent f0 es = Ok (fs, out) -> exists toks, tokens open es toks /\ spaced toks out).
  2: { apply G. exists false. reflexivity. }
  clear es fs out. induction es as [|e es IH]; intros fs open fs' out FR TW.
  - injection TW as <- <-. exists []. split; [constructor|constructor; constructor].
  - cbn [text_write_all] in TW. destruct (text_write indent fs e) as [cs [[fs1 w]|]] eqn:TE; [|discriminate]. cbn [bind] in TW. destruct (text_write_all indent fs1 es) as [[fs2 out']|] eqn:TA; [|discriminate]. injection TW as <- <-.
    destruct (framed_cons _ _ FR) as (f & below & -> & FC).
    destruct (begins_value (ue_type e)) eqn:BV.
    + destruct (write_value _ _ _ _ _ _ _ BV TE) as (c1 & c2 & E1 & E2 & E3 & ->).
      destruct (names_spaced indent f below open e c1 c2 FR BV E1 E2) as (nm & NT & NS).
      assert (CS : spaced (comma open) (concat (separators indent (length below) f (ue_type e)))) by (apply comma_seps; [exact IO|exact FR|intros E; rewrite E in BV; discriminate|intros E; rewrite E in BV; discriminate]).
      assert (J : forall toks, spaced toks out' -> spaced (comma open ++ nm ++ wdata w :: toks) ((concat (separators indent (length below) f (ue_type e)) ++ concat c1 ++ concat c2) ++ wdata w ++ out')).
      { intros toks H. rewrite <- app_assoc. apply spaced_app; [exact CS|]. apply spaced_app; [exact NS|]. apply (spaced_app [wdata w]); [apply spaced_one|exact H]. }
      unfold text_core in E3. destruct (ue_type e) eqn:ET; try discriminate BV.
      * destruct (ev_force (ue_value e)) as [v|] eqn:EV; [|discriminate]. cbn [bind] in E3. destruct (text_scalar (ue_ion_type e) v) as [x|] eqn:TX; [|discriminate]. cbn [bind] in E3.
        assert (fs1 = mktf (tf_type f) true :: below /\ wdata w = x) as [-> EW] by (destruct below; injection E3 as <- <-; auto).
        destruct (IH _ (wrote open) _ _ (framed_wrote _ _ _ FR) TA) as (toks & TK & SP). exists (comma open ++ nm ++ wdata w :: toks). split; [rewrite EW; eapply tokens_scalar; eauto|auto].
      * destruct (ue_ion_type e) as [t|] eqn:EI; [|discriminate]. destruct (is_container t) eqn:CT; [|discriminate]. injection E3 as <- <-.
        destruct (IH (mktf (Some t) false :: mktf (tf_type f) true :: below) ((t, false) :: wrote open) _ _ ltac:(destruct (framed_wrote _ _ _ FR) as (b & EB); exists b; cbn [map app fst snd]; f_equal; exact EB) TA) as (toks & TK & SP).
        exists (comma open ++ nm ++ container_open t :: toks). split; [|apply J; exact SP]. unfold container_open. eapply tokens_open; eauto.
    + destruct (ue_type e) eqn:ET; try discriminate BV.
      * exfalso. unfold text_write, field_chunks, text_core in TE. rewrite ET in TE. cbn [begins_value] in TE. destruct (tf_type f) as [[]|]; discriminate.
      * unfold text_write, field_chunks, text_core in TE. rewrite ET in TE. cbn [begins_value] in TE. destruct below as [|g below]; [|destruct (tf_type f) as [[]|]; discriminate].
        destruct open as [|[t b] o]; [|destruct FC as (_ & (b0 & EB)); destruct o; discriminate]. destruct FC as (TF & _). rewrite TF in TE. cbn [app] in TE. injection TE as <- <- <-.
        destruct (seps_end indent (length (A:=tframe) []) f EStreamEnd IO (or_intror (conj eq_refl TF))) as (FW & _).
        destruct (IH _ [] _ _ ltac:(exists true; reflexivity) TA) as (toks & TK & SP). exists toks. split; [now apply tokens_stop|]. rewrite ?app_nil_r. cbn [wdata app]. apply (spaced_app []); [now apply spaced_ws|exact SP].
      * unfold text_write, field_chunks, text_core in TE. rewrite ET in TE. cbn [begins_value] in TE. destruct below as [|g below]; [|destruct (tf_type f) as [[]|]; discriminate].
        destruct open as [|[t b] o]; [|destruct FC as (_ & (b0 & EB)); destruct o; discriminate]. assert (CS := comma_seps indent f [] [] EVersionMarker IO FR ltac:(discriminate) ltac:(discriminate)). destruct FC as (TF & _). rewrite TF in TE. cbn [app] in TE. injection TE as <- <- <-.
        destruct (IH _ [] _ _ ltac:(exists true; reflexivity) TA) as (toks & TK & SP). exists (txt "$ion_1_0" :: toks). split; [now apply tokens_marker|]. rewrite ?app_nil_r. apply (spaced_app []); [exact CS|]. apply (spaced_app [txt "$ion_1_0"]); [apply spaced_one|exact SP].
      * destruct (write_end _ _ _ _ _ _ _ ET TE) as (-> & E3). unfold text_core in E3. rewrite ET in E3. destruct below as [|g below]; [discriminate|]. destruct open as [|[t b] o]; [destruct FC as (_ & FC); discriminate|]. destruct FC as (-> & FB). cbn [tf_type] in E3.
        assert (fs1 = g :: below /\ wdata w = container_close t) as [-> EW] by (destruct below; injection E3 as <- <-; auto).
        destruct (seps_end indent (length (g :: below)) (mktf (Some t) b) EContainerEnd IO (or_introl eq_refl)) as (FW & _).
        destruct (IH _ o _ _ FB TA) as (toks & TK & SP). exists (container_close t :: toks). split; [now apply tokens_close|]. apply (spaced_app []); [now apply spaced_ws|]. rewrite EW. apply (spaced_app [container_close t]); [apply spaced_one|exact SP].
Qed.
Print Assumptions C47_only_white_space.

Lemma name_tokens_fun o e n1 n2 : name_tokens o e n1 -> name_tokens o e n2 -> n1 = n2.
Proof.
  intros H1 H2. inversion H1 as [a b o' w ans -> F1 S1 M1|ans N1 M1]; inversion H2 as [a' b' o'' w' ans' EO F2 S2 M2|ans' N2 M2]; subst.
  - rewrite F1 in F2. injection F2 as <-. congruence.
  - exfalso. eapply N2. reflexivity.
  - exfalso. eapply N1. reflexivity.
  - congruence.
Qed.
Lemma tokens_fun o es t1 : tokens o es t1 -> forall t2, tokens o es t2 -> t1 = t2.
Proof.
  induction 1; intros t2 T2; inversion T2; subst; try congruence; try (f_equal; [|congruence]).
  all: repeat match goal with
       | A : name_tokens ?o ?e ?x, B : name_tokens ?o ?e ?y |- _ => rewrite (name_tokens_fun _ _ _ _ A B) in *; clear A
       | A : ev_force ?x = Ok ?a, B : ev_force ?x = Ok ?b |- _ => rewrite A in B; injection B as <-
       | A : ue_ion_type ?x = Some ?a, B : ue_ion_type ?x = Some ?b |- _ => rewrite A in B; injection B as <-
       | A : text_scalar ?t ?x = Ok ?a, B : text_scalar ?t ?x = Ok ?b |- _ => rewrite A in B; injection B as <-
       end.
  all: repeat f_equal; auto.
Qed.
(** Two indentations of the same stream differ in white space between its tokens only. *)
Theorem C47_same_tokens : forall i j es fi fj oi oj, blank_indent i -> blank_indent j -> text_write_all i t_init es = Ok (fi, oi) -> text_write_all j t_init es = Ok (fj, oj) ->
  exists toks, tokens [] es toks /\ spaced toks oi /\ spaced toks oj.
Proof.
  intros i j es fi fj oi oj BI BJ WI WJ. destruct (C47_only_white_space i es fi oi BI WI) as (t1 & T1 & S1). destruct (C47_only_white_space j es fj oj BJ WJ) as (t2 & T2 & S2).
  rewrite (tokens_fun _ _ _ T2 _ T1) in S2. eauto.
Qed.
Print Assumptions C47_same_tokens.

(** Indentation does not change whether a stream is written, nor what is read. *)
Lemma write_indent i j fs e : match snd (text_write i fs e), snd (text_write j fs e) with Ok a, Ok b => a = b | Err _, Err _ => True | _, _ => False end.
Proof.
  unfold text_write. destruct fs as [|f below]; [exact I|]. 
  assert (F : snd (field_chunks i f e) = snd (field_chunks j f e)) by (unfold field_chunks; destruct (tf_type f) as [[]|]; try reflexivity; destruct (begins_value _); try reflexivity; destruct (ue_field e); try reflexivity; destruct (symbol_octets _ _); reflexivity).
  destruct (field_chunks i f e) as [c1 [[]|]], (field_chunks j f e) as [c1' [[]|]]; cbn [snd] in F; try discriminate; [|exact I].
  destruct (if begins_value (ue_type e) then _ else _) as [c2 [[]|]]; [|exact I]. cbn [snd]. destruct (text_core (f :: below) e); auto.
Qed.
Lemma read_indent i j es : forall fs, stream_read i fs es = stream_read j fs es.
Proof.
  induction es as [|e es IH]; intros fs; [reflexivity|]. cbn [stream_read]. f_equal. pose proof (write_indent i j fs e) as H.
  destruct (snd (text_write i fs e)) as [[f1 w1]|], (snd (text_write j fs e)) as [[f2 w2]|]; try contradiction; [injection H as <- _; apply IH|reflexivity].
Qed.
Theorem C47_same_reading : forall i j es fi fj oi oj, blank_indent i -> blank_indent j -> carried [] es ->
  text_write_all i t_init es = Ok (fi, oi) -> text_write_all j t_init es = Ok (fj, oj) ->
  exists evs, same_events [] es evs /\ forall uni n cs ds, (List.length evs < n)%nat -> pieces cs -> pieces ds -> concat cs = oi -> concat ds = oj ->
    text_session uni text_reader_new cs (repeat DNext n) = (evs, SEnd) /\ text_session uni text_reader_new ds (repeat DNext n) = (evs, SEnd).
Proof.
  intros i j es fi fj oi oj BI BJ C WI WJ.
  destruct (carried_written i es t_init [] eq_refl (ok_top false) C) as (f1 & o1 & W1 & S1 & E1). destruct (carried_written j es t_init [] eq_refl (ok_top false) C) as (f2 & o2 & W2 & S2 & _).
  exists (stream_read i t_init es). split; [exact E1|]. intros uni n cs ds L PC PD CC CD. split.
  - exact (stream_session uni i es fi oi cs n (blank_ok _ BI) S1 WI PC CC L).
  - rewrite (read_indent i j es t_init) in L |- *. exact (stream_session uni j es fj oj ds n (blank_ok _ BJ) S2 WJ PD CD L).
Qed.
Print Assumptions C47_same_reading.

(** * C43: quoted text *)
Lemma hex_number_spec l : Forall hex_lower l -> hex_number l (digits_value 16 l).
Proof.
  induction l as [|c l IH] using rev_ind; intros F; [constructor|]. apply Forall_app in F as [F1 F2]. pose proof (Forall_inv F2) as H.
  assert (E : digits_value 16 (l ++ [c]) = 16 * digits_value 16 l + digit_of c).
  { unfold digits_value, base_value. rewrite map_app, fold_left_app. cbn [map fold_left]. lia. }
  rewrite E. constructor; [auto|]. unfold hex_lower, hex_digit, digit_of in *. destruct H as [H|H].
  - replace ((48 <=? c) && (c <=? 57)) with true by lia. lia.
  - replace ((48 <=? c) && (c <=? 57)) with false by lia. replace ((97 <=? c) && (c <=? 102)) with true by lia. lia.
Qed.
Lemma octets_denote q c l s : q = 34 \/ q = 39 -> 0 <= c <= 0x10FFFF -> denotes q l s -> denotes q (text_octets (Some q) c ++ l) (c :: s).
Proof.
  intros Q C D. unfold text_octets. cbn [opt_eqb]. destruct (c =? q) eqn:E1; [apply denotes_quoted; [left; lia|exact D]|].
  destruct (c =? 92) eqn:E2; [assert (c = 92) as -> by lia; apply denotes_quoted; [right; reflexivity|exact D]|].
  unfold is_printable_ascii. destruct ((32 <=? c) && (c <=? 126)) eqn:E3; [apply denotes_itself; unfold printable; try lia; exact D|].
  unfold escape. destruct (c =? 10) eqn:E4; [assert (c = 10) as -> by lia; now apply denotes_newline|]. destruct (c =? 13) eqn:E5; [assert (c = 13) as -> by lia; now apply denotes_return|]. destruct (c =? 9) eqn:E6; [assert (c = 9) as -> by lia; now apply denotes_tab|].
  destruct (c <=? 0xFF) eqn:E7; [|destruct (c <=? 0xFFFF) eqn:E8].
  - destruct (hex_digits 2 c ltac:(cbn; lia) ltac:(lia)) as (L & F & V). cbn [app]. apply denotes_hex2; [exact L| |exact D]. rewrite <- V at 2. now apply hex_number_spec.
  - destruct (hex_digits 4 c ltac:(cbn; lia) ltac:(lia)) as (L & F & V). cbn [app]. apply denotes_hex4; [exact L| |exact D]. rewrite <- V at 2. now apply hex_number_spec.
  - destruct (hex_digits 8 c ltac:(cbn; lia) ltac:(lia)) as (L & F & V). cbn [app]. apply denotes_hex8; [exact L| |exact D]. rewrite <- V at 2. now apply hex_number_spec.
Qed.
Lemma text_denotes q s : q = 34 \/ q = 39 -> Forall (fun c => 0 <= c <= 0x10FFFF) s -> denotes q (flat_map (text_octets (Some q)) s) s.
Proof. intros Q. induction 1 as [|c s C F IH]; [constructor|]. cbn [flat_map]. now apply octets_denote. Qed.
Lemma hex_printable h n : hex_number h n -> Forall printable h.
Proof. induction 1 as [|l n c v H IH D]; [constructor|]. apply Forall_app. split; [exact IH|]. constructor; [|constructor]. unfold hex_digit, printable in *. lia. Qed.
Lemma denotes_printable q l s : printable q -> denotes q l s -> Forall printable l.
Proof.
  intros Q. assert (B : printable 92) by (unfold printable; lia).
  induction 1; repeat first [assumption | constructor; [unfold printable; lia|] | constructor; [assumption|]]; try constructor.
  - destruct H as [-> | ->]; [exact Q|exact B].
  - assumption.
  - apply Forall_app. split; [eapply hex_printable; eassumption|assumption].
  - apply Forall_app. split; [eapply hex_printable; eassumption|assumption].
  - apply Forall_app. split; [eapply hex_printable; eassumption|assumption].
Qed.
(** What quoted text stands for is determined: it cannot be taken for anything else. *)
Lemma hex_number_fun h n : hex_number h n -> forall m, hex_number h m -> n = m.
Proof.
  assert (G : forall h m, hex_number h m -> m = fold_left (fun a c => 16 * a + (if c <=? 57 then c - 48 else if c <=? 70 then c - 55 else c - 87)) h 0).
  { clear h n. induction 1 as [|l n c v H IH D]; [reflexivity|]. rewrite fold_left_app, <- IH. cbn [fold_left]. unfold hex_digit in D. destruct D as [[D ->]|[[D ->]|[D ->]]].
    - replace (c <=? 57) with true by lia. lia.
    - replace (c <=? 57) with false by lia. replace (c <=? 70) with false by lia. lia.
    - replace (c <=? 57) with false by lia. replace (c <=? 70) with true by lia. lia. }
  intros A m B. rewrite (G _ _ A), (G _ _ B). reflexivity.
Qed.
Lemma app_same_length {A} (a b c d : list A) : List.length a = List.length c -> a ++ b = c ++ d -> a = c /\ b = d.
Proof. revert c. induction a as [|x a IH]; intros [|y c] L E; try discriminate; [auto|]. cbn in *. injection E as -> E. destruct (IH c ltac:(lia) E) as [-> ->]. auto. Qed.
Theorem C43_unambiguous : forall q, q = 34 \/ q = 39 -> forall l s1 s2, denotes q l s1 -> denotes q l s2 -> s1 = s2.
Proof.
  intros q Q l s1 s2 D. revert s2. induction D; intros s2 D2; inversion D2; subst; try congruence; try lia; try (f_equal; auto; fail);
    try (match goal with O : ?c = q \/ ?c = 92 |- _ => lia end).
  all: match goal with H : ?h ++ ?l = ?h' ++ ?l', A : List.length ?h = _, B : List.length ?h' = _ |- _ => destruct (app_same_length _ _ _ _ (eq_trans B (eq_sym A)) (eq_sym H)) as [E1 E2] || destruct (app_same_length _ _ _ _ (eq_trans A (eq_sym B)) H) as [E1 E2]; subst end.
  all: f_equal; [eapply hex_number_fun; eassumption|auto].
Qed.
Print Assumptions C43_unambiguous.

(** Strings, clobs and quoted symbols: between the quotes, printable ASCII that stands for exactly the
    code points given. *)
Theorem C43_string_escapes : forall s, Forall scalar_value s ->
  exists body, text_scalar (Some TString) (Some (VString s)) = Ok (34 :: body ++ [34]) /\ denotes 34 body s /\ Forall printable body.
Proof.
  intros s F. exists (flat_map (text_octets (Some 34)) s). cbn [text_scalar]. rewrite (iter_code_points s F). cbn [bind]. split; [unfold bytes_text; cbn [quote_octets app]; rewrite ?app_nil_r; reflexivity|].
  assert (D : denotes 34 (flat_map (text_octets (Some 34)) s) s) by (apply text_denotes; [left; reflexivity|]; eapply Forall_impl; [|exact F]; intros c [C _]; exact C).
  split; [exact D|]. eapply denotes_printable; [|exact D]. unfold printable; lia.
Qed.
Print Assumptions C43_string_escapes.
Theorem C43_clob_escapes : forall b, octets b ->
  exists body, text_scalar (Some TClob) (Some (VBytes b)) = Ok ([123; 123; 34] ++ body ++ [34; 125; 125]) /\ denotes 34 body b /\ Forall printable body.
Proof.
  intros b F. exists (flat_map (text_octets (Some 34)) b). cbn [text_scalar]. split; [reflexivity|].
  assert (D : denotes 34 (flat_map (text_octets (Some 34)) b) b) by (apply text_denotes; [left; reflexivity|]; eapply Forall_impl; [|exact F]; intros c C; unfold is_octet in C; lia).
  split; [exact D|]. eapply denotes_printable; [|exact D]. unfold printable; lia.
Qed.
Print Assumptions C43_clob_escapes.

(** A value on its own. *)
Lemma alone_reads t v : scalar_fits t v -> ~ value_ivm t (Some v) ->
  exists w, text_scalar (Some t) (Some v) = Ok w /\ forall uni cs, pieces cs -> concat cs = w ->
    text_session uni text_reader_new cs [DNext; DNext] = ([mkev EScalar (Some t) (value_read t (Some v)) None [] (Some 0)], SEnd).
Proof.
  intros F NI. set (e := mkue EScalar (Some t) (EvVal v) None [] None).
  assert (C : carried [] [e]).
  { split; [|reflexivity]. intros _. split; [intros (o & E); discriminate|]. split; [constructor|]. intros _. exists t, (Some v). split; [reflexivity|]. split; [reflexivity|]. split; [exact F|].
    intros _ (ET & _ & v' & x & E & O & LI). injection E as <-. injection ET as ->. apply NI. apply like_ivm_spec in LI. destruct O as [->|(k & -> & EK)]; [exact LI|]. cbn. unfold ivm_like. cbn. rewrite EK. exact LI. }
  destruct (carried_written None [e] t_init [] eq_refl (ok_top false) C) as (fs & out & TW & SO & _).
  assert (TW' := TW). cbn [text_write_all] in TW'. unfold text_write, text_core in TW'. cbn [t_init e field_chunks tf_type begins_value ue_type annotation_chunks ue_annot ue_value ue_ion_type ev_force bind] in TW'.
  destruct (text_scalar (Some t) (Some v)) as [w|] eqn:TS; [|discriminate]. exists w. split; [reflexivity|]. cbn [bind length] in TW'. injection TW' as <- EO. rewrite app_nil_r in EO. cbn in EO. subst out.
  intros uni cs P CC. assert (SR : stream_read None t_init [e] = [mkev EScalar (Some t) (value_read t (Some v)) None [] (Some 0)]).
  { cbn [stream_read]. destruct (snd (text_write None t_init e)) as [[]|]; reflexivity. }
  rewrite <- SR. refine (stream_session uni None [e] _ w cs 2 I SO TW P CC _). rewrite SR. cbn; lia.
Qed.

(** Read back as the same code points, wherever the text is cut. *)
Theorem C43_string_reads_back : forall s, Forall scalar_value s ->
  exists w, text_scalar (Some TString) (Some (VString s)) = Ok w /\ forall uni cs, pieces cs -> concat cs = w ->
    text_session uni text_reader_new cs [DNext; DNext] = ([mkev EScalar (Some TString) (EvVal (VString s)) None [] (Some 0)], SEnd).
Proof. intros s F. exact (alone_reads TString (VString s) F (fun H => H)). Qed.
Print Assumptions C43_string_reads_back.
Theorem C43_clob_reads_back : forall b, octets b ->
  exists w, text_scalar (Some TClob) (Some (VBytes b)) = Ok w /\ forall uni cs, pieces cs -> concat cs = w ->
    text_session uni text_reader_new cs [DNext; DNext] = ([mkev EScalar (Some TClob) (EvLazy (Ok (VBytes b))) None [] (Some 0)], SEnd).
Proof. intros b F. exact (alone_reads TClob (VBytes b) F (fun H => H)). Qed.
Print Assumptions C43_clob_reads_back.
Theorem C43_blob_reads_back : forall b, octets b ->
  exists w, text_scalar (Some TBlob) (Some (VBytes b)) = Ok w /\ forall uni cs, pieces cs -> concat cs = w ->
    text_session uni text_reader_new cs [DNext; DNext] = ([mkev EScalar (Some TBlob) (EvLazy (Ok (VBytes b))) None [] (Some 0)], SEnd).
Proof. intros b F. exact (alone_reads TBlob (VBytes b) F (fun H => H)). Qed.
Print Assumptions C43_blob_reads_back.

(** * C44: symbols *)
Lemma name_start_spec c : name_start c <-> identifier_start c = true.
Proof. unfold name_start, identifier_start, is_letter. lia. Qed.
Lemma bare_spec t : bare_symbol t <-> symbol_needs_quotes t = false.
Proof.
  unfold bare_symbol, symbol_needs_quotes.
  assert (K : In t [[110; 117; 108; 108]; [116; 114; 117; 101]; [102; 97; 108; 115; 101]; [110; 97; 110]] <-> existsb (zlist_eqb t) [t_nan; t_null; t_false; t_true] = true).
  { rewrite existsb_exists. split.
    - intros H. exists t. split; [cbn in H |- *; tauto|apply zlist_eqb_refl].
    - intros (x & IN & E). apply zlist_eqb_eq in E. subst x. cbn in IN |- *. tauto. }
  rewrite K. assert (ID : (exists c r, t = c :: r /\ name_start c /\ Forall (fun c => name_start c \/ digit c) r) <-> is_identifier t = true).
  { unfold is_identifier. split.
    - intros (c & r & -> & S1 & F). apply andb_true_iff. split; [now apply name_start_spec|]. apply forallb_forall. intros x IN. rewrite Forall_forall in F. unfold identifier_part. apply orb_true_iff. destruct (F x IN) as [H|H]; [left; now apply name_start_spec|right; now apply digit_spec].
    - destruct t as [|c r]; [discriminate|]. intros H. apply andb_true_iff in H as [H1 H2]. exists c, r. split; [reflexivity|]. split; [now apply name_start_spec|]. apply Forall_forall. intros x IN. rewrite forallb_forall in H2. specialize (H2 x IN). unfold identifier_part in H2. apply orb_true_iff in H2 as [H|H]; [left; now apply name_start_spec|right; now apply digit_spec]. }
  rewrite ID. destruct (existsb _ _), (is_identifier t); cbn; split; intuition congruence.
Qed.
(** A name is written bare if it is an identifier but no keyword, and otherwise between single quotes;
    [suffix] is [:] for a field name, [::] for an annotation and nothing for a value. *)
Theorem C44_quoted_exactly : forall t suffix, Forall scalar_value t ->
  (bare_symbol t -> symbol_octets (AText t) suffix = Ok (t ++ suffix)) /\
  (~ bare_symbol t -> exists body, symbol_octets (AText t) suffix = Ok (39 :: body ++ 39 :: suffix) /\ denotes 39 body t /\ Forall printable body).
Proof.
  intros t suffix F. cbn [symbol_octets]. unfold symbol_text. rewrite (iter_code_points t F). cbn [bind]. rewrite bare_spec. split.
  - intros E. rewrite E. unfold bytes_text. cbn [quote_octets app]. destruct (identifier_chars t (unquoted_identifier t E)) as (c & r & -> & HC & FR). cbn [flat_map].
    rewrite (flat_plain r FR), text_octets_plain; [reflexivity|]. revert HC. unfold identifier_start, ident_char, ident_start, is_letter. lia.
  - intros N. assert (symbol_needs_quotes t = true) as -> by (destruct (symbol_needs_quotes t); congruence). exists (flat_map (text_octets (Some 39)) t). split; [unfold bytes_text; cbn [quote_octets app]; reflexivity|].
    assert (D : denotes 39 (flat_map (text_octets (Some 39)) t) t) by (apply text_denotes; [right; reflexivity|]; eapply Forall_impl; [|exact F]; intros c [C _]; exact C).
    split; [exact D|]. eapply denotes_printable; [|exact D]. unfold printable; lia.
Qed.
Print Assumptions C44_quoted_exactly.
(** It reads back as a symbol with the same text, unless it spells a symbol identifier or, on its own,
    a version marker. *)
Theorem C44_reads_back_partial : forall t, Forall scalar_value t -> ~ like_sid t -> ~ like_ivm t ->
  exists w, text_scalar (Some TSymbol) (Some (VString t)) = Ok w /\ forall uni cs, pieces cs -> concat cs = w ->
    text_session uni text_reader_new cs [DNext; DNext] = ([mkev EScalar (Some TSymbol) (EvVal (VSymbol (mktok (Some t) None None))) None [] (Some 0)], SEnd).
Proof. intros t F NS NI. refine (alone_reads TSymbol (VString t) (conj F NS) _). cbn. rewrite <- like_ivm_spec. exact NI. Qed.
Print Assumptions C44_reads_back_partial.
(** The texts left out do not read back: [$10] comes back as a symbol without text, whatever the digits,
    and [$ion_1_0] as a version marker. *)
Theorem C44_sid_refuted : forall n, 0 <= n ->
  text_scalar (Some TSymbol) (Some (VString (36 :: int_str n))) = Ok (36 :: int_str n) /\
  forall uni cs, pieces cs -> concat cs = 36 :: int_str n ->
    text_session uni text_reader_new cs [DNext; DNext] = ([mkev EScalar (Some TSymbol) (EvVal (VSymbol (mktok None (Some n) None))) None [] (Some 0)], SEnd).
Proof.
  intros n H. destruct (alone_reads TSymbol (VSymbol (sid_token n))) as (w & E & R).
  - exists n. auto.
  - cbn. auto.
  - cbn [text_scalar symbol_octets sid_token tk_text tk_sid] in E. rewrite app_nil_r in E. injection E as <-. split; [|exact R].
    assert (D : Forall (fun c => is_digit c = true) (int_str n)).
    { unfold int_str. replace (n <? 0) with false by lia. pose proof (nat_str_chars n H) as F. eapply Forall_impl; [|exact F]. intros c C. revert C. unfold dec_char, is_digit. lia. }
    destruct (C44_quoted_exactly (36 :: int_str n) []) as (B & _).
    + constructor; [unfold scalar_value; lia|]. eapply Forall_impl; [|exact D]. intros c C. unfold is_digit in C. unfold scalar_value. lia.
    + cbn [text_scalar]. rewrite B, app_nil_r; [reflexivity|]. split.
      * exists 36, (int_str n). split; [reflexivity|]. split; [unfold name_start; lia|]. eapply Forall_impl; [|exact D]. intros c C. right. now apply digit_spec.
      * cbn. intros [E|[E|[E|[E|[]]]]]; discriminate E.
Qed.
Print Assumptions C44_sid_refuted.
Theorem C44_marker_refuted : text_scalar (Some TSymbol) (Some (VString (txt "$ion_1_0"))) = Ok (txt "$ion_1_0") /\
  text_session true text_reader_new [txt "$ion_1_0"] [DNext; DNext] = ([version_marker_event], SEnd).
Proof. vm_compute. auto. Qed.

(** * C45: numbers and timestamps *)
Theorem C45_int : forall n, exists w, text_scalar (Some TInt) (Some (VInt n)) = Ok w /\ forall uni cs, pieces cs -> concat cs = w ->
  text_session uni text_reader_new cs [DNext; DNext] = ([mkev EScalar (Some TInt) (EvLazy (Ok (VInt n))) None [] (Some 0)], SEnd).
Proof. intros n. exact (alone_reads TInt (VInt n) I (fun H => H)). Qed.
Print Assumptions C45_int.
Theorem C45_decimal : forall d, decimal_fits d -> exists w, text_scalar (Some TDecimal) (Some (VDecimal d)) = Ok w /\ forall uni cs, pieces cs -> concat cs = w ->
  text_session uni text_reader_new cs [DNext; DNext] = ([mkev EScalar (Some TDecimal) (EvLazy (Ok (VDecimal d))) None [] (Some 0)], SEnd).
Proof. intros d H. exact (alone_reads TDecimal (VDecimal d) H (fun H => H)). Qed.
Print Assumptions C45_decimal.
Theorem C45_float : forall b, 0 <= b < 2 ^ 64 -> exists w x, text_scalar (Some TFloat) (Some (VFloat b)) = Ok w /\
  (exists c, ev_force x = Ok (Some (VFloat c)) /\ (c = b \/ not_a_number b /\ c = 0x7FF8000000000000)) /\
  forall uni cs, pieces cs -> concat cs = w -> text_session uni text_reader_new cs [DNext; DNext] = ([mkev EScalar (Some TFloat) x None [] (Some 0)], SEnd).
Proof.
  intros b H. destruct (alone_reads TFloat (VFloat b) H (fun H => H)) as (w & E & R). exists w, (value_read TFloat (Some (VFloat b))). split; [exact E|]. split; [|exact R].
  destruct (read_same TFloat (VFloat b) H) as (v & EV & SV). inversion SV; subst.
  - cbn in H0. intuition discriminate.
  - exists b. auto.
  - exists 0x7FF8000000000000. auto.
Qed.
Print Assumptions C45_float.
Theorem C45_timestamp : forall x, timestamp_fits x -> exists w, text_scalar (Some TTimestamp) (Some (VTimestamp (TsStamp x))) = Ok w /\ forall uni cs, pieces cs -> concat cs = w ->
  text_session uni text_reader_new cs [DNext; DNext] = ([mkev EScalar (Some TTimestamp) (EvLazy (Ok (VTimestamp (TsStamp x)))) None [] (Some 0)], SEnd).
Proof. intros x H. exact (alone_reads TTimestamp (VTimestamp (TsStamp x)) H (fun H => H)). Qed.
Print Assumptions C45_timestamp.
(** Outside [timestamp_fits]: an offset below minute precision is dropped, one with seconds is written so
    that it does not read as a timestamp, and without a precision nothing is written. *)
Definition stamp (p : option precision) (off : option Z) : ts := mkts (mkdt 2000 1 1 0 0 0 0 off) p 0 (mkdec false 0 0).
Theorem C45_timestamps_refuted :
  text_scalar (Some TTimestamp) (Some (VTimestamp (TsStamp (stamp (Some PYear) (Some 3600))))) = Ok (txt "2000T") /\
  text_scalar (Some TTimestamp) (Some (VTimestamp (TsStamp (stamp (Some PSecond) (Some 3630))))) = Ok (txt "2000-01-01T00:00:00+01:0030") /\
  (exists x, text_session true text_reader_new [txt "2000-01-01T00:00:00+01:0030 "] [DNext] = ([], SExc x)) /\
  text_scalar (Some TTimestamp) (Some (VTimestamp (TsStamp (stamp None None)))) = Err AttributeError.
Proof. split; [reflexivity|]. split; [reflexivity|]. split; [eexists; reflexivity|reflexivity]. Qed.
(** [bool] is an [int] in Python: as an INT it is written as a symbol. *)
Theorem C45_bool_as_int_refuted : text_scalar (Some TInt) (Some (VBool true)) = Ok (txt "True") /\
  text_session true text_reader_new [txt "True"] [DNext; DNext] = ([mkev EScalar (Some TSymbol) (EvVal (VSymbol (text_token (txt "True")))) None [] (Some 0)], SEnd).
Proof. vm_compute. auto. Qed.
(** An indentation the writer accepts that is not Ion white space makes the text unreadable. *)
Theorem C47_indent_refuted :
  text_indent (Some [28]) = Ok (Some [28]) /\
  exists fs out x, text_write_all (Some [28]) t_init [mkue EContainerStart (Some TList) EvNone None [] None; mkue EScalar (Some TInt) (EvVal (VInt 1)) None [] None; mkue EContainerEnd None EvNone None [] None] = Ok (fs, out) /\
    text_session true text_reader_new [out] [DNext; DNext; DNext] = ([mkev EContainerStart (Some TList) EvNone None [] (Some 0)], SExc x).
Proof. split; [reflexivity|]. do 3 eexists. split; [reflexivity|]. vm_compute. reflexivity. Qed.

(** * The hypotheses are met *)
Definition sample : list uevent :=
  let ev ty it v fld an := mkue ty it v fld an None in
  [ev EVersionMarker None EvNone None [];
   ev EContainerStart (Some TStruct) EvNone None [AText (txt "an"); ATok (sid_token 4)];
   ev EScalar (Some TInt) (EvVal (VInt (-12))) (Some (AText (txt "a b"))) [];
   ev EContainerStart (Some TSexp) EvNone (Some (ATok (sid_token 10))) [AText (txt "null")];
   ev EScalar (Some TString) (EvVal (VString [34; 92; 10; 0x1F600])) None [];
   ev EScalar (Some TFloat) (EvVal (VFloat 0x3FF8000000000000)) None [];
   ev EScalar (Some TTimestamp) (EvVal (VTimestamp (TsStamp (mkts (mkdt 2007 2 23 12 14 33 79000 (Some (-28800))) (Some PSecond) 3 (mkdec false 79 (-3)))))) None [];
   ev EContainerEnd None EvNone None [];
   ev EScalar (Some TSymbol) (EvVal (VSymbol (text_token []))) (Some (AText [])) [];
   ev EContainerStart (Some TList) EvNone (Some (AText (txt "l"))) [];
   ev EScalar (Some TBlob) (EvVal (VBytes [0; 255])) None [];
   ev EScalar (Some TStruct) EvNone None [];
   ev EContainerEnd None EvNone None [];
   ev EContainerEnd None EvNone None [];
   ev EStreamEnd None EvNone None []].
Ltac name_done := match goal with
  | |- name_fits _ => unfold name_fits; cbn -[Z.le]; first [split; [repeat constructor; unfold scalar_value; lia|intros (ds & E & _); vm_compute in E; try discriminate E; injection E as E; subst; try congruence]|eexists; split; [reflexivity|lia]]
  end.
Example C46_sample_carried : carried [] sample.
Proof.
  unfold sample. cbn -[event_fits txt].
  repeat match goal with
  | |- _ /\ _ => split
  | |- event_fits _ _ => intros BV; try discriminate BV; cbn [ue_field ue_annot ue_type ue_ion_type ue_value ev_force]
  | |- in_a_struct _ -> _ => intros (o & EO); first [discriminate EO|eexists; split; [reflexivity|name_done]]
  | |- Forall name_fits _ => repeat (constructor; [name_done|]); constructor
  | |- EContainerStart = EScalar -> _ => discriminate
  | |- EScalar = EScalar -> _ => intros _; eexists _, _; split; [reflexivity|]; split; [reflexivity|]; split
  | |- [] = [] => reflexivity
  | |- (_ :: _) = [] -> _ => discriminate
  | |- True => exact I
  end.
  all: try exact I.
  - cbn. repeat constructor; unfold scalar_value; lia.
  - cbn. lia.
  - cbn. unfold timestamp_fits. cbn. repeat split; try lia; try discriminate; try reflexivity; congruence.
  - cbn; split; [constructor|intros (ds & E & _); discriminate E].
  - cbn. repeat constructor; lia.
Qed.
Example C46_sample_text : match text_write_all None t_init sample with
  | Ok (_, out) => out = txt "$ion_1_0 an::$4::{'a b':-12,$10:'null'::(""\""\\\n\U0001f600"" 1.5e0 2007-02-23T12:14:33.079-08:00),'':'',l:[{{AP8=}},null.struct]} "
  | Err _ => False end.
Proof. vm_compute. reflexivity. Qed.
Example C46_sample_read : exists evs, same_events [] sample evs /\ List.length evs = 14%nat.
Proof.
  destruct (C46_round_trip None sample I C46_sample_carried) as (fs & out & TW & R).
  assert (NE : out <> []) by (intros ->; vm_compute in TW; discriminate TW).
  destruct (R true [out]) as (evs & SE & _); [repeat constructor; exact NE|apply app_nil_r|]. exists evs. split; [exact SE|]. unfold sample in SE.
  repeat match goal with H : same_events _ _ _ |- _ => inversion H; subst; clear H; try discriminate end. reflexivity.
Qed.
