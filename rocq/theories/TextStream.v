(** Reading back what the text writer writes, event by event. *)
From Coq Require Import String.
From Verif Require Import Base BaseFacts CoreModel ScalarFacts BinWriterModel BinReaderModel SymbolsModel ManagedModel TextNumbers TextNumbersFacts TextWriterModel Props_TextWriter.
From Verif Require Import TextReaderModel TextReaderFacts TextReaderNest TextReaderChunks TextWalk TextTokens TextNumberTokens TextNumberValues TextFloats TextKeywords TextTimestamps TextQuoted TextBlobs TextSymbols.
Local Open Scope Z_scope.

(** * Symbols and values as they are written *)
Definition sym_of (a : symarg) : token :=
  match a with
  | AText t => text_token t
  | ATok k => match tk_text k with
              | Some t => text_token t
              | None => match tk_sid k with Some n => sid_token n | None => text_token [] end
              end
  end.
Definition sym_text (a : symarg) : option text := match a with AText t => Some t | ATok k => tk_text k end.
Definition name_ok (t : text) : Prop := Forall code_point t /\ spells_sid t = false.
Definition sym_ok (a : symarg) : Prop :=
  match sym_text a with
  | Some t => name_ok t
  | None => match a with ATok k => match tk_sid k with Some n => 0 <= n | None => False end | AText _ => False end
  end.
Definition ivm_like (a : symarg) : Prop := match sym_text a with Some t => ivm_form t | None => False end.

Lemma iter_code_points t : Forall code_point t -> unicode_iter t = Ok t.
Proof. intros F. apply C42_identity. apply Forall_forall. intros x IN. rewrite Forall_forall in F. destruct (F x IN) as (_ & N). unfold high_surrogate, low_surrogate. lia. Qed.
Lemma bytes_text_suffix cps q suf : bytes_text cps q [] suf = bytes_text cps q [] [] ++ suf.
Proof. unfold bytes_text. cbn [app]. rewrite app_nil_r, <- !app_assoc. reflexivity. Qed.
Lemma sym_out a : sym_ok a -> exists w, (forall suf, symbol_octets a suf = Ok (w ++ suf)) /\ sym_reads w (sym_of a) (ivm_like a) /\ hd 0 w <> 123.
Proof.
  unfold sym_ok, ivm_like.
  assert (T : forall t, name_ok t -> exists w, (forall suf, symbol_text t suf = Ok (w ++ suf)) /\ sym_reads w (text_token t) (ivm_form t) /\ hd 0 w <> 123).
  { intros t (F & NS). exists (bytes_text t (if symbol_needs_quotes t then Some 39 else None) [] []). split; [|split].
    - intros suf. unfold symbol_text. rewrite (iter_code_points t F). cbn [bind]. now rewrite bytes_text_suffix.
    - now apply symbol_reads.
    - destruct (symbol_needs_quotes t) eqn:NQ; [cbn; lia|]. destruct (identifier_chars t (unquoted_identifier t NQ)) as (c & r & -> & HC & FR).
      unfold bytes_text. cbn [quote_octets app flat_map]. rewrite text_octets_plain; [cbn [app hd]|]; revert HC; unfold identifier_start, ident_char, ident_start, is_letter; lia. }
  destruct a as [k|t]; cbn [sym_text]; [|apply T]. cbn [symbol_octets sym_of]. destruct (tk_text k) as [t|]; [apply T|].
  destruct (tk_sid k) as [n|]; [|contradiction]. intros H. exists (36 :: int_str n). split; [reflexivity|]. split; [now apply sid_reads|cbn; lia].
Qed.

(** A value the text format can carry, and what is read back. *)
Definition value_ok (t : iontype) (v : option scalar) : Prop :=
  match v with
  | None => True
  | Some v =>
    match t, v with
    | TBool, VBool _ => True
    | TInt, VInt _ => True
    | TFloat, VFloat b => float_bits b
    | TDecimal, VDecimal d => dec_possible d
    | TTimestamp, VTimestamp x => textable x
    | TSymbol, VSymbol k => sym_ok (ATok k)
    | TSymbol, VString s => sym_ok (AText s)
    | TString, VString s => Forall code_point s
    | TClob, VBytes b => octets b
    | TBlob, VBytes b => octets b
    | _, _ => False
    end
  end.
Definition value_read (t : iontype) (v : option scalar) : evalue :=
  match v with
  | None => EvNone
  | Some v =>
    match t, v with
    | TFloat, VFloat b => read_float b
    | TTimestamp, VTimestamp x => EvLazy (Ok (VTimestamp (TsStamp (stamp_as x))))
    | TSymbol, VSymbol k => EvVal (VSymbol (sym_of (ATok k)))
    | TSymbol, VString s => EvVal (VSymbol (text_token s))
    | (TBool | TString), _ => EvVal v
    | _, _ => EvLazy (Ok v)
    end
  end.
(** Whether the value, without annotations and outside all containers, is a version marker instead. *)
Definition value_ivm (t : iontype) (v : option scalar) : Prop :=
  match t, v with
  | TSymbol, Some (VSymbol k) => ivm_like (ATok k)
  | TSymbol, Some (VString s) => ivm_form s
  | _, _ => False
  end.
(** [reads], for symbols too. *)
Definition value_reads (w : list Z) (t : iontype) (x : evalue) (ivm : Prop) : Prop :=
  exists c0 rest, w = c0 :: rest /\ starts c0 = true /\
  forall uni p child f an s ws stop q, place_ok p -> p_field p = false -> (p_type p = Some TStruct -> f <> None) -> (ivm -> ~ alone p an) ->
    At p child false (plain c0) s -> child_of child f an -> follows p ws stop q -> (ws = [] -> cz stop <> 39) ->
    goes uni s (map plain rest ++ map plain ws ++ stop :: q) [scalar_event p f an t x] (At p None (is_delimited (p_type p)) stop) q.
Lemma reads_value w t x : reads w t x -> value_reads w t x False.
Proof. intros (c0 & rest & E & S1 & R). exists c0, rest. split; [exact E|]. split; [exact S1|]. intros. eapply R; eassumption. Qed.
Lemma sym_value w tok ivm : sym_reads w tok ivm -> value_reads w TSymbol (EvVal (VSymbol tok)) ivm.
Proof. intros (c0 & rest & E & S1 & R). exists c0, rest. split; [exact E|]. split; [exact S1|]. intros uni p child f an s ws stop q PO PF PS NI HA HC FL N39. destruct (R uni p child f an s PO HA HC) as (_ & R2). apply R2; assumption. Qed.
Lemma scalar_reads t v : value_ok t v -> exists w, text_scalar (Some t) v = Ok w /\ value_reads w t (value_read t v) (value_ivm t v).
Proof.
  destruct v as [v|].
  2: { intros _. exists (null_text t). split; [reflexivity|]. replace (value_ivm t None) with False by (destruct t; reflexivity). apply reads_value, null_reads. }
  cbn [value_ok]. destruct t; try contradiction.
  - destruct v; try contradiction. intros _. eexists. split; [reflexivity|]. apply reads_value, bool_reads.
  - destruct v; try contradiction. intros _. eexists. split; [reflexivity|]. apply reads_value, int_reads.
  - destruct v; try contradiction. intros H. eexists. split; [reflexivity|]. apply reads_value, float_reads, H.
  - destruct v; try contradiction. intros H. eexists. split; [reflexivity|]. apply reads_value, decimal_reads, H.
  - destruct v; try contradiction. intros H. destruct (timestamp_reads _ H) as (w & E & R). exists w. split; [exact E|]. apply reads_value, R.
  - destruct v; try contradiction; intros H.
    + destruct (sym_out _ H) as (w & E & R & _). exists w. split; [cbn [text_scalar]; rewrite E, app_nil_r; reflexivity|]. apply sym_value, R.
    + destruct (sym_out _ H) as (w & E & R & _). exists w. split; [cbn [text_scalar]; rewrite E, app_nil_r; reflexivity|]. apply sym_value, R.
  - destruct v; try contradiction. intros H. exists (bytes_text s (Some 34) [] []). split; [cbn [text_scalar]; rewrite (iter_code_points _ H); reflexivity|]. apply reads_value, string_reads, H.
  - destruct v; try contradiction. intros H. eexists. split; [reflexivity|]. apply reads_value, clob_reads, H.
  - destruct v; try contradiction. intros H. eexists. split; [reflexivity|]. apply reads_value, blob_reads, H.
Qed.

(** * Positions in the text *)

(** What comes next, after white space. *)
Fixpoint skip (l : list Z) : ch * list ch :=
  match l with
  | [] => (Eof, [])
  | c :: r => if is_ws c then skip r else (plain c, map plain r ++ [Eof])
  end.
Lemma skip_ws ws l : Forall (fun c => is_ws c = true) ws -> skip (ws ++ l) = skip l.
Proof. induction 1 as [|c ws H F IH]; [reflexivity|]. cbn [app skip]. rewrite H. exact IH. Qed.
Lemma skip_char c l : is_ws c = false -> skip (c :: l) = (plain c, map plain l ++ [Eof]).
Proof. intros H. cbn [skip]. now rewrite H. Qed.
Lemma skip_split l : exists ws, Forall (fun c => is_ws c = true) ws /\ map plain l ++ [Eof] = map plain ws ++ fst (skip l) :: snd (skip l) /\ is_ws (cz (fst (skip l))) = false /\
  match fst (skip l) with Ch c e g => e = false /\ g = false /\ exists r, l = ws ++ c :: r | Eof => snd (skip l) = [] /\ l = ws end.
Proof.
  induction l as [|c l IH].
  - exists []. split; [constructor|]. split; [reflexivity|]. split; [reflexivity|]. split; reflexivity.
  - cbn [skip]. destruct (is_ws c) eqn:W.
    + destruct IH as (ws & F & E & N & M). exists (c :: ws). split; [constructor; auto|]. split; [cbn [map app]; rewrite E; reflexivity|]. split; [exact N|].
      destruct (fst (skip l)) as [c' e g|]; [destruct M as (-> & -> & r & ->); split; [reflexivity|]; split; [reflexivity|]; exists r; reflexivity|destruct M as (M & ->); auto].
    + exists []. split; [constructor|]. split; [reflexivity|]. split; [exact W|]. split; [reflexivity|]. split; [reflexivity|]. exists l. reflexivity.
Qed.

(** * The writer's stack and the reader's place *)
Definition is_struct (t : option iontype) : bool := match t with Some TStruct => true | _ => false end.
Inductive fs_ok : tstate -> Prop :=
| ok_top b : fs_ok [mktf None b]
| ok_in t b x fs : fs_ok (mktf x true :: fs) -> is_container t = true -> fs_ok (mktf (Some t) b :: mktf x true :: fs).
Definition around (below : tstate) : list (option iontype * bool) := map (fun g => (tf_type g, false)) below.
Definition place_of (fs : tstate) : place :=
  match fs with f :: below => mkp (tf_type f) (around below) (is_struct (tf_type f) && negb (tf_has f)) | [] => mkp None [] false end.
Definition dlm_of (fs : tstate) : bool := match fs with f :: _ => is_delimited (tf_type f) && tf_has f | [] => false end.
(** Between two events. *)
Definition Bd (fs : tstate) (stop : ch) (s : tcore) : Prop := At (place_of fs) None (dlm_of fs) stop s.
(** Where a field name or value may start; where a value may start. *)
Definition fresh (fs : tstate) : place := match fs with f :: below => mkp (tf_type f) (around below) (is_struct (tf_type f)) | [] => mkp None [] false end.
Definition vplace (fs : tstate) : place := match fs with f :: below => mkp (tf_type f) (around below) false | [] => mkp None [] false end.

Lemma fs_ok_cons fs : fs_ok fs -> exists f below, fs = f :: below.
Proof. intros []; eauto. Qed.
Lemma vplace_ok fs : fs_ok fs -> place_ok (vplace fs).
Proof. intros [b|t b x fs' _ _] SP; [split; reflexivity|discriminate SP]. Qed.
Lemma fresh_ok fs : fs_ok fs -> place_ok (fresh fs).
Proof. intros [b|t b x fs' _ _] SP; [split; reflexivity|discriminate SP]. Qed.
Lemma top_has fs : fs_ok fs -> forall f below, fs = f :: below -> fs_ok (mktf (tf_type f) true :: below).
Proof. intros H f below ->. inversion H; subst; constructor; assumption. Qed.

(** At a character of the text. *)
Definition Pos (p : place) (child : option tctx) (l : list Z) (s : tcore) : Prop := exists c r, l = c :: r /\ At p child false (plain c) s.
Definition qof (l : list Z) : list ch := map plain (tl l) ++ [Eof].

(** ** Field names and annotations *)
Lemma read_annotations uni p f l : place_ok p -> p_field p = false -> Forall sym_ok l -> forall cs tail, annotation_chunks l = (cs, Ok tt) ->
  (exists c r, tail = c :: r /\ is_ws c = false) -> forall an child s, child_of child f an -> Pos p child (concat cs ++ tail) s ->
  goes uni s (qof (concat cs ++ tail)) [] (fun s' => exists child', child_of child' f (an ++ map sym_of l) /\ Pos p child' tail s') (qof tail).
Proof.
  intros PO PF FO. induction FO as [|a l Ha FO IH]; intros cs tail E TL an child s HC HP.
  - injection E as <-. cbn [concat app map] in *. rewrite app_nil_r. apply goes_here. eauto.
  - cbn [annotation_chunks] in E. destruct (sym_out a Ha) as (w & SO & SR & _). rewrite SO in E.
    destruct (annotation_chunks l) as [cs' r'] eqn:E'. injection E as <- ->. cbn [concat] in *.
    destruct SR as (c0 & rest & -> & S1 & R). destruct HP as (c & r & EQ & HA). cbn [app] in EQ. injection EQ as <- _.
    destruct (R uni p child f an s PO HA HC) as (R1 & _).
    assert (NX : exists c1 r1, concat cs' ++ tail = c1 :: r1 /\ is_ws c1 = false).
    { destruct l as [|a2 l]; [injection E' as <-; exact TL|]. cbn [annotation_chunks] in E'. inversion FO as [|? ? Ha2 _]; subst. destruct (sym_out a2 Ha2) as (w2 & SO2 & (d0 & rr & -> & S2 & _) & _). rewrite SO2 in E'.
      destruct (annotation_chunks l) as [cs2 r2]. injection E' as <- _. cbn [concat app]. eexists _, _. split; [reflexivity|]. revert S2. unfold starts. destruct (is_ws d0); [discriminate|reflexivity]. }
    destruct NX as (c1 & r1 & NX & W1).
    assert (Q : qof ((((c0 :: rest) ++ [58; 58]) ++ concat cs') ++ tail) = map plain rest ++ plain 58 :: plain 58 :: map plain (concat cs' ++ tail) ++ [Eof]).
    { unfold qof. cbn [app tl]. rewrite !map_app, <- !app_assoc. cbn [map app]. reflexivity. }
    rewrite Q.
    eapply goes_quiet; [apply R1|]. intros s1 (k & sv & PK & TK & A1). eapply goes_quiet; [eapply pend_annotation; eassumption|]. intros s2 RD.
    rewrite NX. cbn [map app]. eapply goes_quiet; [exact (ready_ws uni p _ false s2 [] c1 (map plain r1 ++ [Eof]) RD (Forall_nil _))|].
    intros s3 A3. replace (map plain r1 ++ [Eof]) with (qof (concat cs' ++ tail)) by (rewrite NX; reflexivity).
    eapply goes_weaken.
    + eapply (IH cs' tail eq_refl TL (an ++ [sym_of a]) (Some (kid f (an ++ [as_token sv])))); [left; rewrite TK; reflexivity|]. exists c1, r1. auto.
    + intros s' (child' & HC' & P'). exists child'. split; [|exact P']. cbn [map]. rewrite <- app_assoc in HC'. exact HC'.
Qed.

Lemma read_field uni fs a w ws tail s : fs_ok fs -> is_struct (p_type (fresh fs)) = true -> (forall suf, symbol_octets a suf = Ok (w ++ suf)) -> sym_reads w (sym_of a) (ivm_like a) ->
  Forall (fun c => is_ws c = true) ws -> (exists c r, tail = c :: r /\ is_ws c = false) -> Pos (fresh fs) None ((w ++ [58]) ++ ws ++ tail) s ->
  goes uni s (qof ((w ++ [58]) ++ ws ++ tail)) [] (fun s' => exists child', child_of child' (Some (sym_of a)) [] /\ Pos (vplace fs) child' tail s') (qof tail).
Proof.
  intros OK ST SO (c0 & rest & -> & S1 & R) FW (c1 & r1 & -> & W1) HP. rewrite <- app_assoc in *. cbn [app] in HP |- *. destruct HP as (c & r & EQ & HA). injection EQ as <- EQ.
  destruct (R uni (fresh fs) None None [] s (fresh_ok fs OK) HA child_none) as (R1 & _).
  assert (PF : p_field (fresh fs) = true) by (destruct fs as [|g below]; [discriminate|exact ST]).
  assert (VP : value_place (fresh fs) = vplace fs) by (destruct fs; reflexivity).
  unfold qof. cbn [tl]. rewrite map_app, <- app_assoc. cbn [map app].
  eapply goes_quiet; [apply R1|]. intros s1 (k & sv & PK & TK & A1). eapply goes_quiet; [eapply pend_field; eassumption|]. intros s2 RD. rewrite VP in RD.
  rewrite map_app, <- app_assoc. cbn [map app].
  eapply goes_weaken; [exact (ready_ws uni _ _ false s2 ws c1 (map plain r1 ++ [Eof]) RD FW)|].
  intros s3 A3. exists (Some (kid (Some (as_token sv)) [])). split; [left; rewrite TK; reflexivity|]. exists c1, r1. auto.
Qed.

(** ** Separators *)
Definition ws_text (l : list Z) : Prop := Forall (fun c => is_ws c = true) l.
Definition indent_ok (indent : option (list Z)) : Prop := match indent with Some i => ws_text i | None => True end.
Lemma times_ws n i : ws_text i -> ws_text (times n i).
Proof. intros H. induction n as [|n IH]; [constructor|]. cbn [times]. apply Forall_app. auto. Qed.
Lemma concat_app_Z (a b : list (list Z)) : concat (a ++ b) = concat a ++ concat b.
Proof. apply concat_app. Qed.
(** What separates a value from what comes before it. *)
Lemma seps_value indent k f et : indent_ok indent -> et <> EContainerEnd -> et <> EStreamEnd ->
  exists ws, ws_text ws /\ concat (separators indent k f et) = (if is_delimited (tf_type f) && tf_has f then [44] else []) ++ ws /\
    (tf_has f = true -> exists c l, concat (separators indent k f et) = c :: l /\ In c [32; 10; 44]).
Proof.
  intros IO N1 N2. unfold separators. set (ends := match et with EContainerEnd => true | _ => false end). set (se := match et with EStreamEnd => true | _ => false end).
  assert (ends = false) as -> by (destruct et; try reflexivity; congruence). assert (se = false) as -> by (destruct et; try reflexivity; congruence). clear N1 N2 et.
  cbn [negb]. rewrite !andb_true_r. destruct f as [t has]. cbn [tf_type tf_has].
  assert (PW : forall i, ws_text i -> ws_text (concat ([10] :: (let d := (k - 0)%nat in match d with O => [] | S _ => [times d i] end)))).
  { intros i HI. cbv zeta. cbn [concat]. apply Forall_app. split; [constructor; [reflexivity|constructor]|]. destruct (k - 0)%nat; [constructor|]. cbn [concat]. rewrite app_nil_r. now apply times_ws. }
  destruct has; cbn [orb].
  - destruct indent as [i|].
    + specialize (PW i IO). rewrite concat_app_Z. destruct t as [[]|]; cbn [container_delimiter nonempty_chunk is_delimited andb concat app] in *;
        (eexists; split; [exact PW|]; split; [reflexivity|]; intros _; eexists _, _; split; [reflexivity|cbn; tauto]).
    + rewrite app_nil_r. destruct t as [[]|]; cbn [container_delimiter nonempty_chunk is_delimited andb concat app];
      first [exists []; split; [constructor|]; split; [reflexivity|]; intros _; eexists _, _; split; [reflexivity|cbn; tauto]
            |exists [32]; split; [constructor; [reflexivity|constructor]|]; split; [reflexivity|]; intros _; eexists _, _; split; [reflexivity|cbn; tauto]].
  - rewrite andb_false_r. cbn [app]. destruct indent as [i|]; [|exists []; split; [constructor|]; split; [reflexivity|discriminate]].
    destruct t as [t|]; [|exists []; split; [constructor|]; split; [reflexivity|discriminate]]. exists (concat ([10] :: (let d := (k - 0)%nat in match d with O => [] | S _ => [times d i] end))).
    split; [exact (PW i IO)|]. split; [reflexivity|discriminate].
Qed.
(** Before the end of a container or of the stream there is only white space. *)
Lemma seps_end indent k f et : indent_ok indent -> et = EContainerEnd \/ et = EStreamEnd /\ tf_type f = None ->
  ws_text (concat (separators indent k f et)) /\ (tf_has f = true -> match concat (separators indent k f et) with [] => True | c :: _ => In c [32; 10] end).
Proof.
  intros IO N. unfold separators. destruct f as [t has]. cbn [tf_type tf_has] in *. rewrite concat_app_Z.
  destruct N as [->|(-> & ->)].
  - cbn [negb]. rewrite !andb_false_r, andb_true_r. cbn [app concat]. destruct indent as [i|]; [|split; [constructor|intros _; exact Logic.I]].
    destruct (has || match t with Some _ => true | None => false end) eqn:E; [|split; [constructor|intros _; exact Logic.I]].
    split; [|intros _; cbn; tauto]. cbn [concat]. apply Forall_app. split; [constructor; [reflexivity|constructor]|]. cbv zeta. destruct (k - 1)%nat; [constructor|]. cbn [concat]. rewrite app_nil_r. now apply times_ws.
  - cbn [negb]. rewrite !andb_false_r, andb_true_r. destruct has; destruct indent as [i|]; cbn; repeat split; try constructor; auto.
Qed.

(** From between two events to the start of a value. *)
Lemma read_seps uni indent fs f below et c0 r s stop q : fs_ok fs -> fs = f :: below -> indent_ok indent -> et <> EContainerEnd -> et <> EStreamEnd -> is_ws c0 = false ->
  skip (concat (separators indent (length below) f et) ++ c0 :: r) = (stop, q) -> Bd fs stop s ->
  goes uni s q [] (Pos (fresh fs) None (c0 :: r)) (qof (c0 :: r)).
Proof.
  intros OK -> IO N1 N2 W0 SK B. destruct (seps_value indent (length below) f et IO N1 N2) as (ws & FW & E & _). rewrite E in SK.
  unfold Bd, dlm_of, place_of in B. unfold qof, fresh. cbn [tl].
  destruct (is_delimited (tf_type f) && tf_has f) eqn:D.
  - cbn [app] in SK. rewrite skip_char in SK by reflexivity. injection SK as <- <-. apply andb_true_iff in D as [D1 D2]. rewrite D2 in B. cbn [negb] in B. rewrite andb_false_r in B.
    destruct B as (cm & fl & ->). rewrite map_app, <- app_assoc. cbn [map app]. set (p1 := mkp (tf_type f) (around below) (is_struct (tf_type f))).
    eapply goes_via with (s1 := core p1 None false cm fl (PTop None)).
    + eapply m_top; [reflexivity|]. unfold top. cbn [core t_type t_child t_field t_delim t_stack p_type p_stack p_field]. 
      replace (is_end (tf_type f) (plain 44)) with false by (destruct (tf_type f) as [[]|]; reflexivity).
      replace (is_delim (tf_type f) (plain 44)) with true by (unfold is_delim; rewrite D1; reflexivity).
      cbn [orb]. reflexivity.
    + eapply goes_weaken; [exact (ready_ws uni p1 None false _ ws c0 (map plain r ++ [Eof]) (ex_intro _ cm (ex_intro _ fl (or_introl eq_refl))) FW)|].
      intros s' A. exists c0, r. auto.
  - cbn [app] in SK. rewrite (skip_ws _ _ FW), (skip_char _ _ W0) in SK. injection SK as <- <-. apply goes_here. exists c0, r. split; [reflexivity|].
    replace (is_struct (tf_type f)) with (is_struct (tf_type f) && negb (tf_has f)); [exact B|].
    destruct (tf_type f) as [[]|]; try reflexivity. cbn [is_delimited andb] in D. rewrite D. reflexivity.
Qed.

(** ** What can follow *)
Definition good (fs : tstate) (l : list Z) : Prop :=
  exists ws r, l = ws ++ r /\ ws_text ws /\
    match r with [] => length fs = 1%nat | c :: _ => is_ws c = false /\ c <> 47 /\ c <> 58 end /\
    match fs with
    | f :: _ => (tf_has f = true -> match l with [] => True | c :: _ => In c [32; 10; 44; 93; 125; 41] end) /\ (tf_type f = Some TStruct -> tf_has f = false -> hd 0 l <> 123)
    | [] => False
    end.
Lemma good_follows fs f below rest : fs_ok fs -> fs = f :: below -> tf_has f = true -> good fs rest -> exists ws,
  map plain rest ++ [Eof] = map plain ws ++ fst (skip rest) :: snd (skip rest) /\ follows (vplace fs) ws (fst (skip rest)) (snd (skip rest)) /\ (ws = [] -> cz (fst (skip rest)) <> 39).
Proof.
  intros OK -> HF (ws & r & -> & FW & R & G1 & _). exists ws. specialize (G1 HF). rewrite (skip_ws ws r FW). unfold follows.
  assert (GW : forall w l, ws = w :: l -> ends (plain w) = true).
  { intros w l ->. cbn [app] in G1. destruct G1 as [<-|[<-|[<-|[<-|[<-|[<-|[]]]]]]]; reflexivity. }
  destruct r as [|c r].
  - cbn [skip fst snd]. rewrite app_nil_r. split; [reflexivity|]. split; [|intros _; cbn; lia]. split; [exact FW|]. split; [reflexivity|]. split; [cbn; lia|]. split; [cbn; lia|]. split; [|destruct ws; [reflexivity|eapply GW; reflexivity]].
    cbn [stop_ok vplace p_stack]. destruct below; [split; reflexivity|cbn in R; lia].
  - destruct R as (R1 & R2 & R3). rewrite (skip_char c r R1). cbn [fst snd]. split; [rewrite map_app, <- app_assoc; reflexivity|].
    assert (GC : ws = [] -> ends (plain c) = true /\ c <> 39).
    { intros ->. cbn [app] in G1. destruct G1 as [<-|[<-|[<-|[<-|[<-|[<-|[]]]]]]]; (split; [reflexivity|lia]). }
    split; [|intros EW; destruct (GC EW); cbn; lia]. split; [exact FW|]. split; [exact R1|]. split; [exact R2|]. split; [exact R3|]. split; [split; reflexivity|].
    destruct ws as [|w ws]; [apply GC; reflexivity|eapply GW; reflexivity].
Qed.
(** Inside a container something follows. *)
Lemma good_inside fs rest : good fs rest -> (1 < length fs)%nat -> exists ws c r, rest = ws ++ c :: r /\ ws_text ws /\ is_ws c = false /\ skip rest = (plain c, map plain r ++ [Eof]).
Proof.
  intros (ws & r & -> & FW & R & _) L. destruct r as [|c r]; [lia|]. exists ws, c, r. destruct R as (R1 & _). split; [reflexivity|]. split; [exact FW|]. split; [exact R1|]. rewrite (skip_ws ws _ FW). now apply skip_char.
Qed.

(** ** Containers *)
Definition start_event (p : place) (f : option token) (an : list token) (t : iontype) : event := mkev EContainerStart (Some t) EvNone f an (Some (zlen (p_stack p))).
Definition inner (p : place) (t : iontype) : place := mkp (Some t) ((p_type p, false) :: p_stack p) (iontype_eqb t TStruct).
Lemma open_struct uni p child f an s c q : p_field p = false -> At p child false (plain 123) s -> child_of child f an -> c <> 123 ->
  goes uni s (plain c :: q) [start_event p f an TStruct] (At (inner p TStruct) None false (plain c)) q.
Proof.
  intros PF HA HC NC. eapply goes_quiet.
  { eapply (begin_tok0 uni p child f an 123 s _ HBrace (kid f an)); [exact HA|exact HC|reflexivity|reflexivity|reflexivity| |reflexivity]. rewrite PF. reflexivity. }
  intros s1 (cm & fl & ->). eapply goes_via.
  { eapply m_read; [reflexivity|]. apply (take_go uni p (kid f an) HBrace cm fl fl (plain c) (HCont TStruct) (kid f an) [c]); [|reflexivity].
    unfold send. cbn [cz plain]. replace (c =? 123) with false by lia. reflexivity. }
  cbn [map app]. eapply (goes_move _ _ _ (Some _)).
  { eapply m_read0; [reflexivity|]. unfold take. cbn [core t_child]. change (env_of uni _) with (penv uni p). unfold send. cbn [emits bind handled]. unfold after_event. cbn [kid k_comp bind is_container_start value_event ev_ion_type ev_type is_container].
    reflexivity. }
  exists false, false. destruct p as [pt ps pf]. cbn in PF. subst pf. reflexivity.
Qed.
Lemma top_bracket uni p child f an z t cm fl : z = 91 /\ t = TList \/ z = 40 /\ t = TSexp -> p_field p = false -> child_of child f an ->
  top uni (core p child false cm fl (PTop (Some (plain z)))) (Some (plain z)) = Ok (open_container t ((p_type p, false) :: p_stack p) None, Some (start_event p f an t)).
Proof.
  intros Z PF HC. assert (HS : starts z = true) by (destruct Z as [[-> _]|[-> _]]; reflexivity).
  destruct (starts_top uni p child z cm fl (PTop None) HS) as (E & W & SL & _).
  unfold top. cbn [core t_type t_child t_field t_delim cz plain]. fold (plain z). rewrite E, W, SL.
  cbn [with_flags core t_type t_stack t_child t_field t_delim t_complete t_flush t_pc].
  rewrite (child_pending _ _ _ HC). rewrite (child_start _ _ _ HC). rewrite PF. destruct p as [pt ps pf]. cbn in PF. subst pf. cbn [p_type p_stack p_field].
  destruct Z as [[-> ->]|[-> ->]]; reflexivity.
Qed.
Lemma open_bracket uni p child f an s z t q : z = 91 /\ t = TList \/ z = 40 /\ t = TSexp -> p_field p = false -> At p child false (plain z) s -> child_of child f an ->
  goes uni s q [start_event p f an t] (Ready (inner p t) None false) q.
Proof.
  intros Z PF (cm & fl & ->) HC. eapply (goes_move _ _ _ (Some _)); [eapply m_top; [reflexivity|exact (top_bracket uni p child f an z t cm fl Z PF HC)]|].
  exists false, false. left. destruct Z as [[_ ->]|[_ ->]]; reflexivity.
Qed.
Definition end_event (depth : Z) (t : option iontype) : event := mkev EContainerEnd t EvNone None [] (Some depth).
Definition closes (t : option iontype) (c : Z) : Prop := end_char t = Some c.
Lemma close_container uni fs f g below c s q : fs = f :: g :: below -> tf_has g = true -> closes (tf_type f) c -> Bd fs (plain c) s ->
  goes uni s q [end_event (zlen below) (tf_type f)] (Idle (place_of (g :: below)) None (dlm_of (g :: below))) q.
Proof.
  intros -> HG CL (cm & fl & ->). unfold place_of, dlm_of. rewrite HG. cbn [negb]. rewrite !andb_false_r, !andb_true_r.
  set (outer := match around below with [] => true | _ => false end).
  eapply (goes_move _ _ _ (Some _)).
  - eapply m_top; [reflexivity|]. unfold top. cbn [core t_type t_child t_field t_delim t_stack p_type p_stack p_field].
    replace (is_end (tf_type f) (plain c)) with true by (unfold is_end, closes in *; rewrite CL; cbn [cz plain]; lia). cbn [orb].
    cbn [pending_value core t_child bind decorated]. rewrite andb_false_r. cbn [around map tf_type]. fold (around below). unfold t_depth. cbn [t_stack core p_stack].
    replace (zlen ((tf_type g, false) :: around below) - 1) with (zlen below) by (unfold zlen, around; cbn [length]; rewrite map_length; lia). reflexivity.
  - exists outer, false. split; [cbn [p_stack]; unfold outer; intros ->; left; auto|]. right. left. reflexivity.
Qed.


(** * One event *)
Definition forced (e : uevent) : option scalar := match ev_force (ue_value e) with Ok v => v | Err _ => None end.
Definition in_struct_now (fs : tstate) : bool := match fs with f :: _ => is_struct (tf_type f) | [] => false end.
Definition names_ok (fs : tstate) (e : uevent) : Prop :=
  Forall sym_ok (ue_annot e) /\ (in_struct_now fs = true -> match ue_field e with Some a => sym_ok a | None => True end).
Definition event_ok (fs : tstate) (e : uevent) : Prop :=
  match ue_type e with
  | EScalar => names_ok fs e /\ match ue_ion_type e with
      | Some t => value_ok t (forced e) /\ (value_ivm t (forced e) -> length fs = 1%nat -> ue_annot e <> [])
      | None => False
      end
  | EContainerStart => names_ok fs e
  | _ => True
  end.
Definition field_read (fs : tstate) (e : uevent) : option token := if in_struct_now fs then option_map sym_of (ue_field e) else None.
Definition events_read (fs : tstate) (e : uevent) : list event :=
  let depth := zlen fs - 1 in
  match ue_type e with
  | EScalar => match ue_ion_type e with
               | Some t => [mkev EScalar (Some t) (value_read t (forced e)) (field_read fs e) (map sym_of (ue_annot e)) (Some depth)]
               | None => []
               end
  | EContainerStart => [mkev EContainerStart (ue_ion_type e) EvNone (field_read fs e) (map sym_of (ue_annot e)) (Some depth)]
  | EContainerEnd => [mkev EContainerEnd (match fs with f :: _ => tf_type f | [] => None end) EvNone None [] (Some (depth - 1))]
  | EVersionMarker => [version_marker_event]
  | _ => []
  end.

Lemma annotations_out l : Forall sym_ok l -> exists cs, annotation_chunks l = (cs, Ok tt) /\ (l <> [] -> exists c0 r, concat cs = c0 :: r /\ starts c0 = true) /\ (l = [] -> cs = []).
Proof.
  induction 1 as [|a l Ha F IH]; [exists []; split; [reflexivity|]; split; [congruence|reflexivity]|].
  destruct (sym_out a Ha) as (w & SO & (c0 & r & -> & S1 & _) & _). destruct IH as (cs & E & _). cbn [annotation_chunks]. rewrite SO, E. eexists. split; [reflexivity|]. split; [|congruence].
  intros _. cbn [concat app]. eauto.
Qed.
(** The characters of a value's annotations and body. *)
Lemma value_text fs e cs fs' w : fs_ok fs -> event_ok fs e -> begins_value (ue_type e) = true -> text_core fs e = Ok (fs', w) -> annotation_chunks (ue_annot e) = (cs, Ok tt) ->
  exists c0 r, concat cs ++ wdata w = c0 :: r /\ starts c0 = true.
Proof.
  intros OK EO BV TC AC.
  assert (NO : names_ok fs e) by (unfold event_ok in EO; destruct (ue_type e); try discriminate; tauto).
  destruct (annotations_out _ (proj1 NO)) as (cs' & E & H1 & H2). rewrite E in AC. injection AC as <-.
  destruct (ue_annot e) as [|a l] eqn:EA; [|destruct (H1 ltac:(discriminate)) as (c0 & r & -> & S1); eexists _, _; split; [reflexivity|exact S1]].
  rewrite (H2 eq_refl). cbn [concat app]. unfold text_core in TC. destruct (fs_ok_cons fs OK) as (f & below & ->).
  unfold event_ok in EO. destruct (ue_type e); try discriminate BV.
  - destruct EO as (_ & EO). destruct (ue_ion_type e) as [t|]; [|contradiction]. destruct EO as (VO & _). unfold forced in VO. destruct (ev_force (ue_value e)) as [v|x]; [|discriminate]. cbn [bind] in TC.
    destruct (scalar_reads t v VO) as (w' & TS & (c0 & r & -> & S1 & _)). rewrite TS in TC. cbn [bind] in TC. exists c0, r. destruct below; injection TC as _ <-; split; auto.
  - destruct (ue_ion_type e) as [t|]; [|discriminate]. destruct (is_container t) eqn:C; [|discriminate]. injection TC as _ <-. destruct t; try discriminate; eexists _, _; (split; [reflexivity|reflexivity]).
Qed.

Lemma starts_ws c : starts c = true -> is_ws c = false.
Proof. unfold starts. destruct (is_ws c); [discriminate|reflexivity]. Qed.
Lemma starts_not c : starts c = true -> c <> 47 /\ c <> 58.
Proof. unfold starts. intros H. destruct (is_ws c); [discriminate|]. cbn [orb] in H. lia. Qed.
Lemma names_out indent f below e cs : names_ok (f :: below) e -> begins_value (ue_type e) = true -> field_chunks indent f e = (cs, Ok tt) ->
  if is_struct (tf_type f) then exists a w ws, ue_field e = Some a /\ concat cs = (w ++ [58]) ++ ws /\ (forall suf, symbol_octets a suf = Ok (w ++ suf)) /\ sym_reads w (sym_of a) (ivm_like a) /\ hd 0 w <> 123 /\ ws_text ws
  else cs = [].
Proof.
  intros (_ & NF) BV E. unfold field_chunks in E. rewrite BV in E. destruct (tf_type f) as [[]|] eqn:TF; cbn [is_struct] in *; try (injection E as <-; reflexivity).
  unfold in_struct_now in NF. rewrite TF in NF. specialize (NF eq_refl). destruct (ue_field e) as [a|]; [|discriminate]. destruct (sym_out a NF) as (w & SO & SR & H). rewrite SO in E.
  injection E as <-. exists a, w, (match indent with Some _ => [32] | None => [] end). split; [reflexivity|]. split; [destruct indent; cbn [concat app]; rewrite ?app_nil_r; reflexivity|].
  split; [exact SO|]. split; [exact SR|]. split; [exact H|]. destruct indent; [constructor; [reflexivity|constructor]|constructor].
Qed.
Lemma read_prefix uni indent f below e cs tail s stop q : fs_ok (f :: below) -> indent_ok indent -> names_ok (f :: below) e -> begins_value (ue_type e) = true -> field_chunks indent f e = (cs, Ok tt) ->
  (exists c r, tail = c :: r /\ starts c = true) ->
  skip (concat (separators indent (length below) f (ue_type e)) ++ concat cs ++ tail) = (stop, q) -> Bd (f :: below) stop s ->
  goes uni s q [] (fun s' => exists child', child_of child' (field_read (f :: below) e) [] /\ Pos (vplace (f :: below)) child' tail s') (qof tail).
Proof.
  intros OK IO NO BV FC TL SK B. assert (N1 : ue_type e <> EContainerEnd) by (intros E; rewrite E in BV; discriminate). assert (N2 : ue_type e <> EStreamEnd) by (intros E; rewrite E in BV; discriminate).
  pose proof (names_out indent f below e cs NO BV FC) as NM. unfold field_read, in_struct_now. destruct (is_struct (tf_type f)) eqn:ST.
  - destruct NM as (a & w & ws & EF & EC & SO & SR & H123 & FW). rewrite EF. cbn [option_map]. rewrite EC in SK. rewrite <- (app_assoc (w ++ [58])) in SK.
    destruct SR as (c0 & rest & EW & S1 & R). 
    assert (SK' : skip (concat (separators indent (length below) f (ue_type e)) ++ c0 :: (rest ++ [58]) ++ ws ++ tail) = (stop, q)) by (rewrite <- SK, EW; reflexivity).
    eapply goes_quiet; [exact (read_seps uni indent _ f below (ue_type e) c0 _ s stop q OK eq_refl IO N1 N2 (starts_ws _ S1) SK' B)|].
    intros s1 P1. replace (c0 :: (rest ++ [58]) ++ ws ++ tail) with ((w ++ [58]) ++ ws ++ tail) in * by (rewrite EW; reflexivity).
    destruct TL as (c & r & TL & S2). eapply read_field; [exact OK|exact ST|exact SO|exists c0, rest; auto|exact FW|exists c, r; split; [exact TL|now apply starts_ws]|exact P1].
  - subst cs. cbn [concat app] in SK. destruct TL as (c & r & -> & S2).
    eapply goes_weaken; [exact (read_seps uni indent _ f below (ue_type e) c r s stop q OK eq_refl IO N1 N2 (starts_ws _ S2) SK B)|].
    intros s1 P1. exists None. split; [exact child_none|]. unfold fresh in P1. rewrite ST in P1. exact P1.
Qed.
Lemma write_value indent f below e cs fs' w : begins_value (ue_type e) = true -> text_write indent (f :: below) e = (cs, Ok (fs', w)) ->
  exists c1 c2, field_chunks indent f e = (c1, Ok tt) /\ annotation_chunks (ue_annot e) = (c2, Ok tt) /\ text_core (f :: below) e = Ok (fs', w) /\
    concat cs = concat (separators indent (length below) f (ue_type e)) ++ concat c1 ++ concat c2.
Proof.
  intros BV. unfold text_write. rewrite BV. destruct (field_chunks indent f e) as [c1 [[]|]]; [|discriminate]. destruct (annotation_chunks (ue_annot e)) as [c2 [[]|]]; [|discriminate].
  intros E. injection E as <- <-. exists c1, c2. rewrite !concat_app. auto.
Qed.
(** At the end of a value, on the way to the next event. *)
Lemma bd_after fs f below : fs = f :: below -> tf_has f = true -> place_of fs = vplace fs /\ dlm_of fs = is_delimited (p_type (vplace fs)).
Proof. intros -> H. unfold place_of, vplace, dlm_of. rewrite H. cbn [negb p_type]. rewrite andb_false_r, andb_true_r. auto. Qed.
Lemma zlen_around below : zlen (around below) = zlen below.
Proof. unfold zlen, around. now rewrite map_length. Qed.

Lemma read_scalar uni indent fs e cs fs' w rest s stop q : fs_ok fs -> indent_ok indent -> event_ok fs e -> ue_type e = EScalar ->
  text_write indent fs e = (cs, Ok (fs', w)) -> skip ((concat cs ++ wdata w) ++ rest) = (stop, q) -> good fs' rest -> Bd fs stop s ->
  goes uni s q (events_read fs e) (Bd fs' (fst (skip rest))) (snd (skip rest)).
Proof.
  intros OK IO EO ET TW SK GD B. destruct (fs_ok_cons fs OK) as (f & below & ->). 
  assert (BV : begins_value (ue_type e) = true) by (rewrite ET; reflexivity).
  destruct (write_value _ _ _ _ _ _ _ BV TW) as (c1 & c2 & E1 & E2 & E3 & EC).
  destruct (value_text _ _ _ _ _ OK EO BV E3 E2) as (d0 & dr & ED & SD).
  assert (EO' := EO). unfold event_ok in EO'. rewrite ET in EO'. destruct EO' as (NO & EO'). unfold events_read. rewrite ET. destruct (ue_ion_type e) as [t|] eqn:EI; [|contradiction]. destruct EO' as (VO & NI).
  unfold text_core in E3. rewrite ET, EI in E3. unfold forced in VO, NI |- *. destruct (ev_force (ue_value e)) as [v|]; [|discriminate]. cbn [bind] in E3.
  destruct (scalar_reads t v VO) as (x & TX & VR). rewrite TX in E3. cbn [bind] in E3.
  assert (EF : fs' = mktf (tf_type f) true :: below /\ wdata w = x) by (destruct below; injection E3 as <- <-; auto). destruct EF as [-> EX]. clear E3.
  rewrite EC, EX, <- !app_assoc in SK. rewrite EX in ED.
  eapply goes_quiet.
  { eapply (read_prefix uni indent f below e c1 (concat c2 ++ x ++ rest)); [exact OK|exact IO|exact NO|exact BV|exact E1| |exact SK|exact B]. exists d0, (dr ++ rest). split; [rewrite app_assoc, ED; reflexivity|exact SD]. }
  intros s1 (ch1 & HC1 & P1). destruct VR as (v0 & vr & -> & SV & R).
  eapply goes_quiet.
  { eapply (read_annotations uni (vplace (f :: below)) _ (ue_annot e)); [exact (vplace_ok _ OK)|reflexivity|exact (proj1 NO)|exact E2| |exact HC1|exact P1]. exists v0, (vr ++ rest). split; [reflexivity|now apply starts_ws]. }
  intros s2 (ch2 & HC2 & c & r & EQ & A2). cbn [app] in EQ. injection EQ as <- _. cbn [app] in HC2.
  destruct (good_follows (mktf (tf_type f) true :: below) _ below rest (top_has _ OK _ _ eq_refl) eq_refl eq_refl GD) as (ws & EW & FL & N39).
  unfold qof. cbn [app tl]. rewrite map_app, <- app_assoc, EW.
  destruct (bd_after (mktf (tf_type f) true :: below) _ below eq_refl eq_refl) as (BP & BD). unfold Bd. rewrite BP, BD.
  replace (zlen (f :: below) - 1) with (zlen (p_stack (vplace (f :: below)))) by (cbn [vplace p_stack]; rewrite zlen_around, zlen_cons; lia).
  change (vplace (mktf (tf_type f) true :: below)) with (vplace (f :: below)) in *.
  apply (R uni (vplace (f :: below)) ch2 (field_read (f :: below) e) (map sym_of (ue_annot e)) s2 ws); auto.
  - exact (vplace_ok _ OK).
  - cbn [vplace p_type]. intros TS. unfold field_read, in_struct_now. rewrite TS. cbn [is_struct]. pose proof (names_out indent f below e c1 NO BV E1) as NM. rewrite TS in NM. cbn [is_struct] in NM. destruct NM as (a & ? & ? & -> & _). discriminate.
  - intros IV (AL1 & AL2). apply (NI IV); [|destruct (ue_annot e); [reflexivity|discriminate]]. cbn [vplace p_stack] in AL1. destruct below; [reflexivity|discriminate].
Qed.

Lemma after_open uni p d s ws c q : At p None false (plain d) s -> is_ws d = true -> Forall (fun x => is_ws x = true) ws ->
  goes uni s (map plain ws ++ plain c :: q) [] (At p None false (plain c)) q.
Proof.
  intros (cm & fl & ->) W FW. eapply goes_via; [eapply m_top; [reflexivity|apply top_ws, W]|]. 
  apply ready_ws; [|exact FW]. exists cm, fl. right. reflexivity.
Qed.
Lemma read_start uni indent fs e cs fs' w rest s stop q : fs_ok fs -> indent_ok indent -> event_ok fs e -> ue_type e = EContainerStart ->
  text_write indent fs e = (cs, Ok (fs', w)) -> skip ((concat cs ++ wdata w) ++ rest) = (stop, q) -> good fs' rest -> Bd fs stop s ->
  goes uni s q (events_read fs e) (Bd fs' (fst (skip rest))) (snd (skip rest)).
Proof.
  intros OK IO EO ET TW SK GD B. destruct (fs_ok_cons fs OK) as (f & below & ->).
  assert (BV : begins_value (ue_type e) = true) by (rewrite ET; reflexivity).
  destruct (write_value _ _ _ _ _ _ _ BV TW) as (c1 & c2 & E1 & E2 & E3 & EC).
  destruct (value_text _ _ _ _ _ OK EO BV E3 E2) as (d0 & dr & ED & SD).
  assert (NO := EO). unfold event_ok in NO. rewrite ET in NO. unfold events_read. rewrite ET.
  unfold text_core in E3. rewrite ET in E3. destruct (ue_ion_type e) as [t|]; [|discriminate]. destruct (is_container t) eqn:CT; [|discriminate]. injection E3 as <- <-. cbn [wdata] in *.
  rewrite EC, <- !app_assoc in SK.
  eapply goes_quiet.
  { eapply (read_prefix uni indent f below e c1 (concat c2 ++ container_open t ++ rest)); [exact OK|exact IO|exact NO|exact BV|exact E1| |exact SK|exact B]. exists d0, (dr ++ rest). split; [rewrite app_assoc, ED; reflexivity|exact SD]. }
  intros s1 (ch1 & HC1 & P1).
  assert (exists z, container_open t = [z] /\ is_ws z = false) as (z & OZ & WZ) by (destruct t; try discriminate; eexists; (split; [reflexivity|reflexivity])).
  eapply goes_quiet.
  { eapply (read_annotations uni (vplace (f :: below)) _ (ue_annot e)); [exact (vplace_ok _ OK)|reflexivity|exact (proj1 NO)|exact E2| |exact HC1|exact P1]. exists z, rest. rewrite OZ. split; [reflexivity|exact WZ]. }
  rewrite OZ. intros s2 (ch2 & HC2 & c & r & EQ & A2). cbn [app] in EQ. injection EQ as <- <-. cbn [app] in HC2. unfold qof. cbn [app tl].
  destruct (good_inside _ rest GD) as (ws & c & r & ER & FW & WC & SKR); [cbn [length]; lia|]. rewrite SKR. cbn [fst snd].
  replace (zlen (f :: below) - 1) with (zlen (p_stack (vplace (f :: below)))) by (cbn [vplace p_stack]; rewrite zlen_around, zlen_cons; lia).
  assert (PI : place_of (mktf (Some t) false :: mktf (tf_type f) true :: below) = inner (vplace (f :: below)) t) by (destruct t; try discriminate; reflexivity).
  assert (DI : dlm_of (mktf (Some t) false :: mktf (tf_type f) true :: below) = false) by (cbn; apply andb_false_r).
  unfold Bd. rewrite PI, DI. change (mkev EContainerStart (Some t) EvNone (field_read (f :: below) e) (map sym_of (ue_annot e)) (Some (zlen (p_stack (vplace (f :: below)))))) with (start_event (vplace (f :: below)) (field_read (f :: below) e) (map sym_of (ue_annot e)) t).
  destruct (iontype_eqb t TStruct) eqn:TS.
  - assert (t = TStruct) as -> by (destruct t; try discriminate; reflexivity). injection OZ as <-.
    destruct GD as (_ & _ & _ & _ & _ & _ & G2). specialize (G2 eq_refl eq_refl). rewrite ER in G2 |- *.
    destruct ws as [|d ws]; cbn [app map hd] in *.
    + apply open_struct with (child := ch2); [reflexivity|exact A2|exact HC2|exact G2].
    + eapply goes_quiet_r; [apply open_struct with (child := ch2); [reflexivity|exact A2|exact HC2|exact G2]|].
      intros s3 A3. rewrite map_app, <- app_assoc. cbn [map app]. apply after_open with (d := d); [exact A3|exact (Forall_inv FW)|exact (Forall_inv_tail FW)].
  - rewrite ER, map_app, <- app_assoc. cbn [map app]. eapply goes_quiet_r; [apply (open_bracket uni _ ch2 _ _ s2 z t); [|reflexivity|exact A2|exact HC2]|].
    + destruct t; try discriminate; injection OZ as <-; auto.
    + intros s3 R3. now apply ready_ws.
Qed.

Lemma fs_closed t b x below : fs_ok (mktf (Some t) b :: mktf x true :: below) -> is_container t = true /\ fs_ok (mktf x true :: below).
Proof. intros H. inversion H; subst. auto. Qed.
Lemma write_end indent f below e cs fs' w : ue_type e = EContainerEnd -> text_write indent (f :: below) e = (cs, Ok (fs', w)) ->
  concat cs = concat (separators indent (length below) f EContainerEnd) /\ text_core (f :: below) e = Ok (fs', w).
Proof.
  intros ET. unfold text_write, field_chunks. rewrite ET. cbn [begins_value].
  destruct (tf_type f) as [[]|]; intros E; injection E as <- <-; rewrite ?app_nil_r; auto.
Qed.
Lemma read_end uni indent fs e cs fs' w rest s stop q : fs_ok fs -> indent_ok indent -> ue_type e = EContainerEnd ->
  text_write indent fs e = (cs, Ok (fs', w)) -> skip ((concat cs ++ wdata w) ++ rest) = (stop, q) -> good fs' rest -> Bd fs stop s ->
  goes uni s q (events_read fs e) (Bd fs' (fst (skip rest))) (snd (skip rest)).
Proof.
  intros OK IO ET TW SK GD B. destruct (fs_ok_cons fs OK) as (f & below & ->).
  destruct (write_end _ _ _ _ _ _ _ ET TW) as (EC & E3). unfold events_read. rewrite ET.
  unfold text_core in E3. rewrite ET in E3. destruct below as [|g below]; [discriminate|]. inversion OK as [|t b x fs0 OKG CT]; subst. cbn [tf_type] in *.
  assert (fs' = mktf x true :: below /\ wdata w = container_close t) as [-> EW] by (destruct below; injection E3 as <- <-; auto). clear E3.
  assert (exists z, container_close t = [z] /\ is_ws z = false /\ end_char (Some t) = Some z) as (z & OZ & WZ & EZ) by (destruct t; try discriminate; eexists; (split; [reflexivity|split; reflexivity])).
  destruct (seps_end indent (length (mktf x true :: below)) (mktf (Some t) b) EContainerEnd IO (or_introl eq_refl)) as (FW & _).
  rewrite EC, EW, OZ, <- app_assoc, (skip_ws _ _ FW) in SK. cbn [app] in SK. rewrite (skip_char _ _ WZ) in SK. injection SK as <- <-.
  replace (zlen (mktf (Some t) b :: mktf x true :: below) - 1 - 1) with (zlen below) by (rewrite !zlen_cons; lia).
  eapply goes_quiet_r.
  { exact (close_container uni _ (mktf (Some t) b) (mktf x true) below z s (map plain rest ++ [Eof]) eq_refl eq_refl EZ B). }
  intros s1 I1. destruct (good_follows (mktf x true :: below) _ below rest OKG eq_refl eq_refl GD) as (ws & ER & FL & _). rewrite ER.
  destruct (bd_after (mktf x true :: below) _ below eq_refl eq_refl) as (BP & BD). unfold Bd. rewrite BP in *.
  destruct FL as (FW2 & _ & _ & _ & SO & _). apply idle_ws; [exact (vplace_ok _ OKG)|exact I1|exact FW2|exact SO].
Qed.
Lemma read_nothing uni indent fs e cs fs' w rest s stop q : fs_ok fs -> indent_ok indent -> ue_type e = EStreamEnd ->
  text_write indent fs e = (cs, Ok (fs', w)) -> skip ((concat cs ++ wdata w) ++ rest) = (stop, q) -> good fs' rest -> Bd fs stop s ->
  goes uni s q (events_read fs e) (Bd fs' (fst (skip rest))) (snd (skip rest)).
Proof.
  intros OK IO ET TW SK GD B. unfold events_read. rewrite ET. unfold text_write in TW. destruct (fs_ok_cons fs OK) as (f & below & ->). unfold field_chunks, text_core in TW. rewrite ET in TW. cbn [begins_value] in TW.
  destruct below as [|g below]; [|destruct (tf_type f) as [[]|]; discriminate]. inversion OK; subst. cbn [tf_type app] in TW. injection TW as <- <- <-. rewrite ?app_nil_r in SK. cbn [wdata] in SK. rewrite ?app_nil_r in SK.
  destruct (seps_end indent (length (A:=tframe) []) (mktf None b) EStreamEnd IO (or_intror (conj eq_refl eq_refl))) as (FW & _). rewrite (skip_ws _ _ FW) in SK. rewrite SK. cbn [fst snd]. apply goes_here. exact B.
Qed.
Lemma read_ivm uni indent fs e cs fs' w rest s stop q : fs_ok fs -> indent_ok indent -> ue_type e = EVersionMarker ->
  text_write indent fs e = (cs, Ok (fs', w)) -> skip ((concat cs ++ wdata w) ++ rest) = (stop, q) -> good fs' rest -> Bd fs stop s ->
  goes uni s q (events_read fs e) (Bd fs' (fst (skip rest))) (snd (skip rest)).
Proof.
  intros OK IO ET TW SK GD B. unfold events_read. rewrite ET. unfold text_write in TW. destruct (fs_ok_cons fs OK) as (f & below & ->). unfold field_chunks, text_core in TW. rewrite ET in TW. cbn [begins_value] in TW.
  destruct below as [|g below]; [|destruct (tf_type f) as [[]|]; discriminate]. inversion OK; subst. cbn [tf_type app] in TW. injection TW as <- <- <-. rewrite ?app_nil_r in SK. cbn [wdata] in SK.
  rewrite <- app_assoc in SK.
  eapply goes_quiet; [eapply (read_seps uni indent _ (mktf None b) [] EVersionMarker 36 (tl TEXT_ION_1_0 ++ rest)); [exact OK|reflexivity|exact IO|discriminate|discriminate|reflexivity|exact SK|exact B]|].
  intros s1 (c & r & EQ & A1). injection EQ as <- <-. unfold qof. cbn [tl].
  destruct (good_follows [mktf None true] _ [] rest (ok_top true) eq_refl eq_refl GD) as (ws & ER & FL & _).
  rewrite map_app, <- app_assoc, ER. apply (ivm_reads uni s1 ws); [exact A1|exact FL].
Qed.

Lemma read_event uni indent fs e cs fs' w rest s stop q : fs_ok fs -> indent_ok indent -> event_ok fs e ->
  text_write indent fs e = (cs, Ok (fs', w)) -> skip ((concat cs ++ wdata w) ++ rest) = (stop, q) -> good fs' rest -> Bd fs stop s ->
  goes uni s q (events_read fs e) (Bd fs' (fst (skip rest))) (snd (skip rest)).
Proof.
  intros OK IO EO TW SK GD B. destruct (ue_type e) eqn:ET.
  - exfalso. unfold text_write in TW. destruct (fs_ok_cons fs OK) as (f & below & ->). unfold field_chunks, text_core in TW. rewrite ET in TW. cbn [begins_value] in TW. destruct (tf_type f) as [[]|]; discriminate.
  - eapply read_nothing; eassumption.
  - eapply read_ivm; eassumption.
  - eapply read_scalar; eassumption.
  - eapply read_start; eassumption.
  - eapply read_end; eassumption.
Qed.

(** * The writer's stack, and what the rest of its output looks like *)
Lemma write_fs_ok indent fs e cs fs' w : fs_ok fs -> text_write indent fs e = (cs, Ok (fs', w)) -> fs_ok fs'.
Proof.
  intros OK TW. unfold text_write in TW. destruct (fs_ok_cons fs OK) as (f & below & ->). destruct (field_chunks indent f e) as [c1 [[]|]]; [|discriminate].
  destruct (if begins_value (ue_type e) then _ else _) as [c2 [[]|]]; [|discriminate]. injection TW as _ TC. unfold text_core in TC.
  pose proof (top_has _ OK _ _ eq_refl) as TH.
  destruct (ue_type e).
  - discriminate.
  - destruct below; [|discriminate]. injection TC as <- _. exact TH.
  - destruct below; [|discriminate]. injection TC as <- _. exact TH.
  - destruct (ev_force (ue_value e)); [|discriminate]. cbn [bind] in TC. destruct (text_scalar (ue_ion_type e) a); [|discriminate]. cbn [bind] in TC. destruct below; injection TC as <- _; exact TH.
  - destruct (ue_ion_type e) as [t|]; [|discriminate]. destruct (is_container t) eqn:CT; [|discriminate]. injection TC as <- _. constructor; assumption.
  - destruct below as [|g below]; [discriminate|]. inversion OK; subst. cbn [tf_type] in TC. destruct below; injection TC as <- _; assumption.
Qed.
Lemma good_value indent f below et body rest : indent_ok indent -> et <> EContainerEnd -> et <> EStreamEnd ->
  (exists c r, body = c :: r /\ starts c = true /\ (tf_type f = Some TStruct -> c <> 123)) -> good (f :: below) ((concat (separators indent (length below) f et) ++ body) ++ rest).
Proof.
  intros IO N1 N2 (c & r & -> & S1 & NB). destruct (seps_value indent (length below) f et IO N1 N2) as (ws & FW & E & HF). pose proof (starts_ws c S1) as W1. destruct (starts_not c S1) as (N47 & N58).
  unfold good. rewrite <- app_assoc. cbn [app].
  assert (C2 : (tf_has f = true -> match concat (separators indent (length below) f et) ++ c :: r ++ rest with [] => True | d :: _ => In d [32; 10; 44; 93; 125; 41] end)).
  { intros H. destruct (HF H) as (d & l & -> & IN). cbn [app]. cbn [In] in *. tauto. }
  assert (C3 : tf_type f = Some TStruct -> tf_has f = false -> hd 0 (concat (separators indent (length below) f et) ++ c :: r ++ rest) <> 123).
  { intros TS HB. rewrite E, HB, andb_false_r. cbn [app]. destruct ws as [|d ws]; [cbn; exact (NB TS)|]. cbn. pose proof (Forall_inv FW) as WD. cbn in WD. intros ->. discriminate WD. }
  destruct (is_delimited (tf_type f) && tf_has f) eqn:D.
  - exists [], (concat (separators indent (length below) f et) ++ c :: r ++ rest). split; [reflexivity|]. split; [constructor|]. split; [rewrite E; cbn [app]; split; [reflexivity|lia]|split; assumption].
  - exists ws, (c :: r ++ rest). split; [rewrite E; cbn [app]; reflexivity|]. split; [exact FW|]. split; [auto|split; assumption].
Qed.
Lemma write_good indent fs e cs fs' w rest : fs_ok fs -> indent_ok indent -> event_ok fs e -> text_write indent fs e = (cs, Ok (fs', w)) -> good fs' rest -> good fs ((concat cs ++ wdata w) ++ rest).
Proof.
  intros OK IO EO TW GD. destruct (fs_ok_cons fs OK) as (f & below & ->).
  destruct (begins_value (ue_type e)) eqn:BV.
  - destruct (write_value _ _ _ _ _ _ _ BV TW) as (c1 & c2 & E1 & E2 & E3 & EC). destruct (value_text _ _ _ _ _ OK EO BV E3 E2) as (d0 & dr & ED & SD).
    assert (NO : names_ok (f :: below) e) by (unfold event_ok in EO; destruct (ue_type e); try discriminate; tauto).
    rewrite EC. replace (((concat (separators indent (length below) f (ue_type e)) ++ concat c1 ++ concat c2) ++ wdata w) ++ rest) with ((concat (separators indent (length below) f (ue_type e)) ++ (concat c1 ++ d0 :: dr)) ++ rest) by (rewrite <- ED, <- !app_assoc; reflexivity).
    apply good_value; [exact IO|intros E; rewrite E in BV; discriminate|intros E; rewrite E in BV; discriminate|].
    pose proof (names_out indent f below e c1 NO BV E1) as NM. destruct (is_struct (tf_type f)) eqn:ST.
    + destruct NM as (a & x & ws & _ & -> & _ & (c0 & r0 & -> & S0 & _) & H & _). cbn [app hd] in *. eexists _, _. split; [reflexivity|]. auto.
    + subst c1. cbn [concat app]. exists d0, dr. split; [reflexivity|]. split; [exact SD|]. intros TS. rewrite TS in ST. discriminate.
  - destruct (ue_type e) eqn:ET; try discriminate BV.
    + exfalso. unfold text_write, field_chunks, text_core in TW. rewrite ET in TW. cbn [begins_value] in TW. destruct (tf_type f) as [[]|]; discriminate.
    + unfold text_write, field_chunks, text_core in TW. rewrite ET in TW. cbn [begins_value] in TW. destruct below as [|g below]; [|destruct (tf_type f) as [[]|]; discriminate]. inversion OK; subst. cbn [tf_type app] in TW. injection TW as <- <- <-. cbn [wdata]. rewrite ?app_nil_r.
      destruct (seps_end indent (length (A:=tframe) []) (mktf None b) EStreamEnd IO (or_intror (conj eq_refl eq_refl))) as (FW & HD). cbn [length] in *. set (sp := concat (separators indent 0 (mktf None b) EStreamEnd)) in *. clearbody sp.
      destruct GD as (ws & r & -> & FW2 & R & G1 & G2). exists (sp ++ ws), r. split; [rewrite app_assoc; reflexivity|]. split; [apply Forall_app; auto|]. split; [exact R|]. cbn [tf_type tf_has] in *. split; [|discriminate].
      intros HB. specialize (HD HB). destruct sp; [exact (G1 eq_refl)|]. cbn [app]. cbn [In] in *. tauto.
    + unfold text_write, field_chunks, text_core in TW. rewrite ET in TW. cbn [begins_value] in TW. destruct below as [|g below]; [|destruct (tf_type f) as [[]|]; discriminate]. inversion OK; subst. cbn [tf_type app] in TW. injection TW as <- <- <-. cbn [wdata]. rewrite ?app_nil_r.
      apply good_value; [exact IO|discriminate|discriminate|]. eexists _, _. split; [reflexivity|]. split; [reflexivity|]. discriminate.
    + destruct (write_end _ _ _ _ _ _ _ ET TW) as (EC & E3). unfold text_core in E3. rewrite ET in E3. destruct below as [|g below]; [discriminate|]. inversion OK as [|t b x fs0 OKG CT]; subst. cbn [tf_type] in *.
      assert (fs' = mktf x true :: below /\ wdata w = container_close t) as [-> EW] by (destruct below; injection E3 as <- <-; auto). rewrite EC, EW.
      destruct (seps_end indent (length (mktf x true :: below)) (mktf (Some t) b) EContainerEnd IO (or_introl eq_refl)) as (FW & HD). clear EC TW. set (sp := concat _) in *. clearbody sp.
      assert (exists z, container_close t = [z] /\ is_ws z = false /\ z <> 47 /\ z <> 58 /\ z <> 123 /\ In z [32; 10; 44; 93; 125; 41]) as (z & -> & WZ & Z1 & Z2 & Z3 & Z4) by (destruct t; try discriminate; eexists; (split; [reflexivity|]); (split; [reflexivity|]); cbn; repeat split; try lia; tauto).
      exists sp, (z :: rest). split; [rewrite <- app_assoc; reflexivity|]. split; [exact FW|]. split; [auto|]. cbn [tf_has tf_type]. rewrite <- app_assoc. cbn [app]. split.
      * intros HB. specialize (HD HB). destruct sp; [exact Z4|]. cbn [app]. cbn [In] in *. tauto.
      * intros _ _. destruct sp as [|d sp]; [exact Z3|]. cbn. pose proof (Forall_inv FW) as WD. cbn in WD. intros ->. discriminate WD.
Qed.

(** * Whole streams *)
Fixpoint stream_ok (indent : option (list Z)) (fs : tstate) (es : list uevent) : Prop :=
  match es with
  | [] => length fs = 1%nat
  | e :: es' => event_ok fs e /\ match snd (text_write indent fs e) with Ok (fs', _) => stream_ok indent fs' es' | Err _ => True end
  end.
Fixpoint stream_read (indent : option (list Z)) (fs : tstate) (es : list uevent) : list event :=
  match es with
  | [] => []
  | e :: es' => events_read fs e ++ match snd (text_write indent fs e) with Ok (fs', _) => stream_read indent fs' es' | Err _ => [] end
  end.
Lemma read_stream uni indent : indent_ok indent -> forall es fs fs' out, fs_ok fs -> stream_ok indent fs es -> text_write_all indent fs es = Ok (fs', out) ->
  good fs out /\ length fs' = 1%nat /\ forall s, Bd fs (fst (skip out)) s -> goes uni s (snd (skip out)) (stream_read indent fs es) (Bd fs' Eof) [].
Proof.
  intros IO. induction es as [|e es IH]; intros fs fs' out OK SO TW.
  - injection TW as <- <-. cbn [stream_ok] in SO. split.
    + destruct (fs_ok_cons fs OK) as (f & below & ->). exists [], []. split; [reflexivity|]. split; [constructor|]. split; [exact SO|]. split; [auto|]. cbn. intros; lia.
    + split; [exact SO|]. intros s B. apply goes_here. exact B.
  - cbn [text_write_all stream_ok stream_read] in *. destruct (text_write indent fs e) as [cs [[fs1 w]|]] eqn:TE; [|discriminate]. cbn [snd bind] in *. destruct SO as (EO & SO).
    destruct (text_write_all indent fs1 es) as [[fs2 out']|] eqn:TA; [|discriminate]. injection TW as <- <-.
    destruct (IH fs1 fs2 out' (write_fs_ok _ _ _ _ _ _ OK TE) SO TA) as (G & L & H). rewrite app_assoc.
    split; [eapply write_good; eassumption|]. split; [exact L|]. intros s B. eapply goes_then; [eapply read_event; try eassumption; apply surjective_pairing|]. exact H.
Qed.

Lemma no_signal fs e : Forall (fun x => is_stream_signal (ev_type x) = false) (events_read fs e).
Proof. unfold events_read. destruct (ue_type e); try destruct (ue_ion_type e); repeat constructor. Qed.
Lemma stream_no_signal indent es : forall fs, Forall (fun x => is_stream_signal (ev_type x) = false) (stream_read indent fs es).
Proof.
  induction es as [|e es IH]; intros fs; [constructor|]. cbn [stream_read]. apply Forall_app. split; [apply no_signal|].
  destruct (snd (text_write indent fs e)) as [[fs' w]|]; [apply IH|constructor].
Qed.
Theorem stream_session uni indent es fs' out cs n : indent_ok indent -> stream_ok indent t_init es -> text_write_all indent t_init es = Ok (fs', out) ->
  pieces cs -> concat cs = out -> (List.length (stream_read indent t_init es) < n)%nat ->
  text_session uni text_reader_new cs (repeat DNext n) = (stream_read indent t_init es, SEnd).
Proof.
  intros IO SO TW PC CC L. destruct (read_stream uni indent IO es t_init fs' out (ok_top false) SO TW) as (G & L1 & H).
  destruct (skip_split out) as (ws & FW & E & _ & M).
  assert (W : goes uni reader_start (map plain out ++ [Eof]) (stream_read indent t_init es) (Bd fs' Eof) []).
  { rewrite E. eapply goes_quiet; [eapply (idle_ws uni (mkp None [] false) None false)|exact H].
    - intros _. split; reflexivity.
    - exists true, false. split; [intros _; left; auto|]. right. left. reflexivity.
    - exact FW.
    - unfold stop_ok. destruct (fst (skip out)) as [c e g|]; [destruct M as (-> & -> & _); auto|destruct M as (-> & _); split; reflexivity]. }
  destruct W as (sf & W & (cm & fl & ES)). eapply walk_whole; [exact W| |apply stream_no_signal|exact L|exact PC|exact CC].
  subst sf. destruct fs' as [|[t b] [|]]; try discriminate L1. left. split; [reflexivity|]. split; [|reflexivity]. cbn.
  destruct (C48_sequence _ _ _ _ TW) as (open & _ & FR). unfold frames_of in FR. cbn in FR. destruct open as [|o open]; [now injection FR|]. cbn in FR. destruct open; discriminate.
Qed.
