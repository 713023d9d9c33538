(** C73: what the managed binary writer and [dump] put out is a well-formed binary Ion stream, whatever they are given. *)
From Coq Require Import String.
From Verif Require Import Base BaseFacts FieldsModel BufferModel CoreModel BinWriterModel BinReaderModel BinReaderSpec BinReaderNest
  ScalarFacts TimestampFacts ScalarProofs SymbolsModel SymbolsProofs BinReaderSession BinFormat BinFormatFacts WriterFacts WriterProofs MultimapModel ManagedModel Cursor ManagedSpec
  ManagedWriterFacts ManagedWriterRun ManagedRoundTrip SimpleionModel SimpleionProofs.
Local Open Scope Z_scope.
Local Open Scope list_scope.

(** What a Python scalar can be: floats have 64 bits, coefficients of decimals are natural, datetimes in the calendar, bytes octets.
    Symbols: any text, any SID. *)
Definition python_scalar (s : scalar) : Prop :=
  match s with
  | VFloat b => 0 <= b < 2 ^ 64
  | VDecimal d => 0 <= d_coef d
  | VTimestamp (TsStamp t) => dt_sane (ts_dt t)
  | VTimestamp (TsPlain d) => dt_sane d
  | VBytes b => octets b
  | _ => True
  end.
(** An event with a Python scalar; a symbol is the value of symbol events only. *)
Definition python_event (e : uevent) : Prop :=
  forall s, ev_force (ue_value e) = Ok (Some s) -> python_scalar s /\ match s with VSymbol _ => ue_ion_type e = Some TSymbol | _ => True end.

Definition natural_sid (t : token) : Prop := exists sid, tk_sid t = Some sid /\ 0 <= sid.
Lemma symbol_sid imports s xs table a tok s' : sym_inv imports s xs table -> sym_symbol s a = Ok (tok, s') ->
  exists ys table', sym_inv imports s' (xs ++ ys) table' /\ natural_sid tok.
Proof.
  intros I H. destruct (sym_symbol_inv _ _ _ _ _ _ _ I H) as (ys & tb & I' & N). exists ys, tb. split; [exact I'|].
  assert (PL : plain_arg a -> natural_sid tok) by (intros P; destruct (N P) as (sid & r & A & B & _); exists sid; auto).
  destruct a as [t|x]; [|apply PL; exact Logic.I]. destruct (tk_text t) as [x|] eqn:T; [apply PL; left; congruence|].
  destruct I as (ST & TB & _ & _). destruct (table_of_ok _ _ _ TB) as [OK _]. unfold sym_symbol in H. rewrite ST, T in H.
  destruct (if sw_has s then _ else _); [|discriminate]. cbn [bind] in H. destruct (tk_sid t) as [sid|]; [|discriminate]. destruct (get_sid table sid None) as [u|] eqn:G; [|discriminate]. injection H as <- _.
  destruct (Z.eq_dec sid 0) as [->|NZ]; [cbn in G; injection G as <-; exists 0; split; [reflexivity|lia]|].
  assert (K : 1 <= sid <= st_max table).
  { destruct (Z_lt_dec sid 0) as [L|L]; [unfold get_sid in G; replace (sid =? 0) with false in G by lia; replace (sid - 1 <? 0) with true in G by lia; discriminate|].
    assert (~ (st_max table < sid)); [|lia]. intros L2. rewrite (proj2 (sid_lookup table None sid OK)) in G by lia. discriminate. }
  destruct (proj1 (sid_lookup table None sid OK) K) as (u' & G' & _ & SD). rewrite G in G'. injection G' as <-. exists sid. split; [exact SD|lia].
Qed.
Lemma annotation_sids imports l : forall s xs table ts s', sym_inv imports s xs table -> sym_annotations s l = Ok (ts, s') ->
  exists ys table', sym_inv imports s' (xs ++ ys) table' /\ Forall natural_sid ts.
Proof.
  induction l as [|a l IH]; intros s xs table ts s' I H; cbn [sym_annotations] in H.
  - injection H as <- <-. exists [], table. rewrite app_nil_r. auto.
  - destruct (sym_symbol s a) as [[t s1]|] eqn:S; [|discriminate]. cbn [bind] in H. destruct (sym_annotations s1 l) as [[ts1 s2]|] eqn:A; [|discriminate]. cbn [bind] in H. injection H as <- <-.
    destruct (symbol_sid _ _ _ _ _ _ _ I S) as (y1 & t1 & I1 & N1). destruct (IH _ _ _ _ _ I1 A) as (y2 & t2 & I2 & N2). rewrite <- app_assoc in I2. exists (y1 ++ y2), t2. auto.
Qed.
Lemma scalar_kept s : python_scalar s -> match s with VSymbol _ => False | _ => True end -> scalar_sane s.
Proof. destruct s; cbn; tauto. Qed.
Lemma intern_sane imports s xs table e e' s' : sym_inv imports s xs table -> python_event e -> intern_symbols s e = Ok (e', s') ->
  exists ys table', sym_inv imports s' (xs ++ ys) table' /\ event_sane e'.
Proof.
  intros I PE H. unfold intern_symbols in H.
  assert (F : forall f s1, (match ue_field e with None | Some (AText []) => Ok (None, s) | Some a => let* (t, s') := sym_symbol s a in Ok (Some t, s') end) = Ok (f, s1) ->
    exists ys table', sym_inv imports s1 (xs ++ ys) table' /\ match f with Some t => natural_sid t | None => True end).
  { intros f s1 FE. assert (NO : Ok (None, s) = Ok (f, s1) -> exists ys table', sym_inv imports s1 (xs ++ ys) table' /\ match f with Some t => natural_sid t | None => True end) by (intros E; injection E as <- <-; exists [], table; rewrite app_nil_r; auto).
    assert (YES : forall a, (let* (t, s') := sym_symbol s a in Ok (Some t, s')) = Ok (f, s1) -> exists ys table', sym_inv imports s1 (xs ++ ys) table' /\ match f with Some t => natural_sid t | None => True end).
    { intros a E. destruct (sym_symbol s a) as [[t s2]|] eqn:S; [|discriminate]. cbn [bind] in E. injection E as <- <-. exact (symbol_sid _ _ _ _ _ _ _ I S). }
    destruct (ue_field e) as [[t|[|c x]]|]; eauto. }
  match type of H with (let* _ := ?X in _) = _ => destruct X as [[f s1]|] eqn:FE end; [|discriminate]. cbn [bind] in H. destruct (F f s1 eq_refl) as (y1 & t1 & I1 & N1). clear F FE.
  destruct (sym_annotations s1 (ue_annot e)) as [[an s2]|] eqn:AE; [|discriminate]. cbn [bind] in H. destruct (annotation_sids _ _ _ _ _ _ _ I1 AE) as (y2 & t2 & I2 & N2). rewrite <- app_assoc in I2.
  assert (SA : forall v, (forall x, ev_force v = Ok (Some x) -> scalar_sane x) -> event_sane (mkev (ue_type e) (ue_ion_type e) v f an (ue_depth e))).
  { intros v V. split; [|split; [|split; [|exact V]]]; cbn [ev_annot ev_field].
    - eapply Forall_impl; [|exact N2]. intros t (sid & -> & P). exact P.
    - clear - N2. induction N2 as [|t l (sid & S & P) _ IH]; cbn [sids_of]; [discriminate|]. rewrite S. destruct (sids_of l); [discriminate|congruence].
    - destruct f as [t|]; [|exact Logic.I]. destruct N1 as (sid & -> & P). exact P. }
  assert (PLAIN : ue_ion_type e <> Some TSymbol -> Ok (mkev (ue_type e) (ue_ion_type e) (ue_value e) f an (ue_depth e), s2) = Ok (e', s') -> exists ys table', sym_inv imports s' (xs ++ ys) table' /\ event_sane e').
  { intros NS E. injection E as <- <-. exists (y1 ++ y2), t2. split; [exact I2|]. apply SA. intros x V. destruct (PE x V) as (P & Q). apply scalar_kept; [exact P|]. destruct x; try exact Logic.I. contradiction. }
  destruct (ue_ion_type e) as [[]|] eqn:UT; try (apply PLAIN; [discriminate|exact H]). clear PLAIN.
  destruct (ev_force (ue_value e)) as [[v|]|]; [| |discriminate]; cbn [bind] in H.
  - match type of H with match ?X with _ => _ end = _ => destruct X as [a|] end; [|discriminate]. destruct (sym_symbol s2 a) as [[t s3]|] eqn:S; [|discriminate]. cbn [bind] in H. injection H as <- <-.
    destruct (symbol_sid _ _ _ _ _ _ _ I2 S) as (y3 & t3 & I3 & sid & SD & P). rewrite <- app_assoc in I3. do 2 eexists. split; [exact I3|]. apply SA. intros x V. cbn in V. injection V as <-. cbn. rewrite SD. exact P.
  - injection H as <- <-. exists (y1 ++ y2), t2. split; [exact I2|]. apply SA. discriminate.
Qed.

(** The state between events: nothing written yet, or a symbol table and values under way. *)
Definition under_way (imports : option (list symtab)) (m : mwriter) : Prop :=
  if mw_written m then exists xs table cur st, sym_inv imports (mw_sym m) xs table /\ winv (mw_value m) cur st
  else mw_value m = w_init /\ mw_sym m = symw_new.
Definition values_out (ns : list node) (out : list Z) : Prop := Forall (node_ok Top) ns /\ out = flat_map code ns /\ octets out.
Lemma values_none : values_out [] [].
Proof. split; [constructor|]. split; [reflexivity|constructor]. Qed.
Lemma values_app a b o p : values_out a o -> values_out b p -> values_out (a ++ b) (o ++ p).
Proof. intros (A & -> & O) (B & -> & P). split; [apply Forall_app; auto|]. split; [rewrite flat_map_app; reflexivity|apply octets_app; auto]. Qed.
Lemma values_ivm : values_out [NIvm] IVM_BYTES.
Proof. split; [constructor; [reflexivity|constructor]|]. split; [reflexivity|]. repeat constructor; unfold is_octet; lia. Qed.
Lemma table_out imports s xs table ws : sym_inv imports s xs table -> sym_finish imports s = Ok ws -> exists ns, values_out ns (flat_map wdata ws).
Proof.
  intros I F. destruct (sym_finish_written _ _ _ _ _ I F) as (_ & W). destruct (_ || _).
  - destruct W as (w & R & _). destruct (output_well_formed _ _ _ _ winv_init (proj2 (Forall_app _ _ _) (conj (lst_sane imports (sw_has s) xs) (Forall_cons _ flush_sane (Forall_nil _)))) R) as (ns & A). exists ns. exact A.
  - rewrite W. exists []. apply values_none.
Qed.
Lemma value_out s cur st e s' ws : winv s cur st -> event_sane e -> raw_write s e = Ok (s', ws) ->
  exists ns cur' st', values_out ns (flat_map wdata ws) /\ winv s' cur' st'.
Proof.
  intros W ES R. destruct (raw_write_step _ _ _ _ _ _ W ES R) as [T E0 E O W'|v fld an t n T E W' IT NM SV EV|o T E W' OB IT NM|o st' n T E E0 W' SF].
  - subst st. rewrite E. exists cur, [], []. split; [|exact W']. split; [exact (proj1 W)|]. split; [reflexivity|]. rewrite <- E. exact O.
  - rewrite E. exists []. do 2 eexists. split; [apply values_none|exact W'].
  - rewrite E. exists []. do 2 eexists. split; [apply values_none|exact W'].
  - rewrite E. exists []. do 2 eexists. split; [apply values_none|exact W'].
Qed.
Definition fresh (m : mwriter) : Prop := mw_written m = false /\ mw_ivm m = true.
Lemma write_out imports m e m' ws : under_way imports m -> python_event e -> managed_write imports m e = Ok (m', ws) ->
  under_way imports m' /\ exists ns, values_out ns (flat_map wdata ws) /\
    (fresh m -> fresh m' /\ ns = [] \/ exists r, ns = NIvm :: r).
Proof.
  intros U PE H. unfold managed_write in H.
  assert (IV : forall b, exists ns, values_out ns (flat_map wdata (if b : bool then [HasPending IVM_BYTES] else [])) /\ (b = true -> ns = [NIvm])).
  { intros [|]; [exists [NIvm]; split; [exact values_ivm|reflexivity]|exists []; split; [exact values_none|discriminate]]. }
  assert (VAL : (let* (pre, m) := (if mw_written m then Ok ([], m) else let* s := sym_start imports (mw_sym m) in Ok (if mw_ivm m then [HasPending IVM_BYTES] else [], mkmw (mw_value m) s true false)) in
     let* (e', s) := intern_symbols (mw_sym m) e in let* (w, ws) := raw_write (mw_value m) e' in Ok (mkmw w s (mw_written m) (mw_ivm m), pre ++ ws)) = Ok (m', ws) ->
     under_way imports m' /\ exists ns, values_out ns (flat_map wdata ws) /\ (fresh m -> fresh m' /\ ns = [] \/ exists r, ns = NIvm :: r)).
  { clear H. intros H. match type of H with (let* _ := ?X in _) = _ => destruct X as [[pre m1]|] eqn:ST end; [|discriminate]. cbn [bind] in H.
    assert (B : mw_written m1 = true /\ under_way imports m1 /\ exists ns, values_out ns (flat_map wdata pre) /\ (fresh m -> ns = [NIvm])).
    { unfold under_way in U. destruct (mw_written m) eqn:W.
      - injection ST as <- <-. unfold under_way. rewrite W. split; [reflexivity|]. split; [exact U|]. exists []. split; [apply values_none|]. intros (F & _). congruence.
      - destruct U as (U1 & U2). rewrite U2 in ST. destruct (sym_start imports symw_new) as [s|] eqn:SS; [|discriminate]. cbn [bind] in ST. injection ST as <- <-. split; [reflexivity|]. split.
        + unfold under_way. cbn [mw_written mw_sym mw_value]. destruct (sym_start_inv _ _ SS) as (table & I). exists [], table, [], []. split; [exact I|]. rewrite U1. apply winv_init.
        + destruct (IV (mw_ivm m)) as (ns & V & E). exists ns. split; [exact V|]. intros (_ & F). exact (E F). }
    destruct B as (W1 & U1 & ns1 & V1 & F1). unfold under_way in U1. rewrite W1 in U1. destruct U1 as (xs & table & cur & st & I & WI).
    destruct (intern_symbols (mw_sym m1) e) as [[e' s]|] eqn:IS; [|discriminate]. cbn [bind] in H. destruct (raw_write (mw_value m1) e') as [[w ws1]|] eqn:RW; [|discriminate]. cbn [bind] in H. injection H as <- <-.
    destruct (intern_sane _ _ _ _ _ _ _ I PE IS) as (ys & tb & I2 & ES). destruct (value_out _ _ _ _ _ _ WI ES RW) as (ns2 & cur2 & st2 & V2 & WI2).
    split; [unfold under_way; cbn [mw_written mw_sym mw_value]; rewrite W1; eauto 8|]. exists (ns1 ++ ns2). split; [rewrite flat_map_app; apply values_app; assumption|]. intros F. right. rewrite (F1 F). eexists. reflexivity. }
  destruct (ue_type e); try exact (VAL H); clear VAL.
  - (* stream end *) unfold under_way in U. destruct (mw_written m) eqn:W.
    + destruct U as (xs & table & cur & st & I & WI). destruct (sym_finish imports (mw_sym m)) as [sws|] eqn:SF; [|discriminate]. cbn [bind] in H. destruct (raw_write (mw_value m) stream_end_event) as [[w vws]|] eqn:R; [|discriminate]. cbn [bind] in H. injection H as <- <-.
      split; [split; reflexivity|]. destruct (table_out _ _ _ _ _ I SF) as (n1 & V1). destruct (value_out _ _ _ _ _ _ WI flush_sane R) as (n2 & _ & _ & V2 & _). exists (n1 ++ n2). split; [|intros (F & _); congruence].
      rewrite flat_map_app, wdata_pending, flat_map_app. cbn [flat_map wdata]. rewrite !app_nil_r. apply values_app; assumption.
    + injection H as <- <-. split; [exact U|]. exists []. split; [apply values_none|]. intros _. left. split; [split; reflexivity|reflexivity].
  - (* version marker *) unfold under_way in U. destruct (mw_written m) eqn:W; [discriminate|]. injection H as <- <-. split; [unfold under_way; cbn [mw_written mw_value mw_sym]; try rewrite W; exact U|].
    destruct (IV (mw_ivm m)) as (ns & V & E). exists ns. split; [rewrite flat_map_app; cbn [flat_map wdata]; rewrite !app_nil_r; exact V|]. intros (_ & F). right. rewrite (E F). exists []. reflexivity.
Qed.
Lemma writes_out imports es : forall m m' out, under_way imports m -> Forall python_event es -> managed_write_all imports m es = Ok (m', out) ->
  exists ns, values_out ns out /\ (fresh m -> ns = [] \/ exists r, ns = NIvm :: r).
Proof.
  induction es as [|e es IH]; intros m m' out U P H; cbn [managed_write_all] in H.
  - injection H as <- <-. exists []. split; [apply values_none|auto].
  - destruct (managed_write imports m e) as [[m1 ws]|] eqn:W; [|discriminate]. cbn [bind] in H. destruct (managed_write_all imports m1 es) as [[m2 out2]|] eqn:R; [|discriminate]. cbn [bind] in H. injection H as <- <-.
    destruct (write_out _ _ _ _ _ U (Forall_inv P) W) as (U1 & n1 & V1 & F1). destruct (IH _ _ _ U1 (Forall_inv_tail P) R) as (n2 & V2 & F2). exists (n1 ++ n2). split; [apply values_app; assumption|].
    intros F. destruct (F1 F) as [(F' & ->)|(r & ->)]; [exact (F2 F')|right; eexists; reflexivity].
Qed.

(** C73, the writer.  Any events, with version markers and flushes (STREAM_END) in any places, any imports: at every moment what was
    put out is nothing, or a well-formed binary Ion stream, starting with the version marker. *)
Theorem C73_output_well_formed : forall imports es m out,
  Forall python_event es -> managed_write_all imports mwriter_new es = Ok (m, out) ->
  octets out /\ (out = [] \/ exists ns, stream_ok ns /\ out = stream ns).
Proof.
  intros imports es m out P H. destruct (writes_out imports es mwriter_new m out ltac:(split; reflexivity) P H) as (ns & (A & -> & O) & F). split; [exact O|].
  destruct (F ltac:(split; reflexivity)) as [->|(r & ->)]; [left; reflexivity|right]. exists r. split; [exact (Forall_inv_tail A)|reflexivity].
Qed.
Print Assumptions C73_output_well_formed.

(** Any Python value of the classes [dump] knows.  An IonPySymbol keeps the type SYMBOL. *)
Inductive python_value : pyval -> Prop :=
| py_none : python_value PNone
| py_plain s : python_scalar s -> python_value (PPlain s)
| py_list l : Forall python_value l -> python_value (PList l)
| py_tuple l : Forall python_value l -> python_value (PTuple l)
| py_dict l : Forall (fun p => python_value (snd p)) l -> python_value (PDict l)
| py_null t an : python_value (PNull t an)
| py_ion t an s : python_scalar s -> match s with VSymbol _ => t = TSymbol | _ => True end -> python_value (PIon t an s)
| py_seq sexp an l : Forall python_value l -> python_value (PSeq sexp an l)
| py_struct an m : Forall (fun p => Forall python_value (snd p)) m -> python_value (PStruct an m).
Lemma quiet_event e : ue_value e = EvNone -> python_event e.
Proof. intros E s. rewrite E. discriminate. Qed.
Lemma dumped_events tas v : python_value v -> forall field ins depth, Forall python_event (dump_value tas v field ins depth).
Proof.
  assert (W : forall l : list uevent, Forall python_event l -> forall e, ue_value e = EvNone -> Forall python_event (e :: l ++ [container_end_event])).
  { intros l F e E. constructor; [apply quiet_event; exact E|]. apply Forall_app. split; [exact F|]. constructor; [apply quiet_event; reflexivity|constructor]. }
  induction v as [ |s|l IH|l IH|l IH|t an|t an s|sexp an l IH|an m IH] using pyval_induction; intros P field ins depth; inversion P; subst; cbn [dump_value].
  - constructor; [apply quiet_event; reflexivity|constructor].
  - constructor; [|constructor]. intros x E. injection E as <-. split; [assumption|]. destruct s; exact Logic.I || reflexivity.
  - apply W; [|reflexivity]. apply Forall_flat_map. rewrite Forall_forall in *. intros x I. apply (IH x I). auto.
  - apply W; [|reflexivity]. apply Forall_flat_map. rewrite Forall_forall in *. intros x I. apply (IH x I). auto.
  - apply W; [|reflexivity]. apply Forall_flat_map. rewrite Forall_forall in *. intros x I. apply (IH x I). auto.
  - constructor; [apply quiet_event; reflexivity|constructor].
  - constructor; [|constructor]. intros x E. injection E as <-. split; [assumption|]. destruct s; exact Logic.I || (cbn [ue_ion_type]; congruence).
  - apply W; [|reflexivity]. apply Forall_flat_map. rewrite Forall_forall in *. intros x I. apply (IH x I). auto.
  - apply W; [|reflexivity]. apply Forall_flat_map. rewrite Forall_forall in *. intros x I. apply Forall_flat_map. pose proof (IH x I) as J. match goal with H : forall x, In x m -> _ |- _ => specialize (H x I); rename H into K end. rewrite Forall_forall in *. intros y I2. apply (J y I2). auto.
Qed.
Lemma elements_python v l : python_value v -> py_elements v = Some l -> Forall python_value l.
Proof.
  assert (T : forall t, Forall python_value (token_elements t)).
  { intros t. unfold token_elements. repeat constructor; [destruct (tk_text t)|destruct (tk_sid t)|destruct (tk_loc t)]; repeat constructor. }
  destruct 1 as [ |s P|l' F|l' F|l' F|t an|t an s P Q|sexp an l' F|an m F]; cbn [py_elements]; intros E; try discriminate; try (injection E as <-; exact F); destruct s; try discriminate; injection E as <-; apply T.
Qed.
Lemma dump_python tas seq v : python_value v -> Forall python_event (dump_events tas seq v).
Proof.
  intros P. unfold dump_events. apply Forall_flat_map. assert (F : Forall python_value (top_level seq v)).
  { unfold top_level. destruct seq; [|constructor; [exact P|constructor]]. destruct (py_elements v) as [l|] eqn:E; [exact (elements_python v l P E)|constructor; [exact P|constructor]]. }
  eapply Forall_impl; [|exact F]. intros x Q. apply dumped_events. exact Q.
Qed.
(** C73, [dumps] of any value in binary: what it returns is a well-formed binary Ion stream.  (The values storable in binary also come back,
    C31; these are all values [dumps] accepts: symbols without text, structs annotated as symbol tables, repeated keys.) *)
Theorem C73_dumps_well_formed : forall imports tas seq v out,
  python_value v -> dumps_binary imports tas seq v = Ok out ->
  octets out /\ exists ns, stream_ok ns /\ out = stream ns.
Proof.
  intros imports tas seq v out P H. unfold dumps_binary in H. destruct (managed_write_all imports mwriter_new _) as [[m o]|] eqn:W; [|discriminate]. cbn [bind] in H. injection H as ->.
  assert (F : Forall python_event (version_event :: dump_events tas seq v ++ [end_event])).
  { constructor; [intros s E; discriminate E|]. apply Forall_app. split; [apply dump_python; exact P|]. constructor; [apply quiet_event; reflexivity|constructor]. }
  destruct (C73_output_well_formed _ _ _ _ F W) as (O & [->|S]); [exfalso|auto]. cbn [managed_write_all] in W. unfold managed_write at 1 in W. cbn [version_event ue_type mwriter_new mw_written mw_ivm bind] in W.
  destruct (managed_write_all imports _ _) as [[? ?]|]; discriminate W.
Qed.
Print Assumptions C73_dumps_well_formed.
(** A struct annotated [$ion_symbol_table] with a repeated key and a symbol without text; a stream without values; two flushes. *)
Definition odd : pyval := PStruct [AText TEXT_ION_SYMBOL_TABLE] [(Some (txt "a"), [PPlain (VInt (-300)); PIon TSymbol [] (VSymbol (mktok None (Some 4) None))])].
Theorem C73_cases :
  python_value odd /\
  dumps_binary None false false odd = Ok [0xE0; 1; 0; 0xEA; 0xE8; 0x81; 0x83; 0xDE; 0x84; 0x87; 0xB2; 0x81; 0x61; 0xEB; 0x81; 0x83; 0xDE; 0x87; 0x8A; 0x32; 0x01; 0x2C; 0x8A; 0x71; 0x04] /\
  python_value (PList []) /\ dumps_binary None false true (PList []) = Ok [0xE0; 1; 0; 0xEA] /\
  (let* (_, out) := managed_write_all None mwriter_new [end_event; mkue EScalar (Some TInt) (EvVal (VInt 1)) None [] None; end_event; mkue EScalar (Some TNull) EvNone None [] None; end_event; end_event] in Ok out)
  = Ok [0xE0; 1; 0; 0xEA; 0x21; 1; 0xE0; 1; 0; 0xEA; 0x0F].
Proof. split; [repeat constructor; cbn; auto|]. split; [vm_compute; reflexivity|]. split; [repeat constructor|]. split; vm_compute; reflexivity. Qed.
