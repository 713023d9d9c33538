(** Runs of the managed writer between two flushes. *)
From Verif Require Import Base BaseFacts FieldsModel BufferModel CoreModel BinWriterModel BinReaderModel BinReaderSpec
  ScalarFacts ScalarProofs SymbolsModel SymbolsProofs BinFormat BinFormatFacts WriterFacts WriterProofs ManagedModel Cursor ManagedSpec
  ManagedWriterFacts.
Local Open Scope Z_scope.


(** Sane events: Python values, and symbols with text (or symbol zero). *)
Definition plain_event (e : uevent) : Prop :=
  (match ue_field e with Some a => plain_arg a | None => True end) /\ Forall plain_arg (ue_annot e) /\
  (forall v, ev_force (ue_value e) = Ok (Some v) -> scalar_sane v /\
     (ue_ion_type e = Some TSymbol -> match symbol_arg v with Some a => plain_arg a | None => True end)).

(** What an event has become when it reaches the raw writer. *)
Definition field_interned (table : symtab) (f : option symarg) (t : option token) : Prop :=
  match f with
  | None | Some (AText []) => t = None
  | Some a => exists u, t = Some u /\ names table a u
  end.
Definition value_interned (table : symtab) (e : uevent) (v : evalue) : Prop :=
  match ue_ion_type e with
  | Some TSymbol =>
    match ev_force (ue_value e) with
    | Ok None => v = EvNone
    | Ok (Some s) => exists a t, symbol_arg s = Some a /\ names table a t /\ v = EvVal (VSymbol t)
    | Err _ => False
    end
  | _ => v = ue_value e
  end.
Definition interned (table : symtab) (e : uevent) (e' : event) : Prop :=
  ev_type e' = ue_type e /\ ev_ion_type e' = ue_ion_type e /\ field_interned table (ue_field e) (ev_field e') /\
  Forall2 (names table) (ue_annot e) (ev_annot e') /\ value_interned table e (ev_value e').

Lemma field_keep imports xs ys table table' f t : table_of imports xs = Ok table -> table_of imports (xs ++ ys) = Ok table' ->
  field_interned table f t -> field_interned table' f t.
Proof.
  intros T T' H. unfold field_interned in *. destruct f as [a|]; [|exact H].
  assert (K : (exists u, t = Some u /\ names table a u) -> exists u, t = Some u /\ names table' a u)
    by (intros (u & E & N); exists u; split; [exact E|exact (names_keep _ _ _ _ _ _ _ T T' N)]).
  destruct a as [u|[|c x]]; [exact (K H)|exact H|exact (K H)].
Qed.
Lemma annots_keep imports xs ys table table' l ts : table_of imports xs = Ok table -> table_of imports (xs ++ ys) = Ok table' ->
  Forall2 (names table) l ts -> Forall2 (names table') l ts.
Proof. intros T T' H. induction H as [|x y l l' H0 H1 IH]; constructor; [exact (names_keep _ _ _ _ _ _ _ T T' H0)|exact IH]. Qed.
Lemma interned_keep imports xs ys table table' e e' : table_of imports xs = Ok table -> table_of imports (xs ++ ys) = Ok table' ->
  interned table e e' -> interned table' e e'.
Proof.
  intros T T' (A & B & F & AN & V). split; [exact A|]. split; [exact B|]. split; [exact (field_keep _ _ _ _ _ _ _ T T' F)|]. split; [exact (annots_keep _ _ _ _ _ _ _ T T' AN)|].
  unfold value_interned in *. destruct (ue_ion_type e) as [[]|]; try exact V. destruct (ev_force (ue_value e)) as [[s|]|]; try exact V.
  destruct V as (a & t & S & N & E). exists a, t. split; [exact S|]. split; [exact (names_keep _ _ _ _ _ _ _ T T' N)|exact E].
Qed.

Lemma annotations_inv imports l : forall s xs table ts s', sym_inv imports s xs table -> Forall plain_arg l -> sym_annotations s l = Ok (ts, s') ->
  exists ys table', sym_inv imports s' (xs ++ ys) table' /\ Forall2 (names table') l ts.
Proof.
  induction l as [|a l IH]; intros s xs table ts s' I P H; cbn [sym_annotations] in H.
  - injection H as <- <-. exists [], table. rewrite app_nil_r. auto.
  - inversion P as [|? ? P1 P2]; subst. destruct (sym_symbol s a) as [[t s1]|] eqn:S; [|discriminate]. cbn [bind] in H.
    destruct (sym_annotations s1 l) as [[ts1 s2]|] eqn:A; [|discriminate]. cbn [bind] in H. injection H as <- <-.
    destruct (sym_symbol_inv _ _ _ _ _ _ _ I S) as (y1 & t1 & I1 & N1). destruct (IH _ _ _ _ _ I1 P2 A) as (y2 & t2 & I2 & N2).
    rewrite <- app_assoc in I2. exists (y1 ++ y2), t2. split; [exact I2|]. constructor; [|exact N2].
    destruct I1 as (_ & T1 & _). destruct I2 as (_ & T2 & _). rewrite app_assoc in T2. eapply names_keep; [exact T1|exact T2|auto].
Qed.

Lemma intern_inv imports s xs table e e' s' : sym_inv imports s xs table -> plain_event e -> intern_symbols s e = Ok (e', s') ->
  exists ys table', sym_inv imports s' (xs ++ ys) table' /\ interned table' e e'.
Proof.
  intros I (PF & PA & PV) H. unfold intern_symbols in H.
  match type of H with (let* _ := ?X in _) = _ => destruct X as [[fld s1]|] eqn:F end; [|discriminate]. cbn [bind] in H.
  destruct (sym_annotations s1 (ue_annot e)) as [[an s2]|] eqn:A; [|discriminate]. cbn [bind] in H.
  assert (exists y1 t1, sym_inv imports s1 (xs ++ y1) t1 /\ field_interned t1 (ue_field e) fld) as (y1 & t1 & I1 & N1).
  { unfold field_interned. assert (K : forall a, ue_field e = Some a -> (let* (t, s') := sym_symbol s a in Ok (Some t, s')) = Ok (fld, s1) ->
      exists y1 t1, sym_inv imports s1 (xs ++ y1) t1 /\ exists u, fld = Some u /\ names t1 a u).
    { intros a EA E. rewrite EA in PF. destruct (sym_symbol s a) as [[t sx]|] eqn:S; [|discriminate]. cbn [bind] in E. injection E as <- <-.
      destruct (sym_symbol_inv _ _ _ _ _ _ _ I S) as (y & tb & IY & NY). exists y, tb. split; [exact IY|]. exists t. auto. }
    assert (Z0 : Ok (@None token, s) = Ok (fld, s1) -> exists y1 t1, sym_inv imports s1 (xs ++ y1) t1 /\ fld = None)
      by (intros E; injection E as <- <-; exists [], table; rewrite app_nil_r; auto).
    destruct (ue_field e) as [a|] eqn:UF; [|exact (Z0 F)].
    destruct a as [t|[|c x]]; [apply (K _ eq_refl F)|exact (Z0 F)|apply (K _ eq_refl F)]. }
  destruct (annotations_inv _ _ _ _ _ _ _ I1 PA A) as (y2 & t2 & I2 & N2).
  assert (T1 : table_of imports (xs ++ y1) = Ok t1) by apply I1. assert (T2 : table_of imports ((xs ++ y1) ++ y2) = Ok t2) by apply I2.
  assert (DONE : forall v, value_interned t2 e v -> (mkev (ue_type e) (ue_ion_type e) v fld an (ue_depth e), s2) = (e', s') ->
     exists ys table', sym_inv imports s' (xs ++ ys) table' /\ interned table' e e').
  { intros v V E. injection E as <- <-. exists (y1 ++ y2), t2. rewrite app_assoc. split; [exact I2|].
    split; [reflexivity|]. split; [reflexivity|]. split; [exact (field_keep _ _ _ _ _ _ _ T1 T2 N1)|]. split; [exact N2|exact V]. }
  destruct (ue_ion_type e) as [ty|] eqn:UT.
  2: { injection H as H1 H2. apply (DONE (ue_value e)); [unfold value_interned; rewrite UT; reflexivity|congruence]. }
  destruct ty; try (injection H as H1 H2; apply (DONE (ue_value e)); [unfold value_interned; rewrite UT; reflexivity|congruence]).
  destruct (ev_force (ue_value e)) as [[v|]|x] eqn:EF; cbn [bind] in H; [|injection H as H1 H2; apply (DONE EvNone); [unfold value_interned; rewrite UT, EF; reflexivity|congruence]|discriminate].
  change (match v with VSymbol t => Some (ATok t) | VString x => Some (AText x) | _ => None end) with (symbol_arg v) in H.
  destruct (symbol_arg v) as [a|] eqn:SA; [|discriminate]. destruct (sym_symbol s2 a) as [[t s3]|] eqn:S; [|discriminate]. cbn [bind] in H. injection H as <- <-.
  destruct (sym_symbol_inv _ _ _ _ _ _ _ I2 S) as (y3 & t3 & I3 & N3). exists (y1 ++ y2 ++ y3), t3.
  assert (T3 : table_of imports (((xs ++ y1) ++ y2) ++ y3) = Ok t3) by apply I3.
  rewrite !app_assoc. split; [exact I3|]. cbn [interned]. unfold interned; cbn [ev_type ev_ion_type ev_field ev_annot ev_value].
  split; [reflexivity|]. split; [symmetry; exact UT|]. split.
  - rewrite <- app_assoc in T3. eapply field_keep; [exact T1|exact T3|exact N1].
  - split; [eapply annots_keep; [exact T2|exact T3|exact N2]|]. unfold value_interned. rewrite UT, EF. exists a, t. split; [exact SA|]. split; [|reflexivity].
    apply N3. destruct (PV v eq_refl) as [_ P]. specialize (P eq_refl). rewrite SA in P. exact P.
Qed.

(** What reaches the raw writer is sane. *)
Lemma interned_sane table e e' : plain_event e -> interned table e e' -> event_sane e'.
Proof.
  intros (PF & PA & PV) (A & B & F & AN & V). split; [|split; [|split]].
  - unfold sids_ok. clear - AN. induction AN as [|a t l ts (sid & r & S & P & _) _ IH]; constructor; [rewrite S; exact P|exact IH].
  - clear - AN. induction AN as [|a t l ts (sid & r & S & P & _) _ IH]; cbn [sids_of]; [discriminate|]. rewrite S. destruct (sids_of ts); [discriminate|congruence].
  - unfold field_interned in F. assert (K : (exists u a, ev_field e' = Some u /\ names table a u) -> match ev_field e' with Some t => match tk_sid t with Some s => 0 <= s | None => True end | None => True end)
      by (intros (u & a & -> & (sid & r & S & P & _)); rewrite S; exact P).
    destruct (ue_field e) as [a|]; [|rewrite F; exact Logic.I]. destruct a as [t|[|c x]]; [apply K; destruct F as (u & E & N); eauto|rewrite F; exact Logic.I|apply K; destruct F as (u & E & N); eauto].
  - intros s FS. unfold value_interned in V. destruct (ue_ion_type e) as [ty|] eqn:UT.
    2: { rewrite V in FS. apply (PV s FS). }
    destruct ty; try (rewrite V in FS; apply (PV s FS)).
    destruct (ev_force (ue_value e)) as [[v|]|x] eqn:EF; [|rewrite V in FS; discriminate|contradiction].
    destruct V as (a & t & SA & (sid & r & S & P & _) & EV). rewrite EV in FS. cbn in FS. injection FS as <-. cbn. rewrite S. exact P.
Qed.

(** * The symbol table stream *)
Definition has_imports (imports : option (list symtab)) : bool := match truthy_imports imports with [] => false | _ => true end.
Definition lst_events (imports : option (list symtab)) (has : bool) (xs : list text) : list event :=
  lst_head imports ++ lst_body has xs ++ (if has then [ev_container_end] else []) ++ [ev_container_end].
Definition lst_written (imports : option (list symtab)) (has : bool) (xs : list text) (sout : list Z) : Prop :=
  (has = false -> xs = []) /\
  if has || has_imports imports
  then exists w', raw_write_all w_init (lst_events imports has xs ++ [stream_end_event]) = Ok (w', sout) /\ Forall (fun e => ev_type e = EScalar -> encodable e) (lst_events imports has xs)
  else sout = [].

Lemma body_quiet imports has xs : Forall (fun e => is_flush e = false) (lst_head imports ++ lst_body has xs).
Proof.
  apply Forall_app. split.
  - unfold lst_head. constructor; [reflexivity|]. destruct (truthy_imports imports) as [|t ts]; [constructor|]. constructor; [reflexivity|].
    apply Forall_app. split; [|constructor; [reflexivity|constructor]]. generalize (t :: ts). intros l. induction l as [|u l IH]; [constructor|].
    cbn [flat_map]. apply Forall_app. split; [|exact IH]. unfold import_events. repeat (constructor; [reflexivity|]). constructor.
  - unfold lst_body. destruct has; [|constructor]. constructor; [reflexivity|]. induction xs as [|x xs IH]; cbn [map]; constructor; [reflexivity|exact IH].
Qed.

Lemma wdata_pending ws : flat_map wdata (map (fun w => HasPending (wdata w)) ws) = flat_map wdata ws.
Proof. induction ws as [|w ws IH]; [reflexivity|]. cbn [map flat_map]. rewrite IH. reflexivity. Qed.

Lemma sym_finish_written imports s xs table ws : sym_inv imports s xs table -> sym_finish imports s = Ok ws ->
  lst_written imports (sw_has s) xs (flat_map wdata ws).
Proof.
  intros (ST & TB & PW & HX) H. unfold sym_finish in H. fold (has_imports imports) in H. unfold lst_written. split; [exact HX|].
  destruct (sw_has s || has_imports imports); [|injection H as <-; reflexivity].
  assert (exists w1, (if sw_has s then put (sw_raw s) ev_container_end else Ok (sw_raw s)) = Ok w1 /\
     puts (sw_raw s) (if sw_has s then [ev_container_end] else []) = Ok w1) as (w1 & E1 & P1).
  { destruct (sw_has s); [|eexists; split; reflexivity]. destruct (put (sw_raw s) ev_container_end) as [w1|] eqn:P; [|discriminate].
    exists w1. split; [reflexivity|]. cbn [puts]. rewrite P. reflexivity. }
  rewrite E1 in H. cbn [bind] in H. destruct (put w1 ev_container_end) as [w2|] eqn:P2; [|discriminate]. cbn [bind] in H.
  destruct (raw_write w2 stream_end_event) as [[w3 ws3]|] eqn:R; [|discriminate]. cbn [bind] in H. injection H as <-.
  assert (P : puts w_init (lst_events imports (sw_has s) xs) = Ok w2).
  { unfold lst_events. rewrite app_assoc, puts_app, PW. cbn [bind]. rewrite puts_app, P1. cbn [bind puts]. rewrite P2. reflexivity. }
  assert (Q : Forall (fun e => is_flush e = false) (lst_events imports (sw_has s) xs)).
  { unfold lst_events. rewrite app_assoc. apply Forall_app. split; [apply body_quiet|]. destruct (sw_has s); repeat (constructor; [reflexivity|]); constructor. }
  exists w3. split; [|eapply puts_encodable; exact P]. rewrite (puts_run _ _ _ P Q). cbn [raw_write_all]. rewrite R. cbn [bind]. f_equal. f_equal.
  rewrite flat_map_app, wdata_pending. cbn [flat_map wdata]. rewrite !app_nil_r. reflexivity.
Qed.

(** * One part of the stream, up to its flush *)
Definition is_mark (e : uevent) : bool := match ue_type e with EStreamEnd | EVersionMarker => true | _ => false end.

Lemma write_value imports m e m' ws : is_mark e = false -> mw_written m = true -> managed_write imports m e = Ok (m', ws) ->
  exists e' s w, intern_symbols (mw_sym m) e = Ok (e', s) /\ raw_write (mw_value m) e' = Ok (w, ws) /\ m' = mkmw w s true (mw_ivm m).
Proof.
  intros NM W H. unfold managed_write, is_mark in *. rewrite W in H.
  destruct (ue_type e); try discriminate; cbn [bind] in H;
    (destruct (intern_symbols (mw_sym m) e) as [[e' s]|]; [|discriminate]; cbn [bind] in H;
     destruct (raw_write (mw_value m) e') as [[w ws']|] eqn:RW; [|discriminate]; cbn [bind] in H; injection H as <- <-; exists e', s, w; rewrite ?W; auto).
Qed.
Lemma intern_type s e e' s' : intern_symbols s e = Ok (e', s') -> ev_type e' = ue_type e.
Proof.
  unfold intern_symbols. intros H. match type of H with (let* _ := ?X in _) = _ => destruct X as [[fld s1]|] end; [|discriminate]. cbn [bind] in H.
  destruct (sym_annotations s1 (ue_annot e)) as [[an s2]|]; [|discriminate]. cbn [bind] in H.
  destruct (ue_ion_type e) as [ty|]; [|injection H as <- _; reflexivity]. destruct ty; try (injection H as <- _; reflexivity).
  destruct (ev_force (ue_value e)) as [[v|]|]; cbn [bind] in H; [|injection H as <- _; reflexivity|discriminate].
  destruct (match v with VSymbol t => _ | VString x => _ | _ => _ end); [|discriminate]. destruct (sym_symbol s2 s0) as [[t s3]|]; [|discriminate].
  cbn [bind] in H. injection H as <- _. reflexivity.
Qed.

Lemma segment imports es : forall m xs table m' out fl, mw_written m = true -> sym_inv imports (mw_sym m) xs table ->
  Forall plain_event es -> ue_type fl = EStreamEnd -> Forall (fun e => ue_type e <> EStreamEnd) es ->
  managed_write_all imports m (es ++ [fl]) = Ok (m', out) ->
  exists ies ys table' has sout vout w, m' = mwriter_new /\ table_of imports (xs ++ ys) = Ok table' /\ Forall2 (interned table') es ies /\
    raw_write_all (mw_value m) (ies ++ [stream_end_event]) = Ok (w, vout) /\ lst_written imports has (xs ++ ys) sout /\ out = sout ++ vout /\
    Forall (fun e => is_mark e = false) es.
Proof.
  induction es as [|e es IH]; intros m xs table m' out fl W I P FL NF H; cbn [app managed_write_all] in H.
  - unfold managed_write in H. rewrite FL, W in H. destruct (sym_finish imports (mw_sym m)) as [sws|] eqn:SF; [|discriminate]. cbn [bind] in H.
    destruct (raw_write (mw_value m) stream_end_event) as [[w vws]|] eqn:R; [|discriminate]. cbn [bind] in H. injection H as <- <-.
    exists [], [], table, (sw_has (mw_sym m)), (flat_map wdata sws), (flat_map wdata vws), w. rewrite app_nil_r.
    split; [reflexivity|]. split; [apply I|]. split; [constructor|]. split; [cbn [app raw_write_all]; rewrite R; cbn [bind]; rewrite app_nil_r; reflexivity|].
    split; [eapply sym_finish_written; eassumption|]. split; [|constructor]. rewrite flat_map_app, wdata_pending, flat_map_app. cbn [flat_map wdata]. rewrite !app_nil_r. reflexivity.
  - inversion P as [|? ? P1 P2]; subst. inversion NF as [|? ? NF1 NF2]; subst.
    destruct (managed_write imports m e) as [[m1 ws]|] eqn:MW; [|discriminate]. cbn [bind] in H.
    destruct (managed_write_all imports m1 (es ++ [fl])) as [[m2 out2]|] eqn:R2; [|discriminate]. cbn [bind] in H. injection H as <- <-.
    assert (NM : is_mark e = false).
    { unfold is_mark. destruct (ue_type e) eqn:T; try reflexivity; [congruence|]. unfold managed_write in MW. rewrite T, W in MW. discriminate. }
    destruct (write_value _ _ _ _ _ NM W MW) as (e' & s & w & IS & RW & ->).
    destruct (intern_inv _ _ _ _ _ _ _ I P1 IS) as (y1 & t1 & I1 & N1).
    destruct (IH (mkmw w s true (mw_ivm m)) (xs ++ y1) t1 m2 out2 fl eq_refl I1 P2 FL NF2 R2) as (ies & ys & table' & has & sout & vout & w' & A & B & C & D & E & F & G).
    cbn [mw_value] in D. exists (e' :: ies), (y1 ++ ys), table', has, sout, vout, w'. rewrite app_assoc.
    split; [exact A|]. split; [exact B|]. split; [constructor; [eapply interned_keep; [apply I1|exact B|exact N1]|exact C]|].
    pose proof (intern_type _ _ _ _ IS) as ET.
    assert (Q : is_flush e' = false) by (unfold is_flush; rewrite ET; unfold is_mark in NM; destruct (ue_type e); try reflexivity; discriminate).
    assert (RQ : raw_write (mw_value m) e' = Ok (w, [NeedsInput []])) by (apply put_quiet; [unfold put; rewrite RW; reflexivity|exact Q]).
    assert (EQ : ws = [NeedsInput []]) by congruence. split.
    + cbn [app raw_write_all]. rewrite RQ. cbn [bind]. rewrite D. reflexivity.
    + split; [exact E|]. split; [rewrite EQ; exact F|constructor; assumption].
Qed.
