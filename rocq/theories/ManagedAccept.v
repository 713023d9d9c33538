(** What the managed writer accepts: well-nested events with named fields, symbols it can encode and
    values it can encode. *)
From Verif Require Import Base BaseFacts FieldsModel BufferModel CoreModel BinWriterModel BinReaderModel BinReaderSpec
  ScalarFacts ScalarProofs SymbolsModel SymbolsProofs BinFormat BinFormatFacts WriterFacts WriterProofs ManagedModel Cursor ManagedSpec
  ManagedWriterFacts ManagedWriterRun ManagedRoundTrip.
Local Open Scope Z_scope.

(** A symbol with text that UTF-8 can encode, or symbol zero. *)
Definition good_arg (a : symarg) : Prop :=
  match arg_text a with
  | Some x => text_ok x
  | None => match a with ATok t => tk_sid t = Some 0 | AText _ => False end
  end.
Lemma good_plain a : good_arg a -> plain_arg a.
Proof. unfold good_arg, plain_arg. destruct a as [t|x]; cbn [arg_text]; [|auto]. destruct (tk_text t); [left; discriminate|auto]. Qed.

(** The event has the names it needs inside [within]: in a struct a field name, not the empty text. *)
Definition good_names (open : list iontype) (e : uevent) : Prop :=
  Forall good_arg (ue_annot e) /\
  match ue_field e with Some a => good_arg a | None => True end /\
  (within open = Some TStruct -> ue_field e <> None /\ ue_field e <> Some (AText [])).
Definition good_value (e : uevent) : Prop :=
  exists t, ue_ion_type e = Some t /\
  match ev_force (ue_value e) with
  | Ok None => True
  | Ok (Some s) => match t with
                   | TSymbol => exists a, symbol_arg s = Some a /\ good_arg a
                   | _ => exists bs, serialize_scalar (Some t) (Some s) = Ok bs
                   end
  | Err _ => False
  end.
Inductive takes : list iontype -> uevent -> list iontype -> Prop :=
| tk_scalar open e : ue_type e = EScalar -> good_names open e -> good_value e -> takes open e open
| tk_start open e t : ue_type e = EContainerStart -> good_names open e -> ue_ion_type e = Some t -> is_container t = true -> takes open e (t :: open)
| tk_end open e t : ue_type e = EContainerEnd -> ue_field e = None -> ue_annot e = [] -> ue_ion_type e <> Some TSymbol -> takes (t :: open) e open.
Inductive takes_all : list iontype -> list uevent -> list iontype -> Prop :=
| ta_nil open : takes_all open [] open
| ta_cons open e open1 es open2 : takes open e open1 -> takes_all open1 es open2 -> takes_all open (e :: es) open2.
Lemma takes_app es1 : forall a b es2 c, takes_all a es1 b -> takes_all b es2 c -> takes_all a (es1 ++ es2) c.
Proof.
  induction es1 as [|e es1 IH]; intros a b es2 c H1 H2; inversion H1; subst; [exact H2|]. cbn [app]. econstructor; [eassumption|]. eapply IH; eassumption.
Qed.

Definition shared_import (t : symtab) : Prop :=
  st_type t = SharedTable /\ exists n v, st_name t = Some n /\ text_ok n /\ st_version t = Some v.

(** * The raw writer under it *)
Lemma put_accepts w open e open' : ainv w open -> sids_natural e -> accept open e open' -> exists w', put w e = Ok w' /\ ainv w' open'.
Proof.
  intros A N C. pose proof (step_accepts w open e A N) as S. unfold put. destruct (raw_write w e) as [[w' ws]|x]; [|exfalso; exact (S _ C)].
  destruct S as (o & C' & A'). rewrite (accept_fun _ _ _ _ C C'). cbn [bind]. eauto.
Qed.
Lemma puts_accepts es : forall w open open', ainv w open -> Forall sids_natural es -> accept_all open es open' -> exists w', puts w es = Ok w' /\ ainv w' open'.
Proof.
  induction es as [|e es IH]; intros w open open' A N C; inversion C; subst; cbn [puts]; [eauto|]. inversion N; subst.
  destruct (put_accepts _ _ _ _ A ltac:(eassumption) ltac:(eassumption)) as (w1 & -> & A1). cbn [bind]. eapply IH; eassumption.
Qed.

Definition lst_open (has : bool) : wopen := (if has then [(TList, [])] else []) ++ [(TStruct, [sys_token 3])].

Lemma sys_natural t v sid : sid = 4 \/ sid = 5 \/ sid = 8 -> sids_natural (ev_field_value t v sid).
Proof. intros H. split; [constructor|]. cbn. destruct H as [->|[->| ->]]; cbn; lia. Qed.
Lemma string_encodable x : text_ok x -> exists bs, serialize_scalar (Some TString) (Some (VString x)) = Ok bs.
Proof. intros T. destruct (scalar_carried TString (VString x) T) as (bs & _ & S & _). eauto. Qed.
Lemma int_encodable z : exists bs, serialize_scalar (Some TInt) (Some (VInt z)) = Ok bs.
Proof. destruct (scalar_carried TInt (VInt z) Logic.I) as (bs & _ & S & _). eauto. Qed.
Lemma null_encodable t : exists bs, serialize_scalar (Some t) None = Ok bs.
Proof. destruct t; eexists; reflexivity. Qed.

Lemma import_accepted t an : shared_import t -> Forall sids_natural (import_events t) /\
  accept_all ((TList, []) :: an) (import_events t) ((TList, []) :: an).
Proof.
  intros (_ & n & v & SN & T & SV). unfold import_events. rewrite SN, SV.
  assert (ST : sids_natural ev_struct_start) by (split; [constructor|exact Logic.I]). assert (SE : sids_natural ev_container_end) by (split; [constructor|exact Logic.I]).
  split.
  - constructor; [exact ST|]. constructor; [apply sys_natural; auto|]. constructor; [apply sys_natural; auto|]. constructor; [apply sys_natural; auto|]. constructor; [exact SE|constructor].
  - assert (FG : forall ty x sid, sid = 4 \/ sid = 5 \/ sid = 8 -> field_given ((TStruct, []) :: (TList, []) :: an) (ev_field_value ty x sid)).
    { intros ty x sid H. eexists. split; [reflexivity|]. destruct H as [->|[->| ->]]; discriminate. }
    eapply aa_cons; [apply (ac_start _ _ TStruct); [reflexivity|exact Logic.I|reflexivity|reflexivity]|].
    eapply aa_cons; [apply ac_scalar; [reflexivity|apply FG; auto|constructor|]|].
    { destruct (string_encodable n T) as [bs B]. exists (Some (VString n)), bs. split; [reflexivity|exact B]. }
    eapply aa_cons; [apply ac_scalar; [reflexivity|apply FG; auto|constructor|]|].
    { destruct (int_encodable v) as [bs B]. exists (Some (VInt v)), bs. split; [reflexivity|exact B]. }
    eapply aa_cons; [apply ac_scalar; [reflexivity|apply FG; auto|constructor|]|].
    { destruct (int_encodable (st_max t)) as [bs B]. exists (Some (VInt (st_max t))), bs. split; [reflexivity|exact B]. }
    eapply aa_cons; [apply ac_end; [reflexivity|constructor]|]. constructor.
Qed.

Lemma put_imports_accepts ts : forall w an, Forall shared_import ts -> ainv w ((TList, []) :: an) -> exists w', put_imports w ts = Ok w' /\ ainv w' ((TList, []) :: an).
Proof.
  induction ts as [|t ts IH]; intros w an S A; cbn [put_imports]; [eauto|]. inversion S as [|? ? S1 S2]; subst.
  destruct (import_accepted t an S1) as [N AC]. destruct (puts_accepts _ _ _ _ A N AC) as (w1 & P & A1). rewrite (proj1 S1), P. cbn [bind]. apply IH; assumption.
Qed.

Lemma sym_start_accepts imports : Forall shared_import (truthy_imports imports) ->
  exists s, sym_start imports symw_new = Ok s /\ ainv (sw_raw s) (lst_open (sw_has s)).
Proof.
  intros SI. unfold sym_start. cbn [symw_new sw_raw sw_has].
  assert (N3 : sids_natural ev_lst_start) by (split; [|exact Logic.I]; constructor; [vm_compute; discriminate|constructor]).
  destruct (put_accepts w_init [] ev_lst_start [(TStruct, [sys_token 3])] ainv_init N3) as (w1 & P1 & A1).
  { apply ac_start; [reflexivity|exact Logic.I|reflexivity|reflexivity]. }
  rewrite P1. cbn [bind].
  assert (exists w2, (match truthy_imports imports with [] => Ok w1 | ts => let* w := put w1 ev_imports_start in let* w := put_imports w ts in put w ev_container_end end) = Ok w2
    /\ ainv w2 (lst_open false)) as (w2 & -> & A2).
  { destruct (truthy_imports imports) as [|t ts]; [exists w1; split; [reflexivity|exact A1]|].
    assert (N6 : sids_natural ev_imports_start) by (split; [constructor|vm_compute; discriminate]).
    destruct (put_accepts w1 _ ev_imports_start ((TList, []) :: [(TStruct, [sys_token 3])]) A1 N6) as (w2 & P2 & A2).
    { apply ac_start; [reflexivity|eexists; split; [reflexivity|discriminate]|reflexivity|reflexivity]. }
    rewrite P2. cbn [bind]. destruct (put_imports_accepts (t :: ts) _ _ SI A2) as (w3 & -> & A3). cbn [bind].
    apply (put_accepts w3 _ ev_container_end _ A3); [split; [constructor|exact Logic.I]|]. apply ac_end; [reflexivity|constructor]. }
  cbn [bind]. assert (exists table, st_new LocalTable [] None None imports false = Ok table) as (table & ->) by (eexists; reflexivity).
  cbn [bind]. eexists. split; [reflexivity|]. exact A2.
Qed.

(** * Symbols *)
Lemma sym_symbol_accepts imports s xs table a : sym_inv imports s xs table -> ainv (sw_raw s) (lst_open (sw_has s)) -> good_arg a ->
  exists tok s', sym_symbol s a = Ok (tok, s') /\ ainv (sw_raw s') (lst_open (sw_has s')).
Proof.
  intros (ST & TB & _ & _) A G. unfold sym_symbol. rewrite ST. destruct (table_of_ok _ _ _ TB) as [OK TY].
  assert (exists w, (if sw_has s then Ok (sw_raw s) else put (sw_raw s) ev_symbols_start) = Ok w /\ ainv w (lst_open true)) as (w & -> & AW).
  { destruct (sw_has s); [eauto|]. apply (put_accepts _ _ _ _ A); [split; [constructor|vm_compute; discriminate]|].
    apply ac_start; [reflexivity|eexists; split; [reflexivity|discriminate]|reflexivity|reflexivity]. }
  cbn [bind].
  assert (TEXT : forall x, text_ok x -> exists tok s', match get_text table x None with
      | Some tok => Ok (tok, mksw (Some table) w true)
      | None => let* (tok, table') := intern table x in
          let* w := put w (mkev EScalar (Some TString) (match tk_text tok with Some y => EvVal (VString y) | None => EvNone end) None [] None) in
          Ok (tok, mksw (Some table') w true) end = Ok (tok, s') /\ ainv (sw_raw s') (lst_open (sw_has s'))).
  { intros x TX. destruct (get_text table x None) as [u|] eqn:GT; [do 2 eexists; split; [reflexivity|exact AW]|].
    pose proof (intern_spec table x OK) as I. rewrite TY in I. cbn [is_shared] in I. destruct I as (t & st' & IE & _ & TT & _). rewrite IE. cbn [bind]. rewrite TT.
    destruct (put_accepts w (lst_open true) (mkev EScalar (Some TString) (EvVal (VString x)) None [] None) (lst_open true) AW) as (w' & -> & A').
    - split; [constructor|exact Logic.I].
    - apply ac_scalar; [reflexivity|exact Logic.I|constructor|]. destruct (string_encodable x TX) as [bs B]. exists (Some (VString x)), bs. split; [reflexivity|exact B].
    - cbn [bind]. do 2 eexists. split; [reflexivity|exact A']. }
  unfold good_arg in G. destruct a as [t|x]; cbn [arg_text] in G.
  - destruct (tk_text t) as [x|]; [exact (TEXT x G)|]. rewrite G.
    assert (exists u, get_sid table 0 None = Some u) as [u ->] by (eexists; reflexivity). do 2 eexists. split; [reflexivity|exact AW].
  - exact (TEXT x G).
Qed.

Lemma sym_annotations_accepts imports l : forall s xs table, sym_inv imports s xs table -> ainv (sw_raw s) (lst_open (sw_has s)) -> Forall good_arg l ->
  exists ts s', sym_annotations s l = Ok (ts, s') /\ ainv (sw_raw s') (lst_open (sw_has s')).
Proof.
  induction l as [|a l IH]; intros s xs table I A G; cbn [sym_annotations]; [eauto|]. inversion G as [|? ? G1 G2]; subst.
  destruct (sym_symbol_accepts _ _ _ _ _ I A G1) as (t & s1 & E & A1). rewrite E. cbn [bind].
  destruct (sym_symbol_inv _ _ _ _ _ _ _ I E) as (ys & table1 & I1 & _).
  destruct (IH _ _ _ I1 A1 G2) as (ts & s2 & -> & A2). cbn [bind]. eauto.
Qed.

Definition taken (e : uevent) : Prop := exists open open', takes open e open'.
Lemma taken_good e : taken e -> Forall good_arg (ue_annot e) /\ match ue_field e with Some a => good_arg a | None => True end /\
  (ue_ion_type e = Some TSymbol -> match ev_force (ue_value e) with Ok None => True | Ok (Some s) => exists a, symbol_arg s = Some a /\ good_arg a | Err _ => False end).
Proof.
  intros (open & open' & T). destruct T as [open e TY (A & F & _) (t & IT & V)|open e t TY (A & F & _) IT C|open e t TY F A N].
  - split; [exact A|]. split; [exact F|]. rewrite IT. intros [= ->]. exact V.
  - split; [exact A|]. split; [exact F|]. rewrite IT. intros [= ->]. discriminate.
  - rewrite A, F. split; [constructor|]. split; [exact Logic.I|]. intros E. contradiction.
Qed.

Lemma intern_accepts imports s xs table e : sym_inv imports s xs table -> ainv (sw_raw s) (lst_open (sw_has s)) -> taken e ->
  exists e' s', intern_symbols s e = Ok (e', s') /\ ainv (sw_raw s') (lst_open (sw_has s')).
Proof.
  intros I A T. destruct (taken_good e T) as (GA & GF & GV). unfold intern_symbols.
  assert (exists f s1 xs1 t1, (match ue_field e with None | Some (AText []) => Ok (None, s) | Some a => let* (t, s') := sym_symbol s a in Ok (Some t, s') end) = Ok (f, s1) /\
     sym_inv imports s1 xs1 t1 /\ ainv (sw_raw s1) (lst_open (sw_has s1))) as (f & s1 & xs1 & t1 & -> & I1 & A1).
  { assert (K : forall a, good_arg a -> exists f s1 xs1 t1, (let* (t, s') := sym_symbol s a in Ok (Some t, s')) = Ok (f, s1) /\
       sym_inv imports s1 xs1 t1 /\ ainv (sw_raw s1) (lst_open (sw_has s1))).
    { intros a G. destruct (sym_symbol_accepts _ _ _ _ _ I A G) as (t & s1 & E & A1). destruct (sym_symbol_inv _ _ _ _ _ _ _ I E) as (ys & t1 & I1 & _).
      rewrite E. cbn [bind]. exists (Some t), s1, (xs ++ ys), t1. auto. }
    destruct (ue_field e) as [a|]; [|exists None, s, xs, table; auto]. destruct a as [t|[|c x]]; [apply (K _ GF)|exists None, s, xs, table; auto|apply (K _ GF)]. }
  cbn [bind]. destruct (sym_annotations_accepts _ _ _ _ _ I1 A1 GA) as (ts & s2 & E2 & A2). rewrite E2. cbn [bind].
  assert (PA : Forall plain_arg (ue_annot e)) by (eapply Forall_impl; [|exact GA]; apply good_plain).
  destruct (annotations_inv _ _ _ _ _ _ _ I1 PA E2) as (y2 & t2 & I2 & _).
  destruct (ue_ion_type e) as [ty|]; [|eauto]. destruct ty; eauto. specialize (GV eq_refl).
  destruct (ev_force (ue_value e)) as [[v|]|]; cbn [bind]; [|eauto|contradiction]. destruct GV as (a & SA & G).
  change (match v with VSymbol t => Some (ATok t) | VString x => Some (AText x) | _ => None end) with (symbol_arg v). rewrite SA.
  destruct (sym_symbol_accepts _ _ _ _ _ I2 A2 G) as (t & s3 & -> & A3). cbn [bind]. eauto.
Qed.

(** * Events *)
Definition rinv (w : wstate) (open : list iontype) : Prop :=
  exists ropen, ainv w ropen /\ map fst ropen = open /\ Forall (fun p => has_sids (snd p)) ropen.

Lemma names_sids table l ts : Forall2 (names table) l ts -> has_sids ts.
Proof. induction 1 as [|a t l ts (sid & r & S & _) _ IH]; constructor; [congruence|exact IH]. Qed.
Lemma interned_natural table e e' : interned table e e' -> sids_natural e'.
Proof.
  intros (A & B & F & AN & V). split.
  - unfold sids_ok. clear - AN. induction AN as [|a t l ts (sid & r & S & P & _) _ IH]; constructor; [rewrite S; exact P|exact IH].
  - unfold field_interned in F. assert (K : (exists u a, ev_field e' = Some u /\ names table a u) -> match ev_field e' with Some t => match tk_sid t with Some s => 0 <= s | None => True end | None => True end)
      by (intros (u & a & -> & (sid & r & S & P & _)); rewrite S; exact P).
    destruct (ue_field e) as [a|]; [|rewrite F; exact Logic.I]. destruct a as [t|[|c x]]; [apply K; destruct F as (u & E & N); eauto|rewrite F; exact Logic.I|apply K; destruct F as (u & E & N); eauto].
Qed.
Lemma symbol_encodable t sid : tk_sid t = Some sid -> 0 <= sid -> exists bs, serialize_scalar (Some TSymbol) (Some (VSymbol t)) = Ok bs.
Proof. intros S P. destruct (scalar_carried TSymbol (VSymbol t) (ex_intro _ sid (conj S P))) as (bs & _ & B & _). eauto. Qed.

Lemma interned_accepts w open e open' table e' : rinv w open -> takes open e open' -> interned table e e' ->
  exists w' ws, raw_write w e' = Ok (w', ws) /\ rinv w' open'.
Proof.
  intros (ro & A & M & HS) T IN. pose proof (interned_natural _ _ _ IN) as N. destruct IN as (ET & EI & EF & EA & EV).
  assert (STEP : forall ro', accept ro e' ro' -> map fst ro' = open' -> Forall (fun p => has_sids (snd p)) ro' -> exists w' ws, raw_write w e' = Ok (w', ws) /\ rinv w' open').
  { intros ro' AC M' H'. pose proof (step_accepts w ro e' A N) as S. destruct (raw_write w e') as [[w' ws]|x]; [|exfalso; exact (S _ AC)].
    destruct S as (o & AC' & A'). rewrite (accept_fun _ _ _ _ AC' AC) in A'. exists w', ws. split; [reflexivity|]. exists ro'. auto. }
  pose proof (names_sids _ _ _ EA) as HA.
  assert (FG : good_names open e -> field_given ro e').
  { intros (_ & _ & NF). unfold field_given. destruct ro as [|[[] an] ro']; auto. cbn [map fst] in M. subst open. destruct (NF eq_refl) as [N1 N2].
    unfold field_interned in EF. destruct (ue_field e) as [a|]; [|contradiction].
    assert (K : (exists u, ev_field e' = Some u /\ names table a u) -> exists t, ev_field e' = Some t /\ tk_sid t <> None) by (intros (u & -> & (sid & r & S & _)); exists u; split; [reflexivity|congruence]).
    destruct a as [t|[|c x]]; [exact (K EF)|contradiction|exact (K EF)]. }
  destruct T as [open e TY GN (t & IT & V)|open e t TY GN IT C|open e t TY F AN NS].
  - apply (STEP ro); [|exact M|exact HS]. apply ac_scalar; [congruence|exact (FG GN)|exact HA|].
    unfold encodable. rewrite EI, IT. unfold value_interned in EV. rewrite IT in EV.
    assert (NSY : t <> TSymbol -> ev_value e' = ue_value e) by (intros H; destruct t; congruence).
    destruct (ev_force (ue_value e)) as [[s|]|] eqn:FV; [| |contradiction].
    + destruct (iontype_eqb t TSymbol) eqn:ETS.
      * assert (t = TSymbol) as -> by (destruct t; try discriminate; reflexivity). destruct V as (a & SA & G). destruct EV as (a' & tk & _ & (sid & r & S & P & _) & ->).
        destruct (symbol_encodable tk sid S P) as [bs B]. exists (Some (VSymbol tk)), bs. split; [reflexivity|exact B].
      * assert (NT : t <> TSymbol) by (intros ->; discriminate). rewrite (NSY NT), FV. assert (exists bs, serialize_scalar (Some t) (Some s) = Ok bs) as [bs B] by (destruct t; try exact V; congruence). exists (Some s), bs. auto.
    + destruct (null_encodable t) as [bs B]. exists None, bs. split; [|exact B]. destruct t; try (rewrite EV; exact FV). rewrite EV. reflexivity.
  - apply (STEP ((t, ev_annot e') :: ro)); [|cbn [map fst]; congruence|constructor; [exact HA|exact HS]]. apply ac_start; [congruence|exact (FG GN)|congruence|exact C].
  - destruct ro as [|[t' an] ro']; [discriminate|]. cbn [map fst] in M. injection M as -> M'. inversion HS as [|? ? H1 H2]; subst.
    apply (STEP ro'); [|reflexivity|exact H2]. apply ac_end; [congruence|exact H1].
Qed.

Lemma finish_accepts imports s : ainv (sw_raw s) (lst_open (sw_has s)) -> exists ws, sym_finish imports s = Ok ws.
Proof.
  intros A. unfold sym_finish. destruct (sw_has s || _); [|eauto].
  assert (NE : sids_natural ev_container_end) by (split; [constructor|exact Logic.I]).
  assert (exists w, (if sw_has s then put (sw_raw s) ev_container_end else Ok (sw_raw s)) = Ok w /\ ainv w [(TStruct, [sys_token 3])]) as (w & -> & AW).
  { destruct (sw_has s); [|eauto]. apply (put_accepts _ _ _ _ A NE). apply ac_end; [reflexivity|constructor]. }
  cbn [bind]. destruct (put_accepts _ _ ev_container_end [] AW NE) as (w2 & -> & A2).
  { apply ac_end; [reflexivity|]. constructor; [discriminate|constructor]. }
  cbn [bind]. pose proof (step_accepts w2 [] stream_end_event A2) as S.
  assert (NS : sids_natural stream_end_event) by (split; [constructor|exact Logic.I]). specialize (S NS).
  destruct (raw_write w2 stream_end_event) as [[w3 ws]|]; [|exfalso; apply (S []); apply ac_flush; reflexivity]. cbn [bind]. eauto.
Qed.

Definition minv (imports : option (list symtab)) (m : mwriter) (open : list iontype) : Prop :=
  mw_written m = true /\ rinv (mw_value m) open /\ ainv (sw_raw (mw_sym m)) (lst_open (sw_has (mw_sym m))) /\ exists xs table, sym_inv imports (mw_sym m) xs table.

Lemma value_step imports m open e open' : minv imports m open -> takes open e open' -> plain_event e ->
  exists m' ws, managed_write imports m e = Ok (m', ws) /\ minv imports m' open'.
Proof.
  intros (W & R & A & xs & table & I) T P. assert (NM : is_mark e = false) by (unfold is_mark; destruct T as [? ? TY|? ? ? TY|? ? ? TY]; rewrite TY; reflexivity).
  destruct (intern_accepts _ _ _ _ e I A (ex_intro _ open (ex_intro _ open' T))) as (e' & s' & E & A').
  destruct (intern_inv _ _ _ _ _ _ _ I P E) as (ys & table' & I' & IN). destruct (interned_accepts _ _ _ _ _ _ R T IN) as (w & ws & RW & R').
  unfold managed_write. destruct T as [? ? TY|? ? ? TY|? ? ? TY]; rewrite TY, W; cbn [bind]; rewrite E; cbn [bind]; rewrite RW; cbn [bind];
    (do 2 eexists; split; [reflexivity|]); unfold minv; cbn [mw_written mw_value mw_sym]; split; [exact W| |exact W| |exact W|]; (split; [exact R'|]); (split; [exact A'|]); exists (xs ++ ys), table'; exact I'.
Qed.

Lemma values_run imports es : forall m open open', minv imports m open -> takes_all open es open' -> Forall plain_event es ->
  exists m' out, managed_write_all imports m es = Ok (m', out) /\ minv imports m' open'.
Proof.
  induction es as [|e es IH]; intros m open open' M T P; inversion T; subst; cbn [managed_write_all]; [eauto|]. inversion P as [|? ? P1 P2]; subst.
  destruct (value_step _ _ _ _ _ M ltac:(eassumption) P1) as (m1 & ws & -> & M1). cbn [bind].
  destruct (IH _ _ _ M1 ltac:(eassumption) P2) as (m2 & out & -> & M2). cbn [bind]. eauto.
Qed.

(** A version marker, values, and the end: accepted. *)
Theorem managed_accepts imports es vm fl : Forall shared_import (truthy_imports imports) -> takes_all [] es [] -> Forall plain_event es ->
  ue_type vm = EVersionMarker -> ue_type fl = EStreamEnd ->
  exists out, managed_write_all imports mwriter_new (vm :: es ++ [fl]) = Ok (mwriter_new, out).
Proof.
  intros SI T P VM FL. cbn [managed_write_all]. unfold managed_write at 1. rewrite VM. cbn [mwriter_new mw_written mw_value mw_sym mw_ivm bind].
  destruct es as [|e es].
  - cbn [app managed_write_all]. unfold managed_write. rewrite FL. cbn [mw_written mw_value mw_sym bind]. eexists. reflexivity.
  - inversion T as [|? ? open1 ? ? T1 T2]; subst. inversion P as [|? ? P1 P2]; subst.
    destruct (sym_start_accepts imports SI) as (s & SS & AS). destruct (sym_start_inv _ _ SS) as (table & I).
    assert (M0 : minv imports (mkmw w_init s true false) []).
    { split; [reflexivity|]. split; [exists []; split; [exact ainv_init|split; [reflexivity|constructor]]|]. split; [exact AS|]. exists [], table. exact I. }
    destruct (value_step _ _ _ _ _ M0 T1 P1) as (m1 & ws & W1 & M1). destruct (values_run _ _ _ _ _ M1 T2 P2) as (m2 & out & R2 & M2).
    cbn [app managed_write_all].
    assert (W0 : managed_write imports (mkmw w_init symw_new false false) e = Ok (m1, ws)).
    { unfold managed_write in *. destruct T1 as [? ? TY|? ? ? TY|? ? ? TY]; rewrite TY in *; cbn [mw_written mw_value mw_sym mw_ivm] in *; rewrite SS; cbn [bind mw_sym mw_value mw_written mw_ivm] in *; exact W1. }
    change (managed_write imports _ e) with (managed_write imports (mkmw w_init symw_new false false) e). rewrite W0. cbn [bind].
    rewrite write_all_app, R2. cbn [bind managed_write_all]. destruct M2 as (WW & (ro & A & MM & HS) & AF & _). destruct ro; [|discriminate].
    unfold managed_write. rewrite FL, WW. destruct (finish_accepts imports _ AF) as [sws ->]. cbn [bind].
    pose proof (step_accepts _ [] stream_end_event A) as S. assert (NS : sids_natural stream_end_event) by (split; [constructor|exact Logic.I]). specialize (S NS).
    destruct (raw_write (mw_value m2) stream_end_event) as [[w3 ws3]|]; [|exfalso; apply (S []); apply ac_flush; reflexivity]. cbn [bind]. eexists. reflexivity.
Qed.
