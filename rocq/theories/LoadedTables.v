(** Every text in the symbol table of a managed reader comes from the catalog, the stream or the system table: a property
    of texts that these have, the table has. *)
From Verif Require Import Base BaseFacts CoreModel BinWriterModel SymbolsModel SymbolsProofs ManagedModel Props_BinLoadErrors.
Local Open Scope Z_scope.
Local Open Scope list_scope.

Section TABLES.
Variable P : text -> Prop.
Definition says (o : option text) : Prop := match o with Some x => P x | None => True end.
Definition speaks (t : token) : Prop := says (tk_text t) /\ match tk_sid t with Some sid => 0 <= sid | None => True end.
Definition table_in (t : symtab) : Prop := Forall speaks (st_syms t) /\ 0 <= st_max t.
Definition catalog_in (c : catalog) : Prop := forall name vs v t, dict_get zlist_eqb c name = Some vs -> dict_get Z.eqb vs v = Some t -> table_in t.
Hypothesis SYS : Forall speaks system_tokens.

Lemma add_in st t : table_in st -> speaks t -> table_in (st_add st t).
Proof. intros (T & M) S. unfold table_in, st_add. cbn [st_syms st_max]. split; [apply Forall_app; auto|exact M]. Qed.
Lemma new_in st x loc : table_in st -> says x -> table_in (st_add (set_max st (st_max st + 1)) (mktok x (Some (st_max st + 1)) loc)).
Proof. intros (T & M) S. apply add_in; [split; [exact T|cbn [set_max st_max]; lia]|]. split; [exact S|cbn [tk_sid]; lia]. Qed.
Lemma fold_in {A} (f : symtab -> A -> symtab) (Q : A -> Prop) : (forall st a, table_in st -> Q a -> table_in (f st a)) -> forall l st, Forall Q l -> table_in st -> table_in (fold_left f l st).
Proof. intros F l. induction l as [|a l IH]; intros st FQ T; cbn [fold_left]; [exact T|]. apply IH; [exact (Forall_inv_tail FQ)|]. apply F; [exact T|exact (Forall_inv FQ)]. Qed.
Lemma table_new ty symbols name version imports sub t : st_new ty symbols name version imports sub = Ok t -> Forall says symbols -> Forall table_in (match imports with Some l => l | None => [] end) -> table_in t.
Proof.
  unfold st_new. intros H SY IM. do 4 (match type of H with (if ?c then _ else _) = _ => destruct c; [discriminate|] end). cbv zeta in H. apply (f_equal (fun r => match r with Ok v => v | Err _ => t end)) in H. cbv beta iota in H. subst t.
  set (st0 := if _ || _ then _ else _). assert (T0 : table_in st0).
  { unfold st0. destruct (_ || _); [|split; [constructor|cbn [st_max]; lia]]. split; [|apply zlen_nonneg]. unfold set_max. cbn [st_syms]. apply (fold_in st_add speaks); [intros; apply add_in; assumption|exact SYS|split; [constructor|cbn [st_max]; lia]]. }
  set (st1 := fold_left _ (match imports with Some l => l | None => [] end) st0). assert (T1 : table_in st1).
  { unfold st1. apply (fold_in _ table_in); [|exact IM|exact T0]. intros st a TA QA. apply (fold_in _ speaks); [|exact (proj1 QA)|exact TA]. intros st' k TS SK. destruct (is_shared ty); [apply new_in; [exact TS|exact (proj1 SK)]|]. destruct (takes_import a k); [apply new_in; [exact TS|exact (proj1 SK)]|exact TS]. }
  destruct (is_system ty); [exact T1|]. apply (fold_in _ says); [|exact SY|exact T1]. intros st x TS SX. cbn [add_text fst]. apply new_in; [exact TS|exact SX].
Qed.
Lemma says_repeat n : Forall says (repeat None n).
Proof. apply Forall_forall. intros x I. apply repeat_spec in I. subst x. exact Logic.I. Qed.
Lemma texts_say l : Forall speaks l -> Forall says (map tk_text l).
Proof. intros F. apply Forall_map. revert F. apply Forall_impl. intros t (A & _). exact A. Qed.
Lemma take_forall {A} (Q : A -> Prop) n l : Forall Q l -> Forall Q (ztake n l).
Proof. intros F. unfold ztake. apply Forall_forall. intros x I. rewrite Forall_forall in F. apply F. rewrite <- (firstn_skipn (Z.to_nat n) l). apply in_or_app. auto. Qed.
Lemma resolve_in cat name version max t : catalog_in cat -> resolve cat name version max = Ok t -> table_in t.
Proof.
  intros C. unfold resolve. destruct (version <=? 0); [discriminate|]. destruct (match max with Some m => m <? 0 | None => false end); [discriminate|]. destruct (dict_get zlist_eqb cat name) as [vs|] eqn:G.
  - cbv zeta.
    assert (TT : forall tb, match dict_get Z.eqb vs version with Some t => Some t | None => last_version vs end = Some tb -> table_in tb).
    { intros tb H. destruct (dict_get Z.eqb vs version) as [x|] eqn:V; [injection H as <-; exact (C _ _ _ _ G V)|]. unfold last_version in H. destruct vs as [|p vs]; [discriminate|]. exact (C _ _ _ _ G H). }
    destruct (match dict_get Z.eqb vs version with Some t => Some t | None => last_version vs end) as [tb|]; [|discriminate]. specialize (TT tb eq_refl).
    destruct (_ && _); [intros H; injection H as <-; exact TT|]. destruct max as [mx|]; [|discriminate]. unfold substitute_symbol_table. cbv zeta. do 3 (match goal with |- (if ?c then _ else _) = _ -> _ => destruct c; [discriminate|] end). intros H. apply (table_new _ _ _ _ _ _ _ H); [|constructor].
    destruct (mx <=? st_max tb); [rewrite <- (firstn_skipn 0 (ztake mx (st_syms tb))); cbn [firstn skipn app]; apply texts_say, take_forall; exact (proj1 TT)|]. apply Forall_app. split; [apply texts_say; exact (proj1 TT)|apply says_repeat].
  - destruct max as [mx|]; [|discriminate]. unfold placeholder_symbol_table. do 2 (match goal with |- (if ?c then _ else _) = _ -> _ => destruct c; [discriminate|] end). intros H. apply (table_new _ _ _ _ _ _ _ H); [apply says_repeat|constructor].
Qed.
(** What a program registers. *)
Lemma registered_in h : forall c c', register_all c h = Ok c' -> Forall table_in h -> catalog_in c -> catalog_in c'.
Proof.
  induction h as [|t h IH]; intros c c'; cbn [register_all]; [intros H; injection H as <-; auto|]. destruct (register c t) as [c1|] eqn:R; [|discriminate]. cbn [bind]. intros H F C. apply (IH _ _ H (Forall_inv_tail F)). clear IH H. unfold register in R. destruct (is_system _); [discriminate|]. destruct (negb _); [discriminate|]. destruct (st_sub t); [discriminate|]. injection R as <-. cbv zeta.
  intros name vs v tb. set (nm := match st_name t with Some n => n | None => [] end). set (vr := match st_version t with Some v => v | None => 0 end). destruct (zlist_eqb name nm) eqn:E.
  - apply zlist_eqb_eq in E. subst name. rewrite (dict_get_set_same zlist_eqb zlist_eqb_eq). intros H. injection H as <-. destruct (Z.eq_dec v vr) as [->|NE].
    + rewrite (dict_get_set_same Z.eqb Z.eqb_eq). intros H. injection H as <-. exact (Forall_inv F).
    + rewrite (dict_get_set_other Z.eqb Z.eqb_eq) by exact NE. intros H. destruct (dict_get zlist_eqb c nm) as [d|] eqn:G; [exact (C _ _ _ _ G H)|discriminate].
  - rewrite (dict_get_set_other zlist_eqb zlist_eqb_eq); [apply C|]. intros ->. rewrite (proj2 (zlist_eqb_eq nm nm) eq_refl) in E. discriminate.
Qed.

(** Tokens resolved under the table. *)
Lemma resolved_in table t r : table_in table -> speaks t -> resolve_token table t = Ok r -> speaks r.
Proof.
  intros T S. unfold resolve_token. destruct (tk_text t) as [x|] eqn:X; [intros H; injection H as <-; exact S|]. destruct (tk_sid t) as [sid|]; [|discriminate]. unfold get_sid. destruct (sid =? 0); [intros H; injection H as <-; split; [exact Logic.I|cbn; lia]|]. destruct (_ || _); [discriminate|]. destruct (nth_error (st_syms table) _) as [k|] eqn:N; [|discriminate]. intros H. injection H as <-. destruct T as (T & _). rewrite Forall_forall in T. apply T. exact (nth_error_In _ _ N).
Qed.

(** ** The managed reader *)
(** What is asked of a raw event: the texts in it. *)
Definition texts_in (e : event) : Prop :=
  Forall speaks (ev_annot e) /\ match ev_field e with Some f => speaks f | None => True end /\
  match ev_force (ev_value e) with Ok (Some (VSymbol k)) => speaks k | Ok (Some (VString x)) => ev_ion_type e = Some TString -> P x | _ => True end.
Definition proc_in (p : lproc) : Prop := Forall says (lp_symbols p) /\ Forall table_in (match lp_imports p with Some l => l | None => [] end).
Definition state_in (m : mstate) : Prop := table_in (ms_table m) /\ match ms_proc m with Some p => proc_in p | None => True end.
Lemma string_in e s : texts_in e -> ev_ion_type e = Some TString -> string_value e = Ok s -> says s.
Proof.
  intros (_ & _ & V) T. unfold string_value. destruct (ev_force (ev_value e)) as [[[]|]|]; cbn [bind]; try discriminate; intros H; injection H as <-; [|exact Logic.I]. exact (V T).
Qed.
Lemma import_in cat d l : catalog_in cat -> import_table cat d = Ok l -> Forall table_in l.
Proof.
  intros C. unfold import_table. destruct (desc_name d); [|intros H; injection H as <-; constructor]. destruct (desc_version d); [|discriminate]. destruct (resolve cat _ _ _) as [tb|] eqn:R; [|discriminate]. intros H. injection H as <-. constructor; [exact (resolve_in _ _ _ _ _ C R)|constructor].
Qed.
Lemma lp_in cat table p e r : catalog_in cat -> table_in table -> proc_in p -> texts_in e -> lp_step cat table p e = Ok r ->
  match r with LGo _ p' => proc_in p' | LDone t => table_in t end.
Proof.
  intros C T (SY & IM) TE. unfold lp_step. cbv zeta. intros H. destruct (lp_skip p); [injection H as <-; split; assumption|].
  assert (GO : forall m b, proc_in (mklp m b (lp_symbols p) (lp_imports p))) by (intros; split; assumption).
  destruct (lp_mode p) as [| | |dd].
  - destruct (ev_type e);
    repeat match goal with
    | H : Ok (LGo _ (mklp _ _ (lp_symbols p) (lp_imports p))) = Ok r |- _ => injection H as <-; exact (GO _ _)
    | H : Err _ = Ok _ |- _ => discriminate
    | H : Ok (LGo _ (mklp _ _ _ (Some []))) = Ok r |- _ => injection H as <-; (split; [exact SY|constructor])
    | H : Ok (LGo _ (mklp _ _ _ (if ?c then None else Some [table]))) = Ok r |- _ => injection H as <-; (split; [exact SY|destruct c; cbn [lp_imports]; [constructor|constructor; [exact T|constructor]]])
    | H : (let* _ := st_new _ _ _ _ _ _ in _) = Ok _ |- _ => apply bind_ok in H; destruct H as (? & N & H); injection H as <-; exact (table_new _ _ _ _ _ _ _ N SY IM)
    | H : (let* _ := ?x in _) = Ok _ |- _ => destruct x; cbn [bind] in H
    | H : match ?x with _ => _ end = Ok _ |- _ => destruct x
    end.
  - destruct (ev_type e) eqn:ET; try (injection H as <-; exact (GO _ _));
      (destruct (ev_ion_type e) as [[]|] eqn:I; try (injection H as <-; exact (GO _ _)); destruct (string_value e) as [s|] eqn:SV; [|discriminate]; injection H as <-; split; [|exact IM]; cbn [lp_symbols]; apply Forall_app; split; [exact SY|constructor; [exact (string_in _ _ TE I SV)|constructor]]).
  - destruct (ev_type e); repeat match goal with
    | H : Ok (LGo _ (mklp _ _ (lp_symbols p) (lp_imports p))) = Ok r |- _ => injection H as <-; exact (GO _ _)
    | H : match ?x with _ => _ end = Ok _ |- _ => destruct x
    end.
  - destruct (ev_type e); try (injection H as <-; exact (GO _ _)); try (destruct (desc_field table dd e); [|discriminate]; injection H as <-; exact (GO _ _)).
    destruct (import_table cat dd) as [l|] eqn:IT; [|discriminate]. injection H as <-. split; [exact SY|]. cbn [lp_imports]. apply Forall_app. split; [exact IM|exact (import_in _ _ _ C IT)].
Qed.
Hypothesis SYT : table_in system_table.
Lemma mr_in cat m e m' od : catalog_in cat -> state_in m -> texts_in e -> mr_step cat m e = Ok (m', od) -> state_in m'.
Proof.
  intros C (T & PI) TE. unfold mr_step. destruct (ms_proc m) as [p|] eqn:MP.
  - destruct (is_stream_signal _); [intros H; injection H as <- <-; split; [exact T|rewrite MP; exact PI]|]. destruct (lp_step cat (ms_table m) p e) as [r|] eqn:L; [|discriminate]. cbn [bind]. pose proof (lp_in _ _ _ _ _ C T PI TE L) as R. destruct r; intros H; injection H as <- <-; split; cbn [ms_table ms_proc]; auto.
  - intros H. assert (M0 : state_in m) by (split; [exact T|rewrite MP; exact Logic.I]).
    assert (M1 : state_in (mkms (ms_table m) (Some lproc_new))) by (split; [exact T|split; constructor]).
    assert (M2 : state_in (mkms system_table None)) by (split; [exact SYT|exact Logic.I]).
    repeat match goal with
    | H : Ok (m, _) = Ok (m', od) |- _ => injection H as <- _; exact M0
    | H : Ok (mkms system_table None, _) = Ok (m', od) |- _ => injection H as <- _; exact M2
    | H : Ok (mkms _ (Some lproc_new), _) = Ok (m', od) |- _ => injection H as <- _; exact M1
    | H : Err _ = Ok _ |- _ => discriminate
    | H : (let* _ := ?x in _) = Ok _ |- _ => destruct x; cbn [bind] in H
    | H : match ?x with _ => _ end = Ok _ |- _ => destruct x
    end.
Qed.
End TABLES.
