(** The text reader on symbols: values, annotations and field names, with and without quotes. *)
From Coq Require Import String.
From Verif Require Import Base BaseFacts CoreModel ScalarFacts BinReaderModel SymbolsModel TextNumbers TextNumbersFacts TextWriterModel TextReaderModel TextReaderFacts TextWalk TextTokens TextNumberTokens TextKeywords TextQuoted.
Local Open Scope Z_scope.

(** * A symbol that may turn out to be an annotation or a field name *)
Definition pend (f : option token) (an : list token) (sv : symv) (k : tctx) : Prop :=
  exists qt ln sf, k = mkk f an false [] None (Some sv) qt ln sf false.
(** About to read a character that is there. *)
Definition Ready (p : place) (child : option tctx) (dlm : bool) (s : tcore) : Prop :=
  exists cm fl, s = core p child dlm cm fl (PTop None) \/ s = core p child dlm cm fl (PRead KTop cm fl).
Lemma ready_ws uni p child dlm s ws z q : Ready p child dlm s -> Forall (fun c => is_ws c = true) ws ->
  goes uni s (map plain ws ++ plain z :: q) [] (At p child dlm (plain z)) q.
Proof.
  intros (cm & fl & HS) W.
  assert (R : goes uni (core p child dlm cm fl (PRead KTop cm fl)) (map plain ws ++ plain z :: q) [] (At p child dlm (plain z)) q).
  { clear HS. induction W as [|w ws Hw W IH]; cbn [map app].
    - eapply (goes_move _ _ _ None); [eapply m_read0; reflexivity|]. exists cm, fl. reflexivity.
    - eapply goes_via; [eapply m_read0; reflexivity|]. eapply goes_via; [|exact IH]. eapply m_top; [reflexivity|]. apply top_ws. exact Hw. }
  destruct HS as [->| ->]; [|exact R]. eapply goes_via; [|exact R]. eapply m_top; reflexivity.
Qed.

Lemma symbol_event_of v k f an sv : k_field k = f -> k_annot k = an -> symbol_event v k sv = symbol_event v (kid f an) sv.
Proof. intros <- <-. destruct sv; reflexivity. Qed.

(** It is a value. *)
Lemma pend_value uni p k f an sv stop q ev s : p_field p = false -> (p_type p = Some TStruct -> f <> None) -> pend f an sv k ->
  is_ws (cz stop) = false -> cz stop <> 47 -> cz stop <> 58 -> stop_ok p stop q -> symbol_event (penv uni p) (kid f an) sv = Ok ev ->
  At p (Some k) false stop s -> goes uni s q [ev] (At p None (is_delimited (p_type p)) stop) q.
Proof.
  intros PF PS (qt & ln & sf & ->) W N1 N2 ST EV (cm & fl & ->). set (k := mkk f an false [] None (Some sv) qt ln sf false).
  assert (EV' : symbol_event (penv uni p) k sv = Ok ev) by (rewrite <- EV; apply symbol_event_of; reflexivity).
  assert (T : exists cm' fl', top uni (core p (Some k) false cm fl (PTop (Some stop))) (Some stop) = Ok (core p None (is_delimited (p_type p)) cm' fl' (PTop (Some stop)), Some ev)).
  { unfold top. cbn [core t_type t_child t_field t_delim].
    change (env_of uni _) with (penv uni p).
    assert (PV : pending_value (penv uni p) (core p (Some k) false cm fl (PTop (Some stop))) = Ok (Some ev)).
    { unfold pending_value. cbn [core t_child k k_pend k_val t_type k_field]. fold k. rewrite EV'. cbn [bind]. destruct (p_type p) as [[]|]; try reflexivity. destruct f; [reflexivity|]. exfalso. now apply PS. }
    unfold core in PV |- *. rewrite PV. cbn [bind t_type].
    destruct (is_end (p_type p) stop || is_delim (p_type p) stop || is_eof stop) eqn:E.
    - exists cm, fl. reflexivity.
    - rewrite W. replace (cz stop =? 47) with false by lia. cbn [with_flags t_delim t_child pending k k_pend]. replace (cz stop =? 58) with false by lia.
      cbn [t_field core]. rewrite PF. fold k. rewrite EV'. cbn [bind]. exists cm, false. unfold after_symbol, with_pc, with_delim, with_child. cbn [t_type t_stack t_field t_complete t_flush]. try rewrite PF. reflexivity. }
  destruct T as (cm' & fl' & T). eapply (goes_move _ _ _ (Some ev)); [eapply m_top; [reflexivity|exact T]|]. exists cm', fl'. reflexivity.
Qed.
(** It is an annotation. *)
Lemma pend_annotation uni p k f an sv q s : p_field p = false -> pend f an sv k -> At p (Some k) false (plain 58) s ->
  goes uni s (plain 58 :: q) [] (Ready p (Some (kid f (an ++ [as_token sv]))) false) q.
Proof.
  intros PF (qt & ln & sf & ->) (cm & fl & ->). set (k := mkk f an false [] None (Some sv) qt ln sf false).
  assert (T : top uni (core p (Some k) false cm fl (PTop (Some (plain 58)))) (Some (plain 58)) = Ok (core p (Some k) false cm false (PRead KColon false false), None)).
  { unfold top. cbn [core t_type t_child t_field t_delim cz plain].
    replace (is_end (p_type p) (plain 58) || is_delim (p_type p) (plain 58) || is_eof (plain 58)) with false by (destruct (p_type p) as [[]|]; reflexivity).
    destruct p as [pt pst pf]. cbn in PF. subst pf. reflexivity. }
  eapply goes_via; [eapply m_top; [reflexivity|exact T]|].
  eapply (goes_move _ _ _ None); [eapply m_read0; reflexivity|]. exists cm, false. left. reflexivity.
Qed.
(** It is a field name. *)
Definition value_place (p : place) : place := mkp (p_type p) (p_stack p) false.
Lemma pend_field uni p k f an sv q s : p_field p = true -> pend f an sv k -> At p (Some k) false (plain 58) s ->
  goes uni s q [] (Ready (value_place p) (Some (kid (Some (as_token sv)) an)) false) q.
Proof.
  intros PF (qt & ln & sf & ->) (cm & fl & ->). set (k := mkk f an false [] None (Some sv) qt ln sf false).
  assert (T : top uni (core p (Some k) false cm fl (PTop (Some (plain 58)))) (Some (plain 58)) = Ok (core (value_place p) (Some (kid (Some (as_token sv)) an)) false cm false (PTop None), None)).
  { unfold top. cbn [core t_type t_child t_field t_delim cz plain].
    replace (is_end (p_type p) (plain 58) || is_delim (p_type p) (plain 58) || is_eof (plain 58)) with false by (destruct (p_type p) as [[]|]; reflexivity).
    destruct p as [pt pst pf]. cbn in PF. subst pf. reflexivity. }
  eapply (goes_move _ _ _ None); [eapply m_top; [reflexivity|exact T]|]. exists cm, false. left. reflexivity.
Qed.

Lemma not_symbol_end z : is_ws z = false -> z <> 47 -> z <> 58 -> mem z c_symbol_end = false.
Proof. unfold is_ws, mem, c_ws, c_symbol_end. cbn [existsb]. lia. Qed.
Lemma ws_symbol_end z : is_ws z = true -> mem z c_symbol_end = true.
Proof. unfold is_ws, mem, c_ws, c_symbol_end. cbn [existsb]. lia. Qed.

(** * Reading a symbol *)

(** The text of a symbol is read as the token; [ivm]: it looks like a version marker, and is read as
    one where it stands alone outside all containers. *)
Definition alone (p : place) (an : list token) : Prop := p_stack p = [] /\ an = [].
Definition sym_reads (w : list Z) (tok : token) (ivm : Prop) : Prop :=
  exists c0 rest, w = c0 :: rest /\ starts c0 = true /\
  forall uni p child f an s, place_ok p -> At p child false (plain c0) s -> child_of child f an ->
    (forall q, goes uni s (map plain rest ++ plain 58 :: q) [] (fun s' => exists k sv, pend f an sv k /\ as_token sv = tok /\ At p (Some k) false (plain 58) s') q) /\
    (p_field p = false -> (p_type p = Some TStruct -> f <> None) -> (ivm -> ~ alone p an) -> forall ws stop q, follows p ws stop q -> (ws = [] -> cz stop <> 39) ->
       goes uni s (map plain rest ++ map plain ws ++ stop :: q) [scalar_event p f an TSymbol (EvVal (VSymbol tok))] (At p None (is_delimited (p_type p)) stop) q).

(** ** How tokens without quotes end *)
Definition symk (f : option token) (an : list token) (w : list Z) : tctx := mkk f an true w (Some TSymbol) None false false false false.
Definition fin_a (v : tenv) (h : hs) (k : tctx) (sv : symv) : Prop :=
  (forall c, mem (cz c) c_symbol_end = true -> send v h c k = back (set_pending sv k)) /\
  (forall c, ends c = true \/ in_sexp v && is_op (cz c) = true -> mem (cz c) c_symbol_end = false -> send v h c k = (let* ev := symbol_event v k sv in emits k ev)).
Definition fin_b (v : tenv) (h : hs) (k : tctx) (sv : symv) (isf : bool) : Prop :=
  exists hw : Z -> hs,
    (forall w, is_ws w = true -> send v h (plain w) k = go k (hw w)) /\
    (forall x w, is_ws w = true -> send v (hw x) (plain w) k = go k (hw w)) /\
    (forall c, is_ws (cz c) = false -> ends c = true \/ cz c = 58 \/ in_sexp v && is_op (cz c) = true -> send v h c k = symbol_end v c k isf sv) /\
    (forall x c, is_ws x = true -> is_ws (cz c) = false -> send v (hw x) c k = symbol_end v c k isf sv).

(** The token ends without an event. *)
Lemma tok_pend uni p k h s c q f an sv kp : p_field p = false -> Tok p k h s -> send (penv uni p) h c k = back kp -> set_type None kp = mkk f an false [] None (Some sv) (k_quoted kp) false false false -> stop_ok p c q ->
  goes uni s (c :: q) [] (fun s' => exists k fl, pend f an sv k /\ s' = core p (Some k) false false fl (PTop (Some c)) /\ (p_stack p = [] -> fl = true)) q.
Proof.
  intros PF (cm & fl & -> & HF) SE ST SO.
  assert (T : take uni (core p (Some k) false cm fl (PRead (KTok h) false fl)) (KTok h) c = Ok (core p (Some (set_type None kp)) false false (match p_stack p with [] => true | _ => false end) (PTop (Some c)), None, [])).
  { unfold take. cbn [core t_child]. change (env_of uni _) with (penv uni p). rewrite SE. cbn [back bind handled]. unfold after_back.
    rewrite ST. cbn [with_flags with_child t_field core k_pend k_self negb orb]. rewrite PF. unfold core, with_pc, with_flags, with_child, at_top. cbn [t_type t_stack t_field t_delim t_complete t_flush t_child]. rewrite PF. destruct (p_stack p); reflexivity. }
  assert (G : exists k0 fl0, pend f an sv k0 /\ core p (Some (set_type None kp)) false false (match p_stack p with [] => true | _ => false end) (PTop (Some c)) = core p (Some k0) false false fl0 (PTop (Some c)) /\ (p_stack p = [] -> fl0 = true)).
  { exists (set_type None kp), (match p_stack p with [] => true | _ => false end). split; [exists (k_quoted kp), false, false; exact ST|]. split; [reflexivity|]. intros ->. reflexivity. }
  destruct c as [z e g|].
  - destruct SO as [-> ->]. eapply (goes_move _ _ _ None); [eapply m_read0; [reflexivity|exact T]|exact G].
  - destruct SO as [SP ->]. rewrite (HF SP) in *. eapply (goes_move _ _ _ None); [eapply m_flush; [reflexivity|exact T]|exact G].
Qed.
(** The same before a colon, also for field names. *)
Lemma tok_colon uni p k h s q f an sv kp : Tok p k h s -> send (penv uni p) h (plain 58) k = back kp -> set_type None kp = mkk f an false [] None (Some sv) (k_quoted kp) false false false ->
  goes uni s (plain 58 :: q) [] (fun s' => exists k, pend f an sv k /\ At p (Some k) false (plain 58) s') q.
Proof.
  intros (cm & fl & -> & HF) SE ST.
  assert (T : exists fl', take uni (core p (Some k) false cm fl (PRead (KTok h) false fl)) (KTok h) (plain 58) = Ok (core p (Some (set_type None kp)) false false fl' (PTop (Some (plain 58))), None, [])).
  { unfold take. cbn [core t_child]. change (env_of uni _) with (penv uni p). rewrite SE. cbn [back bind handled]. unfold after_back.
    rewrite ST. cbn [with_flags with_child t_field core k_pend k_self negb orb].
    unfold core, with_pc, with_flags, with_child, at_top. cbn [t_type t_stack t_field t_delim t_complete t_flush t_child cz plain]. change (58 =? 58) with true. cbn [orb].
    destruct (p_field p); eexists; reflexivity. }
  destruct T as (fl' & T). eapply (goes_move _ _ _ None); [eapply m_read0; [reflexivity|exact T]|].
  exists (set_type None kp). split; [exists (k_quoted kp), false, false; exact ST|]. exists false, fl'. reflexivity.
Qed.

Lemma symbol_end_back v c k isf sv : k_quoted k = false -> isf = true \/ mem (cz c) c_symbol_end = true -> symbol_end v c k isf sv = back (set_quoted false (set_pending sv (set_self false k))).
Proof. intros Q H. unfold symbol_end. rewrite Q. replace (isf || mem (cz c) c_symbol_end || false) with true; [reflexivity|]. destruct H as [->| ->]; [reflexivity|]. now rewrite orb_true_r. Qed.

(** A symbol without quotes. *)
Definition unq_token (w : list Z) (tok : token) (ivm : Prop) : Prop :=
  forall uni p f an, exists c0 rest h0 k0 h1 sv,
    w = c0 :: rest /\ starts c0 = true /\ (c0 =? 91) || (c0 =? 40) = false /\ (c0 =? 34) || (c0 =? 39) = false /\
    (if p_field p then start_field (penv uni p) c0 (kid f an) else start_value (penv uni p) c0 (kid f an)) = Ok (TGo h0, k0, []) /\ k_quoted k0 = false /\
    hrun (penv uni p) h0 k0 rest h1 (symk f an w) /\ as_token sv = tok /\
    match sv with SIvm _ => ivm /\ zlen (p_stack p) = 0 /\ an = [] | _ => True end /\
    (fin_a (penv uni p) h1 (symk f an w) sv \/ fin_b (penv uni p) h1 (symk f an w) sv (p_field p)).

Lemma event_of uni p f an sv tok : match sv with SIvm _ => False | _ => True end -> as_token sv = tok ->
  symbol_event (penv uni p) (kid f an) sv = Ok (scalar_event p f an TSymbol (EvVal (VSymbol tok))).
Proof. intros N <-. destruct sv; [reflexivity|reflexivity|destruct N]. Qed.

Lemma unq_value uni p f an w h1 sv ev s1 ws stop q : place_ok p -> p_field p = false -> (p_type p = Some TStruct -> f <> None) -> Tok p (symk f an w) h1 s1 ->
  fin_a (penv uni p) h1 (symk f an w) sv \/ fin_b (penv uni p) h1 (symk f an w) sv (p_field p) -> follows p ws stop q ->
  symbol_event (penv uni p) (kid f an) sv = Ok ev -> is_container_start ev = false ->
  goes uni s1 (map plain ws ++ stop :: q) [ev] (At p None (is_delimited (p_type p)) stop) q.
Proof.
  intros PO PF PS T1 FIN FL EV NCS.
    assert (EVK : symbol_event (penv uni p) (symk f an w) sv = Ok ev) by (rewrite <- EV; apply symbol_event_of; reflexivity).
    pose proof FL as (W & NW & N1 & N2 & ST & EN).
    assert (NSE : mem (cz stop) c_symbol_end = false) by (apply not_symbol_end; assumption).
    destruct FIN as [(FA & FE)|(hw & FW & FWW & FC & FWC)].
    + destruct ws as [|w0 ws]; cbn [map app].
      * eapply tok_emits; [exact T1| | | | |exact ST]; [rewrite (FE stop (or_introl EN) NSE), EVK; reflexivity|reflexivity|reflexivity|exact NCS].
      * pose proof (Forall_inv W) as Hw. pose proof (Forall_inv_tail W) as W'. cbn beta in Hw. eapply goes_quiet.
        { eapply (tok_pend uni p _ h1 s1 (plain w0) _ f an sv (set_pending sv (symk f an w))); [exact PF|exact T1| |reflexivity|split; reflexivity].
          apply FA. apply ws_symbol_end. exact Hw. }
        intros s2 (k & fl & PK & -> & HFL).
        eapply goes_quiet.
        { eapply (idle_ws uni p (Some k) false _ ws stop q PO); [|exact W'|exact ST]. exists false, fl. split; [intros SP; right; auto|]. right. right. exists w0. split; [exact Hw|reflexivity]. }
        intros s3 A3. eapply pend_value; eassumption.
    + destruct ws as [|w0 ws]; cbn [map app].
      * eapply tok_emits; [exact T1| | | | |exact ST]; [rewrite (FC stop NW (or_introl EN)); unfold symbol_end; rewrite PF, NSE; cbn [orb symk k_quoted]; fold (symk f an w); rewrite EVK; reflexivity|reflexivity|reflexivity|exact NCS].
      * pose proof (Forall_inv W) as Hw. pose proof (Forall_inv_tail W) as W'. cbn beta in Hw. eapply goes_quiet.
        { eapply (tok_go uni p _ h1 s1 w0 _ (hw w0) (symk f an w)); [exact PO|exact T1|apply FW; exact Hw|reflexivity|reflexivity]. }
        intros s2 T2. clear T1 s1 EN FL W. revert w0 Hw s2 T2. induction W' as [|w1 ws Hw1 W' IH]; intros w0 Hw s2 T2; cbn [map app].
        -- eapply tok_emits; [exact T2| | | | |exact ST]; [rewrite (FWC w0 stop Hw NW); unfold symbol_end; rewrite PF, NSE; cbn [orb symk k_quoted]; fold (symk f an w); rewrite EVK; reflexivity|reflexivity|reflexivity|exact NCS].
        -- eapply goes_quiet.
           { eapply (tok_go uni p _ (hw w0) s2 w1 _ (hw w1) (symk f an w)); [exact PO|exact T2|apply FWW; exact Hw1|reflexivity|reflexivity]. }
           intros s3 T3. apply (IH w1 Hw1 s3 T3).
Qed.
Lemma unq_reads w tok ivm : unq_token w tok ivm -> sym_reads w tok ivm.
Proof.
  intros H. destruct (H false (mkp None [] false) None []) as (c0 & rest & _ & _ & _ & _ & E & S1 & _).
  exists c0, rest. split; [exact E|]. split; [exact S1|]. intros uni p child f an s PO HA HC.
  destruct (H uni p f an) as (c1 & rest1 & h0 & k0 & h1 & sv & E1 & S & B & Q & SV & KQ & R & AT & IV & FIN).
  rewrite E in E1. injection E1 as <- <-.
  assert (RUN : forall q, goes uni s (map plain rest ++ q) [] (Tok p (symk f an w) h1) q).
  { intros q. eapply goes_quiet; [eapply (begin_tok uni p child f an c0 s _ h0 k0); eauto|]. intros s1 T1. eapply hrun_goes; eassumption. }
  split.
  - intros q. eapply goes_quiet; [apply RUN|]. intros s1 T1. eapply goes_weaken with (P := fun s' => exists k, pend f an sv k /\ At p (Some k) false (plain 58) s'); [|intros s' (k & PK & A); exists k, sv; auto].
    destruct FIN as [(FA & _)|(hw & _ & _ & FC & _)].
    + eapply tok_colon; [exact T1|exact (FA (plain 58) eq_refl)|reflexivity].
    + eapply tok_colon; [exact T1|rewrite (FC (plain 58) eq_refl (or_intror (or_introl eq_refl))); apply symbol_end_back; [reflexivity|right; reflexivity]|reflexivity].
  - intros PF PS NI ws stop q FL _. eapply goes_quiet; [apply RUN|]. intros s1 T1. clear RUN.
    assert (NV : match sv with SIvm _ => False | _ => True end).
    { destruct sv as [| |x]; [exact Logic.I|exact Logic.I|]. destruct IV as (I1 & I2 & I3). apply (NI I1). split; [|exact I3]. destruct (p_stack p); [reflexivity|unfold zlen in I2; cbn in I2; lia]. }
    pose proof (event_of uni p f an sv tok NV AT) as EV.
    eapply (unq_value uni p f an w h1 sv); eauto.
Qed.

(** ** Identifiers *)
Lemma hunq_run v f an isf ds : Forall (fun c => ident_char c = true) ds -> forall prev l, is_ws prev = false ->
  exists prev', hrun v (HUnq prev isf) (symk f an l) ds (HUnq prev' isf) (symk f an (l ++ ds)) /\ is_ws prev' = false.
Proof.
  induction 1 as [|d ds Hd F IH]; intros prev l HP.
  - exists prev. rewrite app_nil_r. split; [constructor|exact HP].
  - assert (D : is_ws d = false /\ ends (plain d) = false /\ (d =? 58) = false /\ is_op d = false).
    { revert Hd. clear. unfold ident_char, ident_start, is_letter, is_digit, is_ws, is_op, ends, mem, c_ws, c_operators, c_terminators. cbn [existsb cz plain is_eof]. intros Hd. repeat split; lia. }
    destruct D as (D1 & D2 & D3 & D4). destruct (IH d (l ++ [d]) D1) as (prev' & R & N). exists prev'. split; [|exact N].
    eapply h_cons with (h1 := HUnq d isf) (k1 := symk f an (l ++ [d])); [|reflexivity|reflexivity|].
    + unfold send, send_unquoted, breaks. cbn [cz plain]. fold (plain d). rewrite D1, HP, D2, D3, D4, andb_false_r, Hd. reflexivity.
    + replace (l ++ d :: ds) with ((l ++ [d]) ++ ds) by (rewrite <- app_assoc; reflexivity). exact R.
Qed.
Lemma hunq_fin v f an isf prev l : is_ws prev = false -> fin_b v (HUnq prev isf) (symk f an l) (SCodes l) isf.
Proof.
  intros HP. exists (fun z => HUnq z isf). split; [|split; [|split]].
  - intros w W. unfold send, send_unquoted. cbn [cz plain]. rewrite W. reflexivity.
  - intros x w W. unfold send, send_unquoted. cbn [cz plain]. rewrite W. reflexivity.
  - intros c W E. unfold send, send_unquoted, breaks. rewrite W. replace (is_ws prev || ends c || (cz c =? 58) || (in_sexp v && is_op (cz c))) with true; [reflexivity|].
    rewrite HP. destruct E as [->|[->| ->]]; [reflexivity| |]; rewrite ?orb_true_r; reflexivity.
  - intros x c WX W. unfold send, send_unquoted, breaks. rewrite W, WX. reflexivity.
Qed.
Lemma go_unquoted_char v f an l d isf : ident_char d = true -> go_unquoted v (plain d) (symk f an l) isf = Ok (TGo (HUnq d isf), symk f an (l ++ [d]), []).
Proof. intros H. unfold go_unquoted, start_unquoted. cbn [set_unicode symk k_codes k_quoted Bool.eqb bind cz plain]. rewrite H. reflexivity. Qed.

(** The states in which a keyword may still come. *)
Definition kw_of (w : list Z) (isf : bool) : option hs :=
  if zlist_eqb w [110] then Some (HKw true true false false 0 isf)
  else if zlist_eqb w [110; 117] then Some (HKw true false false false 1 isf)
  else if zlist_eqb w [110; 117; 108] then Some (HKw true false false false 2 isf)
  else if zlist_eqb w [110; 117; 108; 108] then Some (HKw true false false false 3 isf)
  else if zlist_eqb w [110; 97] then Some (HKw false true false false 1 isf)
  else if zlist_eqb w [110; 97; 110] then Some (HKw false true false false 2 isf)
  else if zlist_eqb w [116] then Some (HKw false false true false 0 isf)
  else if zlist_eqb w [116; 114] then Some (HKw false false true false 1 isf)
  else if zlist_eqb w [116; 114; 117] then Some (HKw false false true false 2 isf)
  else if zlist_eqb w [116; 114; 117; 101] then Some (HKw false false true false 3 isf)
  else if zlist_eqb w [102] then Some (HKw false false false true 0 isf)
  else if zlist_eqb w [102; 97] then Some (HKw false false false true 1 isf)
  else if zlist_eqb w [102; 97; 108] then Some (HKw false false false true 2 isf)
  else if zlist_eqb w [102; 97; 108; 115] then Some (HKw false false false true 3 isf)
  else if zlist_eqb w [102; 97; 108; 115; 101] then Some (HKw false false false true 4 isf)
  else match w with [c] => if ident_start c then Some (HKw false false false false 0 isf) else None | _ => None end.
Ltac kw_cases H :=
  unfold kw_of in H;
  repeat match type of H with (if zlist_eqb ?w ?l then _ else _) = _ => let E := fresh "E" in destruct (zlist_eqb w l) eqn:E; [apply zlist_eqb_eq in E; subst; injection H as <-|] end.
Lemma kw_step v f an isf w h d : kw_of w isf = Some h -> ident_char d = true ->
  (exists h', kw_of (w ++ [d]) isf = Some h' /\ send v h (plain d) (symk f an w) = Ok (TGo h', symk f an (w ++ [d]), [])) \/
  send v h (plain d) (symk f an w) = Ok (TGo (HUnq d isf), symk f an (w ++ [d]), []).
Proof.
  intros H Hd.
  assert (D : mem d c_symbol_end = false /\ ends (plain d) = false /\ (d =? 58) = false /\ is_op d = false /\ (d =? 46) = false).
  { revert Hd. clear. unfold ident_char, ident_start, is_letter, is_digit, is_op, ends, mem, c_symbol_end, c_operators, c_terminators. cbn [existsb cz plain is_eof]. intros Hd. repeat split; lia. }
  destruct D as (D1 & D2 & D3 & D4 & D5).
  kw_cases H.
  16: { destruct w as [|c [|? ?]]; [discriminate| |discriminate]. destruct (ident_start c); [|discriminate]. injection H as <-. right. cbn [send send_kw bind]. cbn [orb cz plain]. fold (plain d). rewrite D1, D2, D4, andb_false_r. cbn [orb]. now apply go_unquoted_char. }
  all: unfold send, send_kw, check_keyword; cbn [length t_ull t_an t_rue t_alse Nat.ltb Nat.leb nth cz plain andb]; fold (plain d);
    rewrite ?D2, ?D3, ?D4, ?D5, ?andb_false_r; cbn [bind];
    repeat match goal with |- context [?x =? ?n] => is_var x; let E := fresh "E" in destruct (x =? n) eqn:E; [assert (x = n) by lia; subst x|] end;
    cbn [orb]; rewrite ?D1, ?D2, ?D4, ?andb_false_r; cbn [orb];
    first [left; eexists; split; [reflexivity|reflexivity]|right; now apply go_unquoted_char|discriminate|idtac].
Qed.
Lemma kw_fin v f an isf w h : kw_of w isf = Some h -> symbol_needs_quotes w = false -> fin_a v h (symk f an w) (SCodes w).
Proof.
  intros H N. kw_cases H; try discriminate N.
  12: { destruct w as [|c [|? ?]]; [discriminate| |discriminate]. destruct (ident_start c); [|discriminate]. injection H as <-. split.
    - intros c0 M. cbn [send send_kw bind orb]. rewrite M. reflexivity.
    - intros c0 EN M. cbn [send send_kw bind orb]. rewrite M. replace (ends c0 || in_sexp v && is_op (cz c0)) with true by (destruct EN as [->| ->]; [reflexivity|now rewrite orb_true_r]). reflexivity. }
  all: split; [intros c M|intros c EN M].
  all: assert (NI : is_letter (cz c) = false) by (first [revert M; clear; unfold is_letter, mem, c_symbol_end; cbn [existsb]; lia | destruct EN as [EN|EN]; [|apply andb_true_iff in EN as [_ EN]]; revert EN; clear; destruct c; unfold is_letter, is_op, ends, mem, c_terminators, c_operators; cbn [existsb cz is_eof]; lia]).
  all: unfold send, send_kw, check_keyword; cbn [length t_ull t_an t_rue t_alse Nat.ltb Nat.leb nth]; cbn [bind].
  all: repeat match goal with |- context [cz ?x =? ?n] => replace (cz x =? n) with false by (revert NI; clear; unfold is_letter; lia) end; cbn [orb]; rewrite M; try (replace (ends c || in_sexp v && is_op (cz c)) with true by (destruct EN as [->| ->]; [reflexivity|now rewrite orb_true_r])); reflexivity.
Qed.
Lemma kw_run_all v f an isf ds : Forall (fun c => ident_char c = true) ds -> forall w h, kw_of w isf = Some h ->
  exists h', hrun v h (symk f an w) ds h' (symk f an (w ++ ds)) /\ (kw_of (w ++ ds) isf = Some h' \/ exists prev, h' = HUnq prev isf /\ is_ws prev = false).
Proof.
  induction 1 as [|d ds Hd F IH]; intros w h K.
  - exists h. rewrite app_nil_r. split; [constructor|auto].
  - replace (w ++ d :: ds) with ((w ++ [d]) ++ ds) by (rewrite <- app_assoc; reflexivity).
    destruct (kw_step v f an isf w h d K Hd) as [(h' & K' & SE)|SE].
    + destruct (IH _ _ K') as (h2 & R & P). exists h2. split; [|exact P]. eapply h_cons; [exact SE|reflexivity|reflexivity|exact R].
    + assert (D : is_ws d = false). { revert Hd. clear. unfold ident_char, ident_start, is_letter, is_digit, is_ws, mem, c_ws. cbn [existsb]. lia. }
      destruct (hunq_run v f an isf ds F d (w ++ [d]) D) as (prev & R & HP). exists (HUnq prev isf). split; [|right; exists prev; auto].
      eapply h_cons; [exact SE|reflexivity|reflexivity|exact R].
Qed.
Lemma identifier_chars t : is_identifier t = true -> exists c r, t = c :: r /\ identifier_start c = true /\ Forall (fun c => ident_char c = true) r.
Proof.
  destruct t as [|c r]; [discriminate|]. cbn [is_identifier]. intros H. apply andb_true_iff in H as [H1 H2]. exists c, r. split; [reflexivity|]. split; [exact H1|].
  apply Forall_forall. intros x IN. rewrite forallb_forall in H2. specialize (H2 x IN). revert H2. unfold identifier_part, identifier_start, ident_char, ident_start. destruct (is_letter x), (is_digit x), (x =? 36), (x =? 95); cbn; congruence.
Qed.
Lemma unquoted_identifier t : symbol_needs_quotes t = false -> is_identifier t = true.
Proof. unfold symbol_needs_quotes. intros H. apply orb_false_iff in H as [_ H]. now apply negb_false_iff in H. Qed.

Lemma ident_token t : symbol_needs_quotes t = false -> hd 0 t <> 36 -> unq_token t (text_token t) False.
Proof.
  intros N HD uni p f an. destruct (identifier_chars t (unquoted_identifier t N)) as (c & r & -> & HC & F). cbn [hd] in HD.
  assert (IS : ident_start c = true) by (revert HC; unfold identifier_start, ident_start, is_letter; lia).
  set (h0 := HKw (c =? 110) (c =? 110) (c =? 116) (c =? 102) 0 (p_field p)).
  assert (K : kw_of [c] (p_field p) = Some h0).
  { unfold kw_of, h0. cbn [zlist_eqb andb]. rewrite IS, !andb_true_r, !andb_false_r. destruct (c =? 110) eqn:E1; [replace (c =? 116) with false by lia; replace (c =? 102) with false by lia; reflexivity|].
    destruct (c =? 116) eqn:E2; [replace (c =? 102) with false by lia; reflexivity|]. destruct (c =? 102) eqn:E3; reflexivity. }
  destruct (kw_run_all (penv uni p) f an (p_field p) r F [c] h0 K) as (h1 & R & FIN).
  exists c, r, h0, (symk f an [c]), h1, (SCodes (c :: r)). split; [reflexivity|].
  assert (CC : starts c = true /\ (c =? 91) || (c =? 40) = false /\ (c =? 34) || (c =? 39) = false /\
               forall isf, start_kw (penv uni p) c (kid f an) isf = Ok (TGo (HKw (c =? 110) (c =? 110) (c =? 116) (c =? 102) 0 isf), symk f an [c], [])).
  { split; [revert IS; clear; unfold ident_start, is_letter, starts, is_ws, mem, c_ws; cbn [existsb]; lia|]. split; [revert IS; clear; unfold ident_start, is_letter; lia|]. split; [revert IS; clear; unfold ident_start, is_letter; lia|].
    intros isf. unfold start_kw. rewrite IS. reflexivity. }
  destruct CC as (C1 & C2 & C3 & C4). split; [exact C1|]. split; [exact C2|]. split; [exact C3|]. split.
  { assert (X : c <> 39 /\ c <> 34 /\ c <> 45 /\ c <> 43 /\ c <> 48 /\ c <> 123 /\ c <> 40 /\ c <> 91 /\ is_digit c = false) by (revert IS; clear; unfold ident_start, is_letter, is_digit; lia).
    destruct X as (X1 & X2 & X3 & X4 & X5 & X6 & X7 & X8 & X9). unfold h0. destruct (p_field p).
    - unfold start_field. replace (c =? 39) with false by lia. replace (c =? 34) with false by lia. replace (c =? 36) with false by lia. rewrite IS. apply C4.
    - unfold start_value. replace (c =? 45) with false by lia. replace (c =? 43) with false by lia. replace (c =? 48) with false by lia. replace (c =? 123) with false by lia. replace (c =? 40) with false by lia. replace (c =? 91) with false by lia. replace (c =? 39) with false by lia. replace (c =? 34) with false by lia. replace (c =? 36) with false by lia. rewrite X9. apply C4. }
  split; [reflexivity|]. split; [exact R|]. split; [reflexivity|]. split; [exact Logic.I|].
  destruct FIN as [KW|(prev & -> & HP)]; [left; eapply kw_fin; eassumption|right; apply hunq_fin; exact HP].
Qed.

(** ** Identifiers that start with a dollar sign *)

(** What looks like a version marker: [$ion_1_0], and more. *)
Definition ivm_form (t : text) : Prop :=
  exists a b, t = chars "$ion_" ++ a ++ 95 :: b /\ Forall (fun c => is_digit c = true) a /\ Forall (fun c => is_digit c = true) b /\ b <> [].
Definition ivm_shape (mi : nat) (complete post : bool) (l : text) : Prop :=
  (1 <= mi < 5 /\ l = firstn mi t_ivm_prefix /\ complete = false /\ post = false)%nat \/
  (mi = 5%nat /\ complete = false /\ post = false /\ exists a, l = t_ivm_prefix ++ a /\ Forall (fun c => is_digit c = true) a) \/
  (mi = 5%nat /\ post = true /\ exists a b, l = t_ivm_prefix ++ a ++ 95 :: b /\ Forall (fun c => is_digit c = true) a /\ Forall (fun c => is_digit c = true) b /\
     complete = match b with [] => false | _ => true end).
Definition dollar_state (isf can : bool) (l : text) (h : hs) : Prop :=
  exists prev ivm complete sid mi post r, h = HDollar prev ivm complete sid mi post isf /\ l = 36 :: r /\ is_ws prev = false /\ sid = forallb is_digit r /\
  ((ivm = false /\ complete = false /\ sid = true) \/ (ivm = true /\ can = true /\ ivm_shape mi complete post l)).
Lemma dollar_step v f an isf can l h d : dollar_state isf can l h -> ident_char d = true ->
  (exists h', dollar_state isf can (l ++ [d]) h' /\ send v h (plain d) (symk f an l) = Ok (TGo h', symk f an (l ++ [d]), [])) \/
  (forallb is_digit (tl (l ++ [d])) = false /\ send v h (plain d) (symk f an l) = Ok (TGo (HUnq d isf), symk f an (l ++ [d]), [])).
Proof.
  intros (prev & ivm & complete & sid & mi & post & r & -> & -> & HP & SD & ST) Hd.
  assert (D : is_ws d = false /\ ends (plain d) = false /\ (d =? 58) = false /\ is_op d = false).
  { revert Hd. clear. unfold ident_char, ident_start, is_letter, is_digit, is_ws, is_op, ends, mem, c_ws, c_operators, c_terminators. cbn [existsb cz plain is_eof]. intros Hd. repeat split; lia. }
  destruct D as (D1 & D2 & D3 & D4).
  assert (SID : forallb is_digit (r ++ [d]) = sid && is_digit d) by (rewrite forallb_app, SD; cbn [forallb]; now rewrite andb_true_r).
  unfold send, send_dollar, breaks. cbn [cz plain]. fold (plain d). rewrite D1, HP, D2, D3, D4, andb_false_r. cbn [orb app tl].
  destruct ST as [(-> & -> & ST)|(-> & -> & ST)].
  - destruct (sid && is_digit d) eqn:E; cbn [negb].
    + left. eexists. split; [|reflexivity]. exists d, false, false, true, mi, post, (r ++ [d]). split; [reflexivity|]. split; [reflexivity|]. split; [exact D1|]. split; [congruence|]. left. auto.
    + right. split; [congruence|]. now apply (go_unquoted_char v f an (36 :: r)).
  - destruct ST as [(MI & L & -> & ->)|[(-> & -> & -> & a & L & FA)|(-> & -> & a & b & L & FA & FB & ->)]].
    + replace (mi =? 5)%nat with false by (symmetry; apply Nat.eqb_neq; lia). replace (mi <? 5)%nat with true by (symmetry; apply Nat.ltb_lt; lia).
      destruct (d =? nth mi t_ivm_prefix 0) eqn:E.
      * left. eexists. split; [|reflexivity]. exists d, true, false, (sid && is_digit d), (S mi), false, (r ++ [d]). split; [reflexivity|]. split; [reflexivity|]. split; [exact D1|]. split; [congruence|]. right. split; [reflexivity|]. split; [reflexivity|].
        assert (d = nth mi t_ivm_prefix 0) by lia. subst d. change (36 :: r ++ [nth mi t_ivm_prefix 0]) with ((36 :: r) ++ [nth mi t_ivm_prefix 0]). rewrite L.
        destruct mi as [|[|[|[|[|mi]]]]]; [lia| | | | |lia].
        all: try (left; split; [lia|]; split; [reflexivity|]; split; reflexivity).
        right. left. split; [reflexivity|]. split; [reflexivity|]. split; [reflexivity|]. exists []. split; [reflexivity|constructor].
      * destruct (sid && is_digit d) eqn:E2; cbn [negb].
        -- left. eexists. split; [|reflexivity]. exists d, false, false, true, mi, false, (r ++ [d]). split; [reflexivity|]. split; [reflexivity|]. split; [exact D1|]. split; [congruence|]. left. auto.
        -- right. split; [congruence|]. now apply (go_unquoted_char v f an (36 :: r)).
    + change (5 =? 5)%nat with true. change (5 <? 5)%nat with false. cbv iota.
      assert (NS : sid = false). { rewrite SD. injection L as ->. reflexivity. }
      destruct (is_digit d) eqn:E.
      * left. eexists. split; [|reflexivity]. exists d, true, false, (sid && true), 5%nat, false, (r ++ [d]). split; [reflexivity|]. split; [reflexivity|]. split; [exact D1|]. split; [congruence|]. right. split; [reflexivity|]. split; [reflexivity|].
        right. left. split; [reflexivity|]. split; [reflexivity|]. split; [reflexivity|]. exists (a ++ [d]). split; [change (36 :: r ++ [d]) with ((36 :: r) ++ [d]); rewrite L, <- app_assoc; reflexivity|]. apply Forall_app. split; [exact FA|auto].
      * destruct (d =? 95) eqn:E3; cbn [andb negb].
        -- left. eexists. split; [|reflexivity]. exists d, true, false, (sid && false), 5%nat, true, (r ++ [d]). split; [reflexivity|]. split; [reflexivity|]. split; [exact D1|]. split; [congruence|]. right. split; [reflexivity|]. split; [reflexivity|].
           right. right. split; [reflexivity|]. split; [reflexivity|]. exists a, []. assert (d = 95) by lia. subst d. split; [change (36 :: r ++ [95]) with ((36 :: r) ++ [95]); rewrite L, <- app_assoc; reflexivity|]. auto.
        -- rewrite NS. cbn [andb negb]. right. split; [rewrite SID, NS; reflexivity|]. now apply (go_unquoted_char v f an (36 :: r)).
    + change (5 =? 5)%nat with true. change (5 <? 5)%nat with false. cbv iota.
      assert (NS : sid = false). { rewrite SD. injection L as ->. reflexivity. }
      destruct (is_digit d) eqn:E.
      * left. eexists. split; [|reflexivity]. exists d, true, true, (sid && true), 5%nat, true, (r ++ [d]). split; [rewrite orb_true_r; reflexivity|]. split; [reflexivity|]. split; [exact D1|]. split; [congruence|]. right. split; [reflexivity|]. split; [reflexivity|].
        right. right. split; [reflexivity|]. split; [reflexivity|]. exists a, (b ++ [d]). split; [change (36 :: r ++ [d]) with ((36 :: r) ++ [d]); rewrite L, <- !app_assoc; cbn [app]; reflexivity|]. split; [exact FA|]. split; [apply Forall_app; split; [exact FB|auto]|]. destruct b; reflexivity.
      * rewrite andb_false_r. rewrite NS. cbn [andb negb]. right. split; [rewrite SID, NS; reflexivity|]. now apply (go_unquoted_char v f an (36 :: r)).
Qed.
Lemma dollar_run v f an isf can ds : Forall (fun c => ident_char c = true) ds -> forall l h, dollar_state isf can l h ->
  exists h', hrun v h (symk f an l) ds h' (symk f an (l ++ ds)) /\ (dollar_state isf can (l ++ ds) h' \/ (forallb is_digit (tl (l ++ ds)) = false /\ exists prev, h' = HUnq prev isf /\ is_ws prev = false)).
Proof.
  induction 1 as [|d ds Hd F IH]; intros l h K.
  - exists h. rewrite app_nil_r. split; [constructor|auto].
  - replace (l ++ d :: ds) with ((l ++ [d]) ++ ds) by (rewrite <- app_assoc; reflexivity).
    destruct (dollar_step v f an isf can l h d K Hd) as [(h' & K' & SE)|(ND & SE)].
    + destruct (IH _ _ K') as (h2 & R & P). exists h2. split; [|exact P]. eapply h_cons; [exact SE|reflexivity|reflexivity|exact R].
    + assert (D : is_ws d = false). { revert Hd. clear. unfold ident_char, ident_start, is_letter, is_digit, is_ws, mem, c_ws. cbn [existsb]. lia. }
      destruct (hunq_run v f an isf ds F d (l ++ [d]) D) as (prev & R & HP). exists (HUnq prev isf). split; [eapply h_cons; [exact SE|reflexivity|reflexivity|exact R]|].
      right. split; [|exists prev; auto]. destruct K as (? & ? & ? & ? & ? & ? & r & _ & -> & _). cbn [app tl] in ND |- *. rewrite forallb_app, ND. reflexivity.
Qed.
Definition dollar_sv (complete sid : bool) (l : text) : symv :=
  match l with [_] => SCodes l | _ => if sid then STok (sid_token (digits_value 10 (tl l))) else if complete then SIvm l else SCodes l end.
Lemma dollar_fin v f an prev ivm complete sid mi post isf l : is_ws prev = false -> match l with [_] => True | _ => sid = true -> ivm = false end ->
  fin_b v (HDollar prev ivm complete sid mi post isf) (symk f an l) (dollar_sv complete sid l) isf.
Proof.
  intros HP OK. exists (fun z => HDollar z (if (mi <? 5)%nat then false else ivm) complete sid mi post isf).
  assert (G : forall iv prv c, match l with [_] => True | _ => sid = true -> iv = false end -> breaks v prv c = true -> is_ws (cz c) = false -> send v (HDollar prv iv complete sid mi post isf) c (symk f an l) = symbol_end v c (symk f an l) isf (dollar_sv complete sid l)).
  { intros iv prv c O B W. unfold send, send_dollar. rewrite W, B. cbn [symk k_val]. fold (symk f an l). unfold dollar_sv. destruct l as [|x [|y l]]; try reflexivity; (destruct sid; [rewrite (O eq_refl); reflexivity|]; destruct complete; reflexivity). }
  split; [|split; [|split]].
  - intros w W. unfold send, send_dollar. cbn [cz plain]. rewrite W. reflexivity.
  - intros x w W. unfold send, send_dollar. cbn [cz plain]. rewrite W. destruct (mi <? 5)%nat; reflexivity.
  - intros c W E. apply G; [exact OK| |exact W]. unfold breaks. rewrite HP. destruct E as [->|[->| ->]]; [reflexivity| |]; rewrite ?orb_true_r; reflexivity.
  - intros x c WX W. apply G; [|unfold breaks; rewrite WX; reflexivity|exact W]. destruct l as [|a [|b l]]; auto; destruct (mi <? 5)%nat; auto.
Qed.

Lemma dollar_start uni p f an : exists h0, (if p_field p then start_field (penv uni p) 36 (kid f an) else start_value (penv uni p) 36 (kid f an)) = Ok (TGo h0, symk f an [36], []) /\
  dollar_state (p_field p) ((zlen (p_stack p) =? 0) && negb (p_field p) && match an with [] => true | _ => false end) [36] h0.
Proof.
  set (can := (zlen (p_stack p) =? 0) && negb (p_field p) && match an with [] => true | _ => false end).
  exists (HDollar 36 can false true 1 false (p_field p)). split.
  - unfold can. destruct (p_field p); reflexivity.
  - exists 36, can, false, true, 1%nat, false, []. split; [reflexivity|]. split; [reflexivity|]. split; [reflexivity|]. split; [reflexivity|]. destruct can; [right|left; auto].
    split; [reflexivity|]. split; [reflexivity|]. left. split; [lia|]. split; [reflexivity|]. split; reflexivity.
Qed.
Lemma dollar_token t r : t = 36 :: r -> Forall (fun c => ident_char c = true) r ->
  unq_token t (if match r with [] => false | _ => forallb is_digit r end then sid_token (digits_value 10 r) else text_token t) (ivm_form t).
Proof.
  intros -> F uni p f an. destruct (dollar_start uni p f an) as (h0 & SV & ST). set (can := (zlen (p_stack p) =? 0) && negb (p_field p) && match an with [] => true | _ => false end) in *.
  destruct (dollar_run (penv uni p) f an (p_field p) can r F [36] h0 ST) as (h1 & R & FIN). cbn [app tl] in *.
  assert (G : exists sv, as_token sv = (if match r with [] => false | _ => forallb is_digit r end then sid_token (digits_value 10 r) else text_token (36 :: r)) /\
     match sv with SIvm _ => ivm_form (36 :: r) /\ zlen (p_stack p) = 0 /\ an = [] | _ => True end /\ fin_b (penv uni p) h1 (symk f an (36 :: r)) sv (p_field p)).
  { destruct FIN as [(prev & ivm & complete & sid & mi & post & r' & -> & E & HP & SD & DS)|(ND & prev & -> & HP)].
    - injection E as <-. exists (dollar_sv complete sid (36 :: r)). split; [|split].
      + unfold dollar_sv. destruct r as [|y r]; [reflexivity|]. rewrite <- SD. destruct sid; [reflexivity|]. destruct complete; reflexivity.
      + unfold dollar_sv. destruct r as [|y r]; [exact Logic.I|]. destruct sid; [exact Logic.I|]. destruct complete; [|exact Logic.I].
        destruct DS as [(_ & C & _)|(-> & CAN & SH)]; [discriminate|]. split.
        * destruct SH as [(_ & _ & C & _)|[(_ & C & _)|(_ & _ & a & b & L & FA & FB & C)]]; [discriminate|discriminate|]. exists a, b. split; [exact L|]. split; [exact FA|]. split; [exact FB|]. intros ->. discriminate.
        * unfold can in CAN. apply andb_true_iff in CAN as [CAN A]. apply andb_true_iff in CAN as [CAN _]. split; [lia|]. destruct an; [reflexivity|discriminate].
      + apply dollar_fin; [exact HP|]. destruct r as [|y r]; [exact Logic.I|]. intros S1. destruct DS as [(-> & _)|(-> & _ & SH)]; [reflexivity|]. exfalso.
        assert (Y : y = 105). { destruct SH as [((M1 & M2) & L & _)|[(_ & _ & _ & a & L & _)|(_ & _ & a & b & L & _)]]; [|now injection L|now injection L]. destruct mi as [|[|[|[|[|mi]]]]]; try lia; cbn in L; now injection L. }
        subst y. rewrite S1 in SD. discriminate SD.
    - exists (SCodes (36 :: r)). split; [|split; [exact Logic.I|apply hunq_fin; exact HP]]. destruct r as [|y r]; [discriminate ND|]. rewrite ND. reflexivity. }
  destruct G as (sv & G1 & G2 & G3). exists 36, r, h0, (symk f an [36]), h1, sv. repeat (split; [first [reflexivity|assumption]|]). right. exact G3.
Qed.

(** ** Quoted symbols *)
Lemma code_back uni p k h s z q f an sv kp : Code p k h (CStart [] false) s -> cp_step (negb (is_clob k)) (CStart [] false) z = Ok (CDone (plain z) []) -> z <> 58 ->
  send (penv uni p) h (plain z) k = back kp -> set_type None kp = mkk f an false [] None (Some sv) (k_quoted kp) false true false ->
  goes uni s (plain z :: q) [] (fun s' => exists k, pend f an sv k /\ Ready p (Some k) false s' /\ (p_field p = false -> Idle p (Some k) false s')) q.
Proof.
  intros (cm & fl & ->) CP NC SE ST. destruct (code_take uni p k h (CStart [] false) cm fl z (TBack, kp, [])) as (c' & CP' & T); [exists (plain z); auto|]. rewrite CP in CP'. injection CP' as <-.
  assert (T' : exists fl', take uni (core p (Some k) false cm fl (PRead (KCode (CStart [] false) h) false false)) (KCode (CStart [] false) h) (plain z) = Ok (core p (Some (set_type None kp)) false false fl' (PRead KTop false fl'), None, []) /\ (p_field p = false -> p_stack p = [] -> fl' = true)).
  { rewrite T. cbn [handled]. unfold after_back. rewrite ST. cbn [cz plain]. destruct p as [pt pst pf]. unfold core, with_pc, with_flags, with_child, at_top. cbn [t_type t_stack t_field t_delim t_complete t_flush t_child k_pend k_self k_line negb orb p_type p_stack p_field].
    replace (z =? 58) with false by lia. destruct pf; eexists; (split; [reflexivity|]); [discriminate|]. intros _ ->. reflexivity. }
  destruct T' as (fl' & T' & HF). eapply (goes_move _ _ _ None); [eapply m_read0; [reflexivity|exact T']|].
  exists (set_type None kp). split; [exists (k_quoted kp), false, true; exact ST|]. split; [exists false, fl'; right; reflexivity|].
  intros PF. exists false, fl'. split; [intros SP; right; auto|]. right. left. reflexivity.
Qed.
Theorem quoted_reads t : Forall code_point t -> sym_reads (bytes_text t (Some 39) [] []) (text_token t) False.
Proof.
  intros F. unfold bytes_text. cbn [quote_octets app]. exists 39, (flat_map (text_octets (Some 39)) t ++ [39]). split; [reflexivity|]. split; [reflexivity|].
  intros uni p child f an s PO HA HC.
  assert (B : forall q, goes uni s q [] (Code p (kid f an) (HSq1 (p_field p)) (CStart [] false)) q).
  { intros q. eapply (begin_code uni p child f an 39 s _ (HSq1 (p_field p)) (kid f an)); [exact PO|exact HA|exact HC|reflexivity|reflexivity|reflexivity|]. destruct (p_field p); reflexivity. }
  destruct t as [|c t].
  - cbn [flat_map app map].
    set (k1 := mkk f an false [] (Some TSymbol) None false false false false).
    assert (R : forall q, goes uni s (plain 39 :: q) [] (Tok p k1 (HSq2 (p_field p))) q).
    { intros q. eapply goes_quiet; [apply B|]. intros s1 C1. eapply goes_weaken.
      - eapply (code_tok uni p (kid f an) (HSq1 (p_field p)) s1 39 (HSq2 (p_field p)) k1); [exact PO|exact C1|reflexivity|reflexivity|reflexivity].
      - intros s' (_ & H). apply H. reflexivity. }
    set (kp := mkk f an false [] (Some TSymbol) (Some (SCodes [])) true false false false).
    assert (SE : forall c, cz c <> 39 -> send (penv uni p) (HSq2 (p_field p)) c k1 = back kp).
    { intros c NC. unfold send, send_quote2, k1. cbn [set_unicode k_codes bind]. replace (cz c =? 39) with false by lia. reflexivity. }
    split.
    + intros q. eapply goes_quiet; [apply R|]. intros s1 T1. eapply goes_weaken.
      * eapply (tok_colon uni p k1 _ s1 q f an (SCodes []) kp); [exact T1|apply SE; cbn; lia|reflexivity].
      * intros s' (k & PK & A). exists k, (SCodes []). auto.
    + intros PF PS _ ws stop q FL N39. pose proof FL as (W & NW & N1 & N2 & ST & EN). eapply goes_quiet; [apply R|]. intros s1 T1.
      destruct ws as [|w0 ws]; cbn [map app].
      * eapply goes_quiet.
        { eapply (tok_pend uni p k1 _ s1 stop q f an (SCodes []) kp); [exact PF|exact T1|apply SE; auto|reflexivity|exact ST]. }
        intros s2 (k & fl & PK & -> & HFL). eapply pend_value; try eassumption; [reflexivity|exists false, fl; reflexivity].
      * pose proof (Forall_inv W) as Hw. pose proof (Forall_inv_tail W) as W'. cbn beta in Hw. eapply goes_quiet.
        { eapply (tok_pend uni p k1 _ s1 (plain w0) _ f an (SCodes []) kp); [exact PF|exact T1|apply SE; apply is_ws_cases in Hw; cbn; lia|reflexivity|split; reflexivity]. }
        intros s2 (k & fl & PK & -> & HFL).
        eapply goes_quiet.
        { eapply (idle_ws uni p (Some k) false _ ws stop q PO); [|exact W'|exact ST]. exists false, fl. split; [intros SP; right; auto|]. right. right. exists w0. split; [exact Hw|reflexivity]. }
        intros s3 A3. eapply pend_value; try eassumption. reflexivity.
  - set (K := fun l => mkk f an true l None None true false false false).
    inversion F as [|? ? Hc Ft]; subst.
    assert (R : forall q, goes uni s (map plain (flat_map (text_octets (Some 39)) (c :: t) ++ [39]) ++ q) [] (fun s' => exists k, pend f an (SCodes (c :: t)) k /\ Ready p (Some k) false s' /\ (p_field p = false -> Idle p (Some k) false s')) q).
    { intros q. eapply goes_quiet; [apply B|]. intros s1 C1. cbn [flat_map]. rewrite !map_app, <- !app_assoc. eapply goes_quiet.
      { eapply (code_go uni p (kid f an) (HSq1 (p_field p)) s1 _ _ (HSym (p_field p)) (K [c])); [exact C1|apply octets_cp; [auto|exact Hc|discriminate]| |reflexivity].
        unfold send, send_quote1, start_quoted_symbol. cbn [cz escaped]. replace ((c =? 39) && negb (escapes c || (c =? 39))) with false by (destruct (escapes c); lia).
        cbn [set_unicode kid k_codes bind k_quoted is_clob k_type opt_eqb Bool.eqb].
        rewrite quoted_valid; [|exact Hc|discriminate|auto]. cbn [negb]. unfold gone. rewrite andb_false_r. reflexivity. }
      intros s2 C2. eapply goes_quiet.
      { eapply (code_text uni p (HSym (p_field p)) 39 K code_point); [auto|reflexivity|reflexivity|intros x Hx; split; [exact Hx|discriminate]| |exact Ft|exact C2].
        intros l x Hx. unfold send, send_quoted_symbol. cbn [cz escaped]. replace ((x =? 39) && negb (escapes x || (x =? 39))) with false by (destruct (escapes x); lia).
        rewrite quoted_valid; [|exact Hx|discriminate|auto]. cbn [negb]. unfold gone. rewrite andb_false_r. reflexivity. }
      intros s3 C3. cbn [map app].
      eapply (code_back uni p (K (c :: t)) (HSym (p_field p)) s3 39 q f an (SCodes (c :: t)) (mkk f an false [] None (Some (SCodes (c :: t))) false false true false)); [exact C3|reflexivity|lia| |reflexivity].
      unfold send, send_quoted_symbol, symbol_end. cbn [cz plain escaped]. change (39 =? 39) with true. cbn [andb negb K k_quoted]. rewrite orb_true_r. reflexivity. }
    split.
    + intros q. eapply goes_quiet; [apply R|]. intros s1 (k & PK & RD & _). eapply goes_weaken.
      * exact (ready_ws uni p (Some k) false s1 [] 58 q RD (Forall_nil _)).
      * intros s' A. exists k, (SCodes (c :: t)). auto.
    + intros PF PS _ ws stop q FL _. pose proof FL as (W & NW & N1 & N2 & ST & EN). eapply goes_quiet; [apply R|]. intros s1 (k & PK & _ & ID).
      eapply goes_quiet; [exact (idle_ws uni p (Some k) false s1 ws stop q PO (ID PF) W ST)|].
      intros s2 A2. eapply pend_value; try eassumption. reflexivity.
Qed.

(** * Every symbol *)
Definition all_digits (r : text) : bool := match r with [] => false | _ => forallb is_digit r end.
(** A text that a dollar sign and digits do not spell. *)
Definition spells_sid (t : text) : bool := match t with 36 :: r => all_digits r | _ => false end.

Lemma text_octets_plain c : ident_char c = true -> text_octets None c = [c].
Proof. intros H. unfold text_octets. cbn [opt_eqb]. revert H. unfold ident_char, ident_start, is_letter, is_digit. intros H. replace (c =? 92) with false by lia. unfold is_printable_ascii. replace ((32 <=? c) && (c <=? 126)) with true by lia. reflexivity. Qed.
Lemma flat_plain t : Forall (fun c => ident_char c = true) t -> flat_map (text_octets None) t = t.
Proof. induction 1 as [|c t H F IH]; [reflexivity|]. cbn [flat_map]. rewrite (text_octets_plain c H), IH. reflexivity. Qed.

Theorem symbol_reads t : Forall code_point t -> spells_sid t = false ->
  sym_reads (bytes_text t (if symbol_needs_quotes t then Some 39 else None) [] []) (text_token t) (ivm_form t).
Proof.
  intros F NS. destruct (symbol_needs_quotes t) eqn:NQ.
  - destruct (quoted_reads t F) as (c0 & rest & E & S1 & R). exists c0, rest. split; [exact E|]. split; [exact S1|]. intros uni p child f an s PO HA HC.
    destruct (R uni p child f an s PO HA HC) as (R1 & R2). split; [exact R1|]. intros PF PS _. apply R2; auto.
  - destruct (identifier_chars t (unquoted_identifier t NQ)) as (c & r & -> & HC & FR).
    assert (E : bytes_text (c :: r) None [] [] = c :: r).
    { unfold bytes_text. cbn [quote_octets app]. rewrite !app_nil_r. apply flat_plain. constructor; [|exact FR]. revert HC. unfold identifier_start, ident_char, ident_start, is_letter. lia. }
    rewrite E. destruct (Z.eq_dec c 36) as [->|NE].
    + apply unq_reads. pose proof (dollar_token (36 :: r) r eq_refl FR) as D. unfold spells_sid, all_digits in NS. rewrite NS in D. exact D.
    + pose proof (unq_reads _ _ _ (ident_token (c :: r) NQ NE)) as (c0 & rest & E' & S1 & R). exists c0, rest. split; [exact E'|]. split; [exact S1|]. intros uni p child f an s PO HA HCC.
      destruct (R uni p child f an s PO HA HCC) as (R1 & R2). split; [exact R1|]. intros PF PS _. apply R2; auto.
Qed.
Theorem sid_reads n : 0 <= n -> sym_reads (36 :: int_str n) (sid_token n) False.
Proof.
  intros H. unfold int_str. replace (n <? 0) with false by lia.
  pose proof (nat_str_chars n H) as FC. pose proof (nat_str_value n H) as V. pose proof (nat_str_nonempty n H) as NE. set (ds := nat_str n) in *. clearbody ds.
  assert (FI : Forall (fun c => ident_char c = true) ds).
  { apply Forall_forall. intros x IN. rewrite Forall_forall in FC. specialize (FC x IN). revert FC. clear. unfold dec_char, ident_char, ident_start, is_letter, is_digit. lia. }
  pose proof (unq_reads _ _ _ (dollar_token (36 :: ds) ds eq_refl FI)) as (c0 & rest & E & S1 & R).
  assert (AD : match ds with [] => false | _ => forallb is_digit ds end = true).
  { destruct ds as [|d ds]; [congruence|]. apply forallb_forall. intros x IN. rewrite Forall_forall in FC. specialize (FC x IN). revert FC. clear. unfold dec_char, is_digit. lia. }
  rewrite AD, V in R. exists c0, rest. split; [exact E|]. split; [exact S1|]. intros uni p child f an s PO HA HCC.
  destruct (R uni p child f an s PO HA HCC) as (R1 & R2). split; [exact R1|]. intros PF PS _. apply R2; auto.
  intros (a & b & L & _) _. injection E as _ <-. injection L as L. subst ds. discriminate AD.
Qed.

(** * The version marker *)
Theorem ivm_reads uni s ws stop q : let p := mkp None [] false in At p None false (plain 36) s -> follows p ws stop q ->
  goes uni s (map plain (tl TEXT_ION_1_0) ++ map plain ws ++ stop :: q) [version_marker_event] (At p None false stop) q.
Proof.
  intros p HA FL.
  set (w := TEXT_ION_1_0).
  eapply goes_quiet.
  { eapply goes_quiet; [eapply (begin_tok uni p None None [] 36 s _ (HDollar 36 true false true 1 false false) (symk None [] [36])); [intros _; split; reflexivity|exact HA|exact child_none|reflexivity|reflexivity|reflexivity|reflexivity|reflexivity]|].
    intros s1 T1. eapply (hrun_goes uni p _ _ (tl w) (HDollar 48 true true false 5 true false) (symk None [] w)); [intros _; split; reflexivity| |exact T1]. kw_run. }
  intros s1 T1. eapply (unq_value uni p None [] w _ (SIvm w)); [intros _; split; reflexivity|reflexivity|discriminate|exact T1| |exact FL|reflexivity|reflexivity].
  right. exact (dollar_fin (penv uni p) None [] 48 true true false 5 true false w eq_refl (fun H => False_ind _ (Bool.diff_false_true H))).
Qed.
