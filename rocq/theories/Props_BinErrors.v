(** C52, what holds of it: which exceptions a binary reader can raise, for any octets in any pieces. *)
From Verif Require Import Base BaseFacts FieldsModel BufferModel CoreModel BinReaderModel BinReaderSpec BinReaderSim BinReaderRun BinReaderSession BinFormat
  ReaderGrammarProofs ReaderEvents BinAccepts BinAcceptProofs Props_BinAccept.
Local Open Scope Z_scope.
Local Open Scope list_scope.

Lemma ion_tame : tame IonException. Proof. left; reflexivity. Qed.
Lemma type_tame : tame TypeError. Proof. right; reflexivity. Qed.
#[local] Hint Resolve ion_tame type_tame : tame.
(** [some_error x]: the errors of a step are tame, or, when [x] holds, the buffer's IndexError. *)
Section ERRORS.
Variable x : Prop.
Definition allowed (e : exc) : Prop := tame e \/ (x /\ e = IndexError).
Definition mild (r : sres) : Prop := match r with Err e => allowed e | Ok _ => True end.
Definition sound (q : aq) : Prop := x \/ qwf q.
Lemma ion_ok : allowed IonException. Proof. left; apply ion_tame. Qed.
Lemma type_ok : allowed TypeError. Proof. left; apply type_tame. Qed.
Hint Resolve ion_ok type_ok : tame.
Lemma skip_whole q n : sound q -> (exists y, aq_skip q n = Ok y) \/ (x /\ aq_skip q n = Err IndexError).
Proof.
  unfold aq_skip, aq_read. intros W. destruct (aq_size q <=? n) eqn:L; [eauto|]. replace (aq_size q <? n) with false by lia. destruct (zlen (aq_data q) <? n) eqn:M; cbn [bind]; [|eauto]. destruct W as [W|W]; [auto|unfold qwf in W; lia].
Qed.
Lemma mild_read fs q c n skip sev k : sound q -> mild (begin_read fs q c n skip sev k).
Proof.
  intros W. unfold begin_read. assert (X : forall e, (if c_depth c =? 0 then Ok tt else match c_limit c with Some lim => if lim - aq_pos q <? n then Err IonException else Ok tt | None => Err TypeError end) = Err e -> allowed e).
  { intros e. destruct (c_depth c =? 0); [discriminate|]. destruct (c_limit c) as [l|]; [destruct (l - aq_pos q <? n)|]; intros H; try discriminate H; injection H as <-; auto with tame. }
  destruct (if c_depth c =? 0 then _ else _); [|cbn [bind mild]; apply X; reflexivity]. cbn [bind]. cbv zeta. destruct skip; [|exact Logic.I].
  match goal with |- context [aq_skip q ?m] => destruct (skip_whole q m W) as [((n0 & q') & ->)|(X0 & ->)] end; [exact Logic.I|]. right. auto.
Qed.
Lemma mild_emit fs q c et t v : mild (emit fs q c et t v).
Proof. unfold emit. cbv zeta. destruct et, (match c_annot c with None => [] | Some a => a end), (c_limit c) as [lim|]; try destruct (lim - aq_pos q =? 0); cbn; auto with tame. Qed.
Lemma mild_user fs q u n c : sound q -> mild (run_user fs q u n c).
Proof.
  intros W. destruct u as [k t|t| |]; cbn [run_user].
  - destruct (n =? 0); [apply mild_emit|apply mild_read; exact W].
  - cbv zeta. destruct (c_annot c) as [[|a l]|]; cbn [bind]; try apply mild_emit. destruct (opt_eqb _ _ _); cbn [bind]; [apply mild_emit|apply ion_ok].
  - destruct (c_annot c); [apply ion_ok|exact Logic.I].
  - cbv zeta. destruct (match c_field c with Some _ => _ | None => _ end); [apply type_ok|]. destruct (0 <? n); [apply mild_read; exact W|exact Logic.I].
Qed.
Lemma mild_handler fs q h c : sound q -> mild (run_handler fs q h c).
Proof.
  intros W. destruct h; cbn [run_handler]; try exact Logic.I; [apply ion_ok| |apply mild_emit|apply mild_user; exact W]. destruct (negb (c_depth c =? 0)); [apply ion_ok|apply mild_read; exact W].
Qed.
Lemma mild_start fs q c ex top : sound q -> mild (start_type fs q c ex top).
Proof. intros W. apply mild_read. exact W. Qed.
Lemma mild_var fs q v vk c : sound q -> mild (var_done fs q v vk c).
Proof.
  intros W. destruct vk; cbn [var_done].
  - destruct fs; [apply type_ok|apply mild_start; exact W].
  - apply mild_user. exact W.
  - destruct (v <? 2); [apply ion_ok|apply mild_user; exact W].
  - destruct (v <? 1); [apply ion_ok|apply mild_read; exact W].
Qed.
Lemma mild_body fs q : sound q -> mild (container_body fs q).
Proof.
  intros W. unfold container_body. destruct fs as [|f rest]; [apply type_ok|]. destruct (opt_eqb _ _ _); [exact Logic.I|]. cbv zeta. destruct (f_type f) as [[]|]; try (apply mild_start; exact W). exact Logic.I.
Qed.
(** Taking [n] octets from the buffer. *)
Definition enough (q : aq) (n : Z) : Prop := x \/ (qwf q /\ n <= zlen (aq_data q)).
Lemma take_octet q : enough q 1 -> (exists o q', aq_read_byte q = Ok (o, q') /\ sound q') \/ (x /\ aq_read_byte q = Err IndexError).
Proof.
  intros [X|(W & N)].
  - unfold aq_read_byte. destruct (aq_size q <? 1); [auto|]. destruct (aq_data q) as [|o r]; [auto|]. left. eexists _, _. split; [reflexivity|]. left. exact X.
  - destruct (aq_data q) as [|b r] eqn:D; [cbn in N; lia|]. destruct (aq_read_byte_cons q b r W D) as [-> W']. left. eexists _, _. split; [reflexivity|]. right. exact W'.
Qed.
Lemma take_octets q n : 0 <= n -> enough q n -> (exists d q', aq_read q n = Ok (d, q') /\ sound q') \/ (x /\ aq_read q n = Err IndexError).
Proof.
  intros N0 [X|(W & N)].
  - unfold aq_read. destruct (aq_size q <? n); [auto|]. destruct (zlen (aq_data q) <? n); [auto|]. left. eexists _, _. split; [reflexivity|]. left. exact X.
  - destruct (aq_read_ok q n W ltac:(lia)) as [-> W']. left. eexists _, _. split; [reflexivity|]. right. exact W'.
Qed.
Lemma mild_byte fs q acc vk c : enough q 1 ->
  mild (let* (octet, q) := aq_read_byte q in let value := varuint_step acc octet in if varuint_last octet then var_done fs q value vk c else Ok (mkr fs (PVar value vk c) q, None)).
Proof.
  intros E. destruct (take_octet q E) as [(o & q' & -> & W')|(X & ->)]; [|right; auto]. cbn [bind]. cbv zeta. destruct (varuint_last o); [apply mild_var; exact W'|exact Logic.I].
Qed.
(** One step. *)
Definition ready (s : rstate) : Prop := x \/ qwf (r_q s) /\ match r_pc s with PK k => need k <= zlen (aq_data (r_q s)) | _ => True end.
Definition lengths_ok (s : rstate) : Prop := match r_pc s with PK k => 0 <= need k | _ => True end.
Lemma ready_enough fs k q n : ready (mkr fs (PK k) q) -> n = need k -> enough q n.
Proof. intros [X|(W & N)] ->; [left; exact X|right; auto]. Qed.
Lemma step_errors s inp : ready s -> lengths_ok s -> mild (step s inp).
Proof.
  intros R L. destruct s as [fs p q]. unfold step. cbn [r_q r_pc r_frames]. assert (W : sound q) by (destruct R as [X|(W & _)]; [left; exact X|right; exact W]).
  destruct p as [|n b sev k|k|acc vk c].
  - destruct inp as [[| |d]|]; try (apply mild_body; exact W). destruct fs as [|g fs]; [apply type_ok|]. destruct (f_limit g); [apply mild_read; exact W|apply type_ok].
  - match goal with |- mild (let '(_, _) := ?y in _) => destruct y as [[len sv] q'] end. destruct (len <=? 0); exact Logic.I.
  - destruct k as [acc vk c| |c ex|k t n c|n c| |]; unfold lengths_ok in L; cbn [r_pc need] in L.
    + apply mild_byte. exact (ready_enough _ _ _ _ R eq_refl).
    + destruct (take_octets q 3 L (ready_enough _ _ _ _ R eq_refl)) as [(d & q' & -> & W')|(X & ->)]; [|right; auto]. cbn [bind]. destruct (zlist_eqb _ _); [exact Logic.I|apply ion_ok].
    + destruct (take_octet q (ready_enough _ _ _ _ R eq_refl)) as [(o & q' & -> & W')|(X & ->)]; [|right; auto]. cbn [bind]. destruct (ex && negb (o =? 224)); [apply ion_ok|apply mild_handler; exact W'].
    + destruct (take_octets q n L (ready_enough _ _ _ _ R eq_refl)) as [(d & q' & -> & W')|(X & ->)]; [|right; auto]. cbn [bind]. apply mild_emit.
    + destruct (take_octets q n L (ready_enough _ _ _ _ R eq_refl)) as [(d & q' & -> & W')|(X & ->)]; [|right; auto]. cbn [bind]. destruct (parse_sids d) as [sids|e] eqn:PS; cbn [bind]; [|left; exact (tame_sids _ _ _ PS)]. destruct (c_limit c); [|apply type_ok]. destruct (_ <? 1); [apply ion_ok|apply mild_start; exact W'].
    + apply mild_body. exact W.
    + apply mild_body. exact W.
  - destruct (aq_size q =? 0) eqn:Z; [apply mild_read; exact W|]. apply mild_byte. destruct R as [X|(Q & _)]; [left; exact X|]. right. split; [exact Q|]. unfold qwf in Q. cbn [r_q] in Q. pose proof (zlen_nonneg (aq_data q)). lia.
Qed.
End ERRORS.
Lemma step_mild opens s inp D es : Inv opens s D es -> match step s inp with Err e => tame e | Ok _ => True end.
Proof.
  intros (f & rest & past & u & B & S). pose proof B as (_ & _ & _ & W & _).
  assert (N : match r_pc s with PK k => 0 <= need k <= zlen (aq_data (r_q s)) | _ => True end).
  { destruct (r_pc s) as [| |k|]; try exact Logic.I. pose proof (zlen_nonneg (aq_data (r_q s))). destruct k; cbn [stage need] in S |- *; try lia; destruct S as (_ & S); cbn [need] in S; lia. }
  pose proof (step_errors False s inp) as M. destruct (step s inp) as [|e]; [exact Logic.I|]. cbn [mild] in M. destruct M as [T|(X & _)]; [| |exact T|destruct X].
  - right. split; [exact W|]. destruct (r_pc s); auto; lia.
  - unfold lengths_ok. destruct (r_pc s); auto; lia.
Qed.
Lemma run_mild opens fuel : forall s inp D es e, Inv opens s D es -> feasible opens es s inp -> run fuel s inp = Err e -> tame e \/ e = OutOfFuel.
Proof.
  induction fuel as [|fuel IH]; intros s inp D es e I F; cbn [run]; [intros H; injection H as <-; auto|]. pose proof (step_keeps opens s inp D es I F) as K. pose proof (step_mild opens s inp D es I) as M. destruct (step s inp) as [[s' [ev|]]|e']; [discriminate| |intros H; injection H as <-; auto].
  intros H. exact (IH s' None (D ++ data_of inp) es e K Logic.I H).
Qed.
Lemma enough_mild opens s inp D es e : Inv opens s D es -> feasible opens es s inp -> run (steps_fuel s inp) s inp = Err e -> tame e.
Proof. intros I F H. destruct (run_mild opens _ _ _ _ _ _ I F H) as [T|T]; [exact T|]. rewrite T in H. destruct (run_enough s inp H). Qed.
Lemma check_tame last d e : d <> DData [] -> protocol_check last d = Err e -> tame e.
Proof.
  intros N. unfold protocol_check. destruct (is_stream_signal (ev_type last)); destruct d as [| |[|x d]]; cbn [bind]; try congruence; intros H; try (injection H as <-; auto with tame);
    destruct (ev_depth last) as [[|z|z]|]; try discriminate; destruct (ev_type last); try discriminate; injection H as <-; auto with tame.
Qed.
Lemma request_tame opens r D es q e r' : rok opens r D es -> asked_well opens es (match r with RAt _ last => Some last | _ => None end) q -> reader_send r q = (Err e, r') -> tame e.
Proof.
  intros R A. assert (ND : match q with DData _ => False | _ => True end) by (destruct q; try exact Logic.I; destruct A). destruct r as [s|s last|]; [| |destruct R]; cbn [reader_send rok] in *.
  - destruct R as (I & P & _). destruct q; try contradiction; intros H; [|injection H as <- _; auto with tame]. destruct (run (steps_fuel s (Some DNext)) s (Some DNext)) as [[s' ev]|e1] eqn:RR; [discriminate|]. injection H as <- _. exact (enough_mild opens s (Some DNext) D es e1 I P RR).
  - destruct R as (I & AT). destruct (protocol_check last q) as [u|e1] eqn:PC; intros H; [|injection H as <- _; apply (check_tame last q); [intros ->; contradiction|exact PC]]. unfold at_event in AT. unfold protocol_check in PC. destruct (is_stream_signal (ev_type last)) eqn:SG.
    + destruct q; try discriminate PC. destruct ND.
    + destruct AT as (P & F). assert (FE : feasible opens es s (Some q)) by (destruct q; cbn [feasible asked_well] in *; [exact P|destruct A as (K & e0 & X & T); injection X as X; subst e0; split; [exact P|split; [exact (deep_mode opens s D es I P K)|exact (F T)]]|destruct A]).
      destruct (run (steps_fuel s (Some q)) s (Some q)) as [[s' ev]|e1] eqn:RR; [discriminate|]. injection H as <- _. exact (enough_mild opens s (Some q) D es e1 I FE RR).
Qed.
Lemma data_tame opens s last D es c e r' : Inv opens s D es -> waits s last -> octets c -> c <> [] -> reader_send (RAt s last) (DData c) = (Err e, r') -> tame e.
Proof.
  intros I (n & b & k & P & N) O NE. cbn [reader_send]. destruct (protocol_check last (DData c)) as [u|e1] eqn:PC; intros H; [|injection H as <- _; apply (check_tame last (DData c)); [congruence|exact PC]].
  destruct (run (steps_fuel s (Some (DData c))) s (Some (DData c))) as [[s' ev]|e1] eqn:RR; [discriminate|]. injection H as <- _. apply (enough_mild opens s (Some (DData c)) D es e1 I); [|exact RR]. cbn [feasible]. split; [exact O|]. eauto 6.
Qed.
Lemma feed_tame opens chunks : chunks_ok chunks -> forall s ev D es e r' cs', Inv opens s D (if is_stream_signal (ev_type ev) then es else es ++ [ev]) -> at_event s ev -> feed (RAt s ev) ev chunks = (Err e, r', cs') -> tame e.
Proof.
  induction chunks as [|c cs IH]; intros CO s ev D es e r' cs' I A; cbn [feed]; unfold at_event in A; destruct (is_stream_signal (ev_type ev)) eqn:SG; try discriminate.
  - destruct (ev_type ev) eqn:T; try discriminate SG; try discriminate. assert (E : reader_send (RAt s ev) DNext = (Err TypeError, RDead)) by (cbn [reader_send]; unfold protocol_check; rewrite T; reflexivity). rewrite E. intros H. injection H as <- _. auto with tame.
  - destruct (Forall_inv CO) as (NE & OC). pose proof (data_sent opens s ev D es c I A OC) as X. pose proof (data_tame opens s ev D es c) as DT. destruct (reader_send (RAt s ev) (DData c)) as [[ev'|e1] r1].
    + destruct X as (s' & -> & I' & A'). exact (IH (Forall_inv_tail CO) s' ev' (D ++ c) es e r' cs' I' A').
    + intros H. injection H as <- _ _. exact (DT e1 r1 I A OC NE eq_refl).
Qed.
Lemma session_tame opens reqs : forall r chunks D es evs e, chunks_ok chunks -> rok opens r D es -> asks opens es (match r with RAt _ last => Some last | _ => None end) reqs evs ->
  session r chunks reqs = (evs, SExc e) -> tame e.
Proof.
  induction reqs as [|q qs IH]; intros r chunks D es evs e CO R A; cbn [session]; [discriminate|]. cbn [asks] in A. destruct A as (A & A').
  pose proof (next_fed opens r D es chunks q CO R A) as F. destruct (blocking_next r chunks q) as [[[ev|e1] r'] cs] eqn:BN.
  - destruct F as [(T & f & C)|(T & s & gone & -> & -> & I & AT)]; [rewrite T; discriminate|]. intros H.
    assert (E : exists evs', evs = ev :: evs' /\ session (RAt s ev) cs qs = (evs', SExc e)).
    { destruct (session (RAt s ev) cs qs) as [evs' st]. destruct (ev_type ev); try congruence; injection H as <- ->; eauto. }
    destruct E as (evs' & -> & E). apply Forall_app in CO. exact (IH (RAt s ev) cs (D ++ concat gone) (es ++ [ev]) evs' e (proj2 CO) (conj I AT) A' E).
  - intros H. injection H as _ <-. clear F. unfold blocking_next in BN. pose proof (request_sent opens r D es q R A) as X. pose proof (fun e r' => request_tame opens r D es q e r' R A) as RT. destruct (reader_send r q) as [[ev|e2] r2].
    + destruct X as (s & -> & I & AT). exact (feed_tame opens chunks CO s ev D es e1 r' cs I AT BN).
    + injection BN as <- _ _. exact (RT e2 r2 eq_refl).
Qed.

(** C52, what holds.  Octets in any pieces, read with NEXT, and with SKIP just after a container was opened: an exception is
    an IonException or a TypeError. *)
Theorem C52_exceptions_partial : forall chunks reqs evs e,
  chunks_ok chunks -> session reader_new chunks reqs = (evs, SExc e) -> skips_opened None reqs evs -> e = IonException \/ e = TypeError.
Proof.
  intros chunks reqs evs e CO H S. refine (session_tame any_unread reqs reader_new chunks [] [] evs e CO (start_rok _) _ H). clear H. revert S. change (match reader_new with RAt _ last => Some last | _ => None end) with (@None event). generalize (@None event), (@nil event). revert evs. induction reqs as [|q qs IH]; intros evs last before; cbn [skips_opened asks]; [auto|]. intros (Q & S). split.
  - destruct Q as [->|(-> & e0 & -> & T)]; cbn [asked_well]; [exact Logic.I|]. split; [right; reflexivity|]. exists e0. auto.
  - destruct evs as [|e0 es]; [exact Logic.I|apply IH; exact S].
Qed.
Print Assumptions C52_exceptions_partial.
(** With requests of any kind (SKIP later in a container too) the buffer's own IndexError can come out as well
    (C67_late_skip_refuted), but nothing else. *)
Lemma step_any s inp D es e : Read s D es -> step s inp = Err e -> tame e \/ e = IndexError.
Proof.
  intros (p0 & past & u & B & S) H. pose proof (step_errors True s inp (or_introl Logic.I)) as M. rewrite H in M. destruct M as [T|(_ & T)]; auto.
  unfold lengths_ok. destruct (r_pc s) as [| |k|]; try exact Logic.I. cbn [pc_from] in S. destruct k; cbn [need k_from] in *; lia || (destruct S as (N & _); lia).
Qed.
Lemma run_any fuel : forall s inp D es e, Read s D es -> can_take s inp -> run fuel s inp = Err e -> (tame e \/ e = IndexError) \/ e = OutOfFuel.
Proof.
  induction fuel as [|fuel IH]; intros s inp D es e R C; cbn [run]; [intros H; injection H as <-; auto|]. pose proof (step_out s inp D es R C) as K. pose proof (step_any s inp D es) as M. destruct (step s inp) as [[s' [ev|]]|e']; [discriminate| |intros H; injection H as <-; auto].
  intros H. exact (IH s' None (D ++ data_of inp) es e K Logic.I H).
Qed.
Lemma send_any r D es d e r' : reader_from r D es -> octets_in d -> d <> DData [] -> r <> RDead -> reader_send r d = (Err e, r') -> tame e \/ e = IndexError.
Proof.
  intros R O NE ND. assert (G : forall s e0, Read s D es -> can_take s (Some d) -> run (steps_fuel s (Some d)) s (Some d) = Err e0 -> tame e0 \/ e0 = IndexError).
  { intros s e0 RS C H. destruct (run_any _ _ _ _ _ _ RS C H) as [T|T]; [exact T|]. rewrite T in H. destruct (run_enough s _ H). }
  destruct r as [s|s last|]; cbn [reader_send reader_from] in *; [| |congruence].
  - destruct d; try (intros H; injection H as <- _; auto with tame). destruct (run (steps_fuel s (Some DNext)) s (Some DNext)) as [[s' ev]|e1] eqn:RR; [discriminate|]. intros H. injection H as <- _. apply (G s e1 R Logic.I RR).
  - destruct R as (R & W). destruct (protocol_check last d) as [x|e1] eqn:PC; intros H; [|injection H as <- _; left; exact (check_tame last d e1 NE PC)]. destruct (run (steps_fuel s (Some d)) s (Some d)) as [[s' ev]|e1] eqn:RR; [discriminate|]. injection H as <- _. apply (G s e1 R); [|exact RR]. destruct d as [| |x0]; try exact Logic.I. split; [exact O|]. apply W.
    unfold protocol_check in PC. destruct (is_stream_signal (ev_type last)); [reflexivity|discriminate PC].
Qed.
Lemma feed_any chunks : chunks_ok chunks -> forall s ev D es e r' cs', reader_from (RAt s ev) D (es ++ reported ev) -> feed (RAt s ev) ev chunks = (Err e, r', cs') -> tame e \/ e = IndexError.
Proof.
  induction chunks as [|c cs IH]; intros CO s ev D es e r' cs' R; cbn [feed]; destruct (is_stream_signal (ev_type ev)) eqn:SG; try discriminate.
  - destruct (ev_type ev) eqn:T; try discriminate SG; try discriminate. pose proof (fun e r' => send_any (RAt s ev) D _ DNext e r' R Logic.I ltac:(discriminate) ltac:(discriminate)) as X. destruct (reader_send (RAt s ev) DNext) as [[?|e1] r1]; intros H; [discriminate|]. injection H as <- _ _. exact (X e1 r1 eq_refl).
  - destruct (Forall_inv CO) as (NE & OC). unfold reported in R. rewrite SG, app_nil_r in R. pose proof (send_out _ D es (DData c) R OC) as S. pose proof (fun e r' => send_any (RAt s ev) D es (DData c) e r' R OC ltac:(congruence) ltac:(discriminate)) as X. destruct (reader_send (RAt s ev) (DData c)) as [[ev'|e1] r1] eqn:RS.
    + destruct (send_at _ _ _ _ RS) as (s' & ->). exact (IH (Forall_inv_tail CO) s' ev' _ es e r' cs' S).
    + intros H. injection H as <- _ _. exact (X e1 r1 eq_refl).
Qed.
Lemma feed_live chunks : forall s ev, match feed (RAt s ev) ev chunks with (Ok ev', r', _) => is_stream_signal (ev_type ev') = false -> r' <> RDead | _ => True end.
Proof.
  induction chunks as [|c cs IH]; intros s ev; cbn [feed]; destruct (is_stream_signal (ev_type ev)) eqn:SG; try discriminate.
  - destruct (ev_type ev) eqn:T; try discriminate SG; [|discriminate]. cbn [reader_send]. unfold protocol_check. rewrite T. exact Logic.I.
  - destruct (reader_send (RAt s ev) (DData c)) as [[ev'|e] r'] eqn:RS; [|exact Logic.I]. destruct (send_at _ _ _ _ RS) as (s' & ->). apply IH.
Qed.
Lemma session_any reqs : forall r chunks D es evs e, chunks_ok chunks -> reader_from r D es -> idle r -> r <> RDead -> session r chunks reqs = (evs, SExc e) -> tame e \/ e = IndexError.
Proof.
  induction reqs as [|q qs IH]; intros r chunks D es evs e CO R ID ND; cbn [session]; [discriminate|].
  assert (G : octets_in q -> data_of (Some q) = [] -> q <> DData [] -> (match blocking_next r chunks q with (Ok ev, r', cs) => match ev_type ev with EStreamEnd => ([], SEnd) | _ => let '(evs, st) := session r' cs qs in (ev :: evs, st) end | (Err e, _, _) => ([], SExc e) end) = (evs, SExc e) -> tame e \/ e = IndexError).
  { intros OI DQ NE. unfold blocking_next. pose proof (send_out r D es q R OI) as S. rewrite DQ, (app_nil_r D) in S. pose proof (fun e r' => send_any r D es q e r' R OI NE ND) as X. destruct (reader_send r q) as [[ev|e1] r'] eqn:RS; [|intros H; injection H as _ <-; exact (X e1 r' eq_refl)]. destruct (send_at _ _ _ _ RS) as (s & ->).
    pose proof (feed_out chunks CO s ev D es S) as F. pose proof (feed_idle chunks s ev) as FI. pose proof (feed_live chunks s ev) as FL. pose proof (fun e r' cs' => feed_any chunks CO s ev D es e r' cs' S) as FA. destruct (feed (RAt s ev) ev chunks) as [[[ev2|e1] r2] cs2]; [|intros H; injection H as _ <-; exact (FA e1 r2 cs2 eq_refl)]. destruct F as [T|(SG & gone & -> & F)]; [rewrite T; discriminate|].
    intros H. assert (E : exists evs', session r2 cs2 qs = (evs', SExc e)) by (destruct (session r2 cs2 qs) as [evs' st]; destruct (ev_type ev2); try discriminate H; injection H as _ ->; eauto).
    destruct E as (evs' & E). apply Forall_app in CO. exact (IH r2 cs2 _ _ evs' e (proj2 CO) F (FI SG) (FL SG) E). }
  destruct q as [| |d]; [exact (G Logic.I eq_refl ltac:(discriminate))|exact (G Logic.I eq_refl ltac:(discriminate))|]. clear G. unfold blocking_next. destruct (idle_data r d ID) as (e1 & r' & RS). rewrite RS. intros H. injection H as _ <-.
  destruct r as [s|s last|]; cbn [reader_send idle] in *; [injection RS as <- _; auto with tame| |congruence]. unfold protocol_check in RS. rewrite ID in RS. cbn [bind] in RS. injection RS as <- _. auto with tame.
Qed.
(** Octets in any pieces and requests of any kind: an exception is an IonException, a TypeError or the buffer's IndexError. *)
Theorem C52_any_requests_partial : forall chunks reqs evs e,
  chunks_ok chunks -> session reader_new chunks reqs = (evs, SExc e) -> e = IonException \/ e = TypeError \/ e = IndexError.
Proof.
  intros chunks reqs evs e CO H. destruct (session_any reqs reader_new chunks [] [] evs e CO start_from Logic.I ltac:(discriminate) H) as [[T|T]|T]; auto.
Qed.
Print Assumptions C52_any_requests_partial.
(** Each of the three is raised: a reserved type code; a stream cut short inside a struct; a SKIP after a nested
    container that was longer than the one around it (C67_late_skip_refuted). *)
Example C52_case_ion : exists evs, session reader_new [[224; 1]; [0; 234; 240]] [DNext; DNext] = (evs, SExc IonException) /\ List.length evs = 1%nat.
Proof. eexists. split; [vm_compute; reflexivity|reflexivity]. Qed.
Example C52_case_type : exists evs, session reader_new [[224; 1]; [0; 234; 214; 132; 33]] (DNext :: DNext :: DNext :: nil) = (evs, SExc TypeError) /\ List.length evs = 2%nat.
Proof. eexists. split; [vm_compute; reflexivity|reflexivity]. Qed.
Example C52_case_index : exists evs, session reader_new [[224; 1]; [0; 234; 177; 190; 128; 17]] (repeat DNext 4 ++ [DSkip; DNext; DNext]) = (evs, SExc IndexError) /\ List.length evs = 6%nat.
Proof. eexists. split; [vm_compute; reflexivity|reflexivity]. Qed.
