(** The managed reader over the binary reader: proofs. *)
From Verif Require Import Base BaseFacts CoreModel BinReaderModel BinReaderNest BinReaderSession
  SymbolsModel ManagedModel Cursor ManagedSpec.
Local Open Scope Z_scope.

(** * Signals pass through *)
Lemma signal_plain st ev st' : nest_step st ev st' -> is_stream_signal (ev_type ev) = true ->
  ev = stream_end_event \/ ev = incomplete_event.
Proof. intros H. destruct H; cbn; intros S; try discriminate; auto. Qed.
Lemma signal_step cat m ev : (ev = stream_end_event \/ ev = incomplete_event) -> mr_step cat m ev = Ok (m, None).
Proof. intros [-> | ->]; unfold mr_step; destruct (ms_proc m); reflexivity. Qed.

Section OVER.
Variable cat : catalog.

Definition mb (f fuel : nat) (mr : mreader) (d : devent) (chunks : list (list Z)) : res mevent * mreader * list (list Z) :=
  match mreader_send f cat mr d with
  | (Ok ev, r') => mfeed fuel cat r' ev chunks
  | (Err e, r') => (Err e, r', chunks)
  end.
(** What one raw event makes of the managed reader. *)
Definition takes (f' fuel : nat) (m : mstate) (ev : event) (r' : reader) (cs : list (list Z)) : res mevent * mreader * list (list Z) :=
  match mr_step cat m ev with
  | Err e => (Err e, (m, RDead), cs)
  | Ok (m', Some d') => mb f' fuel (m', r') d' cs
  | Ok (m', None) => (Ok (mkme ev (ms_table m')), (m', r'), cs)
  end.

Lemma mfeed_plain fuel mr ev cs : is_stream_signal (ev_type (me_ev ev)) = false -> mfeed fuel cat mr ev cs = (Ok ev, mr, cs).
Proof. intros H. destruct cs; cbn [mfeed]; rewrite H; reflexivity. Qed.

Lemma takes_send f fuel m r d ev r' cs : reader_send r d = (Ok ev, r') -> is_stream_signal (ev_type ev) = false ->
  mb (S f) fuel (m, r) d cs = takes f fuel m ev r' cs.
Proof.
  intros E NS. unfold mb, takes. cbn [mreader_send fst snd]. rewrite E.
  destruct (mr_step cat m ev) as [[m' [d'|]]|e]; try reflexivity. rewrite mfeed_plain by exact NS. reflexivity.
Qed.

Lemma sent r d ev r' : reader_send r d = (Ok ev, r') -> exists s, r' = RAt s ev.
Proof.
  destruct r as [s|s last|]; cbn [reader_send].
  - destruct d; try discriminate. destruct (run _ s _) as [[s' e]|e]; [|discriminate]. intros H; injection H as -> <-. eauto.
  - destruct (protocol_check last d); [|discriminate]. destruct (run _ s _) as [[s' e]|e]; [|discriminate]. intros H; injection H as -> <-. eauto.
  - discriminate.
Qed.

Definition agrees (x : res event * reader * list (list Z)) (m : mstate) (bound : nat -> Prop) (fuel : nat)
  (z : res mevent * mreader * list (list Z)) : Prop :=
  match x with
  | (Err e, _, cs) => exists mr', z = (Err e, mr', cs)
  | (Ok ev, r', cs) =>
    if is_stream_signal (ev_type ev) then exists t mr', z = (Ok (mkme stream_end_event t), mr', cs)
    else (exists st', reader_nest r' st') /\ exists f', bound f' /\ z = takes f' fuel m ev r' cs
  end.

Lemma mfeed_feed fuel m chunks : forall s ev st0 st, reader_nest (RAt s ev) st -> nest_step st0 ev st -> is_stream_signal (ev_type ev) = true ->
  agrees (feed (RAt s ev) ev chunks) m (fun f' => f' = fuel) (S fuel)
    (mfeed (S fuel) cat (m, RAt s ev) (mkme ev (ms_table m)) chunks).
Proof.
  induction chunks as [|c cs IH]; intros s ev st0 st N NS SG; cbn [feed mfeed me_ev]; rewrite SG.
  - destruct (signal_plain _ _ _ NS SG) as [-> | ->]; cbn [ev_type stream_end_event incomplete_event].
    + cbn [agrees ev_type stream_end_event is_stream_signal]. eauto.
    + assert (E : reader_send (RAt s incomplete_event) DNext = (Err TypeError, RDead)) by reflexivity.
      rewrite E. cbn [mreader_send fst snd]. rewrite E. cbn [agrees]. eauto.
  - pose proof (reader_send_nest (RAt s ev) (DData c) st N) as H.
    destruct (reader_send (RAt s ev) (DData c)) as [[ev1|e1] r1] eqn:E.
    + destruct H as (st1 & NS1 & N1). destruct (sent _ _ _ _ E) as (s1 & ->). cbn [mreader_send fst snd]. rewrite E.
      destruct (is_stream_signal (ev_type ev1)) eqn:SG1.
      * rewrite (signal_step cat m ev1 (signal_plain _ _ _ NS1 SG1)). apply (IH s1 ev1 st st1 N1 NS1 SG1).
      * rewrite feed_stop by exact SG1. cbn [agrees]. rewrite SG1. split; [eauto|]. exists fuel. split; [reflexivity|].
        unfold takes, mb. destruct (mr_step cat m ev1) as [[m' [d'|]]|e]; try reflexivity.
        rewrite mfeed_plain by exact SG1. reflexivity.
    + cbn [mreader_send fst snd]. rewrite E. cbn [agrees]. eauto.
Qed.

Lemma mb_blocking f fuel m r d chunks st : reader_nest r st ->
  agrees (blocking_next r chunks d) m (fun f' => f' = f \/ f' = fuel) (S fuel)
    (mb (S f) (S fuel) (m, r) d chunks).
Proof.
  intros N. unfold blocking_next. pose proof (reader_send_nest r d st N) as H.
  destruct (reader_send r d) as [[ev|e] r1] eqn:E.
  - destruct H as (st1 & NS1 & N1). destruct (is_stream_signal (ev_type ev)) eqn:SG.
    + destruct (sent _ _ _ _ E) as (s1 & ->). pose proof (mfeed_feed fuel m chunks s1 ev st st1 N1 NS1 SG) as F.
      unfold mb. cbn [mreader_send fst snd]. rewrite E, (signal_step cat m ev (signal_plain _ _ _ NS1 SG)).
      unfold agrees in *. destruct (feed (RAt s1 ev) ev chunks) as [[[ev2|e2] r2] cs2]; [|exact F].
      destruct (is_stream_signal (ev_type ev2)); [exact F|]. destruct F as (A & f' & -> & B). split; [exact A|]. exists fuel. auto.
    + rewrite (takes_send f (S fuel) m r d ev r1 chunks E SG). destruct (sent _ _ _ _ E) as (s1 & ->). rewrite feed_stop by exact SG.
      unfold agrees. rewrite SG. split; [eauto|]. exists f. auto.
  - unfold mb. cbn [mreader_send fst snd]. rewrite E. cbn [agrees]. eauto.
Qed.

(** * Over a cursor *)
Definition request (c : cursor event) (d : devent) : option (event * cursor event) :=
  match d with DNext => cursor_next c | DSkip => cursor_skip c | DData _ => None end.

Inductive outcome_ := Yield (u : mevent) (m : mstate) (c : cursor event) | Finish | Fail (e : exc).
Inductive runs : mstate -> cursor event -> devent -> outcome_ -> nat -> Prop :=
| runs_yield m c d ev c' m' : request c d = Some (ev, c') -> is_stream_signal (ev_type ev) = false ->
    mr_step cat m ev = Ok (m', None) -> runs m c d (Yield (mkme ev (ms_table m')) m' c') 1
| runs_more m c d ev c' m' d' o n : request c d = Some (ev, c') -> is_stream_signal (ev_type ev) = false ->
    mr_step cat m ev = Ok (m', Some d') -> runs m' c' d' o n -> runs m c d o (S n)
| runs_fail m c d ev c' e : request c d = Some (ev, c') -> is_stream_signal (ev_type ev) = false ->
    mr_step cat m ev = Err e -> runs m c d (Fail e) 1
| runs_end m c : cursor_next c = None -> runs m c DNext Finish 1.

Definition gives (o : outcome_) (x : res mevent * mreader * list (list Z)) : Prop :=
  match o with
  | Yield u m c => exists r' cs st', x = (Ok u, (m, r'), cs) /\ serves r' cs c /\ reader_nest r' st'
  | Finish => exists t mr' cs, x = (Ok (mkme stream_end_event t), mr', cs)
  | Fail e => exists mr' cs, x = (Err e, mr', cs)
  end.

Lemma runs_gives m c d o n : runs m c d o n -> forall r chunks st f fuel, serves r chunks c -> reader_nest r st ->
  (n <= f)%nat -> (n <= fuel)%nat -> gives o (mb f fuel (m, r) d chunks).
Proof.
  induction 1 as [m c d ev c' m' RQ NS ST|m c d ev c' m' d' o n RQ NS ST R IH|m c d ev c' e RQ NS ST|m c N]; intros r chunks st f fuel SV RN Lf Lfuel;
    (destruct f as [|f]; [lia|]); (destruct fuel as [|fuel]; [lia|]); pose proof (mb_blocking f fuel m r d chunks st RN) as A
    || pose proof (mb_blocking f fuel m r DNext chunks st RN) as A.
  - destruct (serves_step r chunks c d ev c' SV RQ) as (r' & cs & B & SV'); [intros E; rewrite E in NS; discriminate|].
    rewrite B in A. cbn [agrees] in A. rewrite NS in A. destruct A as ((st' & RN') & f' & _ & ->). unfold takes. rewrite ST.
    exists r', cs, st'. auto.
  - destruct (serves_step r chunks c d ev c' SV RQ) as (r' & cs & B & SV'); [intros E; rewrite E in NS; discriminate|].
    rewrite B in A. cbn [agrees] in A. rewrite NS in A. destruct A as ((st' & RN') & f' & F & ->). unfold takes. rewrite ST.
    apply (IH r' cs st' f' (S fuel)); auto; lia.
  - destruct (serves_step r chunks c d ev c' SV RQ) as (r' & cs & B & SV'); [intros E; rewrite E in NS; discriminate|].
    rewrite B in A. cbn [agrees] in A. rewrite NS in A. destruct A as ((st' & RN') & f' & _ & ->). unfold takes. rewrite ST.
    cbn [gives]. eauto.
  - destruct (serves_end r chunks c SV N) as (ev & r' & cs & B & T). rewrite B in A. cbn [agrees] in A. rewrite T in A.
    cbn [is_stream_signal] in A. destruct A as (t & mr' & ->). cbn [gives]. eauto.
Qed.

(** Steps without an answer. *)
Inductive goes : mstate -> cursor event -> devent -> mstate -> cursor event -> devent -> nat -> Prop :=
| goes_nil m c d : goes m c d m c d 0
| goes_step m c d ev c' m' d' m2 c2 d2 n : request c d = Some (ev, c') -> is_stream_signal (ev_type ev) = false ->
    mr_step cat m ev = Ok (m', Some d') -> goes m' c' d' m2 c2 d2 n -> goes m c d m2 c2 d2 (S n).
Lemma goes_runs m c d m' c' d' n o k : goes m c d m' c' d' n -> runs m' c' d' o k -> runs m c d o (n + k).
Proof. induction 1; intros R; [exact R|]. cbn [Nat.add]. eapply runs_more; eauto. Qed.
Lemma goes_app m c d m' c' d' n m2 c2 d2 k : goes m c d m' c' d' n -> goes m' c' d' m2 c2 d2 k -> goes m c d m2 c2 d2 (n + k).
Proof. induction 1; intros R; [exact R|]. cbn [Nat.add]. eapply goes_step; eauto. Qed.

(** * Shape of trees *)
Fixpoint shaped (d : Z) (t : etree event) : Prop :=
  match t with
  | Leaf e => ev_depth e = Some d /\ (ev_type e = EScalar \/ (ev_type e = EVersionMarker /\ d = 0))
  | Branch s ks f =>
    ev_type s = EContainerStart /\ ev_depth s = Some d /\
    ev_type f = EContainerEnd /\ ev_depth f = Some d /\ ev_ion_type f = ev_ion_type s /\
    (ev_ion_type s = Some TList \/ ev_ion_type s = Some TSexp \/ ev_ion_type s = Some TStruct) /\
    fold_right (fun k P => shaped (d + 1) k /\ P) True ks
  end.
Fixpoint weight (t : etree event) : nat :=
  match t with Leaf _ => 1 | Branch _ ks _ => 2 + fold_right (fun k n => weight k + n)%nat 0%nat ks end.
Definition weights (ts : list (etree event)) : nat := fold_right (fun k n => weight k + n)%nat 0%nat ts.
Lemma shaped_kids d ks : fold_right (fun k P => shaped d k /\ P) True ks <-> Forall (shaped d) ks.
Proof.
  induction ks as [|k ks IH]; cbn [fold_right]; split; intros H; auto.
  - destruct H. constructor; [assumption|]. apply IH; assumption.
  - inversion H; subst. split; [assumption|]. apply IH; assumption.
Qed.

(** * Inside a symbol table *)
Definition proc (table : symtab) (md : lmode) (syms : list (option text)) (imps : option (list symtab)) : mstate :=
  mkms table (Some (mklp md false syms imps)).

(** The run of a part either goes on to a state with [NEXT] or fails. *)
Definition part (m : mstate) (c : cursor event) (w : nat) (r : res mstate) (c' : cursor event) : Prop :=
  match r with
  | Ok m' => exists n, (n <= w)%nat /\ goes m c DNext m' c' DNext n
  | Err e => exists n, (n <= w)%nat /\ runs m c DNext (Fail e) n
  end.
Lemma part_step m c ev c1 m1 w r c' : cursor_next c = Some (ev, c1) -> is_stream_signal (ev_type ev) = false ->
  mr_step cat m ev = Ok (m1, Some DNext) -> part m1 c1 w r c' -> part m c (S w) r c'.
Proof.
  intros N NS ST P. destruct r as [m'|e]; cbn [part] in *.
  - destruct P as (n & L & G). exists (S n). split; [lia|]. eapply goes_step; eauto.
  - destruct P as (n & L & G). exists (S n). split; [lia|]. eapply runs_more; eauto.
Qed.
Lemma part_weaken m c w w' r c' : (w <= w')%nat -> part m c w r c' -> part m c w' r c'.
Proof. intros L. destruct r; cbn [part]; intros (n & A & B); exists n; split; auto; lia. Qed.
Lemma part_bind m c w1 c1 m1 w r c' : part m c w1 (Ok m1) c1 -> part m1 c1 w r c' -> part m c (w1 + w) r c'.
Proof.
  intros (n & L & G) P. destruct r as [m'|e]; cbn [part] in *; destruct P as (k & L2 & G2); exists (n + k)%nat; (split; [lia|]).
  - eapply goes_app; eauto.
  - eapply goes_runs; eauto.
Qed.
Lemma part_fail m c ev c1 e w c' : cursor_next c = Some (ev, c1) -> is_stream_signal (ev_type ev) = false ->
  mr_step cat m ev = Err e -> part m c (S w) (Err e) c'.
Proof. intros N NS ST. exists 1%nat. split; [lia|]. eapply runs_fail; eauto. Qed.
Lemma part_done m c : part m c 0 (Ok m) c.
Proof. exists 0%nat. split; [lia|constructor]. Qed.
(** A skipped container. *)
Lemma part_skip m m1 m2 s ks f r o w rr c' : is_stream_signal (ev_type s) = false -> is_stream_signal (ev_type f) = false ->
  mr_step cat m s = Ok (m1, Some DSkip) -> mr_step cat m1 f = Ok (m2, Some DNext) ->
  part m2 (mkcur r o) w rr c' -> part m (mkcur (Branch s ks f :: r) o) (S (S w)) rr c'.
Proof.
  intros A B C D P.
  assert (G : goes m (mkcur (Branch s ks f :: r) o) DNext m2 (mkcur r o) DNext 2).
  { eapply goes_step; [reflexivity|exact A|exact C|]. eapply goes_step; [reflexivity|exact B|exact D|constructor]. }
  change (S (S w)) with (2 + w)%nat. eapply part_bind; [|exact P]. exists 2%nat. split; [lia|exact G].
Qed.

Lemma lp_mr table md sk syms imps ev : is_stream_signal (ev_type ev) = false ->
  mr_step cat (mkms table (Some (mklp md sk syms imps))) ev =
  (let* r := lp_step cat table (mklp md sk syms imps) ev in
   match r with LGo d p' => Ok (mkms table (Some p'), Some d) | LDone t => Ok (mkms t None, Some DNext) end).
Proof. intros H. unfold mr_step. cbn [ms_proc ms_table]. rewrite H. reflexivity. Qed.

Lemma weights_cons t ts : weights (t :: ts) = (weight t + weights ts)%nat. Proof. reflexivity. Qed.
Lemma weight_branch s ks f : weight (Branch s ks f) = (2 + weights ks)%nat. Proof. reflexivity. Qed.

Lemma symbols_part ks : forall d table syms imps fin r o, Forall (shaped d) ks -> 1 <= d -> ev_type fin = EContainerEnd ->
  part (proc table LSymbols syms imps) (mkcur ks ((fin, r) :: o)) (S (weights ks))
       (let* ss := listed ks in Ok (proc table LTable (syms ++ ss) imps)) (mkcur r o).
Proof.
  induction ks as [|k ks IH]; intros d table syms imps fin r o SH D F.
  - cbn [listed bind weights fold_right]. rewrite app_nil_r. eapply part_step; [reflexivity|rewrite F; reflexivity| |apply part_done].
    unfold proc. rewrite lp_mr by (rewrite F; reflexivity). unfold lp_step. cbn [lp_skip lp_mode lp_symbols lp_imports]. rewrite F. reflexivity.
  - inversion SH as [|? ? S0 SS]; subst. destruct k as [e|s kk f].
    + destruct S0 as (DE & [T|[T D0]]); [|lia]. cbn [listed]. rewrite weights_cons. cbn [weight Nat.add].
      unfold has_type, head_of. destruct (ev_ion_type e) as [ty|] eqn:IT.
      * destruct (iontype_eqb ty TString) eqn:TE; cbn [opt_eqb]; rewrite TE.
        -- assert (ty = TString) by (destruct ty; try discriminate TE; reflexivity). subst ty.
           destruct (string_value e) as [sv|x] eqn:SV; cbn [bind].
           ++ eapply part_step; [reflexivity|rewrite T; reflexivity| |].
              ** unfold proc. rewrite lp_mr by (rewrite T; reflexivity). unfold lp_step. cbn [lp_skip lp_mode lp_symbols lp_imports]. rewrite T, IT, SV. reflexivity.
              ** pose proof (IH d table (syms ++ [sv]) imps fin r o SS D F) as P. destruct (listed ks) as [ss|x]; cbn [bind] in *; [|exact P].
                 rewrite <- app_assoc in P. exact P.
           ++ eapply part_fail; [reflexivity|rewrite T; reflexivity|].
              unfold proc. rewrite lp_mr by (rewrite T; reflexivity). unfold lp_step. cbn [lp_skip lp_mode lp_symbols lp_imports]. rewrite T, IT, SV. reflexivity.
        -- eapply part_step; [reflexivity|rewrite T; reflexivity| |apply (IH d); assumption].
           unfold proc. rewrite lp_mr by (rewrite T; reflexivity). unfold lp_step. cbn [lp_skip lp_mode lp_symbols lp_imports]. rewrite T, IT.
           destruct ty; try discriminate TE; reflexivity.
      * cbn [opt_eqb]. eapply part_step; [reflexivity|rewrite T; reflexivity| |apply (IH d); assumption].
        unfold proc. rewrite lp_mr by (rewrite T; reflexivity). unfold lp_step. cbn [lp_skip lp_mode lp_symbols lp_imports]. rewrite T, IT. reflexivity.
    + destruct S0 as (T & DE & TF & DF & IF & CT & KK). cbn [listed]. rewrite weights_cons, weight_branch.
      eapply (part_weaken _ _ (S (S (S (weights ks))))); [lia|]. eapply part_skip; [rewrite T; reflexivity|rewrite TF; reflexivity| | |apply (IH d); assumption].
      * unfold proc. rewrite lp_mr by (rewrite T; reflexivity). unfold lp_step. cbn [lp_skip lp_mode lp_symbols lp_imports]. rewrite T. reflexivity.
      * rewrite lp_mr by (rewrite TF; reflexivity). reflexivity.
Qed.

Ltac lstep T := unfold proc; rewrite lp_mr by (rewrite T; reflexivity); unfold lp_step; cbn [lp_skip lp_mode lp_symbols lp_imports]; rewrite T.

(** [described] field by field is what the co-routine does. *)
Lemma described_field table d e : desc_field table d e =
  match ev_field e with
  | None => Err AttributeError
  | Some f =>
    let* n := resolve_token table f in
    if is_text (tk_text n) TEXT_NAME && has_type (Leaf e) TString
    then let* s := string_value e in Ok (mkdesc s (desc_version d) (desc_max d))
    else if is_text (tk_text n) TEXT_VERSION && has_type (Leaf e) TInt
    then let* v := int_value e in Ok (mkdesc (desc_name d) v (desc_max d))
    else if is_text (tk_text n) TEXT_MAX_ID && has_type (Leaf e) TInt
    then let* v := int_value e in Ok (mkdesc (desc_name d) (desc_version d) v)
    else Ok d
  end.
Proof.
  unfold desc_field. destruct (ev_field e) as [f|]; [|reflexivity]. destruct (resolve_token table f) as [n|x]; [|reflexivity]. cbn [bind].
  unfold has_type, head_of. destruct (ev_ion_type e) as [ty|]; cbn [opt_eqb].
  - destruct ty; cbn [iontype_eqb iontype_num Z.eqb Pos.eqb]; rewrite ?andb_false_r, ?andb_true_r;
      repeat match goal with |- context [if ?b then _ else _] => destruct b end; reflexivity.
  - rewrite !andb_false_r. reflexivity.
Qed.

Lemma described_cons table d e ks : described table d (Leaf e :: ks) = let* d' := desc_field table d e in described table d' ks.
Proof.
  cbn [described]. rewrite described_field. destruct (ev_field e) as [f|]; [|reflexivity].
  destruct (resolve_token table f) as [n|x]; reflexivity.
Qed.

Lemma desc_part ks : forall d table desc syms imps fin r o, Forall (shaped d) ks -> 1 <= d -> ev_type fin = EContainerEnd ->
  part (proc table (LDesc desc) syms (Some imps)) (mkcur ks ((fin, r) :: o)) (S (weights ks))
       (let* dd := described table desc ks in let* ts := import_table cat dd in Ok (proc table LImports syms (Some (imps ++ ts)))) (mkcur r o).
Proof.
  induction ks as [|k ks IH]; intros d table desc syms imps fin r o SH D F.
  - cbn [described bind weights fold_right]. destruct (import_table cat desc) as [ts|x] eqn:IM; cbn [bind].
    + eapply part_step; [reflexivity|rewrite F; reflexivity| |apply part_done]. lstep F. rewrite IM. reflexivity.
    + eapply part_fail; [reflexivity|rewrite F; reflexivity|]. lstep F. rewrite IM. reflexivity.
  - inversion SH as [|? ? S0 SS]; subst. rewrite weights_cons. destruct k as [e|s kk f].
    + destruct S0 as (DE & [T|[T D0]]); [|lia]. rewrite described_cons. cbn [weight Nat.add].
      destruct (desc_field table desc e) as [d'|x] eqn:DFE; cbn [bind].
      * eapply part_step; [reflexivity|rewrite T; reflexivity| |apply (IH d); assumption]. lstep T. rewrite DFE. reflexivity.
      * eapply part_fail; [reflexivity|rewrite T; reflexivity|]. lstep T. rewrite DFE. reflexivity.
    + destruct S0 as (T & DE & TF & DF & IF & CT & KK). cbn [described]. rewrite weight_branch.
      eapply (part_weaken _ _ (S (S (S (weights ks))))); [lia|].
      eapply part_skip; [rewrite T; reflexivity|rewrite TF; reflexivity| | |apply (IH d); assumption].
      * lstep T. reflexivity.
      * rewrite lp_mr by (rewrite TF; reflexivity). reflexivity.
Qed.

Lemma bind_assoc {A B C} (x : res A) (f : A -> res B) (g : B -> res C) : bind (bind x f) g = bind x (fun a => bind (f a) g).
Proof. destruct x; reflexivity. Qed.

Lemma part_then m c w1 c1 x w r c' : part m c w1 x c1 -> (forall m1, x = Ok m1 -> part m1 c1 w (r m1) c') ->
  part m c (w1 + w) (let* m1 := x in r m1) c'.
Proof.
  intros P Q. destruct x as [m1|e]; cbn [bind].
  - eapply part_bind; [exact P|]. apply Q. reflexivity.
  - destruct P as (n & L & G). exists n. split; [lia|exact G].
Qed.

Lemma imports_part ks : forall d table syms imps fin r o, Forall (shaped d) ks -> 1 <= d -> ev_type fin = EContainerEnd ->
  part (proc table LImports syms (Some imps)) (mkcur ks ((fin, r) :: o)) (S (weights ks))
       (let* ts := imported cat table ks in Ok (proc table LTable syms (Some (imps ++ ts)))) (mkcur r o).
Proof.
  induction ks as [|k ks IH]; intros d table syms imps fin r o SH D F.
  - cbn [imported bind weights fold_right]. rewrite app_nil_r. eapply part_step; [reflexivity|rewrite F; reflexivity| |apply part_done].
    lstep F. reflexivity.
  - inversion SH as [|? ? S0 SS]; subst. rewrite weights_cons. destruct k as [e|s kk f].
    + destruct S0 as (DE & [T|[T D0]]); [|lia]. cbn [imported weight Nat.add].
      eapply part_step; [reflexivity|rewrite T; reflexivity| |apply (IH d); assumption]. lstep T. reflexivity.
    + destruct S0 as (T & DE & TF & DF & IF & CT & KK). apply shaped_kids in KK. cbn [imported]. rewrite weight_branch.
      unfold has_type, head_of. destruct (opt_eqb iontype_eqb (ev_ion_type s) (Some TStruct)) eqn:HT.
      * assert (IT : ev_ion_type s = Some TStruct) by (destruct CT as [E|[E|E]]; rewrite E in HT; try discriminate HT; exact E).
        eapply (part_weaken _ _ (S (S (weights kk) + S (weights ks)))); [lia|].
        eapply part_step; [reflexivity|rewrite T; reflexivity|lstep T; rewrite IT; reflexivity|].
        assert (E : (let* ts := (let* dd := described table desc_new kk in let* ts := import_table cat dd in let* rest := imported cat table ks in Ok (ts ++ rest)) in
                     Ok (proc table LTable syms (Some (imps ++ ts)))) =
                    (let* m1 := (let* dd := described table desc_new kk in let* ts := import_table cat dd in Ok (proc table LImports syms (Some (imps ++ ts)))) in
                     match m1 with
                     | mkms _ (Some (mklp _ _ _ (Some l))) => let* rest := imported cat table ks in Ok (proc table LTable syms (Some (l ++ rest)))
                     | _ => Err OutOfFuel end)).
        { destruct (described table desc_new kk) as [dd|x]; [|reflexivity]. cbn [bind]. destruct (import_table cat dd) as [ts|x]; [|reflexivity]. cbn [bind proc].
          destruct (imported cat table ks); [|reflexivity]. cbn [bind]. rewrite app_assoc. reflexivity. }
        rewrite E. eapply part_then; [eapply (desc_part kk (d + 1)); [exact KK|lia|exact TF]|].
        intros m1 M1. destruct (described table desc_new kk) as [dd|x]; [|discriminate]. cbn [bind] in M1.
        destruct (import_table cat dd) as [ts|x]; [|discriminate]. injection M1 as <-. cbn [proc]. apply (IH d); assumption.
      * eapply (part_weaken _ _ (S (S (S (weights ks))))); [lia|].
        eapply part_skip; [rewrite T; reflexivity|rewrite TF; reflexivity| | |apply (IH d); assumption].
        -- lstep T. destruct (ev_ion_type s) as [ty|]; [|reflexivity]. destruct ty; try reflexivity. discriminate HT.
        -- rewrite lp_mr by (rewrite TF; reflexivity). reflexivity.
Qed.

Lemma name_in_field table t : name_in table t = field_text table (head_of t). Proof. reflexivity. Qed.

Lemma table_part ks : forall d table syms imps fin r o, Forall (shaped d) ks -> 1 <= d -> ev_type fin = EContainerEnd ->
  part (proc table LTable syms imps) (mkcur ks ((fin, r) :: o)) (S (weights ks))
       (let* t := declared cat table syms imps ks in Ok (mkms t None)) (mkcur r o).
Proof.
  induction ks as [|k ks IH]; intros d table syms imps fin r o SH D F.
  - cbn [declared weights fold_right]. destruct (st_new LocalTable syms None None imps false) as [t|x] eqn:NW; cbn [bind].
    + eapply part_step; [reflexivity|rewrite F; reflexivity| |apply part_done]. lstep F. rewrite NW. reflexivity.
    + eapply part_fail; [reflexivity|rewrite F; reflexivity|]. lstep F. rewrite NW. reflexivity.
  - inversion SH as [|? ? S0 SS]; subst. rewrite weights_cons. cbn [declared]. rewrite name_in_field.
    destruct k as [e|s kk f]; cbn [head_of].
    + destruct S0 as (DE & [T|[T D0]]); [|lia]. cbn [weight Nat.add].
      destruct (field_text table e) as [n|x] eqn:FT; cbn [bind].
      2:{ eapply part_fail; [reflexivity|rewrite T; reflexivity|]. lstep T. rewrite FT. reflexivity. }
      unfold has_type, head_of. destruct (opt_eqb iontype_eqb (ev_ion_type e) (Some TSymbol)) eqn:HT; rewrite ?andb_true_r, ?andb_false_r.
      * assert (IT : ev_ion_type e = Some TSymbol) by (destruct (ev_ion_type e) as [ty|]; [destruct ty; try discriminate HT; reflexivity|discriminate]).
        destruct (is_text n TEXT_IMPORTS) eqn:NI.
        -- destruct (symbol_value e) as [[tok|]|x] eqn:SV; cbn [bind].
           ++ destruct (resolve_token table tok) as [rt|x] eqn:RT; cbn [bind].
              ** destruct (is_text (tk_text rt) TEXT_ION_SYMBOL_TABLE) eqn:IS;
                   (eapply part_step; [reflexivity|rewrite T; reflexivity| |apply (IH d); assumption]; lstep T; rewrite FT; cbn [bind]; rewrite IT, NI, SV;
                    cbn [bind]; rewrite RT; cbn [bind]; rewrite IS; reflexivity).
              ** eapply part_fail; [reflexivity|rewrite T; reflexivity|]. lstep T. rewrite FT; cbn [bind]. rewrite IT, NI, SV; cbn [bind]. rewrite RT. reflexivity.
           ++ eapply part_fail; [reflexivity|rewrite T; reflexivity|]. lstep T. rewrite FT; cbn [bind]. rewrite IT, NI, SV. reflexivity.
           ++ eapply part_fail; [reflexivity|rewrite T; reflexivity|]. lstep T. rewrite FT; cbn [bind]. rewrite IT, NI, SV. reflexivity.
        -- eapply part_step; [reflexivity|rewrite T; reflexivity| |apply (IH d); assumption]. lstep T. rewrite FT; cbn [bind]. rewrite IT, NI. reflexivity.
      * eapply part_step; [reflexivity|rewrite T; reflexivity| |apply (IH d); assumption]. lstep T. rewrite FT; cbn [bind].
        destruct (ev_ion_type e) as [ty|]; [|reflexivity]. destruct ty; try reflexivity. discriminate HT.
    + destruct S0 as (T & DE & TF & DF & IF & CT & KK). apply shaped_kids in KK. rewrite weight_branch.
      destruct (field_text table s) as [n|x] eqn:FT; cbn [bind].
      2:{ eapply part_fail; [reflexivity|rewrite T; reflexivity|]. lstep T. rewrite FT. reflexivity. }
      unfold has_type, head_of. destruct (opt_eqb iontype_eqb (ev_ion_type s) (Some TList)) eqn:HT; rewrite ?andb_true_r, ?andb_false_r.
      * assert (IT : ev_ion_type s = Some TList) by (destruct CT as [E|[E|E]]; rewrite E in HT; try discriminate HT; exact E).
        destruct (is_text n TEXT_SYMBOLS) eqn:NS.
        -- eapply (part_weaken _ _ (S (S (weights kk) + S (weights ks)))); [lia|].
           eapply part_step; [reflexivity|rewrite T; reflexivity|lstep T; rewrite FT; cbn [bind]; rewrite IT, NS; reflexivity|].
           assert (E : (let* t := (let* ss := listed kk in declared cat table (syms ++ ss) imps ks) in Ok (mkms t None)) =
                       (let* m1 := (let* ss := listed kk in Ok (proc table LTable (syms ++ ss) imps)) in
                        match m1 with mkms _ (Some (mklp _ _ ss _)) => let* t := declared cat table ss imps ks in Ok (mkms t None) | _ => Err OutOfFuel end))
             by (destruct (listed kk); reflexivity).
           rewrite E. eapply part_then; [eapply (symbols_part kk (d + 1)); [exact KK|lia|exact TF]|].
           intros m1 M1. destruct (listed kk) as [ss|x]; [|discriminate]. injection M1 as <-. cbn [proc]. apply (IH d); assumption.
        -- destruct (is_text n TEXT_IMPORTS) eqn:NI.
           ++ eapply (part_weaken _ _ (S (S (weights kk) + S (weights ks)))); [lia|].
              eapply part_step; [reflexivity|rewrite T; reflexivity|lstep T; rewrite FT; cbn [bind]; rewrite IT, NS, NI; reflexivity|].
              assert (E : (let* t := (let* ts := imported cat table kk in declared cat table syms (Some ts) ks) in Ok (mkms t None)) =
                          (let* m1 := (let* ts := imported cat table kk in Ok (proc table LTable syms (Some ([] ++ ts)))) in
                           match m1 with mkms _ (Some (mklp _ _ _ l)) => let* t := declared cat table syms l ks in Ok (mkms t None) | _ => Err OutOfFuel end))
                by (destruct (imported cat table kk); reflexivity).
              rewrite E. eapply part_then; [eapply (imports_part kk (d + 1)); [exact KK|lia|exact TF]|].
              intros m1 M1. destruct (imported cat table kk) as [ts|x]; [|discriminate]. injection M1 as <-. cbn [proc app]. apply (IH d); assumption.
           ++ eapply (part_weaken _ _ (S (S (S (weights ks))))); [lia|].
              eapply part_skip; [rewrite T; reflexivity|rewrite TF; reflexivity| | |apply (IH d); assumption].
              ** lstep T. rewrite FT; cbn [bind]. rewrite IT, NS, NI. reflexivity.
              ** rewrite lp_mr by (rewrite TF; reflexivity). reflexivity.
      * eapply (part_weaken _ _ (S (S (S (weights ks))))); [lia|].
        eapply part_skip; [rewrite T; reflexivity|rewrite TF; reflexivity| | |apply (IH d); assumption].
        -- lstep T. rewrite FT; cbn [bind]. destruct (ev_ion_type s) as [ty|]; [|reflexivity]. destruct ty; try reflexivity. discriminate HT.
        -- rewrite lp_mr by (rewrite TF; reflexivity). reflexivity.
Qed.
End OVER.
