(** C75: [load] and [loads] of any text, in any pieces: when the call ends it returns values or raises one of eleven
    exceptions. *)
From Coq Require Import String.
From Verif Require Import Base BaseFacts CoreModel BinWriterModel BinReaderModel SymbolsModel SymbolsProofs ManagedModel MultimapModel SimpleionModel TextReaderModel TextReaderFacts TextReaderErrors TextReaderTrace TextValueModel TextValuesKept Props_BinLoadErrors.
Local Open Scope Z_scope.
Local Open Scope list_scope.

(** * Specification *)
(** The exceptions. *)
Definition text_load_exception (e : exc) : Prop :=
  match e with
  | IonException | CannotSubstituteTable | TypeError | ValueError | AttributeError | AssertionError | KeyError | OverflowError
  | UnicodeDecodeError | StructError | DecimalException => True
  | IndexError | UnicodeEncodeError | StopIteration | OutOfFuel => False
  end.

(** * Proofs *)
Definition listed {A} (r : res A) : Prop := match r with Ok _ => True | Err e => text_load_exception e end.
Lemma listed_bind {A B} (r : res A) (f : A -> res B) : listed r -> (forall a, r = Ok a -> listed (f a)) -> listed (let* a := r in f a).
Proof. destruct r as [a|e]; cbn; auto. Qed.
Lemma of_within {A} (r : res A) : within r -> listed r.
Proof. destruct r as [a|e]; cbn; auto. destruct e; cbn; auto. Qed.
Lemma of_known e : known_exception e -> text_load_exception e.
Proof. unfold known_exception. cbn. intros H. repeat (destruct H as [<-|H]; [exact Logic.I|]). destruct H. Qed.
Lemma listed_force e : kept e -> listed (ev_force (ev_value e)).
Proof.
  unfold kept. destruct (ev_value e) as [|s|k d|r|a b]; cbn [ev_force]; try (intros _; exact Logic.I); [contradiction|].
  intros (_ & t & _ & K). destruct r as [s|x]; cbn in *; [exact Logic.I|]. destruct x; try contradiction; exact Logic.I.
Qed.
Lemma listed_string e : kept e -> listed (string_value e).
Proof. intros P. unfold string_value. apply listed_bind; [apply listed_force; exact P|]. intros [[]|] _; exact Logic.I. Qed.
Lemma listed_integer e : kept e -> listed (int_value e).
Proof. intros P. unfold int_value. apply listed_bind; [apply listed_force; exact P|]. intros [[]|] _; exact Logic.I. Qed.
Lemma listed_symbol e : kept e -> listed (symbol_value e).
Proof. intros P. unfold symbol_value. apply listed_bind; [apply listed_force; exact P|]. intros [[]|] _; exact Logic.I. Qed.
Lemma listed_token t k : listed (resolve_token t k). Proof. apply of_within, within_token. Qed.
Lemma listed_desc table d e : kept e -> listed (desc_field table d e).
Proof.
  intros P. unfold desc_field. destruct (ev_field e); [|exact Logic.I]. apply listed_bind; [apply listed_token|]. intros tk _. destruct (ev_ion_type e) as [[]|]; try exact Logic.I.
  - destruct (ManagedModel.is_text _ _); [apply listed_bind; [apply listed_integer; exact P|intros; exact Logic.I]|]. destruct (ManagedModel.is_text _ _); [apply listed_bind; [apply listed_integer; exact P|intros; exact Logic.I]|exact Logic.I].
  - destruct (ManagedModel.is_text _ _); [apply listed_bind; [apply listed_string; exact P|intros; exact Logic.I]|exact Logic.I].
Qed.
Lemma listed_table ty symbols name version imports sub : listed (st_new ty symbols name version imports sub).
Proof. apply of_within, within_table. Qed.
Lemma listed_lp cat table p e : no_empty_name cat -> kept e -> listed (lp_step cat table p e).
Proof.
  intros N P. unfold lp_step. cbv zeta. destruct (lp_skip p); [exact Logic.I|].
  assert (FT : listed (field_text table e)) by (unfold field_text; destruct (ev_field e); [apply listed_bind; [apply listed_token|intros; exact Logic.I]|exact Logic.I]).
  assert (IM : forall d, listed (import_table cat d)).
  { intros d. unfold import_table. destruct (desc_name d); [|exact Logic.I]. destruct (desc_version d); [|exact Logic.I]. apply listed_bind; [apply of_within, within_resolve; exact N|intros; exact Logic.I]. }
  destruct (lp_mode p) as [| | |dd]; destruct (ev_type e);
  repeat first [exact Logic.I | apply listed_string; exact P | apply listed_integer; exact P | apply listed_symbol; exact P | apply listed_desc; exact P | apply listed_token | apply listed_table | exact FT | apply IM
    | match goal with
      | |- listed (bind _ _) => apply listed_bind; [|intros ? ?]
      | |- listed (match ?x with _ => _ end) => destruct x
      end ].
Qed.
Lemma listed_mr cat m e : no_empty_name cat -> kept e -> listed (mr_step cat m e).
Proof.
  intros N P. unfold mr_step. destruct (ms_proc m) as [p|].
  - destruct (is_stream_signal _); [exact Logic.I|]. apply listed_bind; [apply listed_lp; assumption|]. intros [] _; exact Logic.I.
  - repeat first [exact Logic.I | apply listed_symbol; exact P | apply listed_token
    | match goal with
      | |- listed (bind _ _) => apply listed_bind; [|intros ? ?]
      | |- listed (match ?x with _ => _ end) => destruct x
      end ].
Qed.

(** ** The text reader *)
Definition answer_exception (e : exc) : Prop := text_load_exception e \/ e = OutOfFuel.
Lemma skip_step_listed uni r d e : skip_step uni r d = Err e -> answer_exception e.
Proof.
  unfold skip_step. cbv zeta. pose proof (safe_delegate uni (tr_core r) (tr_q r) d) as S. destruct (delegate _ _ _ _) as [[[s q] ev]|x]; cbn [bind].
  - intros H. repeat match type of H with
    | (if ?b then _ else _) = _ => destruct b
    | (match ?b with _ => _ end) = _ => destruct b
    | Ok _ = _ => discriminate
    | Err _ = Err _ => injection H as <-
    end; first [left; exact Logic.I|right; reflexivity].
  - intros [= <-]. left. exact (of_known _ S).
Qed.
Lemma run_listed uni : forall n r d e, run n uni r d = Err e -> answer_exception e.
Proof.
  induction n as [|n IH]; intros r d e; cbn [run]; [intros [= <-]; right; reflexivity|]. destruct (skip_step uni r d) as [[r1 [ev|]]|x] eqn:E; [discriminate|apply IH|]. intros [= <-]. exact (skip_step_listed _ _ _ _ E).
Qed.
Lemma check_listed last d e : text_protocol_check last d = Err e -> text_load_exception e.
Proof.
  unfold text_protocol_check. intros H. repeat match type of H with
    | (bind ?x _) = _ => destruct x eqn:?; cbn [bind] in H
    | (if ?b then _ else _) = _ => destruct b
    | (match ?b with _ => _ end) = _ => destruct b
    | Ok _ = _ => discriminate
    | Err _ = Err _ => injection H as <-
    end; try exact Logic.I.
  all: repeat match goal with
    | E : (if ?b then _ else _) = Err _ |- _ => destruct b
    | E : (match ?b with _ => _ end) = Err _ |- _ => destruct b
    | E : Ok _ = Err _ |- _ => discriminate E
    | E : Err _ = Err _ |- _ => injection E as <-
    end; exact Logic.I.
Qed.
Definition alive (t : treader) : Prop := match t with TDead => False | _ => keeping t end.
Lemma send_listed uni t d : alive t -> match text_send uni t d with (Ok e, t') => alive t' /\ kept e | (Err e, _) => answer_exception e end.
Proof.
  intros A. assert (K : keeping t) by (destruct t; [exact A|exact A|exact Logic.I]). destruct (text_send uni t d) as [x t'] eqn:E. destruct (keeping_send _ _ _ _ _ K E) as (K' & X).
  unfold text_send in E. cbv zeta in E.
  assert (GO : forall r, match run (steps_fuel r (Some d)) uni r (Some d) with Ok (r', ev) => (Ok ev, TAt r' ev) | Err e => (Err e, TDead) end = (x, t') -> match x with Ok e => alive t' /\ kept e | Err e => answer_exception e end).
  { intros r G. destruct (run _ _ _ _) as [[r' ev]|e] eqn:R; injection G as <- <-; [split; [exact K'|exact X]|exact (run_listed _ _ _ _ _ R)]. }
  destruct t as [r|r la|]; [| |contradiction].
  - destruct d; [exact (GO r E)| |]; injection E as <- <-; left; exact Logic.I.
  - destruct (text_protocol_check la d) eqn:P; [exact (GO r E)|]. injection E as <- <-. left. exact (check_listed _ _ _ P).
Qed.

(** ** The managed reader *)
Section Managed.
Variables (uni : bool) (cat : catalog).
Hypothesis NC : no_empty_name cat.
Definition told (x : res mevent * tmreader) : Prop := match x with (Ok u, mr) => alive (snd mr) /\ kept (me_ev u) | (Err e, _) => answer_exception e end.
Lemma msend_told fuel : forall mr d, alive (snd mr) -> told (tmreader_send fuel uni cat mr d).
Proof.
  induction fuel as [|f IH]; intros mr d A; cbn [tmreader_send]; [right; reflexivity|]. pose proof (send_listed uni (snd mr) d A) as S. destruct (text_send uni (snd mr) d) as [[ev|e] r']; [|exact S].
  destruct S as (A' & K). pose proof (listed_mr cat (fst mr) ev NC K) as L. destruct (mr_step cat (fst mr) ev) as [[m' [d'|]]|e]; [apply IH; exact A'|split; [exact A'|exact K]|left; exact L].
Qed.
Lemma drain_told fuel : forall n mr ev, alive (snd mr) -> kept (me_ev ev) -> told (tm_drain n fuel uni cat mr ev).
Proof.
  induction n as [|n IH]; intros mr ev A K; cbn [tm_drain]; (destruct (is_stream_signal _); [|split; assumption]); destruct (ev_type (me_ev ev)); try (split; [exact A|exact Logic.I]); [right; reflexivity|].
  pose proof (msend_told fuel mr DNext A) as S. destruct (tmreader_send fuel uni cat mr DNext) as [[u|e] mr']; [|exact S]. destruct S as (A' & K'). now apply IH.
Qed.
Lemma feed_told fuel : forall cs mr ev, alive (snd mr) -> kept (me_ev ev) -> let '(x, mr', _) := tm_feed fuel uni cat mr ev cs in told (x, mr').
Proof.
  induction cs as [|c cs IH]; intros mr ev A K; cbn [tm_feed]; (destruct (is_stream_signal _); [|split; assumption]).
  - pose proof (drain_told fuel fuel mr ev A K) as S. destruct (tm_drain fuel fuel uni cat mr ev) as [x t']. exact S.
  - pose proof (msend_told fuel mr (DData c) A) as S. destruct (tmreader_send fuel uni cat mr (DData c)) as [[u|e] mr']; [|exact S]. destruct S as (A' & K'). now apply IH.
Qed.
Definition next_told (r : res (mevent * text_feeder)) : Prop := match r with Ok (u, s) => alive (snd (fst s)) /\ kept (me_ev u) | Err e => answer_exception e end.
Lemma next_says fuel s : alive (snd (fst s)) -> next_told (text_feeder_next fuel uni cat s).
Proof.
  intros A. unfold text_feeder_next, tm_next. destruct s as [mr cs]. cbn [fst snd] in *. pose proof (msend_told fuel mr DNext A) as S. destruct (tmreader_send fuel uni cat mr DNext) as [[u|e] mr']; [|exact S]. destruct S as (A' & K').
  pose proof (feed_told fuel cs mr' u A' K') as F. destruct (tm_feed fuel uni cat mr' u cs) as [[[u2|e] r2] cs2]; exact F.
Qed.

(** ** Loading *)
Lemma listed_scalar u : kept (me_ev u) -> listed (load_scalar u).
Proof.
  intros P. unfold load_scalar. apply listed_bind.
  - unfold me_value. apply listed_bind; [apply listed_force; exact P|]. intros v _. destruct (ev_ion_type (me_ev u)) as [[]|]; try exact Logic.I. destruct v as [[]|]; try exact Logic.I. apply listed_bind; [apply listed_token|intros; exact Logic.I].
  - assert (TK : listed (me_annotations u)) by (apply of_within, within_tokens).
    intros v _. apply listed_bind; [destruct (ev_ion_type (me_ev u)); exact Logic.I|]. intros t _. destruct v as [s|].
    + destruct (_ || _); [apply listed_bind; [exact TK|intros; exact Logic.I]|]. apply listed_bind; [|intros; apply listed_bind; [exact TK|intros; exact Logic.I]].
      unfold py_scalar. destruct t; try exact Logic.I. destruct s; try exact Logic.I. destruct t; (apply listed_bind; [apply of_within, within_stamp|intros; exact Logic.I]).
    + apply listed_bind; [exact TK|intros; exact Logic.I].
Qed.
Definition load_told {A} (r : res (A * text_feeder)) : Prop := match r with Ok (_, s) => alive (snd (fst s)) | Err e => answer_exception e end.
Lemma load_says fuel : forall g s until out, alive (snd (fst s)) -> load_told (load_into g (text_feeder_next fuel uni cat) s until out).
Proof.
  induction g as [|g IH]; intros s until out A; cbn [load_into]; [right; reflexivity|]. pose proof (next_says fuel s A) as N. destruct (text_feeder_next fuel uni cat s) as [[u s1]|e]; [|exact N]. destruct N as (A1 & K). cbn [bind].
  destruct (is_until (ev_type (me_ev u)) until); [exact A1|].
  destruct (ev_type (me_ev u)) eqn:T; try (apply IH; exact A1).
  - pose proof (listed_scalar u K) as W. destruct (load_scalar u) as [v|e]; [|left; exact W]. cbn [bind]. pose proof (of_within _ (within_add out u v)) as W2. destruct (target_add out u v) as [o|e]; [|left; exact W2]. cbn [bind]. apply IH; exact A1.
  - destruct (ev_ion_type (me_ev u)) as [t|]; [|left; exact Logic.I]. cbn [bind]. pose proof (of_within _ (within_tokens (me_table u) (ev_annot (me_ev u)))) as W. fold (me_annotations u) in W. destruct (me_annotations u) as [an|e]; [|left; exact W]. cbn [bind].
    pose proof (IH s1 EContainerEnd (target_new t) A1) as LI. destruct (load_into g (text_feeder_next fuel uni cat) s1 EContainerEnd (target_new t)) as [[inner s2]|e]; [|exact LI]. cbn [bind load_told] in *.
    pose proof (of_within _ (within_add out u (target_value t an inner))) as W2. destruct (target_add out u _) as [o|e]; [|left; exact W2]. cbn [bind]. apply IH; exact LI.
Qed.
End Managed.

(** ** More steps give the same answer *)
Definition settled {A} (r : res A) : Prop := r <> Err OutOfFuel.
Lemma settled_as {A} B e : settled (@Err A e) -> settled (@Err B e).
Proof. intros H E. apply H. congruence. Qed.
Lemma msend_more uni cat f : forall f' mr d, (f <= f')%nat -> settled (fst (tmreader_send f uni cat mr d)) -> tmreader_send f' uni cat mr d = tmreader_send f uni cat mr d.
Proof.
  induction f as [|f IH]; intros f' mr d L H; [cbn in H; contradiction H; reflexivity|]. destruct f' as [|f']; [lia|]. cbn [tmreader_send] in *.
  destruct (text_send uni (snd mr) d) as [[ev|e] r']; [|reflexivity]. destruct (mr_step cat (fst mr) ev) as [[m' [d'|]]|e]; [|reflexivity|reflexivity]. apply IH; [lia|exact H].
Qed.
Lemma drain_more uni cat f f' : (f <= f')%nat -> forall n n' mr ev, (n <= n')%nat -> settled (fst (tm_drain n f uni cat mr ev)) -> tm_drain n' f' uni cat mr ev = tm_drain n f uni cat mr ev.
Proof.
  intros LF. induction n as [|n IH]; intros n' mr ev L H; destruct n' as [|n']; try lia; cbn [tm_drain] in *; (destruct (is_stream_signal _); [|reflexivity]); destruct (ev_type (me_ev ev)); try reflexivity; try (exfalso; apply H; reflexivity).
  destruct (tmreader_send f uni cat mr DNext) as [[u|e] mr'] eqn:E.
  - rewrite (msend_more uni cat f f' mr DNext LF) by (rewrite E; discriminate). rewrite E. apply IH; [lia|exact H].
  - rewrite (msend_more uni cat f f' mr DNext LF) by (rewrite E; exact H). rewrite E. reflexivity.
Qed.
Lemma feed_more uni cat f f' : (f <= f')%nat -> forall cs mr ev, settled (fst (fst (tm_feed f uni cat mr ev cs))) -> tm_feed f' uni cat mr ev cs = tm_feed f uni cat mr ev cs.
Proof.
  intros LF. induction cs as [|c cs IH]; intros mr ev H; cbn [tm_feed] in *; (destruct (is_stream_signal _); [|reflexivity]).
  - destruct (tm_drain f f uni cat mr ev) as [x t'] eqn:E. rewrite (drain_more uni cat f f' LF f f' mr ev LF) by (rewrite E; exact H). rewrite E. reflexivity.
  - destruct (tmreader_send f uni cat mr (DData c)) as [[u|e] mr'] eqn:E.
    + rewrite (msend_more uni cat f f' mr _ LF) by (rewrite E; discriminate). rewrite E. apply IH. exact H.
    + rewrite (msend_more uni cat f f' mr _ LF) by (rewrite E; exact H). rewrite E. reflexivity.
Qed.
Lemma next_more uni cat f f' s : (f <= f')%nat -> settled (text_feeder_next f uni cat s) -> text_feeder_next f' uni cat s = text_feeder_next f uni cat s.
Proof.
  intros LF H. unfold text_feeder_next, tm_next in *. destruct s as [mr cs]. cbn [fst snd] in *. destruct (tmreader_send f uni cat mr DNext) as [[u|e] mr'] eqn:E.
  - rewrite (msend_more uni cat f f' mr _ LF) by (rewrite E; discriminate). rewrite E. rewrite (feed_more uni cat f f' LF cs mr' u); [reflexivity|]. destruct (tm_feed f uni cat mr' u cs) as [[[u2|e] r2] cs2]; [discriminate|exact (settled_as _ _ H)].
  - rewrite (msend_more uni cat f f' mr _ LF) by (rewrite E; exact (settled_as _ _ H)). rewrite E. reflexivity.
Qed.
Lemma load_more {F} (next next' : F -> res (mevent * F)) : (forall s, settled (next s) -> next' s = next s) -> forall g g' s until out, (g <= g')%nat -> settled (load_into g next s until out) -> load_into g' next' s until out = load_into g next s until out.
Proof.
  intros NX. induction g as [|g IH]; intros g' s until out L H; [cbn in H; contradiction H; reflexivity|]. destruct g' as [|g']; [lia|]. cbn [load_into] in *.
  destruct (next s) as [[u s1]|e] eqn:E; (rewrite (NX s) by (rewrite E; first [discriminate|exact (settled_as _ _ H)])); rewrite E; [|reflexivity]. cbn [bind] in *.
  destruct (is_until _ _); [reflexivity|]. destruct (ev_type (me_ev u)); try (apply IH; [lia|exact H]).
  - destruct (load_scalar u); [|reflexivity]. cbn [bind] in *. destruct (target_add out u _); [|reflexivity]. cbn [bind] in *. apply IH; [lia|exact H].
  - destruct (match ev_ion_type (me_ev u) with Some t => Ok t | None => Err TypeError end) as [t|]; [|reflexivity]. cbn [bind] in *. destruct (me_annotations u) as [an|]; [|reflexivity]. cbn [bind] in *.
    destruct (load_into g next s1 EContainerEnd (target_new t)) as [[inner s2]|e] eqn:E1.
    + rewrite (IH g' s1 _ _ ltac:(lia)) by (rewrite E1; discriminate). rewrite E1. cbn [bind] in *. destruct (target_add out u _); [|reflexivity]. cbn [bind] in *. apply IH; [lia|exact H].
    + rewrite (IH g' s1 _ _ ltac:(lia)) by (rewrite E1; exact (settled_as _ _ H)). rewrite E1. reflexivity.
Qed.

(** * The theorems *)
(** [fuel] is a number of steps; OutOfFuel: the call has not ended within them.  Text is what [load] reads from a text
    stream, or from octets that do not start with the binary version marker. *)
Definition read_as_text (src : source) (cs : list (list Z)) : Prop :=
  match src with OfText => True | OfOctets => firstn 4 (concat cs) <> [0xE0; 0x01; 0x00; 0xEA] end.
Lemma text_chosen fuel src cat cs : read_as_text src cs -> exists uni, load_from fuel src cat cs = load_text fuel uni cat cs.
Proof.
  destruct src; intros H; cbn [load_from]; [exists true; reflexivity|]. exists false. destruct (zlist_eqb _ _) eqn:E; [|reflexivity]. apply zlist_eqb_eq in E. contradiction.
Qed.
(** C75.  Any text in any pieces, any catalog filled by [register]: the call returns the values, raises one of the
    exceptions listed, or has not ended. *)
Theorem C75_text_load_answers : forall fuel history cat src cs,
  register_all catalog_new history = Ok cat -> read_as_text src cs ->
  match load_from fuel src cat cs with Ok _ => True | Err e => text_load_exception e \/ e = OutOfFuel end.
Proof.
  intros fuel history cat src cs R T. destruct (text_chosen fuel src cat cs T) as (uni & ->). assert (NC : no_empty_name cat) by (apply (registered_names _ _ _ R); intros ? ?; discriminate).
  unfold load_text. pose proof (load_says uni cat NC fuel fuel (tmreader_new, cs) EStreamEnd (OnList []) keeping_new) as L. destruct (load_into fuel (text_feeder_next fuel uni cat) (tmreader_new, cs) EStreamEnd (OnList [])) as [[o s]|e]; [|exact L]. cbn [bind]. destruct o; [exact Logic.I|left; exact Logic.I].
Qed.
Print Assumptions C75_text_load_answers.
(** When it has ended, more steps change nothing. *)
Theorem C75_more_steps : forall fuel fuel' src cat cs,
  read_as_text src cs -> (fuel <= fuel')%nat -> load_from fuel src cat cs <> Err OutOfFuel -> load_from fuel' src cat cs = load_from fuel src cat cs.
Proof.
  assert (G : forall fuel fuel' uni cat cs, (fuel <= fuel')%nat -> load_text fuel uni cat cs <> Err OutOfFuel -> load_text fuel' uni cat cs = load_text fuel uni cat cs).
  { intros fuel fuel' uni cat cs L H. unfold load_text in *. rewrite (load_more (text_feeder_next fuel uni cat) (text_feeder_next fuel' uni cat)) with (g := fuel); [reflexivity| |exact L|].
    - intros s S. apply next_more; assumption.
    - intros E. rewrite E in H. apply H. reflexivity. }
  intros fuel fuel' [|] cat cs T L H; cbn [load_from read_as_text] in *; [now apply G|]. destruct (zlist_eqb _ _) eqn:E; [apply zlist_eqb_eq in E; contradiction|now apply G].
Qed.
Print Assumptions C75_more_steps.
(** With [single_value] alike. *)
Theorem C75_single_value : forall fuel history cat src cs,
  register_all catalog_new history = Ok cat -> read_as_text src cs ->
  match load_one fuel src cat cs with Ok _ => True | Err e => text_load_exception e \/ e = OutOfFuel end.
Proof.
  intros fuel history cat src cs R T. pose proof (C75_text_load_answers fuel history cat src cs R T) as W. unfold load_one. destruct (load_from fuel src cat cs) as [[|v [|w l]]|e]; cbn [bind]; first [left; exact Logic.I|exact Logic.I|exact W].
Qed.
Print Assumptions C75_single_value.

(** Not every call ends.  A block comment left open after a long string: the reader answers every NEXT at the end of the
    data with the same INCOMPLETE. *)
Definition after (uni : bool) (ds : list devent) : treader := fold_left (fun t d => snd (text_send uni t d)) ds text_reader_new.
Definition open_comment : list (list Z) := [chars "'''a'''/*"].
Theorem C75_open_comment_hangs : forall fuel cat src, load_from fuel src cat open_comment = Err OutOfFuel.
Proof.
  assert (G : forall fuel cat uni, load_text fuel uni cat open_comment = Err OutOfFuel).
  { intros fuel cat uni. unfold load_text. destruct fuel as [|f]; [reflexivity|]. cbn [load_into].
    assert (N : text_feeder_next (S f) uni cat (tmreader_new, open_comment) = Err OutOfFuel); [|rewrite N; reflexivity].
    unfold text_feeder_next, tm_next. change (fst (tmreader_new, open_comment)) with (mstate_new, text_reader_new). change (snd (tmreader_new, open_comment)) with open_comment.
    assert (A0 : text_send uni text_reader_new DNext = (Ok stream_end_event, after uni [DNext])) by (destruct uni; vm_compute; reflexivity).
    assert (A1 : text_send uni (after uni [DNext]) (DData (chars "'''a'''/*")) = (Ok incomplete_event, after uni [DNext; DData (chars "'''a'''/*")])) by (destruct uni; vm_compute; reflexivity).
    assert (A2 : text_send uni (after uni [DNext; DData (chars "'''a'''/*")]) DNext = (Ok incomplete_event, after uni [DNext; DData (chars "'''a'''/*"); DNext])) by (destruct uni; vm_compute; reflexivity).
    assert (A3 : text_send uni (after uni [DNext; DData (chars "'''a'''/*"); DNext]) DNext = (Ok incomplete_event, after uni [DNext; DData (chars "'''a'''/*"); DNext])) by (destruct uni; vm_compute; reflexivity).
    assert (ST : forall e, e = stream_end_event \/ e = incomplete_event -> mr_step cat mstate_new e = Ok (mstate_new, None)) by (intros e [->| ->]; reflexivity).
    assert (SEND : forall t d e t', text_send uni t d = (Ok e, t') -> e = stream_end_event \/ e = incomplete_event -> tmreader_send (S f) uni cat (mstate_new, t) d = (Ok (mkme e (ms_table mstate_new)), (mstate_new, t'))) by (intros t d e t' E I; cbn [tmreader_send fst snd]; rewrite E, (ST e I); reflexivity).
    assert (LOOP : forall n, fst (tm_drain n (S f) uni cat (mstate_new, after uni [DNext; DData (chars "'''a'''/*"); DNext]) (mkme incomplete_event (ms_table mstate_new))) = Err OutOfFuel).
    { induction n as [|n IH]; cbn [tm_drain me_ev ev_type incomplete_event is_stream_signal]; [reflexivity|]. rewrite (SEND _ _ _ _ A3) by auto. exact IH. }
    rewrite (SEND _ _ _ _ A0) by auto. unfold open_comment. cbn [tm_feed me_ev ev_type stream_end_event is_stream_signal]. rewrite (SEND _ _ _ _ A1) by auto. cbn [tm_drain me_ev ev_type incomplete_event is_stream_signal]. rewrite (SEND _ _ _ _ A2) by auto.
    specialize (LOOP f). destruct (tm_drain f (S f) uni cat _ _) as [x t']. cbn [fst] in LOOP. rewrite LOOP. reflexivity. }
  intros fuel cat [|]; cbn [load_from]; [apply G|]. destruct (zlist_eqb _ _) eqn:E; [vm_compute in E; discriminate|apply G].
Qed.
(** And a container in a symbol table that [load] skips, left open: the skipping co-routine never returns. *)
Definition open_table : list (list Z) := [chars "$ion_symbol_table::{foo:[1"].
Theorem C75_open_table_hangs : forall fuel cat src, load_from fuel src cat open_table = Err OutOfFuel.
Proof.
  set (D := chars "$ion_symbol_table::{foo:[1").
  assert (G : forall fuel cat uni, load_text fuel uni cat open_table = Err OutOfFuel).
  { intros fuel cat uni. unfold load_text. destruct fuel as [|f]; [reflexivity|]. cbn [load_into].
    assert (N : text_feeder_next (S f) uni cat (tmreader_new, open_table) = Err OutOfFuel); [|rewrite N; reflexivity].
    unfold text_feeder_next, tm_next. change (fst (tmreader_new, open_table)) with (mstate_new, text_reader_new). change (snd (tmreader_new, open_table)) with [D].
    assert (A0 : text_send uni text_reader_new DNext = (Ok stream_end_event, after uni [DNext])) by (destruct uni; vm_compute; reflexivity).
    assert (H0 : tmreader_send (S f) uni cat (mstate_new, text_reader_new) DNext = (Ok (mkme stream_end_event (ms_table mstate_new)), (mstate_new, after uni [DNext]))) by (cbn [tmreader_send fst snd]; rewrite A0; reflexivity).
    rewrite H0. cbn [tm_feed me_ev ev_type stream_end_event is_stream_signal].
    assert (A1 : exists e1 m1 e2 m2, text_send uni (after uni [DNext]) (DData D) = (Ok e1, after uni [DNext; DData D]) /\ mr_step cat mstate_new e1 = Ok (m1, Some DNext) /\
       text_send uni (after uni [DNext; DData D]) DNext = (Ok e2, after uni [DNext; DData D; DNext]) /\ mr_step cat m1 e2 = Ok (m2, Some DSkip) /\
       text_send uni (after uni [DNext; DData D; DNext]) DSkip = (Ok incomplete_event, after uni [DNext; DData D; DNext; DSkip]) /\ mr_step cat m2 incomplete_event = Ok (m2, None) /\
       fst (text_send uni (after uni [DNext; DData D; DNext; DSkip]) DNext) = Err OutOfFuel).
    { do 4 eexists. destruct uni; (repeat (split; [vm_compute; reflexivity|])); vm_compute; reflexivity. }
    destruct A1 as (e1 & m1 & e2 & m2 & A1 & M1 & A2 & M2 & A3 & M3 & A4).
    assert (L : forall n m, fst (tmreader_send n uni cat (m, after uni [DNext; DData D; DNext; DSkip]) DNext) = Err OutOfFuel).
    { intros [|n] m; cbn [tmreader_send fst snd]; [reflexivity|]. destruct (text_send uni (after uni [DNext; DData D; DNext; DSkip]) DNext) as [x t']. cbn [fst] in A4. rewrite A4. reflexivity. }
    assert (SEND : match tmreader_send (S f) uni cat (mstate_new, after uni [DNext]) (DData D) with (Ok u, mr) => u = mkme incomplete_event (ms_table m2) /\ mr = (m2, after uni [DNext; DData D; DNext; DSkip]) | (Err e, _) => e = OutOfFuel end).
    { cbn [tmreader_send fst snd]. rewrite A1, M1. destruct f as [|f]; [reflexivity|]. cbn [tmreader_send fst snd]. rewrite A2, M2. destruct f as [|f]; [reflexivity|]. cbn [tmreader_send fst snd]. rewrite A3, M3. split; reflexivity. }
    destruct (tmreader_send (S f) uni cat (mstate_new, after uni [DNext]) (DData D)) as [[u|e] mr]; [|rewrite SEND; reflexivity]. destruct SEND as (-> & ->).
    cbn [tm_drain me_ev ev_type incomplete_event is_stream_signal]. specialize (L (S f) m2). destruct (tmreader_send (S f) uni cat (m2, after uni [DNext; DData D; DNext; DSkip]) DNext) as [x t']. cbn [fst] in L. rewrite L. reflexivity. }
  intros fuel cat [|]; cbn [load_from]; [apply G|]. destruct (zlist_eqb _ _) eqn:E; [vm_compute in E; discriminate|apply G].
Qed.
Print Assumptions C75_open_table_hangs.

(** Eight of the exceptions are raised, within 200 steps and so with any larger number: no value; an import of an unknown
    table without a size; a slash at the end of a string; a lone surrogate; a struct that ends with a field name; an
    escape above U+10FFFF; a minus sign at the end of octets; a decimal with an exponent that is too large. *)
Definition fails_with (src : source) (l : list Z) (e : exc) : Prop :=
  read_as_text src [l] /\ load_from 200 src catalog_new [l] = Err e.
Theorem C75_cases :
  fails_with OfText (chars "2007-") IonException /\
  fails_with OfOctets (chars "$ion_symbol_table::{imports:[{name:""a""}]} ") CannotSubstituteTable /\
  fails_with OfText (chars "1/") TypeError /\
  fails_with OfText (chars """\udc00"" ") ValueError /\
  fails_with OfText (chars "{a:1,b}") AttributeError /\
  fails_with OfOctets (chars """\U00110000"" ") UnicodeDecodeError /\
  fails_with OfOctets (chars "-") StructError /\
  fails_with OfText (chars "1d1000000000000000000 ") DecimalException.
Proof. unfold fails_with, read_as_text. repeat split; try (vm_compute; reflexivity); vm_compute; discriminate. Qed.
Theorem C75_succeeds : (let* l := load_from 200 OfText catalog_new [chars "{a:"; chars "[1, '''x''' /* */]} "] in Ok (List.length l)) = Ok 1%nat.
Proof. vm_compute. reflexivity. Qed.
