(** C49: the writer protocol. *)
From Coq Require Import String.
From Verif Require Import Base BaseFacts CoreModel BufferModel BinWriterModel SymbolsModel ManagedModel TextWriterModel WriterProtocol WriterProtocolProofs.
Local Open Scope Z_scope.

(** What a user may send next: [None] exactly while the last answer was HAS_PENDING, and never an
    INCOMPLETE event once the writer has answered. *)
Definition conforms (last : option wtype) (m : option uevent) : Prop :=
  match last, m with
  | Some WPending, None => True
  | Some WPending, Some _ => False
  | _, None => False
  | None, Some _ => True
  | Some _, Some e => ue_type e <> EIncomplete
  end.

(** Whatever the writer (any co-routine), in whatever state: a message against the protocol is
    refused with TypeError and reaches nobody; any other is the writer's to answer. *)
Theorem C49_protocol : forall S (answers : S -> uevent -> list (list Z) * res (S * wevent)) t m,
  let last := match tr_last t with Some w => Some (wtype_of w) | None => None end in
  (conforms last m -> tramp_send answers t m = let* (c, w) := co_send answers (tr_co t) m in Ok (mktr (Some w) c, w)) /\
  (~ conforms last m -> tramp_send answers t m = Err TypeError).
Proof.
  intros S answers [last c] m. cbn [tr_last tr_co]. unfold conforms, tramp_send. cbn [tr_last tr_co].
  destruct last as [w|], m as [e|]; cbn [bind]; try (destruct (wtype_of w)); try (destruct (ue_type e)); split; intros H; try reflexivity; try contradiction;
    exfalso; apply H; first [exact Logic.I | discriminate].
Qed.
Print Assumptions C49_protocol.

(** One event through [blocking_writer]: every chunk the writer has pending is written, in order,
    then the last one, and the answer is never HAS_PENDING; if the writer raises, what it had
    yielded before has been written and the exception escapes. *)
Theorem C49_drains : forall S (answers : S -> uevent -> list (list Z) * res (S * wevent)),
  (forall s e cs s' w, answers s e = (cs, Ok (s', w)) -> wtype_of w <> WPending) ->
  forall t s e cs r fuel, tr_co t = Waiting s ->
  match tr_last t with Some w => wtype_of w <> WPending /\ ue_type e <> EIncomplete | None => True end ->
  answers s e = (cs, r) -> (List.length cs < fuel)%nat ->
  drain answers fuel t (Some e) =
  match r with
  | Err x => (cs, Err x)
  | Ok (s', w) => (cs ++ [wdata w], Ok (mktr (Some w) (Waiting s'), wtype_of w))
  end.
Proof.
  intros S answers HS t s e cs r fuel HC HL HA HF.
  apply (drain_at_rest S answers HS t s e fuel cs r); auto.
  - split; [exact HC|]. destruct (tr_last t); tauto.
  - unfold first_or_complete. destruct (tr_last t); [right; tauto|left; reflexivity].
Qed.
Print Assumptions C49_drains.

(** A whole session of either writer through [blocking_writer] writes exactly the writer's output,
    and answers NEEDS_INPUT or COMPLETE to every event. *)
Lemma blocking_all {S} (answers : S -> uevent -> list (list Z) * res (S * wevent)) (all : S -> list uevent -> res (S * list Z)) :
  settled answers ->
  (forall s, all s [] = Ok (s, [])) ->
  (forall s e es s' out, all s (e :: es) = Ok (s', out) -> ue_type e <> EIncomplete /\ exists s1 cs w out',
     answers s e = (cs, Ok (s1, w)) /\ all s1 es = Ok (s', out') /\ out = concat cs ++ wdata w ++ out') ->
  forall es s s' out t, all s es = Ok (s', out) -> at_rest t s ->
  exists n ds t' tys, (forall fuel, (n <= fuel)%nat -> blocking answers fuel t es = (ds, Ok (t', tys))) /\
    concat ds = out /\ at_rest t' s' /\ Forall (fun ty => ty <> WPending) tys /\ List.length tys = List.length es.
Proof.
  intros HS HN HC. induction es as [|e es IH]; intros s s' out t HA HR.
  - rewrite HN in HA. injection HA as <- <-. exists 0%nat, [], t, []. cbn. repeat split; auto; apply HR.
  - destruct (HC _ _ _ _ _ HA) as (HI & s1 & cs & w & out' & A & B & ->).
    pose proof (HS _ _ _ _ _ A) as W.
    destruct (IH s1 s' out' (mktr (Some w) (Waiting s1)) B) as (n & ds & t' & tys & F & C & R & G & L); [split; auto|].
    exists (Nat.max n (Datatypes.S (List.length cs))), ((cs ++ [wdata w]) ++ ds), t', (wtype_of w :: tys). split; [|split; [|split; [|split]]]; auto.
    + intros fuel Hf. cbn [blocking]. rewrite (drain_at_rest S answers HS t s e fuel cs (Ok (s1, w)) HR (or_intror HI) A); [|lia].
      rewrite F by lia. reflexivity.
    + rewrite !concat_app, C. cbn [concat]. rewrite app_nil_r, <- app_assoc. reflexivity.
    + cbn [List.length]. f_equal. exact L.
Qed.
Theorem C49_text_blocking : forall indent es fs' out, text_write_all indent t_init es = Ok (fs', out) ->
  exists n ds t' tys, (forall fuel, (n <= fuel)%nat -> blocking (text_answers indent) fuel (tramp_new t_init) es = (ds, Ok (t', tys))) /\
    concat ds = out /\ Forall (fun ty => ty <> WPending) tys /\ List.length tys = List.length es.
Proof.
  intros indent es fs' out H.
  destruct (blocking_all (text_answers indent) (text_write_all indent) (text_settled indent)) with (es := es) (s := t_init) (s' := fs') (out := out) (t := tramp_new t_init)
    as (n & ds & t' & tys & A & B & _ & C & D); auto.
  - intros s e es' s' o E. cbn [text_write_all] in E. destruct (text_write indent s e) as [cs [[s1 w]|]] eqn:T; [|discriminate]. cbn [bind] in E.
    destruct (text_write_all indent s1 es') as [[s2 o']|] eqn:U; [|discriminate]. cbn [bind] in E. injection E as <- <-.
    split; [|exists s1, cs, w, o'; auto].
    intros I. unfold text_write in T. destruct s as [|f below]; [discriminate|]. rewrite I in T. cbn [begins_value] in T.
    destruct (field_chunks indent f e) as [names [u|]]; [|discriminate]. injection T as _ T. unfold text_core in T. rewrite I in T. discriminate.
  - split; [reflexivity|exact Logic.I].
  - exists n, ds, t', tys. auto.
Qed.
Print Assumptions C49_text_blocking.
Theorem C49_binary_blocking : forall imports es m' out, managed_write_all imports mwriter_new es = Ok (m', out) ->
  exists n ds t' tys, (forall fuel, (n <= fuel)%nat -> blocking (binary_answers imports) fuel (tramp_new mwriter_new) es = (ds, Ok (t', tys))) /\
    concat ds = out /\ Forall (fun ty => ty <> WPending) tys /\ List.length tys = List.length es.
Proof.
  intros imports es m' out H.
  destruct (blocking_all (binary_answers imports) (managed_write_all imports) (binary_settled imports)) with (es := es) (s := mwriter_new) (s' := m') (out := out) (t := tramp_new mwriter_new)
    as (n & ds & t' & tys & A & B & _ & C & D); auto.
  - intros s e es' s' o E. cbn [managed_write_all] in E. destruct (managed_write imports s e) as [[s1 ws]|] eqn:T; [|discriminate]. cbn [bind] in E.
    destruct (managed_write_all imports s1 es') as [[s2 o']|] eqn:U; [|discriminate]. cbn [bind] in E. injection E as <- <-.
    split.
    + intros I. unfold managed_write in T. rewrite I in T.
      match type of T with (let* _ := ?X in _) = _ => destruct X as [[pre m0]|]; [|discriminate] end. cbn [bind] in T.
      destruct (intern_symbols (mw_sym m0) e) as [[e' sy]|] eqn:N; [|discriminate]. cbn [bind] in T.
      assert (ev_type e' = EIncomplete) as I'.
      { unfold intern_symbols in N.
        do 2 (match type of N with (let* _ := ?X in _) = _ => destruct X as [[? ?]|]; [|discriminate] end; cbn [bind] in N).
        destruct (ue_ion_type e) as [[]|]; try (injection N as <- _; exact I).
        destruct (ev_force (ue_value e)) as [[v|]|]; [| |discriminate]; cbn [bind] in N; [|injection N as <- _; exact I].
        destruct v; try discriminate;
          (match type of N with (let* _ := ?X in _) = _ => destruct X as [[? ?]|]; [|discriminate] end; injection N as <- _; exact I). }
      unfold raw_write in T. rewrite I' in T. cbn [begins_value] in T. rewrite andb_false_r in T. cbn [bind] in T. discriminate.
    + destruct (binary_answered _ _ _ _ _ T) as (cs & w & A & B & _). exists s1, cs, w, o'. split; [exact A|]. split; [exact U|]. rewrite <- B, <- app_assoc. reflexivity.
  - split; [reflexivity|exact Logic.I].
  - exists n, ds, t', tys. auto.
Qed.
Print Assumptions C49_binary_blocking.

(** The text writer's session for [a::[1,2]], in pretty-printed form: chunks and answers. *)
Example C49_example :
  let ev ty it v an := mkue ty it v None an None in
  let es := [ev EContainerStart (Some TList) EvNone [AText (txt "a")]; ev EScalar (Some TInt) (EvVal (VInt 1)) [];
             ev EScalar (Some TInt) (EvVal (VInt 2)) []; ev EContainerEnd None EvNone []] in
  let '(ds, r) := blocking (text_answers (Some [32])) 10 (tramp_new t_init) es in
  ds = [txt "a::"; txt "["; [10]; [32]; txt "1"; txt ","; [10]; [32]; txt "2"; [10]; txt "]"]%string /\
  match r with Ok (_, tys) => tys = [WNeeds; WNeeds; WNeeds; WComplete] | Err _ => False end.
Proof. vm_compute. auto. Qed.
