(** Facts about the writer protocol (C49). *)
From Verif Require Import Base BaseFacts CoreModel BufferModel BinWriterModel SymbolsModel ManagedModel TextWriterModel WriterProtocol.
Local Open Scope Z_scope.

Section MACHINE.
  Variable S : Type.
  Variable answers : S -> uevent -> list (list Z) * res (S * wevent).
  (** The last event of an answer is not HAS_PENDING. *)
  Definition settled : Prop := forall s e cs s' w, answers s e = (cs, Ok (s', w)) -> wtype_of w <> WPending.

  (** At rest: a writer that has just been made, or that answered NEEDS_INPUT or COMPLETE. *)
  Definition at_rest (t : tramp S) (s : S) : Prop :=
    tr_co t = Waiting s /\ match tr_last t with Some w => wtype_of w <> WPending | None => True end.
  Definition first_or_complete (t : tramp S) (e : uevent) : Prop :=
    tr_last t = None \/ ue_type e <> EIncomplete.

  Lemma yielding_drains : settled -> forall cs fuel c fin,
    (forall s' w, fin = Ok (s', w) -> wtype_of w <> WPending) ->
    (length cs < fuel)%nat ->
    drain answers fuel (mktr (Some (HasPending c)) (Yielding cs fin)) None =
    match fin with
    | Err x => (cs, Err x)
    | Ok (s', w) => (cs ++ [wdata w], Ok (mktr (Some w) (Waiting s'), wtype_of w))
    end.
  Proof.
    intros HS. induction cs as [|c' cs IH]; intros fuel c fin HF HL; (destruct fuel as [|f]; [cbn in HL; lia|]); cbn [drain tramp_send tr_last tr_co wtype_of bind co_send co_next].
    - destruct fin as [[s' w]|x]; cbn [bind]; [|reflexivity].
      destruct (wtype_of w) eqn:W; [exfalso; exact (HF s' w eq_refl W)| |]; cbn [app]; reflexivity.
    - cbn [wdata]. rewrite (IH f c' fin HF); [|cbn [length] in HL; lia].
      destruct fin as [[s' w]|x]; reflexivity.
  Qed.

  Lemma drain_at_rest : settled -> forall t s e fuel cs r, at_rest t s -> first_or_complete t e ->
    answers s e = (cs, r) -> (length cs < fuel)%nat ->
    drain answers fuel t (Some e) =
    match r with
    | Err x => (cs, Err x)
    | Ok (s', w) => (cs ++ [wdata w], Ok (mktr (Some w) (Waiting s'), wtype_of w))
    end.
  Proof.
    intros HS [last c] s e fuel cs r [HC HL] HF HA Hfuel. cbn [tr_co tr_last] in HC, HL. subst c.
    destruct fuel as [|f]; [lia|]. cbn [drain].
    assert (T : tramp_send answers (mktr last (Waiting s)) (Some e) =
                let* (c, w) := co_next cs r in Ok (mktr (Some w) c, w)).
    { unfold tramp_send. cbn [tr_last tr_co co_send]. rewrite HA.
      destruct last as [w|]; [|reflexivity].
      destruct HF as [H|H]; [discriminate|].
      destruct (wtype_of w) eqn:W; [contradiction| |]; destruct (ue_type e); try contradiction; reflexivity. }
    rewrite T. clear T. destruct cs as [|c cs]; cbn [co_next bind].
    - destruct r as [[s' w]|x]; cbn [bind]; [|reflexivity].
      pose proof (HS s e [] s' w HA) as W. destruct (wtype_of w) eqn:E; [contradiction| |]; reflexivity.
    - cbn [wtype_of wdata]. rewrite yielding_drains; auto.
      + destruct r as [[s' w]|x]; reflexivity.
      + intros s' w ->. exact (HS s e _ s' w HA).
      + cbn [length] in Hfuel. lia.
  Qed.
End MACHINE.
Arguments settled {S} answers.
Arguments at_rest {S} t s.
Arguments first_or_complete {S} t e.

(** ** The writers are settled *)
Lemma text_settled indent : settled (text_answers indent).
Proof.
  intros fs e cs fs' w H. unfold text_answers, text_write in H. destruct fs as [|f below]; [discriminate|].
  destruct (field_chunks indent f e) as [names [[]|x]]; [|discriminate].
  destruct (if begins_value (ue_type e) then annotation_chunks (ue_annot e) else ([], Ok tt)) as [ans [[]|x]]; [|discriminate].
  injection H as _ H. unfold text_core in H.
  destruct (ue_type e); try discriminate.
  - destruct below; [|discriminate]. injection H as _ <-. discriminate.
  - destruct below; [|discriminate]. injection H as _ <-. discriminate.
  - match type of H with (let* _ := ?X in _) = _ => destruct X; [|discriminate] end. cbn [bind] in H.
    match type of H with (let* _ := ?X in _) = _ => destruct X; [|discriminate] end. cbn [bind] in H.
    destruct below; injection H as _ <-; discriminate.
  - destruct (ue_ion_type e); [|discriminate]. destruct (is_container i); [|discriminate]. injection H as _ <-. discriminate.
  - destruct below as [|b rest]; [discriminate|]. destruct (tf_type f); [|discriminate]. injection H as _ <-. destruct rest; discriminate.
Qed.

(** A list of answers is well shaped if all but the last are HAS_PENDING. *)
Definition shaped_answers (ws : list wevent) : Prop :=
  exists ds w, ws = map HasPending ds ++ [w] /\ wtype_of w <> WPending.
Lemma split_shaped {A} (s : A) ds w : split_answers s (map HasPending ds ++ [w]) = (ds, Ok (s, w)).
Proof.
  induction ds as [|d ds IH]; [reflexivity|]. cbn [map app split_answers]. destruct (map HasPending ds ++ [w]) eqn:E.
  - destruct ds; discriminate E.
  - rewrite IH. reflexivity.
Qed.
Lemma raw_shaped s e s' ws : raw_write s e = Ok (s', ws) -> shaped_answers ws.
Proof.
  unfold raw_write. intros H.
  match type of H with (let* _ := ?X in _) = _ => destruct X as [buf|]; [|discriminate] end. cbn [bind] in H.
  assert (N : shaped_answers [NeedsInput []]) by (exists [], (NeedsInput []); split; [reflexivity|discriminate]).
  destruct (ev_type e); try discriminate.
  - destruct (w_frames s); [|discriminate].
    match type of H with (let* _ := ?X in _) = _ => destruct X as [[bufs b]|]; [|discriminate] end. injection H as _ <-.
    exists bufs, (Complete []). split; [reflexivity|discriminate].
  - do 3 (match type of H with (let* _ := ?X in _) = _ => destruct X; [|discriminate] end; cbn [bind] in H).
    injection H as _ <-. exact N.
  - destruct (ev_ion_type e); [|discriminate]. destruct (is_container i); [|discriminate]. injection H as _ <-. exact N.
  - destruct (w_frames s) as [|f fs]; [discriminate|].
    do 2 (match type of H with (let* _ := ?X in _) = _ => destruct X; [|discriminate] end; cbn [bind] in H).
    injection H as _ <-. exact N.
Qed.
Lemma pending_app ds ws : shaped_answers ws -> shaped_answers (map HasPending ds ++ ws).
Proof. intros (d & w & -> & H). exists (ds ++ d), w. rewrite map_app, app_assoc. auto. Qed.
Lemma managed_shaped imports m e m' ws : managed_write imports m e = Ok (m', ws) -> shaped_answers ws.
Proof.
  unfold managed_write. intros H.
  assert (K : (let* (pre, m0) := if mw_written m then Ok ([], m)
                 else let* s := sym_start imports (mw_sym m) in
                      Ok (if mw_ivm m then [HasPending IVM_BYTES] else [], mkmw (mw_value m) s true false) in
               let* (e', s) := intern_symbols (mw_sym m0) e in
               let* (w, ws) := raw_write (mw_value m0) e' in
               Ok (mkmw w s (mw_written m0) (mw_ivm m0), pre ++ ws)) = Ok (m', ws) -> shaped_answers ws).
  { clear H. intros H. match type of H with (let* _ := ?X in _) = _ => destruct X as [[pre m0]|] eqn:P; [|discriminate] end. cbn [bind] in H.
    assert (exists ds, pre = map HasPending ds) as [ds ->].
    { destruct (mw_written m); [injection P as <- _; exists []; reflexivity|].
      destruct (sym_start imports (mw_sym m)); [|discriminate]. cbn [bind] in P. injection P as <- _.
      destruct (mw_ivm m); [exists [IVM_BYTES]|exists []]; reflexivity. }
    destruct (intern_symbols (mw_sym m0) e) as [[e' s]|]; [|discriminate]. cbn [bind] in H.
    destruct (raw_write (mw_value m0) e') as [[w rs]|] eqn:R; [|discriminate]. injection H as _ <-.
    apply pending_app. exact (raw_shaped _ _ _ _ R). }
  destruct (ue_type e); try (exact (K H)).
  - destruct (mw_written m).
    + destruct (sym_finish imports (mw_sym m)) as [sws|]; [|discriminate]. cbn [bind] in H.
      destruct (raw_write (mw_value m) stream_end_event) as [[w vws]|]; [|discriminate]. injection H as _ <-.
      exists (map wdata (sws ++ vws)), (Complete []). rewrite map_map. split; [reflexivity|discriminate].
    + injection H as _ <-. exists [], (Complete []). split; [reflexivity|discriminate].
  - destruct (mw_written m); [discriminate|]. injection H as _ <-.
    exists (if mw_ivm m then [IVM_BYTES] else []), (NeedsInput []). split; [|discriminate]. destruct (mw_ivm m); reflexivity.
Qed.
Lemma binary_answered imports m e m' ws : managed_write imports m e = Ok (m', ws) ->
  exists cs w, binary_answers imports m e = (cs, Ok (m', w)) /\ concat cs ++ wdata w = flat_map wdata ws /\ wtype_of w <> WPending.
Proof.
  intros H. destruct (managed_shaped _ _ _ _ _ H) as (ds & w & -> & W). exists ds, w. unfold binary_answers, as_answers. rewrite H, split_shaped.
  split; [reflexivity|]. split; [|exact W]. rewrite flat_map_app. cbn [flat_map]. rewrite app_nil_r. f_equal.
  clear. induction ds as [|d ds IH]; [reflexivity|]. cbn [concat map flat_map wdata]. now rewrite IH.
Qed.
Lemma binary_settled imports : settled (binary_answers imports).
Proof.
  intros m e cs m' w H. unfold binary_answers, as_answers in H. destruct (managed_write imports m e) as [[m1 ws]|] eqn:E; [|discriminate].
  destruct (managed_shaped _ _ _ _ _ E) as (ds & w1 & -> & W). rewrite split_shaped in H. injection H as _ _ <-. exact W.
Qed.
