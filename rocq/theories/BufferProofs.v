(** Proofs of the property statements about the buffers (C03, C04, C21). *)
From Verif Require Import Base BaseFacts BufferModel BufferFacts HistoryFacts.

Lemma headers_before_content os : nesting 0 os = Some 0%nat ->
  exists items t bufs,
    os = flat_map calls items /\
    bt_run bt_init os = Ok t /\ bt_drain t = Ok (bufs, bt_init) /\
    concat bufs = flat_map content items.
Proof.
  intros H. apply nesting_forest in H as [items ->].
  destruct (bt_forest_drain items) as (t & bufs & H1 & H2 & H3 & _).
  exists items, t, bufs. auto.
Qed.

Lemma run_inv os t : bt_run bt_init os = Ok t -> bt_inv t.
Proof.
  intros H. pose proof (bt_run_nesting os bt_init bt_inv_init) as N. rewrite H in N.
  destruct (nesting _ os); tauto.
Qed.

Lemma reported_length before t items : bt_run bt_init before = Ok t ->
  exists t', bt_run t (OStart :: flat_map calls items) = Ok t' /\
             bt_len t' = zlen (flat_map content items).
Proof.
  intros H. destruct (bt_forest_length items t (run_inv before t H)) as (t' & H1 & H2 & _). eauto.
Qed.

Lemma unbalanced_rejected os :
  match nesting 0 os with
  | None => bt_run bt_init os = Err ValueError
  | Some d => exists t, bt_run bt_init os = Ok t /\
              match d with
              | O => (exists bufs, bt_drain t = Ok (bufs, bt_init)) /\
                     (forall h, bt_end t h = Err ValueError)
              | S _ => bt_drain t = Err ValueError /\ (forall h, exists t', bt_end t h = Ok t')
              end
  end.
Proof.
  pose proof (bt_run_nesting os bt_init bt_inv_init) as N. cbn [bt_init bt_open length] in N.
  destruct (nesting 0 os) as [d|], (bt_run bt_init os) as [t|e]; try contradiction; [|congruence].
  exists t. split; [reflexivity|]. destruct N as [I L]. destruct d as [|d].
  - destruct (bt_open t) eqn:O; [|discriminate]. unfold bt_drain, bt_end. rewrite O. eauto.
  - destruct I as (_ & _ & _ & Il). unfold bt_drain, bt_end. destruct (bt_open t); [discriminate|].
    destruct (bt_lens t); [discriminate|]. eauto.
Qed.

Lemma queue_is_fifo os : q_legal_history (mkfifo [] []) os ->
  let '(outs, q) := bq_history bq_init os in
  let '(outs', f) := fifo_history (mkfifo [] []) os in
  outs = outs' /\ bq_size q = zlen (waiting f) /\ bq_pos q = zlen (consumed f).
Proof.
  intros H. destruct (rel_history os bq_init _ rel_init H) as [H1 H2].
  destruct (bq_history bq_init os), (fifo_history (mkfifo [] []) os). cbn [fst snd] in *.
  destruct H2 as (_ & _ & _ & A & B & _). auto.
Qed.

Lemma fifo_conserves os : forall f,
  Forall (fun o => match o with QUnread _ => False | QRead n | QSkip n => 0 <= n | _ => True end) os ->
  let f' := snd (fifo_history f os) in
  consumed f' ++ waiting f' = (consumed f ++ waiting f) ++
    flat_map (fun o => match o with QExtend d => d | _ => [] end) os.
Proof.
  induction os as [|o os IH]; intros f H; cbn [fifo_history flat_map]; [rewrite app_nil_r; reflexivity|].
  inversion H as [|? ? Ho Hos]; subst.
  specialize (IH (snd (fifo_call f o)) Hos).
  destruct (fifo_call f o) as [x f1] eqn:E. cbn [snd] in IH.
  destruct (fifo_history f1 os) as [xs f2]. cbn [snd] in *. rewrite IH.
  rewrite app_assoc. f_equal.
  destruct o as [d|n| |n|c]; cbn [fifo_call] in E; rewrite ?app_nil_r; try contradiction.
  - injection E as <- <-. cbn. rewrite app_assoc. reflexivity.
  - destruct (zlen (waiting f) <? n); injection E as <- <-; cbn [consumed waiting];
      rewrite <- ?app_assoc, ?ztake_drop; reflexivity.
  - destruct (waiting f) eqn:W; injection E as <- <-; cbn [consumed waiting];
      rewrite ?W, <- ?app_assoc; reflexivity.
  - destruct (zlen (waiting f) <=? n); injection E as <- <-; cbn [consumed waiting];
      rewrite <- ?app_assoc, ?ztake_drop, ?app_nil_r; reflexivity.
Qed.
