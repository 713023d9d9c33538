(** Facts about the two buffers. *)
From Verif Require Import Base BaseFacts BufferModel.

(** * BufferTree *)

(** The calls a writer makes.  [OEnd h]: end the container with the header [h n], where [n] is the
    [current_container_length] read just before (how the raw binary writer calls it). *)
Inductive bt_op := OStart | OAdd (b : list Z) | OEnd (h : Z -> list Z).
Definition bt_step (t : btree) (o : bt_op) : res btree :=
  match o with
  | OStart => Ok (bt_start t)
  | OAdd b => Ok (bt_add t b)
  | OEnd h => bt_end t (h (bt_len t))
  end.
Fixpoint bt_run (t : btree) (os : list bt_op) : res btree :=
  match os with [] => Ok t | o :: os' => let* t' := bt_step t o in bt_run t' os' end.

(** Well-nested call sequences as forests, and what they must produce. *)
Inductive item := Leaf (b : list Z) | Group (h : Z -> list Z) (items : list item).
Fixpoint calls (i : item) : list bt_op :=
  match i with
  | Leaf b => [OAdd b]
  | Group h items => OStart :: flat_map calls items ++ [OEnd h]
  end.
Fixpoint content (i : item) : list Z :=
  match i with
  | Leaf b => b
  | Group h items => let body := flat_map content items in h (zlen body) ++ body
  end.

Definition chunks (n : node) : list (list Z) := somes (depth_traverse n).
Definition flat (n : node) : list Z := concat (chunks n).

Lemma somes_app {A} (a b : list (option A)) : somes (a ++ b) = somes a ++ somes b.
Proof. apply flat_map_app. Qed.

Lemma add_leaf_chunks : forall n h, chunks (add_leaf n (Node (Some h) [])) = h :: chunks n.
Proof.
  fix IH 1. intros [v [|c cs]] h.
  - reflexivity.
  - cbn [add_leaf]. unfold chunks in *. cbn [depth_traverse flat_map].
    rewrite <- !app_assoc, !somes_app, IH. reflexivity.
Qed.

Lemma add_child_chunks n c : node_value n = None -> chunks (add_child n c) = chunks n ++ chunks c.
Proof.
  destruct n as [v cs]; cbn [node_value]; intros ->. unfold chunks. cbn [add_child depth_traverse].
  rewrite flat_map_app. cbn [flat_map]. rewrite !somes_app. cbn. rewrite !app_nil_r. reflexivity.
Qed.
Lemma add_child_value n c : node_value (add_child n c) = node_value n.
Proof. destruct n; reflexivity. Qed.

(** Spec machine: the chunk list of each open container, innermost first. *)
Definition bt_abs (t : btree) : list (list (list Z)) := map chunks (bt_cur t :: bt_open t).

Definition total (c : list (list Z)) : Z := zlen (concat c).

Definition bt_inv (t : btree) : Prop :=
  node_value (bt_cur t) = None /\ Forall (fun n => node_value n = None) (bt_open t) /\
  bt_len t = total (chunks (bt_cur t)) /\ bt_lens t = map (fun n => total (chunks n)) (bt_open t).

Lemma bt_inv_init : bt_inv bt_init.
Proof. repeat split; constructor. Qed.

Lemma total_app a b : total (a ++ b) = total a + total b.
Proof. unfold total. rewrite concat_app, zlen_app. reflexivity. Qed.

Definition spec_step (s : list (list (list Z))) (o : bt_op) : res (list (list (list Z))) :=
  match o with
  | OStart => Ok ([] :: s)
  | OAdd b => match s with c :: s' => Ok ((c ++ [b]) :: s') | [] => Err ValueError end
  | OEnd h => match s with
              | c :: p :: s' => Ok ((p ++ h (total c) :: c) :: s')
              | _ => Err ValueError
              end
  end.

Lemma bt_step_refines t o : bt_inv t ->
  match bt_step t o, spec_step (bt_abs t) o with
  | Ok t', Ok s' => bt_inv t' /\ bt_abs t' = s'
  | Err e, Err e' => e = e' /\ e = ValueError
  | _, _ => False
  end.
Proof.
  intros (Hc & Ho & Hl & Hls). destruct o as [|b|h]; cbn [bt_step].
  - unfold bt_start, bt_abs; cbn. split; [|reflexivity].
    unfold bt_inv; cbn. split; [reflexivity|]. split; [constructor; auto|]. split; [reflexivity|]. congruence.
  - unfold bt_add, bt_abs; cbn [bt_cur bt_open bt_len bt_lens map spec_step]. split.
    + unfold bt_inv; cbn [bt_cur bt_open bt_len bt_lens]. split; [rewrite add_child_value; auto|].
      split; [auto|]. split; [|auto].
      rewrite add_child_chunks by auto. rewrite total_app, Hl. unfold chunks; cbn.
      unfold total; cbn. rewrite app_nil_r. reflexivity.
    + rewrite add_child_chunks by auto. reflexivity.
  - unfold bt_end, bt_abs. destruct (bt_open t) as [|p ps] eqn:E; cbn [map spec_step].
    + auto.
    + rewrite Hls. cbn [map]. inversion Ho as [|? ? Hp Hps]; subst.
      split.
      * unfold bt_inv; cbn [bt_cur bt_open bt_len bt_lens]. split; [rewrite add_child_value; auto|].
        split; [auto|]. split; [|reflexivity].
        rewrite add_child_chunks, add_leaf_chunks by auto. rewrite total_app, Hl.
        change (total (h (total (chunks (bt_cur t))) :: chunks (bt_cur t)))
          with (zlen (h (total (chunks (bt_cur t))) ++ concat (chunks (bt_cur t)))).
        rewrite zlen_app. unfold total. lia.
      * cbn [bt_cur bt_open map]. rewrite add_child_chunks, add_leaf_chunks by auto. rewrite Hl. reflexivity.
Qed.

Fixpoint spec_run s os : res (list (list (list Z))) :=
  match os with [] => Ok s | o :: os' => let* s' := spec_step s o in spec_run s' os' end.

Lemma bt_run_refines os : forall t, bt_inv t ->
  match bt_run t os, spec_run (bt_abs t) os with
  | Ok t', Ok s' => bt_inv t' /\ bt_abs t' = s'
  | Err e, Err e' => e = e' /\ e = ValueError
  | _, _ => False
  end.
Proof.
  induction os as [|o os IH]; intros t Ht; cbn [bt_run spec_run]; [auto|].
  pose proof (bt_step_refines t o Ht) as S.
  destruct (bt_step t o) as [t'|e], (spec_step (bt_abs t) o) as [s'|e']; cbn [bind]; try contradiction.
  - destruct S as [Hi <-]. apply IH, Hi.
  - exact S.
Qed.

Lemma bt_run_app os1 os2 t : bt_run t (os1 ++ os2) = let* t' := bt_run t os1 in bt_run t' os2.
Proof.
  revert t; induction os1 as [|o os IH]; intros t; cbn [bt_run app]; [reflexivity|].
  destruct (bt_step t o); cbn [bind]; [apply IH|reflexivity].
Qed.
Lemma spec_run_app os1 os2 t : spec_run t (os1 ++ os2) = let* t' := spec_run t os1 in spec_run t' os2.
Proof.
  revert t; induction os1 as [|o os IH]; intros t; cbn [spec_run app]; [reflexivity|].
  destruct (spec_step t o); cbn [bind]; [apply IH|reflexivity].
Qed.

(** A well-nested call sequence appends to the current container chunks whose concatenation is the
    content of the forest, and leaves the enclosing containers alone. *)
Lemma spec_run_item : forall i c s, exists cs,
  spec_run (c :: s) (calls i) = Ok ((c ++ cs) :: s) /\ concat cs = content i.
Proof.
  fix IH 1. intros [b|h items] c s.
  - exists [b]. cbn. rewrite app_nil_r. auto.
  - assert (Hitems : forall c s, exists cs,
      spec_run (c :: s) (flat_map calls items) = Ok ((c ++ cs) :: s) /\
      concat cs = flat_map content items).
    { clear c s. induction items as [|i items IHi]; intros c s.
      - exists []. cbn. rewrite app_nil_r. auto.
      - cbn [flat_map]. destruct (IH i c s) as (cs1 & E1 & C1).
        destruct (IHi (c ++ cs1) s) as (cs2 & E2 & C2).
        exists (cs1 ++ cs2). rewrite spec_run_app, E1. cbn [bind]. rewrite E2, concat_app, C1, C2.
        rewrite app_assoc. auto. }
    destruct (Hitems [] (c :: s)) as (cs & E & C).
    exists (h (total cs) :: cs). cbn [calls].
    change (spec_run (c :: s) (OStart :: flat_map calls items ++ [OEnd h]))
      with (spec_run ([] :: c :: s) (flat_map calls items ++ [OEnd h])).
    rewrite spec_run_app, E. cbn. split; [reflexivity|].
    unfold total. rewrite C. reflexivity.
Qed.

Lemma spec_run_items items c s : exists cs,
  spec_run (c :: s) (flat_map calls items) = Ok ((c ++ cs) :: s) /\
  concat cs = flat_map content items.
Proof.
  revert c; induction items as [|i items IHi]; intros c.
  - exists []. cbn. rewrite app_nil_r. auto.
  - cbn [flat_map]. destruct (spec_run_item i c s) as (cs1 & E1 & C1).
    destruct (IHi (c ++ cs1)) as (cs2 & E2 & C2).
    exists (cs1 ++ cs2). rewrite spec_run_app, E1. cbn [bind]. rewrite E2, concat_app, C1, C2.
    rewrite app_assoc. auto.
Qed.

Lemma bt_forest_drain items :
  exists t bufs, bt_run bt_init (flat_map calls items) = Ok t /\
    bt_drain t = Ok (bufs, bt_init) /\ concat bufs = flat_map content items /\
    bt_len t = zlen (flat_map content items).
Proof.
  pose proof (bt_run_refines (flat_map calls items) bt_init bt_inv_init) as R.
  destruct (spec_run_items items [] []) as (cs & E & C).
  change (bt_abs bt_init) with [@nil (list Z)] in R. rewrite E in R.
  destruct (bt_run bt_init (flat_map calls items)) as [t|]; [|contradiction].
  destruct R as [(H1 & H2 & H3 & H4) A]. unfold bt_abs in A. cbn [map app] in A.
  injection A as A1 A2. apply map_eq_nil in A2.
  exists t, cs. unfold bt_drain. rewrite A2.
  repeat split; auto.
  - unfold chunks in A1. rewrite A1. reflexivity.
  - rewrite H3, A1. unfold total. rewrite C. reflexivity.
Qed.

Lemma bt_forest_length items : forall t, bt_inv t ->
  exists t', bt_run t (OStart :: flat_map calls items) = Ok t' /\
    bt_len t' = zlen (flat_map content items) /\ length (bt_open t') = S (length (bt_open t)).
Proof.
  intros t Ht.
  pose proof (bt_run_refines (OStart :: flat_map calls items) t Ht) as R.
  destruct (spec_run_items items [] (bt_abs t)) as (cs & E & C).
  change (spec_run (bt_abs t) (OStart :: flat_map calls items))
    with (spec_run ([] :: bt_abs t) (flat_map calls items)) in R.
  rewrite E in R.
  destruct (bt_run t (OStart :: flat_map calls items)) as [t'|]; [|contradiction].
  destruct R as [(H1 & H2 & H3 & H4) A]. exists t'. split; [reflexivity|].
  unfold bt_abs in A. cbn [map app] in A. injection A as A1 A2.
  split.
  - rewrite H3, A1. unfold total. rewrite C. reflexivity.
  - apply (f_equal (@length _)) in A2. cbn [length] in A2. rewrite !map_length in A2. exact A2.
Qed.

(** Number of containers open after a call sequence, [None] when a container is ended that was
    never started. *)
Fixpoint nesting (depth : nat) (os : list bt_op) : option nat :=
  match os with
  | [] => Some depth
  | OStart :: os' => nesting (S depth) os'
  | OAdd _ :: os' => nesting depth os'
  | OEnd _ :: os' => match depth with O => None | S d => nesting d os' end
  end.

Lemma bt_run_nesting os : forall t, bt_inv t ->
  match bt_run t os, nesting (length (bt_open t)) os with
  | Ok t', Some d => bt_inv t' /\ length (bt_open t') = d
  | Err e, None => e = ValueError
  | _, _ => False
  end.
Proof.
  induction os as [|o os IH]; intros t Ht; cbn [bt_run nesting]; [auto|].
  pose proof (bt_step_refines t o Ht) as S. destruct o as [|b|h]; cbn [bt_step] in *.
  - destruct S as [Hi _]. cbn [bind]. apply (IH (bt_start t) Hi).
  - cbn [spec_step bt_abs map] in S. destruct S as [Hi _]. cbn [bind]. apply (IH (bt_add t b) Hi).
  - unfold bt_end in *. destruct (bt_open t) as [|p ps] eqn:E; cbn [length].
    + reflexivity.
    + destruct (bt_lens t) as [|l ls] eqn:E2.
      { destruct Ht as (_ & _ & _ & H4). rewrite E, E2 in H4. discriminate. }
      unfold bt_abs in S; rewrite E in S; cbn [map spec_step] in S.
      destruct S as [Hi _]. cbn [bind]. apply (IH _ Hi).
Qed.

(** * BufferQueue *)

Definition bq_content (q : bq) : list Z := zdrop (bq_off q) (concat (map seg_data (bq_segs q))).

Definition bq_wf (q : bq) : Prop :=
  Forall (fun s => 0 < seg_len s) (bq_segs q) /\
  match bq_segs q with [] => bq_off q = 0 | s :: _ => 0 <= bq_off q < seg_len s end.

Definition bq_abs (q : bq) : aq := mkaq (bq_content q) (bq_size q) (bq_pos q).

Lemma bq_wf_init : bq_wf bq_init. Proof. split; [constructor|reflexivity]. Qed.

Lemma concat_zlen_pos s rest : 0 < seg_len s -> 0 < zlen (concat (map seg_data (s :: rest))).
Proof. intros H. cbn [map concat]. rewrite zlen_app. unfold seg_len in H. pose proof (zlen_nonneg (concat (map seg_data rest))). lia. Qed.

Lemma bq_extend_refines q d : bq_wf q -> d <> [] ->
  bq_wf (bq_extend q d) /\ bq_abs (bq_extend q d) = aq_extend (bq_abs q) d.
Proof.
  intros [H1 H2] Hd. assert (0 < zlen d).
  { destruct d; [contradiction|]. rewrite zlen_cons. pose proof (zlen_nonneg d). lia. }
  split.
  - split; cbn.
    + apply Forall_app; split; auto.
    + destruct (bq_segs q) as [|s r]; cbn; auto. rewrite H2. unfold seg_len; cbn. lia.
  - unfold bq_abs, aq_extend, bq_content; cbn. f_equal.
    rewrite map_app, concat_app. cbn. rewrite app_nil_r.
    apply zdrop_app_le. destruct (bq_segs q) as [|s r]; [cbn; lia|].
    cbn [map concat]. rewrite zlen_app. unfold seg_len in H2.
    pose proof (zlen_nonneg (concat (map seg_data r))). lia.
Qed.

Lemma zslice_as {A} (l : list A) a b : zslice l a b = ztake (b - a) (zdrop a l).
Proof. reflexivity. Qed.

Lemma bq_read_loop_spec segs : forall off n acc skip,
  Forall (fun s => 0 < seg_len s) segs ->
  (match segs with [] => off = 0 | s :: _ => 0 <= off < seg_len s end) ->
  0 < n ->
  let content := zdrop off (concat (map seg_data segs)) in
  if zlen content <? n
  then bq_read_loop segs off n acc skip = Err IndexError
  else exists segs' off',
    bq_read_loop segs off n acc skip
      = Ok (acc ++ (if skip then [] else ztake n content), segs', off') /\
    Forall (fun s => 0 < seg_len s) segs' /\
    (match segs' with [] => off' = 0 | s :: _ => 0 <= off' < seg_len s end) /\
    zdrop off' (concat (map seg_data segs')) = zdrop n content.
Proof.
  induction segs as [|s rest IH]; intros off n acc skip Hall Hoff Hn content.
  - subst off. subst content. cbn [map concat].
    replace (zdrop 0 (@nil Z)) with (@nil Z) by reflexivity.
    replace (zlen (@nil Z) <? n) with true by (unfold zlen; cbn; lia). reflexivity.
  - inversion Hall as [|? ? Hs Hrest]; subst.
    set (tail := concat (map seg_data rest)) in *.
    assert (Hcontent : content = zdrop off (seg_data s) ++ tail).
    { subst content. cbn [map concat]. apply zdrop_app_le. unfold seg_len in Hoff. lia. }
    assert (Hlen1 : zlen (zdrop off (seg_data s)) = seg_len s - off).
    { apply zlen_zdrop. unfold seg_len in *. lia. }
    assert (Hlen : zlen content = seg_len s - off + zlen tail) by (rewrite Hcontent, zlen_app, Hlen1; reflexivity).
    pose proof (zlen_nonneg tail) as Ht.
    cbn [bq_read_loop].
    set (rem := seg_len s - off) in *.
    assert (Hslice : (if skip then [] else if (off =? 0) && (Z.min rem n =? rem) then seg_data s
              else zslice (seg_data s) off (off + Z.min rem n))
              = if skip then [] else ztake (Z.min rem n) (zdrop off (seg_data s))).
    { destruct skip; [reflexivity|].
      destruct ((off =? 0) && (Z.min rem n =? rem)) eqn:W.
      - assert (off = 0) as -> by lia.
        rewrite zdrop_nonpos by lia. symmetry. apply ztake_all. unfold seg_len in *. lia.
      - rewrite zslice_as. f_equal. lia. }
    rewrite Hslice. clear Hslice.
    destruct (n <=? rem) eqn:Cn.
    + (* satisfied within this segment *)
      replace (zlen content <? n) with false by lia.
      replace (Z.min rem n) with n by lia.
      replace (0 <? n - n) with false by lia.
      exists (if off + n =? seg_len s then rest else s :: rest),
             (if off + n =? seg_len s then 0 else off + n).
      split; [|split; [|split]].
      * assert (T : ztake n content = ztake n (zdrop off (seg_data s))).
        { rewrite Hcontent. apply ztake_app_le. lia. }
        rewrite T. destruct acc as [|a acc]; [reflexivity|].
        replace (zlen (a :: acc) =? 0) with false by (rewrite zlen_cons; pose proof (zlen_nonneg acc); lia).
        cbn [andb]. reflexivity.
      * destruct (off + n =? seg_len s); auto.
      * destruct (off + n =? seg_len s) eqn:Q; [|lia].
        destruct rest as [|s2 r2]; [reflexivity|]. inversion Hrest; subst. lia.
      * destruct (off + n =? seg_len s) eqn:Q.
        -- rewrite zdrop_nonpos by lia. rewrite Hcontent. symmetry. apply zdrop_app_exact. lia.
        -- cbn [map concat]. fold tail. rewrite zdrop_app_le by (unfold seg_len in *; lia).
           rewrite Hcontent, zdrop_app_le by lia. f_equal.
           rewrite zdrop_zdrop by lia. f_equal. lia.
    + replace (Z.min rem n) with rem by lia. cbn [andb].
      replace (0 <? n - rem) with true by lia.
      replace (off + rem =? seg_len s) with true by lia.
      assert (T1 : ztake rem (zdrop off (seg_data s)) = zdrop off (seg_data s)) by (apply ztake_all; lia).
      rewrite T1.
      specialize (IH 0 (n - rem) (acc ++ (if skip then [] else zdrop off (seg_data s))) skip Hrest).
      assert (Hoff0 : match rest with [] => 0 = 0 | s0 :: _ => 0 <= 0 < seg_len s0 end).
      { destruct rest as [|s2 r2]; [reflexivity|]. inversion Hrest; subst. lia. }
      specialize (IH Hoff0 ltac:(lia)). cbv zeta in IH. fold tail in IH.
      rewrite (zdrop_nonpos 0) in IH by lia.
      destruct (zlen content <? n) eqn:C2.
      * replace (zlen tail <? n - rem) with true in IH by lia. exact IH.
      * replace (zlen tail <? n - rem) with false in IH by lia.
        destruct IH as (segs' & off' & E & F1 & F2 & F3).
        exists segs', off'. split; [|split; [|split]]; auto.
        -- rewrite E. rewrite <- app_assoc. destruct skip; [reflexivity|].
           rewrite Hcontent, ztake_app_ge, Hlen1 by lia. reflexivity.
        -- rewrite F3, Hcontent, zdrop_app_ge, Hlen1 by lia. reflexivity.
Qed.

Lemma bq_read_refines q n : bq_wf q ->
  match bq_read q n false, aq_read (bq_abs q) n with
  | Ok (d, q'), Ok (d', a') => d = d' /\ bq_wf q' /\ bq_abs q' = a'
  | Err e, Err e' => e = e' /\ e = IndexError
  | _, _ => False
  end.
Proof.
  intros [H1 H2]. unfold bq_read, aq_read. cbn [bq_abs aq_data aq_size aq_pos].
  destruct (bq_size q <? n) eqn:C; [auto|].
  destruct (n <=? 0) eqn:C0.
  - replace (zlen (bq_content q) <? n) with false by (pose proof (zlen_nonneg (bq_content q)); lia).
    rewrite ztake_nonpos, zdrop_nonpos by lia. repeat split; auto.
  - pose proof (bq_read_loop_spec (bq_segs q) (bq_off q) n [] false H1 H2 ltac:(lia)) as L.
    cbv zeta in L. change (zdrop (bq_off q) (concat (map seg_data (bq_segs q)))) with (bq_content q) in L.
    destruct (zlen (bq_content q) <? n).
    + rewrite L. cbn [bind]. auto.
    + destruct L as (segs' & off' & E & F1 & F2 & F3). rewrite E. cbn [bind app].
      repeat split; auto. unfold bq_abs; cbn. f_equal. unfold bq_content; cbn. exact F3.
Qed.

Lemma bq_skip_refines q n : bq_wf q ->
  match bq_skip q n, aq_skip (bq_abs q) n with
  | Ok (d, q'), Ok (d', a') => d = d' /\ bq_wf q' /\ bq_abs q' = a'
  | Err e, Err e' => e = e' /\ e = IndexError
  | _, _ => False
  end.
Proof.
  intros [H1 H2]. unfold bq_skip, aq_skip. cbn [bq_abs aq_data aq_size aq_pos].
  destruct (bq_size q <=? n) eqn:C.
  - repeat split; auto. constructor.
  - unfold bq_read, aq_read; cbn [bq_abs aq_data aq_size aq_pos].
    destruct (bq_size q <? n) eqn:C1; [lia|].
    destruct (n <=? 0) eqn:C0.
    + replace (zlen (bq_content q) <? n) with false by (pose proof (zlen_nonneg (bq_content q)); lia).
      cbn [bind]. rewrite zdrop_nonpos by lia. repeat split; auto.
    + pose proof (bq_read_loop_spec (bq_segs q) (bq_off q) n [] true H1 H2 ltac:(lia)) as L.
      cbv zeta in L. change (zdrop (bq_off q) (concat (map seg_data (bq_segs q)))) with (bq_content q) in L.
      destruct (zlen (bq_content q) <? n).
      * rewrite L. cbn [bind]. auto.
      * destruct L as (segs' & off' & E & F1 & F2 & F3). rewrite E. cbn [bind app].
        repeat split; auto. unfold bq_abs; cbn. f_equal. unfold bq_content; cbn. exact F3.
Qed.

Definition no_eof (q : bq) : Prop := Forall (fun s => s <> SEof) (bq_segs q).

Lemma bq_read_byte_refines q : bq_wf q -> no_eof q ->
  match bq_read_byte q, aq_read_byte (bq_abs q) with
  | Ok (c, q'), Ok (c', a') => c = Unit_ c' /\ bq_wf q' /\ bq_abs q' = a'
  | Err e, Err e' => e = e' /\ e = IndexError
  | _, _ => False
  end.
Proof.
  intros [H1 H2] NE. unfold bq_read_byte, aq_read_byte. cbn [bq_abs aq_data aq_size aq_pos].
  destruct (bq_size q <? 1) eqn:C; [auto|].
  unfold bq_content, no_eof in *. destruct (bq_segs q) as [|s rest] eqn:E.
  - rewrite H2. cbn [map concat]. cbn. auto.
  - inversion H1 as [|? ? Hs Hrest]; subst. inversion NE as [|? ? Hn _]; subst.
    destruct s as [d|]; [|congruence]. unfold seg_len in *. cbn [seg_data map concat] in *.
    set (tail := concat (map seg_data rest)).
    destruct (skipn (Z.to_nat (bq_off q)) d) as [|b r] eqn:Sk.
    { apply (f_equal (@length Z)) in Sk. rewrite skipn_length in Sk. cbn in Sk. unfold zlen in *. lia. }
    assert (Hz : zdrop (bq_off q) d = b :: r) by exact Sk.
    assert (Hd : zdrop (bq_off q) (d ++ tail) = b :: r ++ tail).
    { rewrite zdrop_app_le by lia. rewrite Hz. reflexivity. }
    rewrite Hd.
    assert (Hi : py_index d (bq_off q) = Ok b).
    { unfold py_index. replace (bq_off q <? 0) with false by lia. rewrite ?Bool.if_negb.
      replace (bq_off q <? 0) with false by lia.
      assert (N : nth_error d (Z.to_nat (bq_off q)) = Some b).
      { rewrite <- (firstn_skipn (Z.to_nat (bq_off q)) d), Sk.
        rewrite nth_error_app2; rewrite firstn_length; unfold zlen in *.
        - replace (Z.to_nat (bq_off q) - Init.Nat.min (Z.to_nat (bq_off q)) (length d))%nat with 0%nat by lia.
          reflexivity.
        - lia. }
      rewrite N. reflexivity. }
    rewrite Hi. cbn [bind].
    assert (Hr : zdrop (bq_off q + 1) d = r).
    { replace (bq_off q + 1) with (1 + bq_off q) by lia. rewrite <- zdrop_zdrop by lia. rewrite Hz. reflexivity. }
    split; [reflexivity|]. split.
    + split; cbn [bq_segs bq_off]; unfold seg_len at 1; cbn [seg_data].
      * destruct (bq_off q + 1 =? zlen d); auto.
      * unfold seg_len; cbn [seg_data].
        destruct (bq_off q + 1 =? zlen d) eqn:Q; unfold seg_len; cbn [seg_data].
        -- destruct rest as [|s2 r2]; [reflexivity|]. inversion Hrest; subst. unfold seg_len in *. lia.
        -- lia.
    + unfold bq_abs; cbn. f_equal. unfold bq_content; cbn. unfold seg_len; cbn [seg_data].
      destruct (bq_off q + 1 =? zlen d) eqn:Q.
      * rewrite zdrop_nonpos by lia. fold tail.
        rewrite zdrop_all in Hr by lia. rewrite <- Hr. reflexivity.
      * cbn [map concat seg_data]. fold tail. rewrite zdrop_app_le by lia. rewrite Hr. reflexivity.
Qed.

Lemma bq_unread_refines q c q' : bq_wf q -> bq_unread q c = Ok q' ->
  bq_wf q' /\ aq_unread (bq_abs q) c = Ok (bq_abs q').
Proof.
  intros [H1 H2] E. unfold bq_unread in E. unfold aq_unread. cbn [bq_abs aq_pos aq_data aq_size].
  destruct (bq_pos q <? 1) eqn:P; [discriminate|].
  destruct (bq_off q =? 0) eqn:O.
  - injection E as <-. split.
    + split; cbn; [constructor; auto|]; unfold seg_len, zlen; cbn; lia.
    + unfold bq_abs, bq_content; cbn. assert (bq_off q = 0) as -> by lia. reflexivity.
  - destruct (bq_segs q) as [|s rest] eqn:Sg; [discriminate|].
    destruct (py_index (seg_data s) (bq_off q - 1)) as [x|] eqn:X; cbn [bind] in E; [|discriminate].
    destruct (x =? c) eqn:XC; [|discriminate]. injection E as <-.
    assert (x = c) as -> by lia.
    split.
    + split; cbn; auto. lia.
    + unfold bq_abs, bq_content; cbn. rewrite Sg. cbn [map concat].
      unfold seg_len in H2. do 2 f_equal. rewrite !zdrop_app_le by lia.
      change (c :: zdrop (bq_off q) (seg_data s) ++ concat (map seg_data rest))
        with ((c :: zdrop (bq_off q) (seg_data s)) ++ concat (map seg_data rest)). f_equal.
      unfold py_index in X. replace (bq_off q - 1 <? 0) with false in X by lia. cbn zeta in X.
      replace (bq_off q - 1 <? 0) with false in X by lia.
      destruct (nth_error (seg_data s) (Z.to_nat (bq_off q - 1))) as [y|] eqn:N; [|discriminate].
      injection X as ->. apply nth_error_split in N as (l1 & l2 & EN & LN).
      unfold zdrop. rewrite EN.
      replace (Z.to_nat (bq_off q)) with (S (length l1)) by lia.
      rewrite <- LN.
      rewrite !skipn_app, skipn_all, Nat.sub_diag. cbn [app].
      rewrite (skipn_all2 l1) by lia. replace (S (length l1) - length l1)%nat with 1%nat by lia. reflexivity.
Qed.

(** What was read can be unread. *)
Lemma bq_unread_after_read q c q' : bq_wf q -> no_eof q -> 0 <= bq_pos q ->
  bq_read_byte q = Ok (Unit_ c, q') ->
  exists q'', bq_unread q' c = Ok q'' /\ bq_wf q'' /\ bq_abs q'' = bq_abs q.
Proof.
  intros Hwf NE Hp E.
  pose proof (bq_read_byte_refines q Hwf NE) as R. rewrite E in R.
  destruct (aq_read_byte (bq_abs q)) as [[c' a']|] eqn:A; [|contradiction].
  destruct R as (Ec & Hwf' & Ea). injection Ec as <-.
  assert (exists q'', bq_unread q' c = Ok q'') as [q'' E''].
  { unfold bq_unread. unfold bq_read_byte in E.
    destruct (bq_size q <? 1) eqn:C; [discriminate|].
    destruct Hwf as [H1 H2].
    destruct (bq_segs q) as [|s rest]; [discriminate|].
    destruct s as [d|]; [|discriminate].
    destruct (py_index d (bq_off q)) as [z|] eqn:X; cbn [bind] in E; [|discriminate].
    injection E as Ez Eq. subst z q'. cbn [bq_pos bq_off bq_segs].
    replace (bq_pos q + 1 <? 1) with false by lia.
    unfold seg_len; cbn [seg_data].
    destruct (bq_off q + 1 =? zlen d).
    { change (0 =? 0) with true. cbv iota. eexists; reflexivity. }
    destruct (bq_off q + 1 =? 0); [eexists; reflexivity|].
    cbn [seg_data]. replace (bq_off q + 1 - 1) with (bq_off q) by lia. rewrite X. cbn [bind].
    rewrite Z.eqb_refl. eauto. }
  exists q''. split; [exact E''|].
  destruct (bq_unread_refines q' c q'' Hwf' E'') as [W U]. split; [exact W|].
  rewrite Ea in U. unfold aq_unread in U. unfold aq_read_byte in A. cbn [bq_abs aq_data aq_size aq_pos] in A.
  destruct (bq_size q <? 1); [discriminate|].
  destruct (bq_content q) as [|b r] eqn:BC; [discriminate|]. injection A as <- <-.
  cbn [aq_pos aq_data aq_size] in U. replace (bq_pos q + 1 <? 1) with false in U by lia.
  apply (f_equal (fun x => match x with Ok y => y | Err _ => aq_init end)) in U. cbv beta iota in U.
  rewrite <- U. unfold bq_abs at 1. rewrite BC. f_equal; lia.
Qed.
