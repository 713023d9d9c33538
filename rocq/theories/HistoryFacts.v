(** Whole-history statements about the two buffers, used by Props_Buffer. *)
From Verif Require Import Base BaseFacts BufferModel BufferFacts.

(** * Every well-nested call sequence is a forest *)

(** [flat_map calls i0 ++ OEnd h1 :: flat_map calls i1 ++ ...]: the rest of a run that closes the
    containers [h1], [h2], ... in turn. *)
Fixpoint closing (i0 : list item) (st : list ((Z -> list Z) * list item)) : list bt_op :=
  match st with
  | [] => flat_map calls i0
  | (h, i) :: st' => flat_map calls i0 ++ OEnd h :: closing i st'
  end.

Lemma closing_cons x i0 st : closing (x :: i0) st = calls x ++ closing i0 st.
Proof. destruct st as [|[h i] st]; cbn [closing flat_map]; rewrite ?app_assoc; reflexivity. Qed.

Lemma nesting_closing os : forall k, nesting k os = Some 0%nat ->
  exists i0 st, length st = k /\ os = closing i0 st.
Proof.
  induction os as [|o os IH]; intros k H; cbn [nesting] in H.
  - injection H as ->. exists [], []. auto.
  - destruct o as [|b|h].
    + destruct (IH _ H) as (i0 & st & L & ->).
      destruct st as [|[h i] st]; [discriminate|]. cbn [length] in L.
      exists (Group h i0 :: i), st. split; [lia|].
      rewrite closing_cons. cbn [closing calls app]. rewrite <- app_assoc. reflexivity.
    + destruct (IH _ H) as (i0 & st & L & ->). exists (Leaf b :: i0), st.
      split; [exact L|]. rewrite closing_cons. reflexivity.
    + destruct k as [|k]; [discriminate|]. destruct (IH _ H) as (i0 & st & L & ->).
      exists [], ((h, i0) :: st). split; [cbn; lia|reflexivity].
Qed.

Lemma nesting_forest os : nesting 0 os = Some 0%nat <-> exists items, os = flat_map calls items.
Proof.
  split.
  - intros H. destruct (nesting_closing os 0 H) as (i0 & st & L & ->).
    destruct st; [|discriminate]. exists i0. reflexivity.
  - intros [items ->].
    destruct (bt_forest_drain items) as (t & bufs & R & D & _).
    pose proof (bt_run_nesting (flat_map calls items) bt_init bt_inv_init) as N.
    rewrite R in N. cbn [bt_init bt_open length] in N.
    destruct (nesting 0 (flat_map calls items)) as [d|]; [|contradiction].
    destruct N as [_ N]. unfold bt_drain in D. destruct (bt_open t); [|discriminate].
    cbn in N. congruence.
Qed.

(** * Queue histories *)

Inductive q_op := QExtend (d : list Z) | QRead (n : Z) | QReadByte | QSkip (n : Z) | QUnread (c : Z).
(** What a call returns: data, a code unit, the amount still to skip, nothing, or an exception. *)
Inductive q_out := QData (d : list Z) | QUnit (c : Z) | QRem (n : Z) | QDone | QExc (e : exc).

(** The real queue under one call; a call that raises leaves the queue as it was. *)
Definition bq_call (q : bq) (o : q_op) : q_out * bq :=
  match o with
  | QExtend d => (QDone, bq_extend q d)
  | QRead n => match bq_read q n false with Ok (d, q') => (QData d, q') | Err e => (QExc e, q) end
  | QReadByte => match bq_read_byte q with
                 | Ok (Unit_ c, q') => (QUnit c, q')
                 | Ok (Eof, q') => (QDone, q')
                 | Err e => (QExc e, q) end
  | QSkip n => match bq_skip q n with Ok (r, q') => (QRem r, q') | Err e => (QExc e, q) end
  | QUnread c => match bq_unread q c with Ok q' => (QDone, q') | Err e => (QExc e, q) end
  end.

(** The specification: the octets consumed so far and the octets still to come. *)
Record fifo := mkfifo { consumed : list Z; waiting : list Z }.
Definition fifo_call (f : fifo) (o : q_op) : q_out * fifo :=
  match o with
  | QExtend d => (QDone, mkfifo (consumed f) (waiting f ++ d))
  | QRead n =>
    if zlen (waiting f) <? n then (QExc IndexError, f)
    else (QData (ztake n (waiting f)),
          mkfifo (consumed f ++ ztake n (waiting f)) (zdrop n (waiting f)))
  | QReadByte =>
    match waiting f with
    | [] => (QExc IndexError, f)
    | c :: r => (QUnit c, mkfifo (consumed f ++ [c]) r)
    end
  | QSkip n =>
    if zlen (waiting f) <=? n
    then (QRem (n - zlen (waiting f)), mkfifo (consumed f ++ waiting f) [])
    else (QRem 0, mkfifo (consumed f ++ ztake n (waiting f)) (zdrop n (waiting f)))
  | QUnread c => (QDone, mkfifo (removelast (consumed f)) (c :: waiting f))
  end.

(** Legal calls: data is never empty, counts are not negative, and only the unit that was consumed
    last is put back. *)
Definition q_legal (f : fifo) (o : q_op) : Prop :=
  match o with
  | QExtend d => d <> []
  | QRead n | QSkip n => 0 <= n
  | QReadByte => True
  | QUnread c => exists pre, consumed f = pre ++ [c]
  end.

Fixpoint bq_history (q : bq) (os : list q_op) : list q_out * bq :=
  match os with
  | [] => ([], q)
  | o :: os' => let '(x, q1) := bq_call q o in
                let '(xs, q2) := bq_history q1 os' in (x :: xs, q2)
  end.
Fixpoint fifo_history (f : fifo) (os : list q_op) : list q_out * fifo :=
  match os with
  | [] => ([], f)
  | o :: os' => let '(x, f1) := fifo_call f o in
                let '(xs, f2) := fifo_history f1 os' in (x :: xs, f2)
  end.
Fixpoint q_legal_history (f : fifo) (os : list q_op) : Prop :=
  match os with
  | [] => True
  | o :: os' => q_legal f o /\ q_legal_history (snd (fifo_call f o)) os'
  end.

(** The relation kept along a history. The last disjunct-free part says the segment still holds
    the unit before the offset, which [unread] compares with. *)
Definition q_rel (q : bq) (f : fifo) : Prop :=
  bq_wf q /\ no_eof q /\ bq_content q = waiting f /\
  bq_size q = zlen (waiting f) /\ bq_pos q = zlen (consumed f) /\
  match bq_segs q with
  | [] => True
  | s :: _ => exists pre, consumed f = pre ++ ztake (bq_off q) (seg_data s)
  end.

Lemma no_eof_tail s r : Forall (fun x => x <> SEof) (s :: r) -> Forall (fun x => x <> SEof) r.
Proof. intros H. inversion H; auto. Qed.

Lemma bq_read_loop_segs segs : forall off n acc skip d segs' off',
  Forall (fun s => 0 < seg_len s) segs ->
  (match segs with [] => off = 0 | s :: _ => 0 <= off < seg_len s end) -> 0 < n ->
  bq_read_loop segs off n acc skip = Ok (d, segs', off') ->
  (exists used, segs = used ++ segs' /\
   match segs' with
   | [] => True
   | s :: _ => exists pre, ztake off (concat (map seg_data segs)) ++
                           ztake n (zdrop off (concat (map seg_data segs)))
                           = pre ++ ztake off' (seg_data s)
   end).
Proof.
  induction segs as [|s rest IH]; intros off n acc skip d segs' off' Hf Ho Hn E; [discriminate|].
  cbn [bq_read_loop] in E. cbv zeta in E.
  inversion Hf as [|? ? Hs Hr]; subst.
  set (m := Z.min (seg_len s - off) n) in *.
  assert (Hm : 0 < m) by lia.
  destruct (off + m =? seg_len s) eqn:C; cbv iota in E.
  - (* the segment is consumed *)
    assert (G : forall x, bq_read_loop rest 0 (n - m) x skip = Ok (d, segs', off') -> 0 < n - m ->
       exists used, s :: rest = used ++ segs' /\
       match segs' with
       | [] => True
       | s0 :: _ => exists pre, ztake off (concat (map seg_data (s :: rest))) ++
                       ztake n (zdrop off (concat (map seg_data (s :: rest))))
                       = pre ++ ztake off' (seg_data s0)
       end).
    { intros x E1 Hpos. apply IH in E1; auto.
      - destruct E1 as (used & -> & E1). exists (s :: used). split; [reflexivity|].
        destruct segs' as [|s0 r0]; [trivial|]. destruct E1 as [pre E1].
        exists (seg_data s ++ pre). rewrite <- app_assoc, <- E1.
        cbn [map concat]. unfold seg_len in *.
        rewrite (ztake_nonpos 0), (zdrop_nonpos 0), app_nil_l by lia.
        rewrite ztake_app_le, zdrop_app_le by lia.
        rewrite ztake_app_ge by (rewrite zlen_zdrop by lia; lia).
        rewrite app_assoc, ztake_drop. f_equal. f_equal.
        rewrite zlen_zdrop by lia. lia.
      - destruct rest as [|s1 r1]; [reflexivity|]. inversion Hr; subst. lia. }
    assert (F : segs' = rest -> off' = 0 -> exists used, s :: rest = used ++ segs' /\
       match segs' with
       | [] => True
       | s0 :: _ => exists pre, ztake off (concat (map seg_data (s :: rest))) ++
                       ztake n (zdrop off (concat (map seg_data (s :: rest))))
                       = pre ++ ztake off' (seg_data s0)
       end).
    { intros -> ->. exists [s]. split; [reflexivity|]. destruct rest; [trivial|].
      eexists. rewrite (ztake_nonpos 0 (seg_data s0)) by lia. rewrite app_nil_r. reflexivity. }
    destruct ((n <=? seg_len s - off) && (zlen acc =? 0)) eqn:Q.
    + injection E as _ <- <-. apply F; reflexivity.
    + destruct (0 <? n - m) eqn:P.
      * eapply G; [exact E|lia].
      * injection E as _ <- <-. apply F; reflexivity.
  - assert (Z : n - m <= 0) by lia.
    assert (Hr2 : segs' = s :: rest /\ off' = off + m).
    { destruct ((n <=? seg_len s - off) && (zlen acc =? 0)) eqn:Q.
      - injection E as _ <- <-. auto.
      - destruct (0 <? n - m) eqn:P; [discriminate|]. injection E as _ <- <-. auto. }
    destruct Hr2 as [-> ->]. exists []. split; [reflexivity|].
    exists []. cbn [map concat app]. unfold seg_len in *.
    rewrite ztake_app_le, zdrop_app_le by lia.
    rewrite ztake_app_le by (rewrite zlen_zdrop by lia; lia).
    replace m with n by lia.
    rewrite <- (ztake_drop (off) (seg_data s)) at 3.
    rewrite ztake_app_ge by (rewrite zlen_ztake by lia; lia).
    rewrite zlen_ztake by lia. do 2 f_equal. lia.
Qed.

Lemma rel_after_read q f n d q' : q_rel q f -> 0 <= n -> bq_read q n false = Ok (d, q') ->
  n <= zlen (waiting f) /\ d = ztake n (waiting f) /\
  q_rel q' (mkfifo (consumed f ++ ztake n (waiting f)) (zdrop n (waiting f))).
Proof.
  intros (Hwf & NE & Hc & Hs & Hp & Hl) Hn E.
  pose proof (bq_read_refines q n Hwf) as R. rewrite E in R.
  unfold aq_read in R. cbn [bq_abs aq_data aq_size aq_pos] in R. rewrite Hc in R.
  destruct (bq_size q <? n) eqn:C; [contradiction|].
  destruct (zlen (waiting f) <? n) eqn:C2; [contradiction|].
  destruct R as (-> & Hwf' & A). split; [lia|]. split; [reflexivity|].
  assert (A1 : bq_content q' = zdrop n (waiting f)) by (apply (f_equal aq_data) in A; exact A).
  assert (A2 : bq_size q' = bq_size q - n) by (apply (f_equal aq_size) in A; exact A).
  assert (A3 : bq_pos q' = bq_pos q + n) by (apply (f_equal aq_pos) in A; exact A).
  unfold q_rel. cbn [consumed waiting].
  unfold bq_read in E. rewrite C in E.
  destruct (n <=? 0) eqn:C0.
  - injection E as _ <-. assert (n = 0) as -> by lia. cbn [bq_segs bq_off bq_size bq_pos].
    rewrite ztake_nonpos, zdrop_nonpos, app_nil_r by lia.
    split; [exact Hwf'|]. split; [exact NE|]. split; [exact Hc|]. split; [lia|]. split; [lia|exact Hl].
  - destruct (bq_read_loop (bq_segs q) (bq_off q) n [] false) as [[[d' segs'] off']|] eqn:L;
      cbn [bind] in E; [|discriminate].
    injection E as -> <-. cbn [bq_segs bq_off bq_size bq_pos] in *.
    destruct Hwf as [W1 W2].
    apply bq_read_loop_segs in L; [|assumption|assumption|lia].
    destruct L as (used & U & L).
    split; [exact Hwf'|]. split.
    { unfold no_eof in *. cbn [bq_segs]. rewrite U in NE. apply Forall_app in NE. tauto. }
    split; [exact A1|]. split; [rewrite zlen_zdrop by lia; lia|].
    split; [rewrite zlen_app, zlen_ztake by lia; lia|].
    destruct segs' as [|s r]; [trivial|]. destruct L as [pre L].
    destruct (bq_segs q) as [|s0 r0] eqn:Sg; [destruct used; discriminate|].
    destruct Hl as [pre0 Hl]. exists (pre0 ++ pre). rewrite <- app_assoc, <- L.
    rewrite Hl, <- app_assoc. f_equal. unfold bq_content in Hc. rewrite Sg in Hc. rewrite Hc.
    f_equal. cbn [map concat]. rewrite ztake_app_le; [reflexivity|]. unfold seg_len in W2. lia.
Qed.

Lemma rel_call q f o : q_rel q f -> q_legal f o ->
  fst (bq_call q o) = fst (fifo_call f o) /\ q_rel (snd (bq_call q o)) (snd (fifo_call f o)).
Proof.
  intros Hrel Hl. pose proof Hrel as (Hwf & NE & Hc & Hs & Hp & Hpre).
  destruct o as [d|n| |n|c]; cbn [bq_call fifo_call q_legal] in *.
  - split; [reflexivity|]. cbn [snd].
    destruct (bq_extend_refines q d Hwf Hl) as [W A].
    unfold q_rel. split; [exact W|]. cbn [consumed waiting].
    split. { unfold no_eof; cbn. apply Forall_app. split; [exact NE|]. constructor; [discriminate|constructor]. }
    split. { apply (f_equal aq_data) in A. cbn in A. rewrite A. rewrite Hc. reflexivity. }
    split. { cbn. rewrite zlen_app. lia. }
    split. { cbn. lia. }
    cbn [bq_extend bq_segs bq_off].
    destruct (bq_segs q) as [|s r] eqn:Sg; cbn [app].
    + destruct Hwf as [_ Hwf]. rewrite Sg in Hwf. rewrite Hwf. exists (consumed f).
      rewrite ztake_nonpos by lia. rewrite app_nil_r. reflexivity.
    + exact Hpre.
  - pose proof (bq_read_refines q n Hwf) as R.
    destruct (bq_read q n false) as [[d q']|e] eqn:E.
    + destruct (rel_after_read q f n d q' Hrel Hl E) as (H1 & -> & H2).
      replace (zlen (waiting f) <? n) with false by lia. auto.
    + unfold aq_read in R. cbn [bq_abs aq_data aq_size aq_pos] in R. rewrite Hc, Hs in R.
      destruct (zlen (waiting f) <? n) eqn:C; [|contradiction].
      destruct R as [_ ->]. auto.
  - pose proof (bq_read_byte_refines q Hwf NE) as R.
    unfold aq_read_byte in R. cbn [bq_abs aq_data aq_size aq_pos] in R. rewrite Hc, Hs in R.
    destruct (waiting f) as [|c w] eqn:W.
    + change (zlen []) with 0 in R. cbv [Z.ltb Z.compare] in R.
      destruct (bq_read_byte q) as [[u q']|e]; [contradiction|]. destruct R as [_ ->]. auto.
    + rewrite zlen_cons in R. pose proof (zlen_nonneg w).
      replace (1 + zlen w <? 1) with false in R by lia.
      destruct (bq_read_byte q) as [[u q']|e] eqn:E; [|contradiction].
      destruct R as (-> & Hwf' & A). split; [reflexivity|]. cbn [snd].
      assert (A1 : bq_content q' = w) by (apply (f_equal aq_data) in A; exact A).
      assert (A2 : bq_size q' = 1 + zlen w - 1) by (apply (f_equal aq_size) in A; exact A).
      assert (A3 : bq_pos q' = bq_pos q + 1) by (apply (f_equal aq_pos) in A; exact A).
      unfold q_rel. cbn [consumed waiting]. split; [exact Hwf'|].
      unfold bq_read_byte in E. destruct (bq_size q <? 1); [discriminate|].
      destruct (bq_segs q) as [|s r] eqn:Sg; [discriminate|].
      destruct s as [d|]; [|exfalso; unfold no_eof in NE; rewrite Sg in NE; inversion NE; congruence].
      destruct (py_index d (bq_off q)) as [z|] eqn:X; cbn [bind] in E; [|discriminate].
      injection E as -> <-. cbn [bq_segs bq_off bq_size bq_pos] in *.
      unfold no_eof in *. rewrite Sg in NE. cbn [bq_segs].
      split. { destruct (bq_off q + 1 =? seg_len (SData d)); [eapply no_eof_tail; eauto|exact NE]. }
      split; [exact A1|]. split; [lia|]. split; [rewrite zlen_app; unfold zlen at 2; cbn; lia|].
      destruct Hwf as [_ Ho]. rewrite Sg in Ho. destruct Hpre as [pre Hpre].
      destruct (bq_off q + 1 =? seg_len (SData d)) eqn:C.
      * destruct r; [trivial|]. eexists. rewrite (ztake_nonpos 0) by lia. rewrite app_nil_r. reflexivity.
      * exists pre. rewrite Hpre, <- app_assoc. f_equal. cbn [seg_data].
        unfold bq_content in Hc. rewrite Sg in Hc. cbn [map concat seg_data] in Hc.
        unfold seg_len in *. cbn [seg_data] in *.
        rewrite zdrop_app_le in Hc by lia.
        rewrite <- (ztake_drop (bq_off q) d) at 2.
        rewrite ztake_app_ge by (rewrite zlen_ztake by lia; lia).
        rewrite zlen_ztake by lia. f_equal.
        destruct (zdrop (bq_off q) d) as [|x xs] eqn:D.
        { apply (f_equal zlen) in D. rewrite zlen_zdrop in D by lia. unfold zlen at 2 in D. cbn in D. lia. }
        cbn [app] in Hc. injection Hc as -> _.
        replace (bq_off q + 1 - bq_off q) with 1 by lia. reflexivity.
  - unfold bq_skip. rewrite Hs.
    destruct (zlen (waiting f) <=? n) eqn:C; cbn [fst snd].
    + split; [reflexivity|]. unfold q_rel; cbn. split; [split; [constructor|reflexivity]|].
      split; [constructor|]. split; [reflexivity|]. split; [reflexivity|].
      split; [rewrite zlen_app; lia|trivial].
    + pose proof (bq_skip_refines q n Hwf) as R. unfold bq_skip in R. rewrite Hs, C in R.
      (* skipping reads with the data dropped: the same queue as reading *)
      pose proof (bq_read_refines q n Hwf) as R2.
      unfold aq_read in R2. cbn [bq_abs aq_data aq_size aq_pos] in R2. rewrite Hc, Hs in R2.
      replace (zlen (waiting f) <? n) with false in R2 by lia.
      destruct (bq_read q n false) as [[d q']|e] eqn:E; [|contradiction].
      destruct (rel_after_read q f n d q' Hrel Hl E) as (_ & _ & H2).
      assert (E3 : exists d', bq_read q n true = Ok (d', q')).
      { clear - E. unfold bq_read in *. destruct (bq_size q <? n); [discriminate|].
        destruct (n <=? 0); [injection E as <- <-; eauto|].
        assert (G : forall segs off n a1 a2 d s o, (zlen a1 = 0 <-> zlen a2 = 0) \/ a2 = [] ->
          bq_read_loop segs off n a1 false = Ok (d, s, o) ->
          exists d', bq_read_loop segs off n a2 true = Ok (d', s, o)).
        { clear. induction segs as [|s r IH]; intros off n a1 a2 d s' o' Ha E; [discriminate|].
          cbn [bq_read_loop] in *. cbv zeta in *.
          destruct (n <=? seg_len s - off) eqn:L.
          - assert (P : 0 <? n - Z.min (seg_len s - off) n = false) by lia. rewrite P in *.
            destruct (zlen a1 =? 0), (zlen a2 =? 0); cbn [andb] in *;
              injection E as _ <- <-; eauto.
          - cbn [andb] in *. destruct (0 <? n - Z.min (seg_len s - off) n).
            + destruct (off + Z.min (seg_len s - off) n =? seg_len s); [|discriminate].
              eapply IH; [|exact E]. destruct Ha as [Ha| ->].
              * destruct a2 as [|x a2]; [right; reflexivity|]. left.
                pose proof (zlen_nonneg a2). rewrite app_nil_r, zlen_cons. split; intros Z0; [|lia].
                rewrite zlen_app in Z0. pose proof (zlen_nonneg a1).
                match type of Z0 with _ + zlen ?u = 0 => pose proof (zlen_nonneg u) end.
                rewrite zlen_cons in Ha. lia.
              * right. reflexivity.
            + injection E as _ <- <-. eauto. }
        destruct (bq_read_loop (bq_segs q) (bq_off q) n [] false) as [[[x y] z]|] eqn:L;
          cbn [bind] in E; [|discriminate].
        destruct (G _ _ _ [] [] _ _ _ (or_intror eq_refl) L) as [d' ->].
        cbn [bind]. injection E as _ <-. eauto. }
      destruct E3 as [d' ->]. cbn [bind fst snd]. auto.
  - destruct Hl as [pre Hl]. cbn [fst snd].
    assert (U : exists q', bq_unread q c = Ok q').
    { unfold bq_unread. rewrite Hp, Hl, zlen_app. change (zlen [c]) with 1.
      pose proof (zlen_nonneg pre). replace (zlen pre + 1 <? 1) with false by lia.
      destruct (bq_off q =? 0) eqn:O; [eauto|].
      destruct Hwf as [_ Ho]. destruct (bq_segs q) as [|s r]; [lia|].
      destruct Hpre as [p2 Hpre]. rewrite Hl in Hpre.
      assert (X : py_index (seg_data s) (bq_off q - 1) = Ok c).
      { unfold py_index. cbv zeta. replace (bq_off q - 1 <? 0) with false by lia.
        replace (bq_off q - 1 <? 0) with false by lia.
        assert (N : nth_error (ztake (bq_off q) (seg_data s)) (Z.to_nat (bq_off q - 1)) = Some c).
        { assert (zlen (ztake (bq_off q) (seg_data s)) = bq_off q)
            by (apply zlen_ztake; unfold seg_len in Ho; lia).
          destruct (@exists_last _ (ztake (bq_off q) (seg_data s))) as (l & x & E).
          { intros E. rewrite E in H0. change (zlen []) with 0 in H0. lia. }
          rewrite E in *. rewrite app_assoc in Hpre. apply app_inj_tail in Hpre as [_ <-].
          rewrite zlen_app in H0. change (zlen [c]) with 1 in H0.
          rewrite nth_error_app2 by (unfold zlen in H0; lia).
          replace (Z.to_nat (bq_off q - 1) - length l)%nat with 0%nat by (unfold zlen in H0; lia).
          reflexivity. }
        rewrite <- (ztake_drop (bq_off q) (seg_data s)). rewrite nth_error_app1; [rewrite N; reflexivity|].
        apply nth_error_Some. rewrite N. discriminate. }
      rewrite X. cbn [bind]. rewrite Z.eqb_refl. eauto. }
    destruct U as [q' U]. rewrite U. cbn [fst snd]. split; [reflexivity|].
    destruct (bq_unread_refines q c q' Hwf U) as [W' A].
    unfold aq_unread in A. cbn [bq_abs aq_pos aq_data aq_size] in A.
    rewrite Hp, Hl, zlen_app in A. change (zlen [c]) with 1 in A.
    pose proof (zlen_nonneg pre). replace (zlen pre + 1 <? 1) with false in A by lia.
    assert (A' : bq_abs q' = mkaq (c :: bq_content q) (bq_size q + 1) (zlen pre + 1 - 1)) by congruence.
    unfold q_rel. cbn [consumed waiting]. rewrite Hl, removelast_last.
    split; [exact W'|]. split.
    { unfold bq_unread in U. destruct (bq_pos q <? 1); [discriminate|].
      destruct (bq_off q =? 0).
      - injection U as <-. unfold no_eof; cbn. constructor; [discriminate|exact NE].
      - unfold no_eof in *. destruct (bq_segs q); [discriminate|].
        destruct (py_index (seg_data s) (bq_off q - 1)) as [x|]; cbn [bind] in U; [|discriminate].
        destruct (x =? c); [|discriminate]. injection U as <-. exact NE. }
    split. { apply (f_equal aq_data) in A'. cbn in A'. rewrite A', Hc. reflexivity. }
    split. { apply (f_equal aq_size) in A'. cbn [bq_abs aq_size] in A'. rewrite A', Hs, zlen_cons. lia. }
    split. { apply (f_equal aq_pos) in A'. cbn [bq_abs aq_pos] in A'. rewrite A'. lia. }
    unfold bq_unread in U. destruct (bq_pos q <? 1); [discriminate|].
    destruct (bq_off q =? 0) eqn:O.
    + injection U as <-. cbn. exists pre. rewrite app_nil_r. reflexivity.
    + destruct (bq_segs q) as [|s r] eqn:Sg; [discriminate|].
      destruct (py_index (seg_data s) (bq_off q - 1)) as [x|]; cbn [bind] in U; [|discriminate].
      destruct (x =? c); [|discriminate]. injection U as <-. cbn [bq_segs bq_off].
      destruct Hpre as [p2 Hpre]. rewrite Hl in Hpre. exists p2.
      destruct Hwf as [_ Ho]. rewrite Sg in Ho. unfold seg_len in Ho.
      assert (E : ztake (bq_off q) (seg_data s)
                  = ztake (bq_off q - 1) (seg_data s) ++ ztake 1 (zdrop (bq_off q - 1) (seg_data s))).
      { rewrite <- (ztake_drop (bq_off q - 1) (seg_data s)) at 1.
        rewrite ztake_app_ge by (rewrite zlen_ztake by lia; lia).
        rewrite zlen_ztake by lia. do 2 f_equal. lia. }
      assert (L1 : zlen (ztake 1 (zdrop (bq_off q - 1) (seg_data s))) = 1)
        by (apply zlen_ztake; rewrite zlen_zdrop by lia; lia).
      destruct (ztake 1 (zdrop (bq_off q - 1) (seg_data s))) as [|y [|? ?]].
      { discriminate. }
      { rewrite E, app_assoc in Hpre. apply app_inj_tail in Hpre as [Hpre _]. exact Hpre. }
      { rewrite !zlen_cons in L1. match type of L1 with context [zlen ?u] => pose proof (zlen_nonneg u) end. lia. }
Qed.

Lemma rel_init : q_rel bq_init (mkfifo [] []).
Proof. split; [apply bq_wf_init|]. repeat split; constructor. Qed.

Lemma rel_history os : forall q f, q_rel q f -> q_legal_history f os ->
  fst (bq_history q os) = fst (fifo_history f os) /\
  q_rel (snd (bq_history q os)) (snd (fifo_history f os)).
Proof.
  induction os as [|o os IH]; intros q f R L; cbn [bq_history fifo_history]; [auto|].
  destruct L as [L1 L2]. destruct (rel_call q f o R L1) as [H1 H2].
  destruct (bq_call q o) as [x q1], (fifo_call f o) as [y f1]. cbn [fst snd] in *. subst y.
  destruct (IH q1 f1 H2 L2) as [H3 H4].
  destruct (bq_history q1 os) as [xs q2], (fifo_history f1 os) as [ys f2]. cbn [fst snd] in *.
  subst ys. auto.
Qed.
