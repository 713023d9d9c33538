(** C21, the queue as the text reader uses it: characters or octets one by one, put back one by one, and the mark for the end of the
    data ([mark_eof], reader.py:149-152), which is not a character. *)
From Verif Require Import Base BaseFacts BufferModel.
Local Open Scope Z_scope.

(** * Specification: what was consumed and what is to come; [Eof] is the mark. *)
Inductive u_op := UExtend (d : list Z) | UEnd | UNext | UBack (c : Z).
Inductive u_out := UUnit (u : unit_or_eof) | UDone | UExc (e : exc).
Record tape := mktape { past : list unit_or_eof; coming : list unit_or_eof }.
Definition tape_call (f : tape) (o : u_op) : u_out * tape :=
  match o with
  | UExtend d => (UDone, mktape (past f) (coming f ++ map Unit_ d))
  | UEnd => (UDone, mktape (past f) (coming f ++ [Eof]))
  | UNext => match coming f with [] => (UExc IndexError, f) | u :: r => (UUnit u, mktape (past f ++ [u]) r) end
  | UBack c => (UDone, mktape (removelast (past f)) (Unit_ c :: coming f))
  end.
(** Data is never empty, and what is put back is what came last. *)
Definition u_legal (f : tape) (o : u_op) : Prop :=
  match o with UExtend d => d <> [] | UEnd | UNext => True | UBack c => exists pre, past f = pre ++ [Unit_ c] end.
Fixpoint u_legal_history (f : tape) (os : list u_op) : Prop :=
  match os with [] => True | o :: os' => u_legal f o /\ u_legal_history (snd (tape_call f o)) os' end.
Fixpoint tape_history (f : tape) (os : list u_op) : list u_out * tape :=
  match os with
  | [] => ([], f)
  | o :: os' => let '(x, f1) := tape_call f o in let '(xs, f2) := tape_history f1 os' in (x :: xs, f2)
  end.

(** * The queue under the same calls; a call that raises leaves it as it was. *)
Definition queue_call (q : bq) (o : u_op) : u_out * bq :=
  match o with
  | UExtend d => (UDone, bq_extend q d)
  | UEnd => (UDone, bq_mark_eof q)
  | UNext => match bq_read_byte q with Ok (u, q') => (UUnit u, q') | Err e => (UExc e, q) end
  | UBack c => match bq_unread q c with Ok q' => (UDone, q') | Err e => (UExc e, q) end
  end.
Fixpoint queue_history (q : bq) (os : list u_op) : list u_out * bq :=
  match os with
  | [] => ([], q)
  | o :: os' => let '(x, q1) := queue_call q o in let '(xs, q2) := queue_history q1 os' in (x :: xs, q2)
  end.

(** * Proofs *)
Definition units (s : seg) : list unit_or_eof := match s with SData d => map Unit_ d | SEof => [Eof] end.
Lemma units_len s : zlen (units s) = seg_len s.
Proof. destruct s as [d|]; [|reflexivity]. unfold seg_len, zlen. cbn [units seg_data]. rewrite map_length. reflexivity. Qed.
Definition tells (q : bq) (f : tape) : Prop :=
  Forall (fun s => units s <> []) (bq_segs q) /\ bq_size q = zlen (coming f) /\ bq_pos q = zlen (past f) /\
  match bq_segs q with
  | [] => bq_off q = 0 /\ coming f = []
  | s :: r => exists p a b, units s = a ++ b /\ zlen a = bq_off q /\ b <> [] /\ past f = p ++ a /\ coming f = b ++ flat_map units r
  end.
Lemma data_split d a u b : map Unit_ d = a ++ u :: b -> exists d1 c d2, d = d1 ++ c :: d2 /\ a = map Unit_ d1 /\ u = Unit_ c /\ b = map Unit_ d2.
Proof.
  intros E. apply map_eq_app in E as (d1 & d2 & -> & <- & E). destruct d2 as [|c d2]; [discriminate|]. injection E as <- <-. exists d1, c, d2. auto.
Qed.
Lemma index_at (d1 : list Z) c d2 : py_index (d1 ++ c :: d2 : list Z) (zlen d1) = Ok c.
Proof.
  unfold py_index. cbv zeta. pose proof (zlen_nonneg d1). replace (zlen d1 <? 0) with false by lia. replace (zlen d1 <? 0) with false by lia.
  unfold zlen. rewrite Nat2Z.id, nth_error_app2 by lia. rewrite Nat.sub_diag. reflexivity.
Qed.
Lemma zlen_map_unit d : zlen (map Unit_ d) = zlen d.
Proof. unfold zlen. rewrite map_length. reflexivity. Qed.
Lemma zlen_one {A} (x : A) : zlen [x] = 1. Proof. reflexivity. Qed.
Lemma zlen_zero {A} (l : list A) : zlen l = 0 -> l = [].
Proof. destruct l; [reflexivity|]. rewrite zlen_cons. pose proof (zlen_nonneg l). lia. Qed.

Lemma tells_add q f s : tells q f -> units s <> [] ->
  tells (mkbq (bq_segs q ++ [s]) (bq_off q) (bq_size q + seg_len s) (bq_pos q)) (mktape (past f) (coming f ++ units s)).
Proof.
  intros (F & Z & P & H) N. unfold tells. cbn [bq_segs bq_off bq_size bq_pos past coming].
  split; [apply Forall_app; split; [exact F|constructor; [exact N|constructor]]|].
  split; [rewrite zlen_app, units_len; lia|]. split; [exact P|].
  destruct (bq_segs q) as [|s0 r]; cbn [app].
  - destruct H as (O & C). rewrite C, O. exists (past f), [], (units s). cbn [app flat_map]. rewrite !app_nil_r. repeat split; auto.
  - destruct H as (p & a & b & U & A & B & PF & CF). exists p, a, b. rewrite flat_map_app, CF, <- app_assoc. cbn [flat_map]. rewrite app_nil_r. repeat split; auto.
Qed.
Lemma tells_next q f : tells q f -> fst (queue_call q UNext) = fst (tape_call f UNext) /\ tells (snd (queue_call q UNext)) (snd (tape_call f UNext)).
Proof.
  intros T. pose proof T as (F & Z & P & H). cbn [queue_call tape_call]. unfold bq_read_byte.
  destruct (bq_segs q) as [|s r] eqn:SQ.
  { destruct H as (O & C). rewrite C in Z |- *. rewrite Z. cbn. split; [reflexivity|]. unfold tells. rewrite SQ. rewrite C. auto. }
  destruct H as (p & a & b & U & A & B & PF & CF). destruct b as [|u b]; [congruence|]. cbn [app] in CF. rewrite CF in Z |- *.
  rewrite zlen_cons in Z. pose proof (zlen_nonneg (b ++ flat_map units r)). replace (bq_size q <? 1) with false by lia.
  assert (X : match s with SEof => Ok Eof | SData d => let* z := py_index d (bq_off q) in Ok (Unit_ z) end = Ok u).
  { destruct s as [d|]; cbn [units] in U.
    - destruct (data_split _ _ _ _ U) as (d1 & c & d2 & -> & -> & -> & _). rewrite zlen_map_unit in A. rewrite <- A, index_at. reflexivity.
    - destruct a as [|a0 [|]]; cbn in U; [injection U as <- _; reflexivity| |]; discriminate. }
  rewrite X. cbn [bind fst snd]. split; [reflexivity|].
  assert (L : zlen a + 1 + zlen b = seg_len s) by (rewrite <- units_len, U, zlen_app, zlen_cons; lia). pose proof (zlen_nonneg b) as NB.
  unfold tells. cbn [bq_segs bq_off bq_size bq_pos past coming].
  destruct (bq_off q + 1 =? seg_len s) eqn:E.
  - assert (b = []) as -> by (apply zlen_zero; lia). split; [exact (Forall_inv_tail F)|]. split; [lia|]. split; [rewrite zlen_app, zlen_one; lia|].
    cbn [app]. destruct r as [|s1 r]; [auto|]. exists (past f ++ [u]), [], (units s1). rewrite app_nil_r.
    split; [reflexivity|]. split; [reflexivity|]. split; [exact (Forall_inv (Forall_inv_tail F))|]. split; reflexivity.
  - split; [exact F|]. split; [lia|]. split; [rewrite zlen_app, zlen_one; lia|].
    exists p, (a ++ [u]), b. rewrite <- app_assoc. split; [exact U|]. split; [rewrite zlen_app, zlen_one; lia|].
    split; [intros ->; change (zlen (@nil unit_or_eof)) with 0 in L; lia|]. split; [rewrite PF, app_assoc; reflexivity|reflexivity].
Qed.
Lemma tells_back q f c : tells q f -> u_legal f (UBack c) -> fst (queue_call q (UBack c)) = UDone /\ tells (snd (queue_call q (UBack c))) (snd (tape_call f (UBack c))).
Proof.
  intros T (pre & PP). pose proof T as (F & Z & P & H). cbn [queue_call tape_call snd]. unfold bq_unread. rewrite P, PP, zlen_app, zlen_one, removelast_last.
  pose proof (zlen_nonneg pre). replace (zlen pre + 1 <? 1) with false by lia.
  destruct (bq_off q =? 0) eqn:O.
  - cbn [fst snd]. split; [reflexivity|]. unfold tells. cbn [bq_segs bq_off bq_size bq_pos past coming].
    split; [constructor; [discriminate|exact F]|]. split; [rewrite zlen_cons; lia|]. split; [lia|].
    exists pre, [], [Unit_ c]. cbn [units map app]. rewrite app_nil_r. split; [reflexivity|]. split; [reflexivity|]. split; [discriminate|]. split; [reflexivity|]. f_equal.
    destruct (bq_segs q) as [|s r]; [destruct H as (_ & ->); reflexivity|]. destruct H as (p & a & b & U & A & B & PF & CF).
    assert (a = []) as -> by (apply zlen_zero; lia). rewrite CF. cbn [flat_map]. rewrite U. reflexivity.
  - destruct (bq_segs q) as [|s r] eqn:SQ; [destruct H; lia|]. destruct H as (p & a & b & U & A & B & PF & CF).
    destruct a as [|a1 a0] using rev_ind; [change (zlen (@nil unit_or_eof)) with 0 in A; lia|]. clear IHa0.
    rewrite PF, app_assoc in PP. apply app_inj_tail in PP as (PP & ->). rewrite <- app_assoc in U. cbn [app] in U.
    rewrite zlen_app, zlen_one in A.
    destruct s as [d|]; cbn [units] in U.
    2:{ destruct a0 as [|? [|]]; discriminate. }
    destruct (data_split _ _ _ _ U) as (d1 & c' & d2 & DE & AE & UE & BE). injection UE as ->. cbn [seg_data].
    assert (I : py_index d (bq_off q - 1) = Ok c') by (rewrite DE; replace (bq_off q - 1) with (zlen d1) by (rewrite AE, zlen_map_unit in A; lia); apply index_at).
    rewrite I. cbn [bind]. rewrite Z.eqb_refl. cbn [fst snd]. split; [reflexivity|].
    unfold tells. cbn [bq_segs bq_off bq_size bq_pos past coming].
    split; [exact F|]. split; [rewrite zlen_cons; lia|]. split; [lia|].
    exists p, a0, (Unit_ c' :: b). cbn [units]. split; [exact U|]. split; [lia|]. split; [discriminate|]. split; [symmetry; exact PP|]. rewrite CF. reflexivity.
Qed.
Lemma tells_call q f o : tells q f -> u_legal f o -> fst (queue_call q o) = fst (tape_call f o) /\ tells (snd (queue_call q o)) (snd (tape_call f o)).
Proof.
  intros T L. destruct o as [d| | |c].
  - split; [reflexivity|]. apply (tells_add q f (SData d) T). cbn [units]. intros E. apply map_eq_nil in E. exact (L E).
  - split; [reflexivity|]. apply (tells_add q f SEof T). discriminate.
  - exact (tells_next q f T).
  - destruct (tells_back q f c T L) as (A & B). split; [rewrite A; reflexivity|exact B].
Qed.
Lemma tells_history os : forall q f, tells q f -> u_legal_history f os ->
  fst (queue_history q os) = fst (tape_history f os) /\ tells (snd (queue_history q os)) (snd (tape_history f os)).
Proof.
  induction os as [|o os IH]; intros q f T L; cbn [queue_history tape_history]; [auto|]. destruct L as (L & LS). destruct (tells_call q f o T L) as (A & B).
  destruct (queue_call q o) as [x q1]. destruct (tape_call f o) as [y f1]. cbn [fst snd] in A, B, LS. subst y. destruct (IH q1 f1 B LS) as (C & D).
  destruct (queue_history q1 os) as [xs q2]. destruct (tape_history f1 os) as [ys f2]. cbn [fst snd] in *. subst ys. auto.
Qed.

(** * Theorem *)
Theorem C21_queue_with_end : forall os, u_legal_history (mktape [] []) os ->
  let '(outs, q) := queue_history bq_init os in
  let '(outs', f) := tape_history (mktape [] []) os in
  outs = outs' /\ bq_size q = zlen (coming f) /\ bq_pos q = zlen (past f).
Proof.
  intros os L. assert (T : tells bq_init (mktape [] [])) by (split; [constructor|]; repeat split; reflexivity).
  destruct (tells_history os _ _ T L) as (A & _ & B & C & _).
  destruct (queue_history bq_init os) as [xs q2]. destruct (tape_history (mktape [] []) os) as [ys f2]. cbn [fst snd] in *. auto.
Qed.
Print Assumptions C21_queue_with_end.
(** The mark is told apart from the character 4, which it looks like. *)
Theorem C21_end_case :
  let os := [UExtend [4; 97]; UNext; UNext; UBack 97; UEnd; UNext; UNext; UNext; UExtend [98]; UNext; UBack 98; UNext] in
  u_legal_history (mktape [] []) os /\
  fst (queue_history bq_init os) = [UDone; UUnit (Unit_ 4); UUnit (Unit_ 97); UDone; UDone; UUnit (Unit_ 97); UUnit Eof; UExc IndexError; UDone; UUnit (Unit_ 98); UDone; UUnit (Unit_ 98)].
Proof.
  split; [|vm_compute; reflexivity]. cbn. repeat split; try discriminate; [exists [Unit_ 4]|exists [Unit_ 4; Unit_ 97; Eof]]; reflexivity.
Qed.
