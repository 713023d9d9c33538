(** The reader machine simulates the whole-input specification, for any arrival of the data. *)
From Verif Require Import Base BaseFacts FieldsModel FieldsFacts BufferModel CoreModel BinReaderModel
  BinReaderSpec.

(** * Meaning of the suspended program points *)

Definition d_vk (fs : list frame) (vk : vkont) (c : rctx) (v pos : Z) (bs : list Z) : outcome :=
  match vk with
  | VField =>
    match fs with
    | [] => OFail TypeError
    | f :: rest =>
      let at_top := f_depth f =? 0 in
      let fs' := mkframe (f_type f) (f_limit f) (f_depth f) false :: rest in
      p_typed (p_annot fs') fs' (mkctx (f_limit f) (f_depth f) (Some (sid_token v)) None)
              (f_first f && at_top) at_top pos bs
    end
  | VUser u => p_user (p_annot fs) fs u v c pos bs
  | VOrdered => if v <? 2 then OFail IonException else p_user (p_annot fs) fs (UContainer TStruct) v c pos bs
  | VAnnLen =>
    if v <? 1 then OFail IonException
    else p_read c v incomplete_event
           (fun data pos bs =>
              match parse_sids data with
              | Err e => OFail e
              | Ok sids =>
                match c_limit c with
                | None => OFail TypeError
                | Some lim =>
                  if lim - pos <? 1 then OFail IonException
                  else p_typed (p_annot fs) fs
                         (mkctx (c_limit c) (c_depth c) (c_field c) (Some sids)) false false pos bs
                end
              end) pos bs
  end.

Definition need (k : kont) : Z :=
  match k with
  | KVar _ _ _ => 1 | KIvm => 3 | KType _ _ => 1
  | KScalar _ _ n _ => n | KAnn n _ => n | KLoop => 0 | KSkipped => 0
  end.
Definition is_skip_k (k : kont) : bool := match k with KLoop | KSkipped => true | _ => false end.

Definition d_k (fs : list frame) (k : kont) (pos : Z) (bs : list Z) : outcome :=
  match k with
  | KVar value vk c =>
    match bs with
    | b :: r => if varuint_last b then d_vk fs vk c (varuint_step value b) (pos + 1) r
                else p_var c (varuint_step value b) (d_vk fs vk c) (pos + 1) r
    | [] => OFail OutOfFuel
    end
  | KIvm => if zlist_eqb (ztake 3 bs) [0x01; 0x00; 0xEA]
            then ODone (Some version_marker_event) fs (pos + 3) (zdrop 3 bs)
            else OFail IonException
  | KType c expects =>
    match bs with
    | o :: r => if expects && negb (o =? 0xE0) then OFail IonException
                else p_handler (p_annot fs) fs (dispatch o) c (pos + 1) r
    | [] => OFail OutOfFuel
    end
  | KScalar k t n c => p_emit fs c EScalar t (scalar_evalue k (ztake n bs)) (pos + n) (zdrop n bs)
  | KAnn n c =>
    match parse_sids (ztake n bs) with
    | Err e => OFail e
    | Ok sids =>
      match c_limit c with
      | None => OFail TypeError
      | Some lim =>
        if lim - (pos + n) <? 1 then OFail IonException
        else p_typed (p_annot fs) fs
               (mkctx (c_limit c) (c_depth c) (c_field c) (Some sids)) false false (pos + n) (zdrop n bs)
      end
    end
  | KLoop => ODone None fs pos bs
  | KSkipped => p_item fs pos bs
  end.

(** Meaning of a state with the octets [bs] to come ([bs] includes the buffered ones); at the loop
    it is a finished pad. *)
Definition den (s : rstate) (bs : list Z) : outcome :=
  let fs := r_frames s in
  let pos := aq_pos (r_q s) in
  match r_pc s with
  | PLoop => ODone None fs pos bs
  | PRead n true sev k =>
    if zlen bs <? n then OMore incomplete_event
    else d_k fs k (pos + Z.max 0 n) (zdrop n bs)
  | PRead n false sev k =>
    if zlen bs <? need k then OMore (match bs with [] => sev | _ => incomplete_event end)
    else d_k fs k pos bs
  | PK k => d_k fs k pos bs
  | PVar v vk c => p_var c v (d_vk fs vk c) pos bs
  end.

Definition pc_inv (p : pc) (data : list Z) : Prop :=
  match p with
  | PLoop => True
  | PRead n true sev k => is_skip_k k = true /\ (0 < n -> data = []) /\ sev = incomplete_event
  | PRead n false sev k =>
    is_skip_k k = false /\ n + zlen data = need k /\ 1 <= need k /\
    (data <> [] -> sev = incomplete_event) /\ is_stream_signal (ev_type sev) = true
  | PK k => is_skip_k k = false -> 1 <= need k <= zlen data
  | PVar _ _ _ => True
  end.

Definition inv (s : rstate) : Prop :=
  aq_size (r_q s) = zlen (aq_data (r_q s)) /\ pc_inv (r_pc s) (aq_data (r_q s)).

(** A finished pad goes on with the next item. *)
Inductive resolves : outcome -> outcome -> Prop :=
| res_pad fs pos bs R : resolves (p_item fs pos bs) R -> resolves (ODone None fs pos bs) R
| res_event ev fs pos bs : resolves (ODone (Some ev) fs pos bs) (ODone (Some ev) fs pos bs)
| res_more sig : resolves (OMore sig) (OMore sig)
| res_fail e : resolves (OFail e) (OFail e).

Definition not_fail (o : outcome) : Prop := match o with OFail _ => False | _ => True end.

(** * Continuations that agree give parsers that agree *)

Lemma p_read_ext c n sig k1 k2 pos bs :
  (n <= zlen bs -> k1 (ztake n bs) (pos + n) (zdrop n bs) = k2 (ztake n bs) (pos + n) (zdrop n bs)) ->
  p_read c n sig k1 pos bs = p_read c n sig k2 pos bs.
Proof.
  intros H. unfold p_read. destruct (if c_depth c =? 0 then _ else _); [|reflexivity].
  destruct (zlen bs <? n) eqn:E; [reflexivity|]. apply H. lia.
Qed.

Lemma p_var_ext c k1 k2 bs : (forall v p b, k1 v p b = k2 v p b) ->
  forall v pos, p_var c v k1 pos bs = p_var c v k2 pos bs.
Proof.
  intros H. induction bs as [|b r IH]; intros v pos; cbn [p_var].
  - reflexivity.
  - destruct (if c_depth c =? 0 then _ else _); [|reflexivity].
    destruct (varuint_last b); [apply H|apply IH].
Qed.

(** Under annotations the wrapper parser does not matter: it always refuses. *)
Lemma p_user_annotated fs u n c a pos bs : c_annot c = Some a ->
  p_user p_no_annot fs u n c pos bs = p_user (p_annot fs) fs u n c pos bs.
Proof. intros H. destruct u; cbn [p_user]; try reflexivity. unfold p_no_annot, p_annot. rewrite H. reflexivity. Qed.

Lemma p_handler_annotated fs h c a pos bs : c_annot c = Some a ->
  p_handler p_no_annot fs h c pos bs = p_handler (p_annot fs) fs h c pos bs.
Proof.
  intros H. destruct h; cbn [p_handler]; try reflexivity.
  - eapply p_user_annotated; eauto.
  - apply p_var_ext. intros. eapply p_user_annotated; eauto.
Qed.

Lemma p_typed_annotated fs c a e t pos bs : c_annot c = Some a ->
  p_typed p_no_annot fs c e t pos bs = p_typed (p_annot fs) fs c e t pos bs.
Proof.
  intros H. unfold p_typed. apply p_read_ext. intros _. destruct (ztake 1 bs); [reflexivity|].
  destruct (_ && _); [reflexivity|]. eapply p_handler_annotated; eauto.
Qed.

Lemma p_annot_den fs c n pos bs : c_annot c = None ->
  p_annot fs c n pos bs =
  p_var (mkctx (Some (pos + n)) (c_depth c) (c_field c) None) 0
        (d_vk fs VAnnLen (mkctx (Some (pos + n)) (c_depth c) (c_field c) None)) pos bs.
Proof.
  intros H. unfold p_annot. rewrite H. cbv zeta. apply p_var_ext. intros v p b. cbn [d_vk].
  destruct (v <? 1); [reflexivity|]. apply p_read_ext. intros _.
  destruct (parse_sids (ztake v b)) as [sids|]; [|reflexivity]. cbn [c_limit c_depth c_field].
  destruct (pos + n - (p + v) <? 1); [reflexivity|]. eapply p_typed_annotated. reflexivity.
Qed.

(** * Machine fragments against parser fragments *)

(** [agrees r bs fut o]: the machine result [r] carries on the parse whose meaning is [o]. *)
Definition agrees (r : sres) (fut : list Z) (o : outcome) : Prop :=
  match r with
  | Err e => o = OFail e
  | Ok (s', None) => inv s' /\ den s' (aq_data (r_q s') ++ fut) = o
  | Ok (s', Some ev) =>
    inv s' /\ r_pc s' = PLoop /\
    o = ODone (Some ev) (r_frames s') (aq_pos (r_q s')) (aq_data (r_q s') ++ fut) /\
    is_stream_signal (ev_type ev) = false
  end.

Definition qwf (q : aq) : Prop := aq_size q = zlen (aq_data q).

Lemma begin_read_agrees fs q c n sev k kk fut :
  qwf q -> is_skip_k k = false -> need k = n -> 1 <= n -> is_stream_signal (ev_type sev) = true ->
  (forall bs, n <= zlen bs -> d_k fs k (aq_pos q) bs = kk (ztake n bs) (aq_pos q + n) (zdrop n bs)) ->
  (1 < n -> sev = incomplete_event) ->
  agrees (begin_read fs q c n false sev k) fut (p_read c n sev kk (aq_pos q) (aq_data q ++ fut)).
Proof.
  intros W K N L S D Sv. unfold begin_read, p_read.
  destruct (if c_depth c =? 0 then _ else _) as [u|e]; cbn [bind agrees]; [|reflexivity].
  cbn [r_q]. split.
  - split; [exact W|]. cbn [r_pc pc_inv r_q]. split; [exact K|]. rewrite W. split; [lia|].
    split; [lia|]. split.
    + intros H. destruct (0 <? zlen (aq_data q)) eqn:E; [reflexivity|].
      exfalso. apply H. apply zlen_zero. pose proof (zlen_nonneg (aq_data q)). lia.
    + destruct (0 <? zlen (aq_data q)); [reflexivity|exact S].
  - unfold den; cbn [r_pc r_frames r_q]. rewrite N.
    destruct (zlen (aq_data q ++ fut) <? n) eqn:E.
    + f_equal. destruct (aq_data q ++ fut) eqn:F; [|reflexivity].
      apply app_eq_nil in F as [F1 F2]. rewrite W, F1. reflexivity.
    + apply D. lia.
Qed.

Lemma zdrop_zlen {A} (l : list A) : zdrop (zlen l) l = [].
Proof. apply zdrop_all. lia. Qed.

Lemma begin_skip_agrees fs q c n kk k fut :
  qwf q -> 0 <= n -> is_skip_k k = true ->
  (forall bs, n <= zlen bs -> d_k fs k (aq_pos q + n) (zdrop n bs) = kk (ztake n bs) (aq_pos q + n) (zdrop n bs)) ->
  agrees (begin_read fs q c n true incomplete_event k) fut
         (p_read c n incomplete_event kk (aq_pos q) (aq_data q ++ fut)).
Proof.
  intros W L K D. unfold begin_read, p_read.
  destruct (if c_depth c =? 0 then _ else _) as [u|e]; cbn [bind agrees]; [|reflexivity].
  replace (if 0 <? aq_size q then incomplete_event else incomplete_event) with incomplete_event
    by (destruct (0 <? aq_size q); reflexivity).
  rewrite W. pose proof (zlen_nonneg (aq_data q)) as P.
  assert (M : forall l : list Z, match l with [] => incomplete_event | _ => incomplete_event end = incomplete_event)
    by (intros [|]; reflexivity).
  rewrite M.
  destruct (0 <=? n - zlen (aq_data q)) eqn:E.
  - (* the whole queue goes *)
    unfold aq_skip. rewrite W, Z.leb_refl. cbn [bind agrees]. split.
    + split; [reflexivity|]. cbn [r_pc pc_inv r_q aq_data]. auto.
    + unfold den; cbn [r_pc r_frames r_q aq_data aq_pos app].
      rewrite zlen_app.
      destruct (zlen fut <? n - zlen (aq_data q)) eqn:F.
      * replace (zlen (aq_data q) + zlen fut <? n) with true by lia. reflexivity.
      * replace (zlen (aq_data q) + zlen fut <? n) with false by lia.
        rewrite <- D by (rewrite zlen_app; lia). rewrite zdrop_app_ge by lia. f_equal. lia.
  - (* part of the queue *)
    unfold aq_skip. rewrite W. replace (zlen (aq_data q) + (n - zlen (aq_data q))) with n by lia.
    replace (zlen (aq_data q) <=? n) with false by lia.
    unfold aq_read. rewrite W. replace (zlen (aq_data q) <? n) with false by lia.
    cbn [bind agrees]. split.
    + split; [cbn [r_q aq_size aq_data]; rewrite zlen_zdrop by lia; lia|].
      cbn [r_pc pc_inv r_q aq_data]. split; [exact K|]. split; [lia|reflexivity].
    + unfold den; cbn [r_pc r_frames r_q aq_data aq_pos].
      match goal with |- context [zlen ?l <? n - _] => pose proof (zlen_nonneg l) end.
      replace (zlen (zdrop n (aq_data q) ++ fut) <? n - zlen (aq_data q)) with false by lia.
      rewrite zlen_app. pose proof (zlen_nonneg fut).
      replace (zlen (aq_data q) + zlen fut <? n) with false by lia.
      rewrite <- D by (rewrite zlen_app; lia).
      rewrite Z.max_l by lia. rewrite Z.add_0_r.
      rewrite (zdrop_nonpos (n - zlen (aq_data q))) by lia.
      rewrite zdrop_app_le by lia. reflexivity.
Qed.

Lemma emit_agrees fs q c et t v fut : qwf q -> is_stream_signal et = false ->
  agrees (emit fs q c et t v) fut (p_emit fs c et t v (aq_pos q) (aq_data q ++ fut)).
Proof.
  intros W S. unfold emit, p_emit. cbv zeta.
  match goal with |- agrees (bind ?x _) _ _ => destruct x end; cbn [bind agrees]; [|reflexivity].
  cbn [r_q r_pc r_frames ev_type]. split; [split; [exact W|exact I]|]. auto.
Qed.

Lemma pvar_agrees fs q c v vk fut : qwf q ->
  agrees (Ok (mkr fs (PVar v vk c) q, None)) fut
         (p_var c v (d_vk fs vk c) (aq_pos q) (aq_data q ++ fut)).
Proof. intros W. cbn [agrees r_q]. split; [split; [exact W|exact I]|reflexivity]. Qed.

Lemma run_user_agrees fs q u n c fut : qwf q -> 0 <= n ->
  agrees (run_user fs q u n c) fut (p_user (p_annot fs) fs u n c (aq_pos q) (aq_data q ++ fut)).
Proof.
  intros W L. destruct u as [k t|t| |]; cbn [run_user p_user].
  - destruct (n =? 0) eqn:E.
    + apply emit_agrees; auto.
    + apply begin_read_agrees; auto; lia.
  - destruct (c_annot c) as [[|a l]|] eqn:A; cbn [bind]; try (apply emit_agrees; auto).
    destruct (opt_eqb Z.eqb (c_limit c) (Some (aq_pos q + n))); cbn [bind agrees]; [|reflexivity].
    apply emit_agrees; auto.
  - destruct (c_annot c) as [a|] eqn:A.
    + unfold p_annot. rewrite A. reflexivity.
    + rewrite p_annot_den by exact A. apply pvar_agrees; auto.
  - assert (G : agrees (if 0 <? n then begin_read fs q c n true incomplete_event KLoop
                        else Ok (mkr fs PLoop q, None)) fut
                (if 0 <? n then p_read c n incomplete_event (fun _ pos bs => ODone None fs pos bs) (aq_pos q) (aq_data q ++ fut)
                 else ODone None fs (aq_pos q) (aq_data q ++ fut))).
    { destruct (0 <? n) eqn:E.
      - apply begin_skip_agrees; auto. 
      - cbn [agrees r_q]. split; [split; [exact W|exact I]|reflexivity]. }
    destruct (c_field c) as [f|]; [|exact G].
    destruct (token_eqb f symbol_zero); cbn [negb]; [exact G|reflexivity].
Qed.

Lemma dispatch_len_nonneg o u n : dispatch o = HLen u n -> 0 <= n.
Proof.
  unfold dispatch. cbv zeta.
  pose proof (Z.mod_pos_bound o 16 ltac:(lia)) as B.
  destruct (o =? 0xE0); [discriminate|].
  destruct (o mod 16 =? 15); [destruct (o / 16 <=? 13); discriminate|].
  destruct (static_scalar o) as [[t v]|]; [discriminate|].
  assert (G : forall u', bind_len u' (o mod 16) = HLen u n -> 0 <= n).
  { intros u' H. unfold bind_len in H.
    repeat match type of H with
    | (if ?b then _ else _) = _ => destruct b
    | match ?x with _ => _ end = _ => destruct x
    end; try discriminate; injection H as _ <-; lia. }
  repeat match goal with
  | |- match ?x with _ => _ end = _ -> _ => destruct x
  end; try discriminate; try apply G.
Qed.

Lemma varuint_step_nonneg v o : 0 <= v -> 0 <= varuint_step v o.
Proof. intros H. rewrite varuint_step_eq. pose proof (Z.mod_pos_bound o 128 ltac:(lia)). lia. Qed.

Lemma run_handler_agrees fs q o c fut : qwf q ->
  agrees (run_handler fs q (dispatch o) c) fut
         (p_handler (p_annot fs) fs (dispatch o) c (aq_pos q) (aq_data q ++ fut)).
Proof.
  intros W. pose proof (dispatch_len_nonneg o) as DL.
  destruct (dispatch o) as [| |t v|u n|u|]; cbn [run_handler p_handler].
  - reflexivity.
  - destruct (negb (c_depth c =? 0)); [reflexivity|].
    apply begin_read_agrees; auto; try lia; reflexivity.
  - apply emit_agrees; auto.
  - apply run_user_agrees; auto. eapply DL; eauto.
  - apply pvar_agrees; auto.
  - apply pvar_agrees; auto.
Qed.

Lemma start_type_agrees fs q c e t fut : qwf q ->
  agrees (start_type fs q c e t) fut (p_typed (p_annot fs) fs c e t (aq_pos q) (aq_data q ++ fut)).
Proof.
  intros W. unfold start_type, p_typed.
  apply begin_read_agrees; auto; try lia.
  - destruct t; reflexivity.
  - intros bs Hb. cbn [d_k]. destruct bs as [|o r]; [unfold zlen in Hb; cbn in Hb; lia|].
    change (ztake 1 (o :: r)) with [o]. change (zdrop 1 (o :: r)) with r. reflexivity.
Qed.

Lemma var_done_agrees fs q v vk c fut : qwf q -> 0 <= v ->
  agrees (var_done fs q v vk c) fut (d_vk fs vk c v (aq_pos q) (aq_data q ++ fut)).
Proof.
  intros W Hv. destruct vk as [|u| |]; cbn [var_done d_vk].
  - destruct fs as [|f rest]; [reflexivity|]. apply start_type_agrees; auto.
  - apply run_user_agrees; auto.
  - destruct (v <? 2) eqn:E; [reflexivity|]. apply run_user_agrees; auto.
  - destruct (v <? 1) eqn:E; [reflexivity|]. apply begin_read_agrees; auto; lia.
Qed.

Lemma container_body_agrees fs q fut : qwf q ->
  agrees (container_body fs q) fut (p_item fs (aq_pos q) (aq_data q ++ fut)).
Proof.
  intros W. unfold container_body, p_item. destruct fs as [|f rest]; [reflexivity|].
  destruct (opt_eqb Z.eqb (Some (aq_pos q)) (f_limit f)).
  - cbn [agrees r_q r_pc r_frames ev_type]. split; [split; [exact W|exact I]|]. auto.
  - cbv zeta.
    assert (G : agrees (start_type (mkframe (f_type f) (f_limit f) (f_depth f) false :: rest) q
                (mkctx (f_limit f) (f_depth f) None None) (f_first f && (f_depth f =? 0)) (f_depth f =? 0)) fut
               (p_typed (p_annot (mkframe (f_type f) (f_limit f) (f_depth f) false :: rest))
                  (mkframe (f_type f) (f_limit f) (f_depth f) false :: rest)
                  (mkctx (f_limit f) (f_depth f) None None) (f_first f && (f_depth f =? 0)) (f_depth f =? 0)
                  (aq_pos q) (aq_data q ++ fut)))
      by (apply start_type_agrees; auto).
    destruct (f_type f) as [[]|] eqn:T; try exact G.
    cbn [agrees r_q]. split; [split; [exact W|exact I]|].
    unfold den; cbn [r_pc r_frames r_q d_vk]. apply p_var_ext. intros. cbn [d_vk]. rewrite T. reflexivity.
Qed.

Lemma aq_read_byte_cons q b r : qwf q -> aq_data q = b :: r ->
  aq_read_byte q = Ok (b, mkaq r (aq_size q - 1) (aq_pos q + 1)) /\ qwf (mkaq r (aq_size q - 1) (aq_pos q + 1)).
Proof.
  intros W D. unfold aq_read_byte, qwf in *. rewrite W, D, zlen_cons. pose proof (zlen_nonneg r).
  replace (1 + zlen r <? 1) with false by lia. cbn [aq_size aq_data]. split; [reflexivity|lia].
Qed.

Lemma aq_read_ok q n : qwf q -> 0 <= n <= zlen (aq_data q) ->
  aq_read q n = Ok (ztake n (aq_data q), mkaq (zdrop n (aq_data q)) (aq_size q - n) (aq_pos q + n)) /\
  qwf (mkaq (zdrop n (aq_data q)) (aq_size q - n) (aq_pos q + n)).
Proof.
  intros W H. unfold aq_read, qwf in *. rewrite W.
  replace (zlen (aq_data q) <? n) with false by lia. split; [reflexivity|].
  cbn [aq_size aq_data]. rewrite zlen_zdrop by lia. lia.
Qed.

(** Data accepted from the caller or none. *)
Definition data_of (inp : option devent) : list Z :=
  match inp with Some (DData d) => d | _ => [] end.

(** * One step

    Reading with the octets to come known: [fut] is what follows the input of this step. *)
Definition step_pre (r : sres) (fut : list Z) (o : outcome) : Prop :=
  match r with
  | Err e => o = OFail e
  | Ok (s', None) => inv s' /\ den s' (aq_data (r_q s') ++ fut) = o
  | Ok (s', Some ev) =>
    inv s' /\
    if is_stream_signal (ev_type ev)
    then den s' (aq_data (r_q s') ++ fut) = o /\ (exists n sk se k, r_pc s' = PRead n sk se k /\ 0 < n) /\
         (fut = [] -> o = OMore ev)
    else r_pc s' = PLoop /\
         o = ODone (Some ev) (r_frames s') (aq_pos (r_q s')) (aq_data (r_q s') ++ fut)
  end.

(** The one leniency of the code: a VarUInt octet already in the buffer is not checked against the
    end of the container. *)
Definition lax (s : rstate) : Prop :=
  (exists v vk c, r_pc s = PVar v vk c) /\ aq_data (r_q s) <> [].

Definition step_ok (s : rstate) (inp : option devent) (fut : list Z) (o : outcome) : Prop :=
  step_pre (step s inp) fut o \/ (lax s /\ exists e, o = OFail e).

Lemma agrees_step_pre r fut o : agrees r fut o -> step_pre r fut o.
Proof.
  unfold agrees, step_pre. destruct r as [[s' [ev|]]|e]; auto.
  intros (H1 & H2 & H3 & ->). auto.
Qed.

Lemma agrees_step_ok s inp fut o : agrees (step s inp) fut o -> step_ok s inp fut o.
Proof. intros H. left. apply agrees_step_pre. exact H. Qed.

(** At the loop (no SKIP): the next item. *)
Lemma step_loop s inp fut : inv s ->
  (r_pc s = PLoop \/ r_pc s = PK KLoop \/ r_pc s = PK KSkipped) ->
  (inp = None \/ inp = Some DNext) ->
  step_ok s inp fut (p_item (r_frames s) (aq_pos (r_q s)) (aq_data (r_q s) ++ fut)).
Proof.
  intros [W _] P Hi. apply agrees_step_ok. unfold step.
  destruct P as [-> | [-> | ->]].
  - destruct Hi as [-> | ->]; apply container_body_agrees; exact W.
  - apply container_body_agrees; exact W.
  - apply container_body_agrees; exact W.
Qed.

(** In the middle of an item. *)
Lemma byte_agrees fs q b r value vk c fut : qwf q -> aq_data q = b :: r -> 0 <= value -> 
  agrees (let* (octet, q) := aq_read_byte q in
          let value := varuint_step value octet in
          if varuint_last octet then var_done fs q value vk c
          else Ok (mkr fs (PVar value vk c) q, None)) fut
         (if varuint_last b then d_vk fs vk c (varuint_step value b) (aq_pos q + 1) (r ++ fut)
          else p_var c (varuint_step value b) (d_vk fs vk c) (aq_pos q + 1) (r ++ fut)).
Proof.
  intros W D Hv. destruct (aq_read_byte_cons q b r W D) as [-> W']. cbn [bind]. cbv zeta.
  destruct (varuint_last b).
  - apply (var_done_agrees fs (mkaq r (aq_size q - 1) (aq_pos q + 1)) _ vk c fut W').
    apply varuint_step_nonneg; auto.
  - apply (pvar_agrees fs (mkaq r (aq_size q - 1) (aq_pos q + 1)) c _ vk fut W').
Qed.

(** Values accumulated by the VarUInt handler and octets are not negative. *)
Definition pc_pos (p : pc) : Prop :=
  match p with
  | PVar v _ _ => 0 <= v
  | PRead _ _ _ (KVar v _ _) | PK (KVar v _ _) => 0 <= v
  | _ => True
  end.
Definition good (s : rstate) : Prop := pc_pos (r_pc s) /\ octets (aq_data (r_q s)).

Lemma good_mid s b r fut : r ++ fut = r ++ fut -> good s -> aq_data (r_q s) = b :: r -> 0 <= b.
Proof. intros _ [_ O] D. rewrite D in O. apply octets_cons in O as [[? ?] _]. lia. Qed.

(** In the middle of an item; data arrives only while a read is waiting. *)
Definition mid (p : pc) : Prop :=
  match p with PLoop | PK KLoop | PK KSkipped => False | _ => True end.
Definition may_take (p : pc) (inp : option devent) : Prop :=
  match inp with
  | None => True
  | Some (DData d) => match p with PRead n _ _ _ => 0 < n | _ => False end
  | Some _ => False
  end.

Lemma step_mid s inp fut : inv s -> good s -> mid (r_pc s) -> may_take (r_pc s) inp ->
  step_ok s inp fut (den s (aq_data (r_q s) ++ data_of inp ++ fut)).
Proof.
  intros [W P] G M T. destruct s as [fs p q]. cbn [r_pc r_q r_frames] in *. assert (Wq : qwf q) by exact W.
  destruct p as [|n sk sev k|k|v vk c]; [contradiction| | |].
  - (* a read *)
    left. unfold step_pre, step. cbn [r_pc r_q r_frames].
    destruct inp as [[| |d]|]; cbn [may_take] in T; try contradiction.
    + cbn [data_of]. destruct sk.
      * destruct P as (K & D & Sv). specialize (D T). pose proof (zlen_nonneg d) as Pd.
        destruct (n - zlen d <? 0) eqn:E.
        -- replace (n - zlen d <=? 0) with true by lia. cbn [r_q r_pc]. rewrite D. cbn [app].
           assert (W' : aq_size q = 0) by (rewrite W, D; reflexivity).
           replace (zlen d + (n - zlen d)) with n by lia.
           split.
           ++ split; [cbn [r_q aq_data aq_size]; rewrite zlen_zdrop by lia; lia|].
              cbn [r_pc pc_inv r_q]. intros Hk. congruence.
           ++ unfold den; cbn [r_pc r_frames r_q aq_data aq_pos].
              rewrite zlen_app. pose proof (zlen_nonneg fut).
              replace (zlen d + zlen fut <? n) with false by lia.
              rewrite zdrop_app_le by lia. f_equal. lia.
        -- destruct (n - zlen d <=? 0) eqn:E2; cbn [r_q r_pc]; rewrite D; cbn [app].
           ++ split.
              ** split; [cbn [r_q aq_size aq_data]; rewrite W, D; reflexivity|]. cbn [r_pc pc_inv r_q]. intros Hk. congruence.
              ** unfold den; cbn [r_pc r_frames r_q aq_data aq_pos].
                 rewrite zlen_app. pose proof (zlen_nonneg fut).
                 replace (zlen d + zlen fut <? n) with false by lia.
                 replace n with (zlen d) by lia.
                 rewrite zdrop_app_exact by reflexivity. f_equal. lia.
           ++ split.
              ** split; [cbn [r_q aq_size aq_data]; rewrite W, D; reflexivity|]. cbn [r_pc pc_inv r_q aq_data].
                 split; [exact K|]. split; [reflexivity|]. destruct (0 <? zlen d); auto.
              ** assert (Se : (if 0 <? zlen d then incomplete_event else sev) = incomplete_event)
                   by (destruct (0 <? zlen d); auto).
                 rewrite Se. cbn [is_stream_signal ev_type incomplete_event].
                 assert (Q : den {| r_frames := fs; r_pc := PRead n true sev k; r_q := q |} (d ++ fut) =
                   den {| r_frames := fs; r_pc := PRead (n - zlen d) true incomplete_event k;
                          r_q := mkaq [] (aq_size q) (aq_pos q + zlen d) |} fut).
                 { unfold den; cbn [r_pc r_frames r_q aq_data aq_pos]. rewrite zlen_app.
                   destruct (zlen fut <? n - zlen d) eqn:E3.
                   - replace (zlen d + zlen fut <? n) with true by lia. reflexivity.
                   - replace (zlen d + zlen fut <? n) with false by lia.
                     rewrite zdrop_app_ge by lia. f_equal. lia. }
                 cbn [aq_data r_q r_pc]. cbn [app]. rewrite Q. split; [reflexivity|].
                 split; [do 4 eexists; split; [reflexivity|lia]|]. intros ->. unfold den; cbn [r_pc].
                 replace (zlen (@nil Z) <? n - zlen d) with true by (rewrite zlen_nil; lia). reflexivity.
      * destruct P as (K & L & Nd & Sv & Sg). pose proof (zlen_nonneg d) as Pd.
        assert (W' : qwf (aq_extend q d)) by (unfold qwf, aq_extend; cbn; rewrite zlen_app; lia).
        destruct (n - zlen d <=? 0) eqn:E.
        -- split.
           ++ split; [exact W'|]. cbn [r_pc pc_inv r_q aq_extend aq_data]. rewrite zlen_app. lia.
           ++ unfold den; cbn [r_pc r_frames r_q aq_extend aq_data aq_pos].
              rewrite <- app_assoc. rewrite !zlen_app. pose proof (zlen_nonneg fut).
              replace (zlen (aq_data q) + (zlen d + zlen fut) <? need k) with false by lia. reflexivity.
        -- assert (Sg' : is_stream_signal (ev_type (if 0 <? zlen d then incomplete_event else sev)) = true)
             by (destruct (0 <? zlen d); auto).
           rewrite Sg'. split.
           ++ split; [exact W'|]. cbn [r_pc pc_inv r_q aq_extend aq_data]. rewrite zlen_app.
              split; [exact K|]. split; [lia|]. split; [exact Nd|]. split; [|exact Sg'].
              intros Hne. destruct (0 <? zlen d) eqn:E2; [reflexivity|].
              assert (d = []) by (apply zlen_zero; lia). subst d. rewrite app_nil_r in Hne. auto.
           ++ assert (Q : forall f, den {| r_frames := fs; r_pc := PRead (n - zlen d) false (if 0 <? zlen d then incomplete_event else sev) k; r_q := aq_extend q d |} ((aq_data q ++ d) ++ f)
                = den {| r_frames := fs; r_pc := PRead n false sev k; r_q := q |} (aq_data q ++ d ++ f)).
              { intros f. unfold den; cbn [r_pc r_frames r_q aq_extend aq_data aq_pos].
                rewrite <- app_assoc. destruct (zlen (aq_data q ++ d ++ f) <? need k); [|reflexivity].
                destruct (aq_data q ++ d ++ f) eqn:F; [|reflexivity].
                apply app_eq_nil in F as [_ F]. apply app_eq_nil in F as [-> _]. reflexivity. }
              cbn [r_q aq_extend aq_data]. split; [apply Q|]. split; [cbn [r_pc]; do 4 eexists; split; [reflexivity|lia]|].
              intros ->. rewrite <- Q, app_nil_r. unfold den; cbn [r_pc].
              rewrite zlen_app. replace (zlen (aq_data q) + zlen d <? need k) with true by lia.
              destruct (aq_data q) as [|x l] eqn:Dq.
              ** destruct d; reflexivity.
              ** cbn [app]. destruct (0 <? zlen d); [reflexivity|]. f_equal. symmetry. apply Sv. discriminate.
    + cbn [data_of app].
      destruct (n <=? 0) eqn:E.
      * cbn [r_q r_pc]. split.
        -- split; [exact W|]. cbn [r_pc pc_inv r_q]. destruct sk; cbn [pc_inv] in P.
           ++ destruct P as (K & _). congruence.
           ++ destruct P as (K & L & Nd & _). lia.
        -- unfold den; cbn [r_pc r_frames r_q]. destruct sk; cbn [pc_inv] in P.
           ++ pose proof (zlen_nonneg (aq_data q ++ fut)).
              replace (zlen (aq_data q ++ fut) <? n) with false by lia.
              rewrite zdrop_nonpos by lia. f_equal. lia.
           ++ destruct P as (K & L & Nd & _). rewrite zlen_app. pose proof (zlen_nonneg fut).
              replace (zlen (aq_data q) + zlen fut <? need k) with false by lia. reflexivity.
      * cbn [r_q r_pc]. assert (Sg : is_stream_signal (ev_type sev) = true).
        { destruct sk; cbn [pc_inv] in P; [destruct P as (_ & _ & ->); reflexivity|tauto]. }
        rewrite Sg. split; [split; [exact W|exact P]|]. split; [reflexivity|]. split; [do 4 eexists; split; [reflexivity|lia]|].
        intros ->. rewrite app_nil_r. unfold den; cbn [r_pc r_q]. destruct sk; cbn [pc_inv] in P.
        -- destruct P as (K & D & ->). rewrite D by lia.
           replace (zlen (@nil Z) <? n) with true by (rewrite zlen_nil; lia). reflexivity.
        -- destruct P as (K & L & Nd & Sv & _).
           replace (zlen (aq_data q) <? need k) with true by lia.
           destruct (aq_data q); [reflexivity|]. f_equal. symmetry. apply Sv. discriminate.
  - (* after a read *)
    destruct inp as [[| |]|]; cbn [may_take] in T; try contradiction. cbn [data_of app].
    apply agrees_step_ok. unfold step, den; cbn [r_pc r_frames r_q].
    cbn [pc_inv] in P. destruct G as [G1 G2]; cbn [r_pc r_q pc_pos] in G1, G2.
    destruct k as [v vk c| |c e|k t n c|n c| |]; cbn [mid] in M; try contradiction;
      specialize (P eq_refl); cbn [need] in P.
    + destruct (aq_data q) as [|b r] eqn:D; [rewrite zlen_nil in P; lia|]. cbn [app d_k].
      apply byte_agrees; auto.
    + destruct (aq_read_ok q 3 Wq ltac:(lia)) as [-> W']. cbn [bind d_k].
      rewrite ztake_app_le, zdrop_app_le by lia.
      destruct (zlist_eqb _ _); cbn [agrees]; [|reflexivity].
      split; [split; [exact W'|exact I]|]. auto.
    + destruct (aq_data q) as [|b r] eqn:D; [rewrite zlen_nil in P; lia|]. cbn [app d_k].
      destruct (aq_read_byte_cons q b r Wq D) as [-> W']. cbn [bind].
      destruct (e && negb (b =? 224)); [reflexivity|].
      apply (run_handler_agrees fs _ b c fut W').
    + destruct (aq_read_ok q n Wq ltac:(lia)) as [-> W']. cbn [bind d_k].
      rewrite ztake_app_le, zdrop_app_le by lia. unfold emit_scalar.
      apply (emit_agrees fs _ c EScalar t _ fut W'). reflexivity.
    + destruct (aq_read_ok q n Wq ltac:(lia)) as [-> W']. cbn [bind d_k].
      rewrite ztake_app_le, zdrop_app_le by lia.
      destruct (parse_sids _) as [sids|e]; cbn [bind]; [|reflexivity].
      destruct (c_limit c) as [lim|] eqn:Lm; [|reflexivity]. cbn [aq_pos].
      destruct (lim - (aq_pos q + n) <? 1); [reflexivity|].
      apply (start_type_agrees fs _ _ false false fut W').
  - (* a VarUInt *)
    destruct inp as [[| |]|]; cbn [may_take] in T; try contradiction. cbn [data_of app].
    destruct G as [G1 G2]; cbn [r_pc r_q pc_pos] in G1, G2.
    destruct (zlen (aq_data q) =? 0) eqn:E.
    + assert (D : aq_data q = []) by (apply zlen_zero; lia).
      apply agrees_step_ok. unfold step; cbn [r_pc r_frames r_q]. rewrite W, E.
      replace (den {| r_frames := fs; r_pc := PVar v vk c; r_q := q |} (aq_data q ++ fut)) with
        (p_read c 1 incomplete_event (fun data pos bs => match data with
             b :: _ => if varuint_last b then d_vk fs vk c (varuint_step v b) pos bs
                else p_var c (varuint_step v b) (d_vk fs vk c) pos bs
             | [] => OFail OutOfFuel end) (aq_pos q) (aq_data q ++ fut)).
      * apply begin_read_agrees; auto; try lia.
        intros bs Hb. cbn [d_k]. destruct bs as [|b r]; [rewrite zlen_nil in Hb; lia|]. reflexivity.
      * unfold den; cbn [r_pc r_frames r_q]. rewrite D. cbn [app]. unfold p_read.
        destruct fut as [|b r]; cbn [p_var]; destruct (if c_depth c =? 0 then _ else _); try reflexivity.
        rewrite zlen_cons. pose proof (zlen_nonneg r). replace (1 + zlen r <? 1) with false by lia. reflexivity.
    + destruct (aq_data q) as [|b r] eqn:D; [rewrite zlen_nil in E; lia|].
      pose proof (byte_agrees fs q b r v vk c fut Wq D G1) as A.
      unfold den; cbn [r_pc r_frames r_q]. cbn [app p_var].
      destruct (if c_depth c =? 0 then _ else _) as [u|e].
      * apply agrees_step_ok. unfold step; cbn [r_pc r_frames r_q].
        replace (aq_size q =? 0) with false by (rewrite W; lia). exact A.
      * right. split; [|eauto]. split; [cbn [r_pc]; eauto|]. cbn [r_q]. rewrite D. discriminate.
Qed.
