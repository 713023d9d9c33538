(** Termination of the reader machine (for every state, reachable or not), and its runs against
    the specification. *)
From Verif Require Import Base BaseFacts FieldsModel FieldsFacts BufferModel CoreModel BinReaderModel
  BinReaderSpec BinReaderSim BinReaderNest.

(** * Progress: the budget of [run] is never exhausted *)

Definition rank (p : pc) : nat :=
  match p with
  | PLoop => 3
  | PRead _ _ _ (KLoop | KSkipped) => 4
  | PRead _ _ _ (KAnn _ _) => 3
  | PRead _ _ _ _ => 1
  | PK (KLoop | KSkipped) => 3
  | PK (KAnn _ _) => 2
  | PK _ => 0
  | PVar _ _ _ => 2
  end.
Definition dlen (q : aq) : nat := length (aq_data q).
Definition measure (s : rstate) : nat := (6 * dlen (r_q s) + rank (r_pc s))%nat.

(** A result that is not out of budget and whose silent successor measures at most [n]. *)
Definition bounded (r : sres) (n : nat) : Prop :=
  match r with
  | Err OutOfFuel => False
  | Ok (s', None) => (measure s' <= n)%nat
  | _ => True
  end.

Lemma zdrop_length {A} n (l : list A) : (length (zdrop n l) <= length l)%nat.
Proof. unfold zdrop. rewrite skipn_length. lia. Qed.

Lemma bounded_le r n m : (n <= m)%nat -> bounded r n -> bounded r m.
Proof. unfold bounded. destruct r as [[s [ev|]]|[]]; auto. lia. Qed.

Lemma aq_read_bounded q n : match aq_read q n with Ok (_, q') => (dlen q' <= dlen q)%nat | Err e => e <> OutOfFuel end.
Proof.
  unfold aq_read. destruct (aq_size q <? n); [discriminate|]. destruct (zlen (aq_data q) <? n); [discriminate|].
  apply zdrop_length.
Qed.
Lemma aq_read_byte_bounded q : match aq_read_byte q with Ok (_, q') => (S (dlen q') <= dlen q)%nat | Err e => e <> OutOfFuel end.
Proof.
  unfold aq_read_byte, dlen. destruct (aq_size q <? 1); [discriminate|]. destruct (aq_data q); [discriminate|].
  cbn. lia.
Qed.
Lemma aq_skip_bounded q n : match aq_skip q n with Ok (_, q') => (dlen q' <= dlen q)%nat | Err e => e <> OutOfFuel end.
Proof.
  unfold aq_skip. destruct (aq_size q <=? n); [cbn; lia|].
  pose proof (aq_read_bounded q n). destruct (aq_read q n) as [[? ?]|]; cbn [bind]; auto.
Qed.

Lemma begin_read_bounded fs q c n sk sev k :
  bounded (begin_read fs q c n sk sev k) (6 * dlen q + rank (PRead 0 sk sev k)).
Proof.
  unfold begin_read.
  assert (E : match (if c_depth c =? 0 then Ok tt else match c_limit c with
     | None => Err TypeError
     | Some lim => if lim - aq_pos q <? n then Err IonException else Ok tt end) with Err OutOfFuel => False | _ => True end).
  { destruct (c_depth c =? 0); [exact I|]. destruct (c_limit c); [|exact I]. destruct (_ <? n); exact I. }
  destruct (if c_depth c =? 0 then _ else _) as [u|e]; cbn [bind]; [|destruct e; auto].
  destruct sk.
  - match goal with |- context [aq_skip q ?m] => pose proof (aq_skip_bounded q m); destruct (aq_skip q m) as [[? ?]|[]] end;
      cbn [bind bounded]; try congruence; try exact I.
    unfold measure. cbn [r_q r_pc]. destruct k; cbn [rank]; lia.
  - cbn [bind bounded]. unfold measure. cbn [r_q r_pc]. destruct k; cbn [rank]; lia.
Qed.

Lemma emit_bounded fs q c et t v n : bounded (emit fs q c et t v) n.
Proof.
  unfold emit. cbv zeta. destruct et; destruct (match c_annot c with None => [] | Some a => a end); cbn [bind bounded]; try exact I;
  destruct (c_limit c); cbn [bind bounded]; try exact I; destruct (_ =? 0); cbn [bind bounded]; exact I.
Qed.

Lemma run_user_bounded fs q u n c : bounded (run_user fs q u n c) (6 * dlen q + 4).
Proof.
  destruct u as [k t|t| |]; cbn [run_user].
  - destruct (n =? 0); [apply emit_bounded|].
    eapply bounded_le; [|apply begin_read_bounded]. cbn [rank]. lia.
  - cbv zeta. destruct (c_annot c) as [[|a l]|]; cbn [bind]; try apply emit_bounded.
    destruct (opt_eqb _ _ _); cbn [bind]; [apply emit_bounded|exact I].
  - destruct (c_annot c); [exact I|]. cbn [bounded]. unfold measure; cbn [r_q r_pc rank]. lia.
  - cbv zeta. destruct (match c_field c with Some f => _ | None => _ end); [exact I|].
    destruct (0 <? n).
    + eapply bounded_le; [|apply begin_read_bounded]. cbn [rank]. lia.
    + cbn [bounded]. unfold measure; cbn [r_q r_pc rank]. lia.
Qed.

Lemma start_type_bounded fs q c e t : bounded (start_type fs q c e t) (6 * dlen q + 1).
Proof. unfold start_type. eapply bounded_le; [|apply begin_read_bounded]. cbn [rank]. lia. Qed.

Lemma run_handler_bounded fs q h c : bounded (run_handler fs q h c) (6 * dlen q + 4).
Proof.
  destruct h; cbn [run_handler].
  - exact I.
  - destruct (negb _); [exact I|]. eapply bounded_le; [|apply begin_read_bounded]. cbn [rank]. lia.
  - apply emit_bounded.
  - apply run_user_bounded.
  - cbn [bounded]. unfold measure; cbn [r_q r_pc rank]. lia.
  - cbn [bounded]. unfold measure; cbn [r_q r_pc rank]. lia.
Qed.

Lemma var_done_bounded fs q v vk c : bounded (var_done fs q v vk c) (6 * dlen q + 4).
Proof.
  destruct vk; cbn [var_done].
  - destruct fs; [exact I|]. eapply bounded_le; [|apply start_type_bounded]. lia.
  - apply run_user_bounded.
  - destruct (v <? 2); [exact I|]. apply run_user_bounded.
  - destruct (v <? 1); [exact I|]. eapply bounded_le; [|apply begin_read_bounded]. cbn [rank]. lia.
Qed.

Lemma container_body_bounded fs q : bounded (container_body fs q) (6 * dlen q + 2).
Proof.
  unfold container_body. destruct fs as [|f rest]; [exact I|].
  destruct (opt_eqb _ _ _); [exact I|]. cbv zeta.
  destruct (f_type f) as [[]|]; try (eapply bounded_le; [|apply start_type_bounded]; lia).
  cbn [bounded]. unfold measure; cbn [r_q r_pc rank]. lia.
Qed.

Lemma parse_var_err d sg a v e : parse_var_int_components d sg a v = Err e -> e = TypeError.
Proof.
  revert sg a v. induction d as [|o r IH]; intros sg a v; cbn [parse_var_int_components].
  - intros H. congruence.
  - cbv zeta. destruct (Z.testbit o 7); [discriminate|]. apply IH.
Qed.
Lemma parse_sids_aux_err n d e : parse_sids_aux n d = Err e -> e = TypeError.
Proof.
  revert d. induction n as [|n IH]; intros d; cbn [parse_sids_aux]; [discriminate|].
  destruct d as [|o r]; [discriminate|]. unfold parse_var_int.
  destruct (parse_var_int_components (o :: r) false 1 0) as [[[? ?] ?]|e'] eqn:E; cbn [bind].
  - destruct (parse_sids_aux n l) eqn:F; cbn [bind]; [discriminate|]. intros H. injection H as <-. eauto.
  - intros H. injection H as <-. eapply parse_var_err; eauto.
Qed.

(** A silent step without data goes down; any step keeps within the data it has got. *)
Lemma step_bounded s inp :
  bounded (step s inp)
    match inp with
    | None => pred (measure s)
    | Some (DData d) => 6 * (dlen (r_q s) + length d) + 4
    | Some _ => 6 * dlen (r_q s) + 4
    end.
Proof.
  destruct s as [fs p q]. unfold step, measure; cbn [r_frames r_q r_pc].
  assert (VB : forall v vk c, bounded (let* (octet, q0) := aq_read_byte q in
          let value := varuint_step v octet in
          if varuint_last octet then var_done fs q0 value vk c
          else Ok (mkr fs (PVar value vk c) q0, None)) (pred (6 * dlen q))).
  { intros v vk c. pose proof (aq_read_byte_bounded q) as B.
    destruct (aq_read_byte q) as [[o q']|[]]; cbn [bind bounded]; try congruence; try exact I.
    cbv zeta. destruct (varuint_last o).
    - eapply bounded_le; [|apply var_done_bounded]. lia.
    - cbn [bounded]. unfold measure; cbn [r_q r_pc rank]. lia. }
  destruct p as [|n sk sev k|k|v vk c].
  - (* PLoop *)
    destruct inp as [[| |d]|]; cbn [rank].
    + eapply bounded_le; [|apply container_body_bounded]. lia.
    + destruct fs as [|f r]; [exact I|]. destruct (f_limit f); [|exact I].
      eapply bounded_le; [|apply begin_read_bounded]. cbn [rank]. lia.
    + eapply bounded_le; [|apply container_body_bounded]. lia.
    + eapply bounded_le; [|apply container_body_bounded]. lia.
  - (* PRead *)
    assert (RK : (S (rank (PK k)) <= rank (PRead n sk sev k))%nat) by (destruct k; cbn [rank]; lia).
    assert (RR : (rank (PRead n sk sev k) <= 4)%nat) by (destruct k; cbn [rank]; lia).
    destruct inp as [[| |d]|].
    + destruct (n <=? 0); cbn [bounded]; [|exact I]. unfold measure; cbn [r_q r_pc]. lia.
    + destruct (n <=? 0); cbn [bounded]; [|exact I]. unfold measure; cbn [r_q r_pc]. lia.
    + destruct (n - zlen d <=? 0); cbn [bounded]; [|exact I]. unfold measure; cbn [r_q r_pc].
      assert (L : (dlen (if sk then if (n - zlen d <? 0)%Z then mkaq (aq_data q ++ zdrop (zlen d + (n - zlen d))%Z d)
            (aq_size q - (n - zlen d))%Z (aq_pos q + zlen d + (n - zlen d))%Z else mkaq (aq_data q) (aq_size q) (aq_pos q + zlen d)%Z
            else aq_extend q d) <= dlen q + length d)%nat).
      { unfold dlen. destruct sk; [destruct (_ <? 0)|]; cbn [aq_data aq_extend]; rewrite ?app_length;
          try (match goal with |- context [zdrop ?m d] => pose proof (zdrop_length m d) end); lia. }
      cbv zeta in *. lia.
    + destruct (n <=? 0); cbn [bounded]; [|exact I]. unfold measure; cbn [r_q r_pc]. lia.
  - (* PK *)
    assert (G : bounded (step (mkr fs (PK k) q) inp) (pred (6 * dlen q + rank (PK k)))).
    { unfold step; cbn [r_frames r_q r_pc].
      destruct k as [v vk c| |c e|k t n c|n c| |].
      - eapply bounded_le; [|apply VB]. cbn [rank]. lia.
      - pose proof (aq_read_bounded q 3). destruct (aq_read q 3) as [[? ?]|[]]; cbn [bind bounded]; try congruence; try exact I.
        destruct (zlist_eqb _ _); exact I.
      - pose proof (aq_read_byte_bounded q) as B.
        destruct (aq_read_byte q) as [[o q']|[]]; cbn [bind bounded]; try congruence; try exact I.
        destruct (e && _); [exact I|]. eapply bounded_le; [|apply run_handler_bounded]. cbn [rank]. lia.
      - pose proof (aq_read_bounded q n). destruct (aq_read q n) as [[? ?]|[]]; cbn [bind bounded]; try congruence; try exact I.
        apply emit_bounded.
      - pose proof (aq_read_bounded q n). destruct (aq_read q n) as [[? ?]|[]]; cbn [bind bounded]; try congruence; try exact I.
        pose proof (parse_sids_aux_err (length l) l) as PE. unfold parse_sids.
        destruct (parse_sids_aux (length l) l) as [sids|e]; cbn [bind bounded].
        + destruct (c_limit c); [|exact I]. destruct (_ <? 1); [exact I|].
          eapply bounded_le; [|apply start_type_bounded]. cbn [rank]. lia.
        + specialize (PE e eq_refl). subst e. exact I.
      - eapply bounded_le; [|apply container_body_bounded]. cbn [rank]. lia.
      - eapply bounded_le; [|apply container_body_bounded]. cbn [rank]. lia. }
    unfold step in G; cbn [r_frames r_q r_pc] in G.
    assert (RR : (rank (PK k) <= 3)%nat) by (destruct k; cbn [rank]; lia).
    eapply bounded_le; [|exact G]. destruct inp as [[| |d]|]; lia.
  - (* PVar *)
    cbn [rank]. destruct (aq_size q =? 0).
    + eapply bounded_le; [|apply begin_read_bounded]. cbn [rank]. destruct inp as [[| |d]|]; lia.
    + eapply bounded_le; [|apply VB]. destruct inp as [[| |d]|]; lia.
Qed.

Lemma run_silent_enough fuel s : (measure s < fuel)%nat -> run fuel s None <> Err OutOfFuel.
Proof.
  revert s. induction fuel as [|fuel IH]; intros s H; [lia|]. cbn [run].
  pose proof (step_bounded s None) as B.
  destruct (step s None) as [[s' [ev|]]|e] eqn:E; cbn [bounded] in B.
  - discriminate.
  - apply IH. assert (measure s <> 0)%nat; [|lia]. intros M0.
    (* a state of measure 0 cannot step silently *)
    unfold measure in M0. destruct s as [fs p q]. cbn [r_q r_pc] in M0.
    assert (D : aq_data q = []) by (apply length_zero_iff_nil; unfold dlen in M0; lia).
    unfold step in E; cbn [r_frames r_q r_pc] in E.
    assert (RB : forall (f : Z * aq -> sres) s' oe, bind (aq_read_byte q) f = Ok (s', oe) -> False).
    { intros f s1 oe. unfold aq_read_byte. rewrite D. destruct (aq_size q <? 1); discriminate. }
    destruct p as [|n sk sev k|k|v vk c]; cbn [rank] in M0; try lia.
    + destruct k; cbn [rank] in M0; lia.
    + destruct k as [v vk c| |c e|k t n c|n c| |]; cbn [rank] in M0; try lia.
      * eapply RB; exact E.
      * unfold bind in E. destruct (aq_read q 3) as [[? ?]|]; [|discriminate]. destruct (zlist_eqb _ _); discriminate.
      * eapply RB; exact E.
      * unfold bind in E at 1. destruct (aq_read q n) as [[? ?]|]; [|discriminate].
        unfold emit_scalar, emit in E. unfold bind in E. cbv zeta in E.
        match type of E with match ?x with _ => _ end = _ => destruct x; discriminate end.
  - destruct e; congruence || contradiction.
Qed.

(** [send] always comes back: with any buffered data, any event sent and any state, the machine
    stops within the budget. *)
Theorem run_enough s inp : run (steps_fuel s inp) s inp <> Err OutOfFuel.
Proof.
  unfold steps_fuel. set (n := match inp with Some (DData d) => length d | _ => O end).
  pose proof (step_bounded s inp) as B. fold (dlen (r_q s)).
  replace (6 * (dlen (r_q s) + n) + 12)%nat with (S (6 * (dlen (r_q s) + n) + 11))%nat by lia.
  cbn [run]. destruct (step s inp) as [[s' [ev|]]|e] eqn:E; cbn [bounded] in B.
  - discriminate.
  - apply run_silent_enough. subst n. destruct inp as [[| |d]|]; try lia.
    unfold measure in *. assert (rank (r_pc s) <= 4)%nat by (destruct (r_pc s) as [|? ? ? []|[]|]; cbn [rank]; lia). lia.
  - destruct e; congruence || contradiction.
Qed.

(** * What an item consumes *)

(** The outcome, if done, left [bs'] of [bs], having taken at least [n] octets. *)
Definition takes (o : outcome) (pos : Z) (bs : list Z) (n : Z) : Prop :=
  match o with
  | ODone _ _ pos' bs' => exists used, bs = used ++ bs' /\ pos' = pos + zlen used /\ n <= zlen used
  | _ => True
  end.

Lemma takes_le o pos bs n m : m <= n -> takes o pos bs n -> takes o pos bs m.
Proof.
  intros H. unfold takes. destruct o; auto. intros (u & A & B & C). exists u. split; [exact A|].
  split; [exact B|lia].
Qed.

Lemma takes_after o pos bs a n u : bs = u ++ a -> takes o (pos + zlen u) a n -> takes o pos bs (n + zlen u).
Proof.
  intros -> H. unfold takes in *. destruct o; auto. destruct H as (u' & -> & -> & L).
  exists (u ++ u'). rewrite app_assoc, zlen_app. split; [reflexivity|]. split; [lia|lia].
Qed.

Lemma p_read_takes c n sig k pos bs m : 0 <= n -> (forall d p b, takes (k d p b) p b m) ->
  takes (p_read c n sig k pos bs) pos bs (m + n).
Proof.
  intros Hn H. unfold p_read. destruct (if c_depth c =? 0 then _ else _); [|exact I].
  destruct (zlen bs <? n) eqn:E; [exact I|].
  assert (L : zlen (ztake n bs) = n) by (apply zlen_ztake; lia).
  pose proof (takes_after (k (ztake n bs) (pos + n) (zdrop n bs)) pos bs (zdrop n bs) m (ztake n bs)
    (eq_sym (ztake_drop n bs))) as X.
  rewrite L in X. apply X. apply H.
Qed.

Lemma p_var_takes c k m : (forall v p b, 0 <= v -> takes (k v p b) p b m) ->
  forall bs v pos, 0 <= v -> takes (p_var c v k pos bs) pos bs (m + 1).
Proof.
  intros H. induction bs as [|b r IH]; intros v pos Hv; cbn [p_var];
    (destruct (if c_depth c =? 0 then _ else _); [|exact I]); [exact I|].
  destruct (varuint_last b).
  - apply (takes_after _ pos (b :: r) r m [b] eq_refl). apply H. apply varuint_step_nonneg; auto.
  - eapply takes_le; [|apply (takes_after _ pos (b :: r) r (m + 1) [b] eq_refl)]; [|apply IH; apply varuint_step_nonneg; auto].
    change (zlen [b]) with 1. lia.
Qed.

Lemma done_takes oe fs pos bs : takes (ODone oe fs pos bs) pos bs 0.
Proof. exists []. cbn. split; [reflexivity|]. change (zlen (@nil Z)) with 0. lia. Qed.

Lemma p_emit_takes fs c et t v pos bs : takes (p_emit fs c et t v pos bs) pos bs 0.
Proof. unfold p_emit. cbv zeta. destruct (match et with EIncomplete => _ | _ => _ end); [apply done_takes|exact I]. Qed.

Section TAKES.
  Variable annot : rctx -> Z -> Z -> list Z -> outcome.
  Variable fs : list frame.
  Hypothesis annot_takes : forall c n pos bs, 0 <= n -> takes (annot c n pos bs) pos bs 0.

  Lemma p_user_takes u n c pos bs : 0 <= n -> takes (p_user annot fs u n c pos bs) pos bs 0.
  Proof.
    intros Hn. destruct u as [k t|t| |]; cbn [p_user].
    - destruct (n =? 0); [apply p_emit_takes|].
      apply (takes_le _ pos bs (0 + n) 0 ltac:(lia)). apply p_read_takes; [lia|]. intros. apply p_emit_takes.
    - destruct (c_annot c) as [[|a l]|]; try apply p_emit_takes.
      destruct (opt_eqb _ _ _); [apply p_emit_takes|exact I].
    - apply annot_takes; auto.
    - assert (G : takes (if 0 <? n then p_read c n incomplete_event (fun _ pos bs => ODone None fs pos bs) pos bs
           else ODone None fs pos bs) pos bs 0).
      { destruct (0 <? n); [|apply done_takes].
        apply (takes_le _ pos bs (0 + n) 0 ltac:(lia)). apply p_read_takes; [lia|]. intros. apply done_takes. }
      destruct (c_field c) as [f|]; [|exact G]. destruct (token_eqb f symbol_zero); [exact G|exact I].
  Qed.

  Lemma p_handler_takes o c pos bs : takes (p_handler annot fs (dispatch o) c pos bs) pos bs 0.
  Proof.
    pose proof (dispatch_len_nonneg o) as DL.
    destruct (dispatch o) as [| |t v|u n|u|]; cbn [p_handler].
    - exact I.
    - destruct (negb _); [exact I|].
      apply (takes_le _ pos bs (0 + 3) 0 ltac:(lia)). apply p_read_takes; [lia|]. intros.
      destruct (zlist_eqb _ _); [apply done_takes|exact I].
    - apply p_emit_takes.
    - apply p_user_takes. eapply DL; eauto.
    - apply (takes_le _ pos bs (0 + 1) 0 ltac:(lia)). apply p_var_takes; [|lia].
      intros. apply p_user_takes; auto.
    - apply (takes_le _ pos bs (0 + 1) 0 ltac:(lia)). apply p_var_takes; [|lia].
      intros v p b Hv. destruct (v <? 2); [exact I|]. apply p_user_takes; auto.
  Qed.

  Lemma p_typed_takes c e t pos bs : takes (p_typed annot fs c e t pos bs) pos bs 1.
  Proof.
    unfold p_typed. apply (p_read_takes c 1 _ _ pos bs 0 ltac:(lia)).
    intros d p b. destruct d as [|o r]; [exact I|]. destruct (e && _); [exact I|]. apply p_handler_takes.
  Qed.
End TAKES.

Lemma p_annot_takes fs c n pos bs : takes (p_annot fs c n pos bs) pos bs 0.
Proof.
  unfold p_annot. destruct (c_annot c); [exact I|]. cbv zeta.
  apply (takes_le _ pos bs (0 + 1) 0 ltac:(lia)). apply p_var_takes; [|lia].
  intros v p b Hv. destruct (v <? 1) eqn:E; [exact I|].
  apply (takes_le _ p b (0 + v) 0 ltac:(lia)). apply p_read_takes; [lia|].
  intros d p' b'. destruct (parse_sids d); [|exact I]. cbn [c_limit].
  destruct (pos + n - p' <? 1); [exact I|]. apply (takes_le _ p' b' 1 0 ltac:(lia)). apply p_typed_takes.
  intros. unfold p_no_annot. destruct (c_annot c0); exact I.
Qed.

(** An item takes octets, at least one unless it is the end of a container. *)
Lemma p_item_takes fs pos bs :
  takes (p_item fs pos bs) pos bs
        (match p_item fs pos bs with ODone (Some ev) _ _ _ => match ev_type ev with EContainerEnd => 0 | _ => 1 end | _ => 1 end).
Proof.
  unfold p_item. destruct fs as [|f rest]; [exact I|].
  destruct (opt_eqb _ _ _); [apply done_takes|]. cbv zeta.
  assert (G : forall o, takes o pos bs 1 -> takes o pos bs (match o with ODone (Some ev) _ _ _ => match ev_type ev with EContainerEnd => 0 | _ => 1 end | _ => 1 end)).
  { intros o H. eapply takes_le; [|exact H]. destruct o as [[ev|]| |]; try lia. destruct (ev_type ev); lia. }
  assert (G1 : forall fs' c e t p b, takes (p_typed (p_annot fs') fs' c e t p b) p b 1)
    by (intros; apply p_typed_takes; intros; apply p_annot_takes).
  destruct (f_type f) as [[]|]; apply G; auto.
  apply (takes_le _ pos bs (1 + 1) 1 ltac:(lia)). apply p_var_takes; [|lia]. intros. apply G1.
Qed.

Lemma p_item_pad fs pos bs fs' pos' bs' : p_item fs pos bs = ODone None fs' pos' bs' ->
  exists used, bs = used ++ bs' /\ pos' = pos + zlen used /\ 1 <= zlen used.
Proof. intros H. pose proof (p_item_takes fs pos bs) as T. rewrite H in T. exact T. Qed.

(** [p_next] finds what the items resolve to. *)
Lemma p_next_resolves n fs pos bs : (length bs < n)%nat ->
  resolves (p_item fs pos bs) (p_next n fs pos bs) /\
  match p_next n fs pos bs with ODone None _ _ _ => False | _ => True end.
Proof.
  revert fs pos bs. induction n as [|n IH]; intros fs pos bs H; [lia|]. cbn [p_next].
  destruct (p_item fs pos bs) as [[ev|] fs' pos' bs'|e|sig] eqn:E; try (split; [constructor|exact I]).
  apply p_item_pad in E as (used & -> & -> & L).
  assert (length bs' < n)%nat by (rewrite app_length in H; unfold zlen in L; lia).
  destruct (IH fs' (pos + zlen used) bs' H0) as [R P]. split; [|exact P]. constructor. exact R.
Qed.

Lemma resolves_fun o R1 R2 : resolves o R1 -> resolves o R2 -> R1 = R2.
Proof.
  intros H. revert R2. induction H; intros R2 H2; inversion H2; subst; auto.
Qed.
