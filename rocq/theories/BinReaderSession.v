(** Runs of the reader machine and whole sessions against the specification. *)
From Verif Require Import Base BaseFacts FieldsModel FieldsFacts BufferModel CoreModel BinReaderModel
  BinReaderSpec BinReaderSim BinReaderNest BinReaderRun.

(** * Invariants of values *)

Definition good_res (r : sres) : Prop := match r with Ok (s', _) => good s' | Err _ => True end.

Lemma aq_skip_octets q n : octets (aq_data q) ->
  match aq_skip q n with Ok (_, q') => octets (aq_data q') | Err _ => True end.
Proof.
  intros H. unfold aq_skip. destruct (_ <=? _); [constructor|]. unfold aq_read.
  destruct (_ <? _); [exact I|]. destruct (_ <? _); [exact I|]. cbn [bind aq_data]. apply octets_zdrop; auto.
Qed.

Lemma begin_read_good fs q c n sk sev k : octets (aq_data q) -> pc_pos (PK k) ->
  good_res (begin_read fs q c n sk sev k).
Proof.
  intros O K. unfold begin_read. destruct (if c_depth c =? 0 then _ else _); cbn [bind]; [|exact I].
  destruct sk.
  - match goal with |- context [aq_skip q ?m] => pose proof (aq_skip_octets q m O); destruct (aq_skip q m) as [[? ?]|] end;
      cbn [bind good_res]; [|exact I]. split; [destruct k; exact K || exact I|assumption].
  - cbn [bind good_res]. split; [destruct k; exact K || exact I|assumption].
Qed.

Lemma emit_good fs q c et t v : octets (aq_data q) -> good_res (emit fs q c et t v).
Proof.
  intros O. unfold emit. cbv zeta. match goal with |- context [bind ?x _] => destruct x; cbn [bind]; [|exact I] end.
  split; [exact I|exact O].
Qed.

Lemma run_user_good fs q u n c : octets (aq_data q) -> good_res (run_user fs q u n c).
Proof.
  intros O. destruct u as [k t|t| |]; cbn [run_user].
  - destruct (n =? 0); [apply emit_good; auto|]. apply begin_read_good; auto. exact I.
  - cbv zeta. destruct (c_annot c) as [[|a l]|]; cbn [bind]; try (apply emit_good; auto).
    destruct (opt_eqb _ _ _); cbn [bind]; [apply emit_good; auto|exact I].
  - destruct (c_annot c); [exact I|]. split; [cbn; lia|exact O].
  - cbv zeta. destruct (match c_field c with Some f => _ | None => _ end); [exact I|].
    destruct (0 <? n); [apply begin_read_good; auto; exact I|]. split; [exact I|exact O].
Qed.

Lemma run_handler_good fs q h c : octets (aq_data q) -> good_res (run_handler fs q h c).
Proof.
  intros O. destruct h; cbn [run_handler]; try exact I.
  - destruct (negb _); [exact I|]. apply begin_read_good; auto; exact I.
  - apply emit_good; auto.
  - apply run_user_good; auto.
  - split; [cbn; lia|exact O].
  - split; [cbn; lia|exact O].
Qed.

Lemma start_type_good fs q c e t : octets (aq_data q) -> good_res (start_type fs q c e t).
Proof. intros O. unfold start_type. apply begin_read_good; auto; exact I. Qed.

Lemma var_done_good fs q v vk c : octets (aq_data q) -> good_res (var_done fs q v vk c).
Proof.
  intros O. destruct vk; cbn [var_done].
  - destruct fs; [exact I|]. apply start_type_good; auto.
  - apply run_user_good; auto.
  - destruct (v <? 2); [exact I|]. apply run_user_good; auto.
  - destruct (v <? 1); [exact I|]. apply begin_read_good; auto; exact I.
Qed.

Lemma container_body_good fs q : octets (aq_data q) -> good_res (container_body fs q).
Proof.
  intros O. unfold container_body. destruct fs as [|f r]; [exact I|].
  destruct (opt_eqb _ _ _); [split; [exact I|exact O]|]. cbv zeta.
  destruct (f_type f) as [[]|]; try (apply start_type_good; auto). split; [cbn; lia|exact O].
Qed.

Lemma aq_read_octets q n : octets (aq_data q) ->
  match aq_read q n with Ok (_, q') => octets (aq_data q') | Err _ => True end.
Proof.
  intros H. unfold aq_read.
  destruct (_ <? _); [exact I|]. destruct (_ <? _); [exact I|]. cbn [aq_data]. apply octets_zdrop; auto.
Qed.
Lemma aq_read_byte_octets q : octets (aq_data q) ->
  match aq_read_byte q with Ok (_, q') => octets (aq_data q') | Err _ => True end.
Proof.
  intros H. unfold aq_read_byte. destruct (_ <? _); [exact I|]. destruct (aq_data q); [exact I|].
  cbn [aq_data]. apply octets_cons in H. tauto.
Qed.

Lemma step_good s inp : good s -> octets (data_of inp) -> good_res (step s inp).
Proof.
  intros [P O] D. destruct s as [fs p q]. unfold step; cbn [r_frames r_q r_pc] in *.
  assert (VB : forall v vk c, 0 <= v -> good_res (let* (octet, q0) := aq_read_byte q in
          let value := varuint_step v octet in
          if varuint_last octet then var_done fs q0 value vk c
          else Ok (mkr fs (PVar value vk c) q0, None))).
  { intros v vk c V. pose proof (aq_read_byte_octets q O) as X.
    destruct (aq_read_byte q) as [[o q']|]; cbn [bind]; [|exact I]. cbv zeta.
    destruct (varuint_last o); [apply var_done_good; auto|]. split; [|exact X].
    cbn. apply varuint_step_nonneg; auto. }
  destruct p as [|n sk sev k|k|v vk c].
  - destruct inp as [[| |d]|]; try (apply container_body_good; exact O).
    destruct fs as [|f r]; [exact I|]. destruct (f_limit f); [|exact I].
    apply begin_read_good; auto.
  - assert (X : forall n sev q', octets (aq_data q') ->
        good_res (if n <=? 0 then Ok (mkr fs (PK k) q', None) else Ok (mkr fs (PRead n sk sev k) q', Some sev))).
    { intros n' sev' q' O'. destruct (n' <=? 0); split; auto. }
    destruct inp as [[| |d]|]; try (apply X; exact O).
    cbv zeta. apply X. cbn [data_of] in D. destruct sk; [destruct (_ <? _)|]; cbn [aq_data aq_extend]; auto.
    + apply octets_app. split; auto. apply octets_zdrop; auto.
    + apply octets_app. split; auto.
  - destruct k as [v vk c| |c e|k t n c|n c| |]; cbn [pc_pos] in P.
    + apply VB. exact P.
    + pose proof (aq_read_octets q 3 O). destruct (aq_read q 3) as [[? ?]|]; cbn [bind]; [|exact I].
      destruct (zlist_eqb _ _); [|exact I]. split; [exact I|auto].
    + pose proof (aq_read_byte_octets q O). destruct (aq_read_byte q) as [[? ?]|]; cbn [bind]; [|exact I].
      destruct (e && _); [exact I|]. apply run_handler_good; auto.
    + pose proof (aq_read_octets q n O). destruct (aq_read q n) as [[? ?]|]; cbn [bind]; [|exact I].
      apply emit_good; auto.
    + pose proof (aq_read_octets q n O). destruct (aq_read q n) as [[? ?]|]; cbn [bind]; [|exact I].
      destruct (parse_sids l); cbn [bind]; [|exact I]. destruct (c_limit c); [|exact I].
      destruct (_ <? 1); [exact I|]. apply start_type_good; auto.
    + apply container_body_good; exact O.
    + apply container_body_good; exact O.
  - destruct (aq_size q =? 0); [|apply VB; exact P]. apply begin_read_good; auto.
Qed.

(** * Fed one octet at a time, the machine never has data it has not asked for *)

Definition tight (s : rstate) : Prop :=
  match r_pc s with
  | PLoop | PVar _ _ _ => aq_data (r_q s) = []
  | PRead n sk _ k => 0 <= n /\ (sk = true -> aq_data (r_q s) = [])
  | PK k => zlen (aq_data (r_q s)) = need k
  end.
Definition tight_res (r : sres) : Prop := match r with Ok (s', _) => tight s' | Err _ => True end.

Definition empty (q : aq) : Prop := aq_data q = [] /\ aq_size q = 0.

Lemma begin_read_tight fs q c n sk sev k : empty q -> 0 <= n ->
  tight_res (begin_read fs q c n sk sev k).
Proof.
  intros [E S] N. unfold begin_read. destruct (if c_depth c =? 0 then _ else _); cbn [bind]; [|exact I].
  destruct sk.
  - unfold aq_skip. rewrite S. replace (0 <=? n - 0) with true by lia. cbn [bind Z.leb Z.compare].
    cbn [tight_res]. unfold tight; cbn [r_pc r_q aq_data]. split; [lia|reflexivity].
  - cbn [bind tight_res]. unfold tight; cbn [r_pc]. split; [lia|discriminate].
Qed.

Lemma emit_tight fs q c et t v : empty q -> tight_res (emit fs q c et t v).
Proof.
  intros [O _]. unfold emit. cbv zeta. match goal with |- context [bind ?x _] => destruct x; cbn [bind]; [|exact I] end.
  exact O.
Qed.

Lemma run_user_tight fs q u n c : empty q -> 0 <= n -> tight_res (run_user fs q u n c).
Proof.
  intros O N. destruct u as [k t|t| |]; cbn [run_user].
  - destruct (n =? 0); [apply emit_tight; auto|]. apply begin_read_tight; auto.
  - cbv zeta. destruct (c_annot c) as [[|a l]|]; cbn [bind]; try (apply emit_tight; auto).
    destruct (opt_eqb _ _ _); cbn [bind]; [apply emit_tight; auto|exact I].
  - destruct (c_annot c); [exact I|]. apply O.
  - cbv zeta. destruct (match c_field c with Some f => _ | None => _ end); [exact I|].
    destruct (0 <? n); [apply begin_read_tight; auto|]. apply O.
Qed.

Lemma run_handler_tight fs q o c : empty q -> tight_res (run_handler fs q (dispatch o) c).
Proof.
  intros O. pose proof (dispatch_len_nonneg o) as D. destruct (dispatch o); cbn [run_handler]; try exact I.
  - destruct (negb _); [exact I|]. apply begin_read_tight; auto; lia.
  - apply emit_tight; auto.
  - apply run_user_tight; auto. eapply D; eauto.
  - apply O.
  - apply O.
Qed.

Lemma start_type_tight fs q c e t : empty q -> tight_res (start_type fs q c e t).
Proof. intros O. unfold start_type. apply begin_read_tight; auto; lia. Qed.

Lemma var_done_tight fs q v vk c : empty q -> 0 <= v -> tight_res (var_done fs q v vk c).
Proof.
  intros O V. destruct vk; cbn [var_done].
  - destruct fs; [exact I|]. apply start_type_tight; auto.
  - apply run_user_tight; auto.
  - destruct (v <? 2); [exact I|]. apply run_user_tight; auto.
  - destruct (v <? 1); [exact I|]. apply begin_read_tight; auto.
Qed.

Lemma container_body_tight fs q : empty q -> tight_res (container_body fs q).
Proof.
  intros O. unfold container_body. destruct fs as [|f r]; [exact I|].
  destruct (opt_eqb _ _ _); [apply O|]. cbv zeta.
  destruct (f_type f) as [[]|]; try (apply start_type_tight; auto). apply O.
Qed.

(** The events that may be sent in a state. *)
Definition legal (s : rstate) (inp : option devent) : Prop :=
  match inp with
  | None => True
  | Some (DData _) => exists n sk sev k, r_pc s = PRead n sk sev k /\ 0 < n
  | Some _ => r_pc s = PLoop
  end.

Lemma empty_read_byte q : qwf q -> zlen (aq_data q) = 1 ->
  match aq_read_byte q with Ok (_, q') => empty q' | Err _ => True end.
Proof.
  intros W L. unfold aq_read_byte. destruct (_ <? _); [exact I|]. destruct (aq_data q) as [|b r] eqn:D; [exact I|].
  rewrite zlen_cons in L. assert (r = []) by (apply zlen_zero; lia). subst r. split; [reflexivity|].
  cbn. unfold qwf in W. rewrite D in W. rewrite W. reflexivity.
Qed.
Lemma empty_read q n : qwf q -> zlen (aq_data q) = n ->
  match aq_read q n with Ok (_, q') => empty q' | Err _ => True end.
Proof.
  intros W L. unfold aq_read. destruct (_ <? _); [exact I|]. destruct (_ <? _); [exact I|].
  split; cbn [aq_data aq_size]; [apply zdrop_all; lia|]. unfold qwf in W. lia.
Qed.

Lemma step_tight s inp : inv s -> good s -> tight s -> zlen (data_of inp) <= 1 -> legal s inp -> inp <> Some DSkip ->
  tight_res (step s inp).
Proof.
  intros [W P] G T L Lg NS. destruct s as [fs p q]. assert (Wq : qwf q) by exact W.
  unfold tight in T. unfold step; cbn [r_frames r_q r_pc] in *.
  assert (E0 : aq_data q = [] -> empty q).
  { intros D. split; [exact D|]. rewrite W, D. reflexivity. }
  assert (VB : forall v vk c, 0 <= v -> zlen (aq_data q) <= 1 -> tight_res (let* (octet, q0) := aq_read_byte q in
          let value := varuint_step v octet in
          if varuint_last octet then var_done fs q0 value vk c
          else Ok (mkr fs (PVar value vk c) q0, None))).
  { intros v vk c V Lq. destruct (zlen (aq_data q) =? 1) eqn:E1.
    - pose proof (empty_read_byte q Wq ltac:(lia)) as X.
      destruct (aq_read_byte q) as [[o q']|]; cbn [bind]; [|exact I]. cbv zeta.
      destruct (varuint_last o); [apply var_done_tight; auto; apply varuint_step_nonneg; auto|]. apply X.
    - pose proof (zlen_nonneg (aq_data q)). assert (D : aq_data q = []) by (apply zlen_zero; lia).
      unfold aq_read_byte. rewrite D. destruct (_ <? _); exact I. }
  destruct G as [G _]; cbn [r_pc] in G.
  destruct p as [|n sk sev k|k|v vk c].
  - destruct inp as [[| |d]|]; try (apply container_body_tight; auto). congruence.
  - assert (X : forall n sev q', 0 <= n -> (n = 0 -> zlen (aq_data q') = need k) -> (sk = true -> aq_data q' = []) ->
        tight_res (if n <=? 0 then Ok (mkr fs (PK k) q', None) else Ok (mkr fs (PRead n sk sev k) q', Some sev))).
    { intros n' sev' q' N' O' K'. destruct (n' <=? 0) eqn:E; cbn [tight_res]; unfold tight; cbn [r_pc r_q]; [apply O'; lia|].
      split; [lia|exact K']. }
    assert (Kn : is_skip_k k = true -> need k = 0) by (destruct k; cbn; congruence).
    destruct T as [T1 T2].
    destruct inp as [[| |d]|]; cbn [legal r_pc] in Lg; try congruence.
    + destruct Lg as (n' & sk' & sev' & k' & Eq & Pn). injection Eq as <- <- <- <-. cbn [data_of] in L.
      cbv zeta. destruct sk; cbn [pc_inv] in P.
      * replace (n - zlen d <? 0) with false by lia. destruct P as (K & D & _).
        apply X; [lia| |]; cbn [aq_data]; intros; rewrite T2 by reflexivity; [|reflexivity]. rewrite Kn by exact K. reflexivity.
      * destruct P as (K & D & _). apply X; [lia| |discriminate].
        cbn [aq_data aq_extend]. rewrite zlen_app. lia.
    + apply X; [exact T1| |exact T2]. intros ->. destruct sk; cbn [pc_inv] in P.
      * destruct P as (K & D & _). rewrite T2 by reflexivity. rewrite Kn by exact K. reflexivity.
      * lia.
  - destruct inp as [[| |d]|]; cbn [legal r_pc] in Lg; try congruence; [destruct Lg as (? & ? & ? & ? & ? & _); discriminate|].
    destruct k as [v vk c| |c e|k t n c|n c| |]; cbn [need] in T; cbn [pc_pos] in G.
    + apply VB; auto. lia.
    + pose proof (empty_read q 3 Wq T) as X. destruct (aq_read q 3) as [[? ?]|]; cbn [bind]; [|exact I].
      destruct (zlist_eqb _ _); [|exact I]. apply X.
    + pose proof (empty_read_byte q Wq T) as X. destruct (aq_read_byte q) as [[? ?]|]; cbn [bind]; [|exact I].
      destruct (e && _); [exact I|]. apply run_handler_tight; auto.
    + pose proof (empty_read q n Wq T) as X. destruct (aq_read q n) as [[? ?]|]; cbn [bind]; [|exact I].
      apply emit_tight; auto.
    + pose proof (empty_read q n Wq T) as X. destruct (aq_read q n) as [[? ?]|]; cbn [bind]; [|exact I].
      destruct (parse_sids l); cbn [bind]; [|exact I]. destruct (c_limit c); [|exact I].
      destruct (_ <? 1); [exact I|]. apply start_type_tight; auto.
    + apply container_body_tight; auto. apply E0. apply zlen_zero. exact T.
    + apply container_body_tight; auto. apply E0. apply zlen_zero. exact T.
  - destruct inp as [[| |d]|]; cbn [legal r_pc] in Lg; try congruence; [destruct Lg as (? & ? & ? & ? & ? & _); discriminate|].
    destruct (aq_size q =? 0); [apply begin_read_tight; auto; lia|apply VB; [exact G|]]. rewrite T. cbn; lia.
Qed.

(** * Runs *)

Definition loop_pc (p : pc) : bool := match p with PLoop | PK KLoop | PK KSkipped => true | _ => false end.

(** What a run is about to do, with [fut] to come after the data it is given. *)
Definition meant (s : rstate) (inp : option devent) (fut : list Z) : outcome :=
  match inp with
  | Some DSkip => p_skip (r_frames s) (aq_pos (r_q s)) (aq_data (r_q s) ++ fut)
  | _ => if loop_pc (r_pc s) then p_item (r_frames s) (aq_pos (r_q s)) (aq_data (r_q s) ++ fut)
         else den s (aq_data (r_q s) ++ data_of inp ++ fut)
  end.

Lemma den_meant s fut R : resolves (den s (aq_data (r_q s) ++ fut)) R -> resolves (meant s None fut) R.
Proof.
  unfold meant. cbn [data_of app]. unfold den, loop_pc. destruct (r_pc s) as [|n sk sev k|k|v vk c]; auto.
  - intros H. inversion H; subst; auto.
  - destruct k; auto. intros H. inversion H; subst; auto.
Qed.

Definition waiting (s : rstate) : Prop := exists n sk sev k, r_pc s = PRead n sk sev k /\ 0 < n.

Definition run_post (r : res (rstate * event)) (fut : list Z) (R : outcome) : Prop :=
  match r with
  | Err e => R = OFail e
  | Ok (s', ev) =>
    inv s' /\ good s' /\
    if is_stream_signal (ev_type ev)
    then waiting s' /\ resolves (den s' (aq_data (r_q s') ++ fut)) R /\ (fut = [] -> R = OMore ev)
    else r_pc s' = PLoop /\ R = ODone (Some ev) (r_frames s') (aq_pos (r_q s')) (aq_data (r_q s') ++ fut)
  end.

(** The ways a failure of the specification can go unnoticed: data read ahead, or a SKIP. *)
Definition careful (s : rstate) (inp : option devent) : Prop :=
  tight s /\ zlen (data_of inp) <= 1 /\ inp <> Some DSkip.

Lemma p_skip_item f rest pos bs lim : f_limit f = Some lim -> pos <= lim ->
  p_read (mkctx (f_limit f) (f_depth f) None None) (lim - pos) incomplete_event
    (fun _ p b => p_item (f :: rest) p b) pos bs = p_skip (f :: rest) pos bs.
Proof.
  intros L H. unfold p_read, p_skip. cbn [c_depth c_limit]. rewrite L.
  replace (lim <? pos) with false by lia.
  replace (if f_depth f =? 0 then Ok tt else if lim - pos <? lim - pos then Err IonException else Ok tt) with (@Ok unit tt)
    by (rewrite Z.ltb_irrefl; destruct (f_depth f =? 0); reflexivity).
  destruct (zlen bs <? lim - pos) eqn:E.
  - destruct bs; reflexivity.
  - replace (pos + (lim - pos)) with lim by lia. unfold p_item. rewrite L. cbn [opt_eqb].
    rewrite Z.eqb_refl. reflexivity.
Qed.

Lemma step_meant s inp fut : inv s -> good s -> legal s inp ->
  step_pre (step s inp) fut (meant s inp fut) \/
  ((exists e, meant s inp fut = OFail e) /\ ~ careful s inp).
Proof.
  intros I G L.
  assert (Lx : lax s -> ~ careful s inp).
  { intros [(v & vk & c & E) D] [T _]. unfold tight in T. rewrite E in T. contradiction. }
  destruct (loop_pc (r_pc s)) eqn:Lp.
  - assert (Pc : r_pc s = PLoop \/ r_pc s = PK KLoop \/ r_pc s = PK KSkipped)
      by (destruct (r_pc s) as [| |[]|]; cbn in Lp; auto; discriminate).
    assert (NX : inp = None \/ inp = Some DNext ->
       step_pre (step s inp) fut (p_item (r_frames s) (aq_pos (r_q s)) (aq_data (r_q s) ++ fut)) \/
       ((exists e, p_item (r_frames s) (aq_pos (r_q s)) (aq_data (r_q s) ++ fut) = OFail e) /\ ~ careful s inp)).
    { intros Hi. destruct (step_loop s inp fut I Pc Hi) as [H|[H1 H2]]; [left; exact H|right; auto]. }
    unfold meant. rewrite Lp. destruct inp as [[| |d]|]; auto.
    + (* SKIP *)
      cbn [legal] in L. destruct s as [fs p q]. cbn [r_frames r_pc r_q] in *. subst p.
      unfold step; cbn [r_frames r_pc r_q].
      destruct fs as [|f rest]; [left; reflexivity|].
      destruct (f_limit f) as [lim|] eqn:Lm; [|left; cbn [p_skip]; rewrite Lm; reflexivity].
      destruct (lim <? aq_pos q) eqn:E.
      * right. split; [|intros (_ & _ & C); congruence]. cbn [p_skip]. rewrite Lm, E. eauto.
      * left. apply agrees_step_pre. rewrite <- (p_skip_item f rest (aq_pos q) _ lim Lm) by lia.
        rewrite Lm. apply begin_skip_agrees; [apply I|lia|reflexivity|].
        intros bs Hb. reflexivity.
    + cbn [legal] in L. destruct L as (? & ? & ? & ? & E & _). rewrite E in Lp. discriminate.
  - assert (Md : mid (r_pc s)) by (destruct (r_pc s) as [| |[]|]; cbn in *; try exact Logic.I; discriminate).
    assert (NL : inp <> Some DNext /\ inp <> Some DSkip).
    { split; intros ->; cbn [legal] in L; rewrite L in Lp; discriminate. }
    assert (MT : may_take (r_pc s) inp).
    { destruct inp as [[| |d]|]; cbn [may_take legal] in *; try tauto.
      destruct L as (n & sk & sev & k & -> & Pn). exact Pn. }
    assert (Me : meant s inp fut = den s (aq_data (r_q s) ++ data_of inp ++ fut)).
    { unfold meant. rewrite Lp. destruct inp as [[| |d]|]; try reflexivity. tauto. }
    rewrite Me. destruct (step_mid s inp fut I G Md MT) as [H|[H1 H2]]; auto.
Qed.

Lemma run_sim fuel s inp fut R : inv s -> good s -> octets (data_of inp) -> legal s inp ->
  resolves (meant s inp fut) R -> run fuel s inp <> Err OutOfFuel ->
  run_post (run fuel s inp) fut R \/ ((exists e, R = OFail e) /\ ~ careful s inp).
Proof.
  revert s inp. induction fuel as [|fuel IH]; intros s inp I G O L RS NF; [cbn in NF; congruence|].
  cbn [run] in *. pose proof (step_good s inp G O) as G'.
  pose proof (fun T Z NS => step_tight s inp I G T Z L NS) as T'.
  destruct (step_meant s inp fut I G L) as [H|[[e H] C]].
  - destruct (step s inp) as [[s' [ev|]]|e] eqn:E; cbn [step_pre good_res tight_res] in *.
    + left. cbn [run_post]. destruct H as [I' H]. split; [exact I'|]. split; [exact G'|].
      destruct (is_stream_signal (ev_type ev)).
      * destruct H as (H1 & H2 & H3). split; [exact H2|]. rewrite H1. split; [exact RS|].
        intros Hf. specialize (H3 Hf). rewrite H3 in RS. inversion RS; auto.
      * destruct H as [H1 H2]. split; [exact H1|]. rewrite H2 in RS. inversion RS; auto.
    + destruct H as [I' H]. rewrite <- H in RS. apply den_meant in RS.
      destruct (IH s' None I' G' ltac:(constructor) Logic.I RS NF) as [X|[X C]]; [left; exact X|].
      right. split; [exact X|]. intros (C1 & C2 & C3). apply C. split; [apply T'; auto|].
      split; [cbn; lia|discriminate].
    + left. cbn [run_post]. rewrite H in RS. inversion RS; auto.
  - right. split; [|exact C]. rewrite H in RS. inversion RS; subst. eauto.
Qed.

Lemma run_keeps_tight fuel s inp s' ev : inv s -> good s -> octets (data_of inp) -> legal s inp ->
  careful s inp -> run fuel s inp = Ok (s', ev) -> tight s'.
Proof.
  revert s inp. induction fuel as [|fuel IH]; intros s inp I G O L C E; [discriminate|].
  cbn [run] in E. pose proof (step_good s inp G O) as G'.
  pose proof C as (C1 & C2 & C3). pose proof (step_tight s inp I G C1 C2 L C3) as T'.
  destruct (step_meant s inp [] I G L) as [H|[_ H]]; [|contradiction].
  destruct (step s inp) as [[s1 [ev1|]]|e] eqn:E1; cbn [step_pre good_res tight_res] in *; [congruence| |discriminate].
  destruct H as [I' H]. apply (IH s1 None); [exact I'|exact G'|constructor|exact Logic.I| |exact E].
  split; [exact T'|]. split; [cbn; lia|discriminate].
Qed.

(** * Sending, feeding, sessions *)

Definition chunks_ok (cs : list (list Z)) : Prop := Forall (fun c => c <> [] /\ octets c) cs.

(** The result of answering one request, against the outcome [R]: the answer, the reader and the
    pieces left.  [careful] asks for exactness of failures too. *)
Definition answer (x : res event * reader * list (list Z)) (R : outcome) (exact : Prop) : Prop :=
  let '(r, rd, cs) := x in
  match R with
  | ODone (Some ev) fs pos bs =>
    r = Ok ev /\ is_stream_signal (ev_type ev) = false /\ chunks_ok cs /\ (exact -> Forall (fun c => zlen c = 1) cs) /\
    exists s, rd = RAt s ev /\ inv s /\ good s /\ r_pc s = PLoop /\ r_frames s = fs /\
              aq_pos (r_q s) = pos /\ aq_data (r_q s) ++ concat cs = bs /\ (exact -> tight s)
  | ODone None _ _ _ => False
  | OMore sig => r = match ev_type sig with EStreamEnd => Ok stream_end_event | _ => Err TypeError end
  | OFail e => exact -> r = Err e
  end.

Definition singles (cs : list (list Z)) : Prop := Forall (fun c => zlen c = 1) cs.

Lemma answer_weaken x R (P Q : Prop) : (Q -> P) -> answer x R P -> answer x R Q.
Proof.
  intros H. destruct x as [[r rd] cs]. cbn [answer]. destruct R as [[ev|] fs pos bs|e|sig]; auto.
  intros (A1 & A2 & A3 & A4 & s & A5 & A6 & A7 & A8 & A9 & A10 & A11 & A12).
  split; [exact A1|]. split; [exact A2|]. split; [exact A3|]. split; [auto|]. exists s.
  do 7 (split; [assumption|]). auto.
Qed.

Lemma resolves_not_none o R : resolves o R -> match R with ODone None _ _ _ => False | _ => True end.
Proof. induction 1; exact I || auto. Qed.

(** A run that comes back with an event or an exception, then fed if it needs data. *)
Definition after_run (r : res (rstate * event)) (chunks : list (list Z)) : res event * reader * list (list Z) :=
  match r with
  | Ok (s', ev) => feed (RAt s' ev) ev chunks
  | Err e => (Err e, RDead, chunks)
  end.

Lemma protocol_data last c : is_stream_signal (ev_type last) = true -> c <> [] ->
  protocol_check last (DData c) = Ok tt.
Proof.
  intros S Hc. unfold protocol_check. rewrite S. cbn [bind]. destruct c; [congruence|]. cbn [bind].
  destruct (ev_depth last) as [[| |]|]; try reflexivity. destruct (ev_type last); reflexivity.
Qed.

Lemma feed_cons s last c cs : is_stream_signal (ev_type last) = true -> c <> [] ->
  feed (RAt s last) last (c :: cs) =
  after_run (run (steps_fuel s (Some (DData c))) s (Some (DData c))) cs.
Proof.
  intros S Hc. cbn [feed]. rewrite S. unfold reader_send. rewrite protocol_data by assumption.
  unfold after_run. destruct (run _ s _) as [[s' ev]|e]; reflexivity.
Qed.

Lemma feed_nil s last : is_stream_signal (ev_type last) = true ->
  fst (fst (feed (RAt s last) last [])) = match ev_type last with EStreamEnd => Ok stream_end_event | _ => Err TypeError end.
Proof.
  intros S. cbn [feed]. rewrite S. destruct (ev_type last) eqn:E; cbn in S; try discriminate; cbn [reader_send].
  - unfold protocol_check. rewrite E. reflexivity.
  - reflexivity.
Qed.

Lemma feed_stop s ev cs : is_stream_signal (ev_type ev) = false -> feed (RAt s ev) ev cs = (Ok ev, RAt s ev, cs).
Proof. intros S. destruct cs; cbn [feed]; rewrite S; reflexivity. Qed.

Lemma after_run_answer chunks : forall s inp R,
  chunks_ok chunks -> inv s -> good s -> octets (data_of inp) -> legal s inp ->
  resolves (meant s inp (concat chunks)) R ->
  answer (after_run (run (steps_fuel s inp) s inp) chunks) R (careful s inp /\ singles chunks).
Proof.
  induction chunks as [|c cs IH]; intros s inp R CK I G O L RS.
  - pose proof (run_enough s inp) as NF.
    assert (KT : forall s' ev, run (steps_fuel s inp) s inp = Ok (s', ev) -> careful s inp -> tight s')
      by (intros; eapply run_keeps_tight; eauto).
    destruct (run_sim _ s inp _ R I G O L RS NF) as [H|[[e H] C]].
    + destruct (run (steps_fuel s inp) s inp) as [[s' ev]|e] eqn:E; cbn [run_post after_run] in *.
      * destruct H as (I' & G' & H). destruct (is_stream_signal (ev_type ev)) eqn:S'.
        -- destruct H as (W' & RS' & FM'). rewrite (FM' eq_refl).
           pose proof (feed_nil s' ev S') as F. destruct (feed (RAt s' ev) ev []) as [[x rd] cs']. exact F.
        -- destruct H as [Lp HR]. rewrite feed_stop, HR by exact S'. cbn [answer].
           split; [reflexivity|]. split; [exact S'|]. split; [exact CK|]. split; [tauto|]. exists s'.
           do 7 (split; [reflexivity || assumption|]). intros [C _]. eapply KT; eauto.
      * subst R. cbn [answer]. auto.
    + subst R. destruct (after_run _ _) as [[x rd] cs']. cbn [answer]. intros [C' _]. contradiction.
  - pose proof (run_enough s inp) as NF. inversion CK as [|? ? [Hc Oc] CK']; subst.
    assert (KT : forall s' ev, run (steps_fuel s inp) s inp = Ok (s', ev) -> careful s inp -> tight s')
      by (intros; eapply run_keeps_tight; eauto).
    destruct (run_sim _ s inp _ R I G O L RS NF) as [H|[[e H] C]].
    + destruct (run (steps_fuel s inp) s inp) as [[s' ev]|e] eqn:E; cbn [run_post after_run] in *.
      * destruct H as (I' & G' & H). destruct (is_stream_signal (ev_type ev)) eqn:S'.
        -- destruct H as (W' & RS' & FM'). rewrite feed_cons by assumption.
           eapply answer_weaken; [|apply IH; auto].
           ++ intros [C Sg]. inversion Sg; subst. split; [|assumption]. split; [eapply KT; eauto|].
              split; [cbn [data_of]; lia|discriminate].
           ++ unfold meant. destruct W' as (n & sk & sev & k & E' & _). rewrite E'. cbn [loop_pc data_of].
              exact RS'.
        -- destruct H as [Lp HR]. rewrite feed_stop, HR by exact S'. cbn [answer].
           split; [reflexivity|]. split; [exact S'|]. split; [exact CK|]. split; [tauto|]. exists s'.
           do 7 (split; [reflexivity || assumption|]). intros [C _]. eapply KT; eauto.
      * subst R. cbn [answer]. auto.
    + subst R. destruct (after_run _ _) as [[x rd] cs']. cbn [answer]. intros [C' _]. contradiction.
Qed.

(** A reader between two requests. *)
Definition idle (r : reader) (started : bool) (fs : list frame) (pos : Z) (data : list Z) (st : list iontype) (tt : Prop) : Prop :=
  exists s, inv s /\ good s /\ r_pc s = PLoop /\ r_frames s = fs /\ aq_pos (r_q s) = pos /\ aq_data (r_q s) = data /\
  nest s st /\ (tt -> tight s) /\
  (if started
   then exists ev, r = RAt s ev /\ is_stream_signal (ev_type ev) = false /\ exists st0, nest_step st0 ev st
   else r = RFresh s).

Lemma protocol_next ev : is_stream_signal (ev_type ev) = false -> protocol_check ev DNext = Ok tt.
Proof.
  intros S. unfold protocol_check. rewrite S. cbn [bind]. destruct (ev_depth ev) as [[]|]; try reflexivity.
  destruct (ev_type ev); reflexivity.
Qed.
Lemma protocol_skip ev st0 st : nest_step st0 ev st -> is_stream_signal (ev_type ev) = false ->
  protocol_check ev DSkip = match st with [] => Err TypeError | _ => Ok tt end.
Proof.
  intros N S. unfold protocol_check. rewrite S. cbn [bind].
  inversion N; subst; cbn [ev_depth ev_type] in *; try discriminate.
  - destruct st; [reflexivity|]. rewrite zlen_cons. pose proof (zlen_nonneg st).
    destruct (1 + zlen st) eqn:E; try reflexivity; lia.
  - destruct (zlen st0); reflexivity.
  - destruct st; [reflexivity|]. rewrite zlen_cons. pose proof (zlen_nonneg st).
    destruct (1 + zlen st) eqn:E; try reflexivity; lia.
  - reflexivity.
Qed.

Definition request_meant (fs : list frame) (pos : Z) (bs : list Z) (started : bool) (q : devent) : outcome :=
  match q with
  | DNext => p_next (S (length bs)) fs pos bs
  | DSkip => match fs with
             | _ :: _ :: _ => if started then p_skip fs pos bs else OFail TypeError
             | _ => OFail TypeError
             end
  | DData _ => OFail TypeError
  end.

Lemma frames_for_two fs st : frames_for fs st ->
  match st with [] => exists f, fs = [f] | _ => exists f g r, fs = f :: g :: r end.
Proof.
  intros H. inversion H as [|fs0 st0 t lim b F C]; subst; [eauto|].
  inversion F; subst; eauto.
Qed.

Lemma blocking_next_answer r started fs pos data st T chunks q :
  idle r started fs pos data st T -> chunks_ok chunks ->
  answer (blocking_next r chunks q) (request_meant fs pos (data ++ concat chunks) started q)
         (T /\ singles chunks /\ q = DNext).
Proof.
  intros (s & I & G & Lp & Fs & Ps & Dt & N & Tt & St) CK.
  assert (NX : blocking_next r chunks DNext = after_run (run (steps_fuel s (Some DNext)) s (Some DNext)) chunks).
  { unfold blocking_next. destruct started.
    - destruct St as (ev & -> & S & _). cbn [reader_send]. rewrite protocol_next by exact S.
      unfold after_run. destruct (run _ s _) as [[s' ev']|e]; reflexivity.
    - subst r. cbn [reader_send]. unfold after_run. destruct (run _ s _) as [[s' ev']|e]; reflexivity. }
  destruct q as [| |d].
  - rewrite NX. cbn [request_meant]. eapply answer_weaken; [|apply after_run_answer; auto].
    + intros (HT & Sg & _). split; [|exact Sg]. split; [auto|]. split; [cbn; lia|discriminate].
    + constructor.
    + unfold meant. rewrite Lp. cbn [loop_pc]. rewrite Fs, Ps, Dt. apply p_next_resolves. lia.
  - assert (X : forall e, fst (fst (blocking_next r chunks DSkip)) = Err TypeError ->
       answer (blocking_next r chunks DSkip) (OFail e) (T /\ singles chunks /\ DSkip = DNext)).
    { intros e _. destruct (blocking_next r chunks DSkip) as [[x rd] cs]. cbn [answer]. intros (_ & _ & ?). discriminate. }
    cbn [request_meant]. destruct started.
    + destruct St as (ev & -> & S & st0 & NS).
      pose proof (protocol_skip ev st0 st NS S) as PS.
      destruct N as [F _]. pose proof (frames_for_two _ _ F) as Sh. rewrite Fs in Sh.
      destruct st as [|t st].
      * destruct Sh as [f ->]. apply X. unfold blocking_next. cbn [reader_send]. rewrite PS. reflexivity.
      * destruct Sh as (f & g & r & ->).
        assert (E : blocking_next (RAt s ev) chunks DSkip = after_run (run (steps_fuel s (Some DSkip)) s (Some DSkip)) chunks).
        { clear NX. unfold blocking_next. cbn [reader_send]. rewrite PS. unfold after_run. destruct (run _ s _) as [[s' ev']|e]; reflexivity. }
        rewrite E. eapply answer_weaken; [|apply after_run_answer; auto].
        -- intros (_ & _ & ?). discriminate.
        -- constructor.
        -- unfold meant. rewrite Fs, Ps, Dt.
           assert (D : match p_skip (f :: g :: r) pos (data ++ concat chunks) with ODone None _ _ _ => False | _ => True end).
           { cbn [p_skip]. destruct (f_limit f); [|exact Logic.I]. destruct (_ <? _); [exact Logic.I|]. destruct (_ <? _); exact Logic.I. }
           destruct (p_skip (f :: g :: r) pos (data ++ concat chunks)) as [[ev'|]| |]; try constructor. contradiction.
    + subst r. destruct fs as [|f [|g r]]; apply X; reflexivity.
  - cbn [request_meant]. destruct (blocking_next r chunks (DData d)) as [[x rd] cs]. cbn [answer].
    intros (_ & _ & ?). discriminate.
Qed.

Lemma feed_nest chunks : forall r ev st0 st ev' r' cs',
  reader_nest r st -> nest_step st0 ev st -> feed r ev chunks = (Ok ev', r', cs') ->
  is_stream_signal (ev_type ev') = false ->
  exists st1 st', nest_step st1 ev' st' /\ reader_nest r' st'.
Proof.
  induction chunks as [|c cs IH]; intros r ev st0 st ev' r' cs' N S F NS; cbn [feed] in F.
  - destruct (is_stream_signal (ev_type ev)) eqn:E.
    + destruct (ev_type ev) eqn:E2; cbn in E; try discriminate.
      * pose proof (reader_send_nest r DNext st N) as H. destruct (reader_send r DNext) as [[x|x] rd].
        -- destruct H as (st' & A & B). assert (x = ev' /\ rd = r') as [-> ->] by (split; congruence). eauto.
        -- congruence.
      * assert (stream_end_event = ev') as <- by congruence. discriminate.
    + assert (ev = ev' /\ r = r') as [-> ->] by (split; congruence). eauto.
  - destruct (is_stream_signal (ev_type ev)) eqn:E.
    + pose proof (reader_send_nest r (DData c) st N) as H. destruct (reader_send r (DData c)) as [[x|x] rd]; [|congruence].
      destruct H as (st' & A & B). eapply IH; eauto.
    + assert (ev = ev' /\ r = r') as [-> ->] by (split; congruence). eauto.
Qed.

Lemma blocking_next_nest r st chunks q ev' r' cs' : reader_nest r st ->
  blocking_next r chunks q = (Ok ev', r', cs') -> is_stream_signal (ev_type ev') = false ->
  exists st1 st', nest_step st1 ev' st' /\ reader_nest r' st'.
Proof.
  intros N F S. unfold blocking_next in F. pose proof (reader_send_nest r q st N) as H.
  destruct (reader_send r q) as [[x|x] rd]; [|congruence].
  destruct H as (st' & A & B). eapply feed_nest; eauto.
Qed.

Definition session_matches (spec : list event * sstop) (x : list event * stop) (exact : Prop) : Prop :=
  match snd spec with
  | PMore => x = (fst spec, SMore)
  | PEnd => x = (fst spec, SEnd)
  | PCut => x = (fst spec, SExc TypeError)
  | PBad e => (exists later, fst x = fst spec ++ later) /\ (exact -> x = (fst spec, SExc e))
  end.

Lemma session_sim reqs : forall r started fs pos data st T chunks,
  idle r started fs pos data st T -> chunks_ok chunks ->
  session_matches (spec_session started fs pos (data ++ concat chunks) reqs) (session r chunks reqs)
                  (T /\ singles chunks /\ Forall (fun q => q = DNext) reqs).
Proof.
  induction reqs as [|q qs IH]; intros r started fs pos data st T chunks Id CK; [reflexivity|].
  cbn [spec_session session].
  change (match q with
     | DNext => p_next (S (length (data ++ concat chunks))) fs pos (data ++ concat chunks)
     | DSkip => match fs with
                | _ :: _ :: _ => if started then p_skip fs pos (data ++ concat chunks) else OFail TypeError
                | _ => OFail TypeError end
     | DData _ => OFail TypeError end) with (request_meant fs pos (data ++ concat chunks) started q).
  pose proof (blocking_next_answer r started fs pos data st T chunks q Id CK) as A.
  assert (RN : reader_nest r st).
  { destruct Id as (s & _ & _ & _ & _ & _ & _ & N & _ & St). destruct started.
    - destruct St as (ev & -> & _). exact N.
    - subst r. exact N. }
  destruct (blocking_next r chunks q) as [[x rd] cs] eqn:BN. cbn [answer] in A.
  destruct (request_meant fs pos (data ++ concat chunks) started q) as [[ev|] fs' pos' bs'|e|sig].
  - destruct A as (-> & NS & CK' & Sg' & s & -> & I & G & Lp & Fs & Ps & Dt & Tt).
    destruct (blocking_next_nest r st chunks q ev _ cs RN BN NS) as (st1 & st' & N1 & N2).
    assert (Id' : idle (RAt s ev) true fs' pos' (aq_data (r_q s)) st' (T /\ singles chunks /\ q = DNext)).
    { exists s. do 3 (split; [assumption|]). split; [exact Fs|]. split; [exact Ps|]. split; [reflexivity|].
      split; [exact N2|]. split; [exact Tt|]. exists ev. eauto. }
    pose proof (IH _ true fs' pos' _ st' _ cs Id' CK') as M. rewrite Dt in M.
    replace (match ev_type ev with EStreamEnd => ([], SEnd) | _ => let '(evs, st2) := session (RAt s ev) cs qs in (ev :: evs, st2) end)
      with (let '(evs, st2) := session (RAt s ev) cs qs in (ev :: evs, st2))
      by (destruct (ev_type ev); try reflexivity; discriminate).
    destruct (spec_session true fs' pos' bs' qs) as [sevs sst].
    destruct (session (RAt s ev) cs qs) as [evs st2].
    unfold session_matches in *. cbn [fst snd] in *.
    destruct sst; try (injection M as -> ->; reflexivity).
    destruct M as [[later M1] M2]. split.
    + exists later. rewrite M1. reflexivity.
    + intros (HT & Sg & Fq). inversion Fq as [|? ? Hq Fq']; subst q.
      specialize (M2 (conj (conj HT (conj Sg eq_refl)) (conj (Sg' (conj HT (conj Sg eq_refl))) Fq'))).
      injection M2 as -> ->. reflexivity.
  - contradiction.
  - unfold session_matches. cbn [fst snd]. split; [eexists; cbn [app]; reflexivity|].
    intros (HT & Sg & Fq). inversion Fq as [|? ? Hq Fq']; subst q. rewrite (A (conj HT (conj Sg eq_refl))). reflexivity.
  - subst x. unfold session_matches. destruct (ev_type sig); reflexivity.
Qed.

Lemma reader_new_idle T : idle reader_new false [top_frame] 0 [] [] T.
Proof.
  exists reader_init. split; [split; [reflexivity|exact I]|]. split; [split; [exact I|constructor]|].
  split; [reflexivity|]. split; [reflexivity|]. split; [reflexivity|]. split; [reflexivity|].
  split; [split; [constructor|exact I]|]. split; [reflexivity|]. reflexivity.
Qed.

Theorem session_meets_spec chunks reqs : chunks_ok chunks ->
  session_matches (spec_read (concat chunks) reqs) (session reader_new chunks reqs)
                  (singles chunks /\ Forall (fun q => q = DNext) reqs).
Proof.
  intros CK. pose proof (session_sim reqs reader_new false [top_frame] 0 [] [] True chunks (reader_new_idle True) CK) as M.
  unfold spec_read. cbn [app] in M. unfold session_matches in *.
  destruct (spec_session false [top_frame] 0 (concat chunks) reqs) as [sevs sst]. cbn [fst snd] in *.
  destruct sst; auto. destruct M as [M1 M2]. split; [exact M1|]. intros [H1 H2]. apply M2. auto.
Qed.
