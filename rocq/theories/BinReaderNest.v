(** The events of the reader machine are well nested whatever is sent to it, malformed data
    included. *)
From Verif Require Import Base BaseFacts FieldsModel FieldsFacts BufferModel CoreModel BinReaderModel.

(** * Specification

    The open containers, innermost first; what each event does to them, and what the event must
    look like. *)
Definition in_struct (st : list iontype) : Prop := exists r, st = TStruct :: r.

Inductive nest_step : list iontype -> event -> list iontype -> Prop :=
| nest_scalar st t v fld an :
    (is_container t = true -> v = EvNone) (* typed nulls are scalars *) -> (fld <> None <-> in_struct st) ->
    nest_step st (mkev EScalar (Some t) v fld an (Some (zlen st))) st
| nest_start st t fld an :
    is_container t = true -> (fld <> None <-> in_struct st) ->
    nest_step st (mkev EContainerStart (Some t) EvNone fld an (Some (zlen st))) (t :: st)
| nest_end st t :
    nest_step (t :: st) (mkev EContainerEnd (Some t) EvNone None [] (Some (zlen st))) st
| nest_version :
    nest_step [] version_marker_event []
| nest_stream_end :
    nest_step [] stream_end_event []
| nest_incomplete st :
    nest_step st incomplete_event st.

(** A whole history: the containers open after it. *)
Inductive nested : list iontype -> list event -> list iontype -> Prop :=
| nested_nil st : nested st [] st
| nested_cons st ev st' evs st'' : nest_step st ev st' -> nested st' evs st'' -> nested st (ev :: evs) st''.

(** Everything the reader answers to a series of sends, up to the first exception. *)
Fixpoint replies (r : reader) (ds : list devent) : list event :=
  match ds with
  | [] => []
  | d :: ds' => match reader_send r d with
                | (Ok ev, r') => ev :: replies r' ds'
                | (Err _, _) => []
                end
  end.

(** * The invariant of the machine *)

(** The stack of container handlers for the open containers [st]. *)
Inductive frames_for : list frame -> list iontype -> Prop :=
| ff_top b : frames_for [mkframe None None 0 b] []
| ff_in fs st t lim b : frames_for fs st -> is_container t = true ->
    frames_for (mkframe (Some t) (Some lim) (zlen st + 1) b :: fs) (t :: st).

(** The context of a value about to be read. *)
Definition ctx_for (c : rctx) (st : list iontype) : Prop :=
  c_depth c = zlen st /\ (c_field c <> None <-> in_struct st) /\
  (c_depth c <> 0 -> c_limit c <> None) /\ (c_annot c <> None -> c_limit c <> None).
(** The context of a field name. *)
Definition fctx_for (c : rctx) (st : list iontype) : Prop :=
  c_depth c = zlen st /\ in_struct st /\ c_limit c <> None.

Definition user_ok (u : uhandler) : Prop :=
  match u with
  | UScalar _ t => is_container t = false
  | UContainer t => is_container t = true
  | _ => True
  end.
Definition vk_for (vk : vkont) (c : rctx) (st : list iontype) : Prop :=
  match vk with
  | VField => fctx_for c st
  | VUser u => ctx_for c st /\ user_ok u
  | VOrdered => ctx_for c st
  | VAnnLen => ctx_for c st /\ c_limit c <> None
  end.
Definition k_for (k : kont) (st : list iontype) : Prop :=
  match k with
  | KVar _ vk c => vk_for vk c st
  | KIvm => st = []
  | KType c _ => ctx_for c st
  | KScalar _ t _ c => ctx_for c st /\ is_container t = false
  | KAnn _ c => ctx_for c st /\ c_limit c <> None
  | KLoop | KSkipped => True
  end.
Definition pc_for (p : pc) (st : list iontype) : Prop :=
  match p with
  | PLoop => True
  | PRead _ _ sev k => k_for k st /\ (sev = incomplete_event \/ (sev = stream_end_event /\ st = []))
  | PK k => k_for k st
  | PVar _ vk c => vk_for vk c st
  end.
Definition nest (s : rstate) (st : list iontype) : Prop :=
  frames_for (r_frames s) st /\ pc_for (r_pc s) st.

(** A step result: silent steps keep the containers, events change them as specified. *)
Definition nested_res (r : sres) (st : list iontype) : Prop :=
  match r with
  | Err _ => True
  | Ok (s', None) => nest s' st
  | Ok (s', Some ev) => exists st', nest_step st ev st' /\ nest s' st' /\
      (is_stream_signal (ev_type ev) = false -> r_pc s' = PLoop) /\
      (is_stream_signal (ev_type ev) = true -> exists n sk sev k, r_pc s' = PRead n sk sev k /\ 0 < n)
  end.

Lemma begin_read_nest fs q c n sk sev k st :
  frames_for fs st -> k_for k st -> (sev = incomplete_event \/ (sev = stream_end_event /\ st = [])) ->
  nested_res (begin_read fs q c n sk sev k) st.
Proof.
  intros F K S. unfold begin_read.
  destruct (if c_depth c =? 0 then _ else _) as [u|e]; cbn [bind]; [|exact I].
  match goal with |- context [bind ?x _] => destruct x as [q'|e]; cbn [bind]; [|exact I] end.
  cbn [nested_res]. split; [exact F|]. cbn [r_pc pc_for]. split; [exact K|].
  destruct (0 <? aq_size q); auto.
Qed.

Lemma emit_scalar_nest fs q c t v st : frames_for fs st -> ctx_for c st -> (is_container t = true -> v = EvNone) ->
  nested_res (emit fs q c EScalar t v) st.
Proof.
  intros F (C1 & C2 & _) T. unfold emit. cbv zeta.
  match goal with |- context [bind ?x _] => destruct x as [q'|e]; cbn [bind]; [|exact I] end.
  cbn [nested_res]. exists st. rewrite C1. split; [constructor; auto|]. split; [split; [exact F|exact I]|].
  cbn [ev_type is_stream_signal r_pc]. split; [reflexivity|discriminate].
Qed.

Lemma emit_start_nest fs q c t lim st : frames_for fs st -> ctx_for c st -> is_container t = true ->
  nested_res (emit (mkframe (Some t) (Some lim) (c_depth c + 1) true :: fs) q c EContainerStart t EvNone) st.
Proof.
  intros F (C1 & C2 & _) T. unfold emit. cbv zeta. cbn [bind nested_res].
  exists (t :: st). rewrite C1. split; [constructor; auto|].
  split; [split; [constructor; auto|exact I]|].
  cbn [ev_type is_stream_signal r_pc]. split; [reflexivity|discriminate].
Qed.

Lemma run_user_nest fs q u n c st : frames_for fs st -> ctx_for c st -> user_ok u ->
  nested_res (run_user fs q u n c) st.
Proof.
  intros F C U. destruct u as [k t|t| |]; cbn [run_user user_ok] in *.
  - destruct (n =? 0); [apply emit_scalar_nest; auto; congruence|].
    apply begin_read_nest; [exact F|split; auto|auto].
  - cbv zeta. destruct (c_annot c) as [[|a l]|]; cbn [bind]; try (apply emit_start_nest; auto).
    destruct (opt_eqb _ _ _); cbn [bind]; [apply emit_start_nest; auto|exact I].
  - destruct (c_annot c) as [a|] eqn:A; [exact I|].
    cbn [nested_res]. split; [exact F|]. cbn [r_pc pc_for vk_for]. destruct C as (C1 & C2 & C3 & C4).
    split; [|discriminate]. split; [exact C1|]. split; [exact C2|]. cbn. split; intros; discriminate.
  - cbv zeta. destruct (match c_field c with Some f => _ | None => _ end); [exact I|].
    destruct (0 <? n); [apply begin_read_nest; [exact F|exact I|auto]|].
    cbn [nested_res]. split; [exact F|exact I].
Qed.

Lemma dispatch_user_ok o u : (exists n, dispatch o = HLen u n) \/ dispatch o = HVarLen u -> user_ok u.
Proof.
  intros H. unfold dispatch in H. cbv zeta in H.
  destruct (o =? 0xE0); [destruct H as [[n H]|H]; discriminate|].
  destruct (o mod 16 =? 15); [destruct (o / 16 <=? 13); destruct H as [[n H]|H]; discriminate|].
  destruct (static_scalar o) as [[t v]|]; [destruct H as [[n H]|H]; discriminate|].
  assert (G : forall u', (exists n, bind_len u' (o mod 16) = HLen u n) \/ bind_len u' (o mod 16) = HVarLen u -> u' = u).
  { intros u' G. destruct G as [[n G]|G]; unfold bind_len in G;
    repeat match type of G with
    | (if ?b then _ else _) = _ => destruct b
    | match ?x with _ => _ end = _ => destruct x
    end; try discriminate; injection G; intros; subst; reflexivity. }
  repeat match type of H with
  | (exists n, match ?x with _ => _ end = _) \/ _ => destruct x
  end; try (destruct H as [[n H]|H]; discriminate); apply G in H; subst u; cbn; auto.
Qed.

Lemma dispatch_static_ok o t v : dispatch o = HStatic t v -> is_container t = true -> v = EvNone.
Proof.
  intros H C. unfold dispatch in H. cbv zeta in H.
  destruct (o =? 0xE0); [discriminate|].
  destruct (o mod 16 =? 15).
  - destruct (o / 16 <=? 13); [|discriminate]. injection H as _ <-. reflexivity.
  - destruct (static_scalar o) as [[t' v']|] eqn:E.
    + exfalso. injection H as -> _. unfold static_scalar in E.
      repeat match type of E with
      | match ?x with _ => _ end = _ => destruct x
      end; try discriminate; injection E as <- _; discriminate.
    + exfalso. assert (G : forall u', bind_len u' (o mod 16) = HStatic t v -> False).
      { intros u' G. unfold bind_len in G. repeat match type of G with
        | (if ?b then _ else _) = _ => destruct b
        | match ?x with _ => _ end = _ => destruct x
        end; discriminate. }
      repeat match type of H with
      | match ?x with _ => _ end = _ => destruct x
      end; try discriminate; eauto.
Qed.

Lemma run_handler_nest fs q o c st : frames_for fs st -> ctx_for c st ->
  nested_res (run_handler fs q (dispatch o) c) st.
Proof.
  intros F C. pose proof (dispatch_user_ok o) as U. pose proof (dispatch_static_ok o) as S.
  destruct (dispatch o) as [| |t v|u n|u|]; cbn [run_handler].
  - exact I.
  - destruct (negb (c_depth c =? 0)) eqn:D; [exact I|].
    apply begin_read_nest; auto. cbn [k_for]. destruct C as (C1 & _). apply zlen_zero. lia.
  - apply emit_scalar_nest; auto. eapply S; eauto.
  - apply run_user_nest; auto. apply U. eauto.
  - cbn [nested_res]. split; [exact F|]. split; auto.
  - cbn [nested_res]. split; [exact F|]. exact C.
Qed.

Lemma start_type_nest fs q c e t st : frames_for fs st -> ctx_for c st -> (t = true -> st = []) ->
  nested_res (start_type fs q c e t) st.
Proof. intros F C T. unfold start_type. apply begin_read_nest; auto. destruct t; auto. Qed.

Lemma frames_first fs st f rest b : frames_for fs st -> fs = f :: rest ->
  frames_for (mkframe (f_type f) (f_limit f) (f_depth f) b :: rest) st.
Proof. intros F ->. inversion F; subst; cbn [f_type f_limit f_depth]; constructor; auto. Qed.

Lemma frames_head fs st f rest : frames_for fs st -> fs = f :: rest ->
  f_depth f = zlen st /\ (f_type f = Some TStruct <-> in_struct st) /\
  (f_depth f <> 0 -> f_limit f <> None).
Proof.
  intros F ->. inversion F; subst; cbn [f_type f_limit f_depth].
  - split; [reflexivity|]. split; [|congruence]. split; [discriminate|]. intros [r H]; discriminate.
  - split; [rewrite zlen_cons; lia|]. split; [|discriminate]. split.
    + intros H. injection H as ->. eexists; reflexivity.
    + intros [r H]. injection H as -> _. reflexivity.
Qed.

Lemma var_done_nest fs q v vk c st : frames_for fs st -> vk_for vk c st ->
  nested_res (var_done fs q v vk c) st.
Proof.
  intros F V. destruct vk as [|u| |]; cbn [var_done vk_for] in *.
  - destruct fs as [|f rest]; [exact I|]. cbv zeta.
    destruct (frames_head _ _ f rest F eq_refl) as (H1 & H2 & H3).
    apply start_type_nest.
    + eapply frames_first; eauto.
    + destruct V as (V1 & V2 & V3). split; [exact H1|]. cbn [c_field c_depth c_limit c_annot].
      split; [split; [intros _; exact V2|discriminate]|]. split; [exact H3|congruence].
    + intros E. apply zlen_zero. lia.
  - destruct V. apply run_user_nest; auto.
  - destruct (v <? 2); [exact I|]. apply run_user_nest; auto. reflexivity.
  - destruct (v <? 1); [exact I|]. apply begin_read_nest; auto.
Qed.

Lemma container_body_nest fs q st : frames_for fs st -> nested_res (container_body fs q) st.
Proof.
  intros F. unfold container_body. destruct fs as [|f rest]; [exact I|].
  destruct (frames_head _ _ f rest F eq_refl) as (H1 & H2 & H3).
  destruct (opt_eqb Z.eqb (Some (aq_pos q)) (f_limit f)) eqn:E.
  - inversion F; subst; cbn [f_limit f_type f_depth] in *; [discriminate|].
    cbn [nested_res]. exists st0. split.
    + replace (zlen st0 + 1 - 1) with (zlen st0) by lia. constructor.
    + split; [split; [assumption|exact I]|].
      cbn [ev_type is_stream_signal r_pc]. split; [reflexivity|discriminate].
  - cbv zeta.
    assert (G : f_type f <> Some TStruct -> nested_res (start_type (mkframe (f_type f) (f_limit f) (f_depth f) false :: rest) q
                (mkctx (f_limit f) (f_depth f) None None) (f_first f && (f_depth f =? 0)) (f_depth f =? 0)) st).
    { intros NS. apply start_type_nest.
      - eapply frames_first; eauto.
      - split; [exact H1|]. cbn [c_field c_depth c_limit c_annot]. split; [|split; [exact H3|congruence]].
        split; [congruence|]. intros S. apply H2 in S. contradiction.
      - intros X. apply zlen_zero. lia. }
    destruct (f_type f) as [[]|] eqn:T; try (apply G; discriminate).
    cbn [nested_res]. split; [exact F|]. cbn [r_pc pc_for vk_for]. split; [exact H1|].
    assert (S : in_struct st) by (apply H2; reflexivity). split; [exact S|]. cbn [c_limit].
    apply H3. destruct S as [r ->]. rewrite zlen_cons in H1. pose proof (zlen_nonneg r). lia.
Qed.

Lemma step_nest s inp st : nest s st -> nested_res (step s inp) st.
Proof.
  intros [F P]. destruct s as [fs p q]. unfold step; cbn [r_frames r_pc r_q] in *.
  assert (VB : forall v vk c, vk_for vk c st -> nested_res (let* (octet, q0) := aq_read_byte q in
          let value := varuint_step v octet in
          if varuint_last octet then var_done fs q0 value vk c
          else Ok (mkr fs (PVar value vk c) q0, None)) st).
  { intros v vk c V. destruct (aq_read_byte q) as [[o q']|]; cbn [bind]; [|exact I]. cbv zeta.
    destruct (varuint_last o); [apply var_done_nest; auto|]. cbn [nested_res]. split; auto. }
  destruct p as [|n sk sev k|k|v vk c]; cbn [pc_for] in P.
  - destruct inp as [[| |d]|]; try (apply container_body_nest; exact F).
    destruct fs as [|f r]; [exact I|]. destruct (f_limit f); [|exact I].
    apply begin_read_nest; auto.
  - destruct P as [K S].
    assert (X : forall n sev q', (sev = incomplete_event \/ (sev = stream_end_event /\ st = [])) ->
        nested_res (if n <=? 0 then Ok (mkr fs (PK k) q', None) else Ok (mkr fs (PRead n sk sev k) q', Some sev)) st).
    { intros n' sev' q' S'. destruct (n' <=? 0) eqn:Hn; cbn [nested_res].
      - split; auto.
      - exists st. split.
        + destruct S' as [-> | [-> ->]]; constructor.
        + split; [split; [exact F|split; auto]|].
          assert (E : is_stream_signal (ev_type sev') = true) by (destruct S' as [-> | [-> _]]; reflexivity).
          rewrite E. cbn [r_pc]. split; [discriminate|]. intros _. do 4 eexists. split; [reflexivity|lia]. }
    destruct inp as [[| |d]|]; try (apply X; exact S).
    cbv zeta. apply X. destruct (0 <? zlen d); auto.
  - destruct k as [v vk c| |c e|k t n c|n c| |]; cbn [k_for] in P.
    + apply VB. exact P.
    + destruct (aq_read q 3) as [[? ?]|]; cbn [bind]; [|exact I].
      destruct (zlist_eqb _ _); [|exact I]. subst st. cbn [nested_res]. exists []. split; [constructor|].
      split; [split; [exact F|exact I]|]. cbn [ev_type version_marker_event is_stream_signal r_pc].
      split; [reflexivity|discriminate].
    + destruct (aq_read_byte q) as [[? ?]|]; cbn [bind]; [|exact I].
      destruct (e && _); [exact I|]. apply run_handler_nest; auto.
    + destruct P as [C T]. destruct (aq_read q n) as [[? ?]|]; cbn [bind]; [|exact I].
      apply emit_scalar_nest; auto. congruence.
    + destruct P as [C T]. destruct (aq_read q n) as [[? ?]|]; cbn [bind]; [|exact I].
      destruct (parse_sids l); cbn [bind]; [|exact I]. destruct (c_limit c) eqn:Lm; [|exact I].
      destruct (_ <? 1); [exact I|]. apply start_type_nest; [exact F| |discriminate].
      destruct C as (C1 & C2 & C3 & C4). split; [exact C1|]. split; [exact C2|].
      cbn [c_depth c_limit c_annot]. split; intros; discriminate.
    + apply container_body_nest; exact F.
    + apply container_body_nest; exact F.
  - destruct (aq_size q =? 0); [|apply VB; exact P]. apply begin_read_nest; auto.
Qed.

Lemma run_nest fuel s inp st : nest s st ->
  match run fuel s inp with
  | Err _ => True
  | Ok (s', ev) => exists st', nest_step st ev st' /\ nest s' st' /\
      (is_stream_signal (ev_type ev) = false -> r_pc s' = PLoop) /\
      (is_stream_signal (ev_type ev) = true -> exists n sk sev k, r_pc s' = PRead n sk sev k /\ 0 < n)
  end.
Proof.
  revert s inp. induction fuel as [|fuel IH]; intros s inp N; cbn [run]; [exact I|].
  pose proof (step_nest s inp st N) as H.
  destruct (step s inp) as [[s' [ev|]]|e]; cbn [nested_res] in H; auto. apply IH. exact H.
Qed.

(** A reader object whose open containers are [st]. *)
Definition reader_nest (r : reader) (st : list iontype) : Prop :=
  match r with
  | RDead => True
  | RFresh s => nest s st
  | RAt s last => nest s st
  end.

Lemma reader_send_nest r d st : reader_nest r st ->
  match reader_send r d with
  | (Err _, _) => True
  | (Ok ev, r') => exists st', nest_step st ev st' /\ reader_nest r' st'
  end.
Proof.
  intros N. destruct r as [s|s last|]; cbn [reader_send reader_nest] in *.
  - destruct d; try exact I. pose proof (run_nest (steps_fuel s (Some DNext)) s (Some DNext) st N) as H.
    destruct (run _ s _) as [[s' ev]|e]; [|exact I]. destruct H as (st' & A & B & _). exists st'. auto.
  - destruct (protocol_check last d); [|exact I].
    pose proof (run_nest (steps_fuel s (Some d)) s (Some d) st N) as H.
    destruct (run _ s _) as [[s' ev]|e]; [|exact I]. destruct H as (st' & A & B & _). exists st'. auto.
  - exact I.
Qed.

Lemma replies_nested r ds st : reader_nest r st -> exists st', nested st (replies r ds) st'.
Proof.
  revert r st. induction ds as [|d ds IH]; intros r st N; cbn [replies].
  - exists st. constructor.
  - pose proof (reader_send_nest r d st N) as H.
    destruct (reader_send r d) as [[ev|e] r'].
    + destruct H as (st' & A & B). destruct (IH r' st' B) as [st'' C]. exists st''. econstructor; eauto.
    + exists st. constructor.
Qed.

Lemma reader_new_nest : reader_nest reader_new [].
Proof. split; [constructor|exact I]. Qed.
