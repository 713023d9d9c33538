(** Converse of BinFormatFacts: whatever item the reader's specification accepts is an item of the
    grammar. *)
From Verif Require Import Base BaseFacts FieldsModel FieldsFacts BufferModel CoreModel BinReaderModel
  BinReaderSpec BinReaderSim BinReaderRun BinReaderSession BinFormat BinFormatFacts.

Lemma p_read_inv c n sig k pos bs oe fs p b : 0 <= n -> p_read c n sig k pos bs = ODone oe fs p b ->
  exists data r, bs = data ++ r /\ zlen data = n /\ k data (pos + n) r = ODone oe fs p b.
Proof.
  intros N. unfold p_read. destruct (if c_depth c =? 0 then _ else _); [|discriminate].
  destruct (zlen bs <? n) eqn:E; [discriminate|]. intros H. exists (ztake n bs), (zdrop n bs).
  rewrite ztake_drop. split; [reflexivity|]. split; [|exact H]. apply zlen_ztake. lia.
Qed.

Lemma p_var_inv c k bs : octets bs -> forall acc pos oe fs p b, 0 <= acc ->
  p_var c acc k pos bs = ODone oe fs p b ->
  exists cd r v, bs = cd ++ r /\ var_code acc cd v /\ k v (pos + zlen cd) r = ODone oe fs p b.
Proof.
  induction 1 as [|o l O OL IH]; intros acc pos oe fs p b A H; cbn [p_var] in H.
  - destruct (if c_depth c =? 0 then _ else _); discriminate.
  - destruct (if c_depth c =? 0 then _ else _); [|discriminate]. unfold varuint_last in H.
    unfold is_octet in O. rewrite bit7_octet in H by lia. rewrite varuint_step_eq in H.
    destruct (128 <=? o) eqn:E.
    + exists [o], l, (acc * 128 + (o - 128)). split; [reflexivity|]. split.
      * replace [o] with [128 + (o - 128)] by (f_equal; lia). constructor. lia.
      * replace (o mod 128) with (o - 128) in H; [exact H|]. apply Z.mod_unique with 1; lia.
    + rewrite Z.mod_small in H by lia. apply IH in H as (cd & r & v & -> & V & K); [|lia].
      exists (o :: cd), r, v. split; [reflexivity|]. split; [constructor; auto; lia|].
      rewrite zlen_cons. replace (pos + (1 + zlen cd)) with (pos + 1 + zlen cd) by lia. exact K.
Qed.

(** * Type octets *)

Definition handler_meaning (o : Z) (h : handler) : Prop :=
  match h with
  | HInvalid => True
  | HIvm => o = 0xE0
  | HStatic t v => octet_value o t v
  | HLen (UScalar k t) n =>
    (exists tid, payload_type tid k t /\ 1 <= n < 14 /\ o = tid * 16 + n) \/
    (k = Some KFloat /\ t = TFloat /\ ((o = 0x44 /\ n = 4) \/ (o = 0x48 /\ n = 8)))
  | HLen (UContainer t) n => container_code t n [o]
  | HLen UAnnot n => 3 <= n < 14 /\ o = 14 * 16 + n
  | HLen UNop n => 0 <= n < 14 /\ o = 0 * 16 + n
  | HVarLen (UScalar k t) => exists tid, payload_type tid k t /\ o = tid * 16 + 14
  | HVarLen (UContainer t) =>
    (t = TList /\ o = 0xBE) \/ (t = TSexp /\ o = 0xCE) \/ (t = TStruct /\ o = 0xDE)
  | HVarLen UAnnot => o = 14 * 16 + 14
  | HVarLen UNop => o = 0 * 16 + 14
  | HOrdered => o = 0xD1
  end.

Ltac octet_case :=
  cbv beta;
  match goal with |- handler_meaning ?o ?h =>
    let h' := eval vm_compute in h in change (handler_meaning o h') end;
  cbn [handler_meaning];
  first
    [ exact Logic.I | reflexivity
    | match goal with |- octet_value ?o ?t ?v => exact (ov_null t) end
    | match goal with |- octet_value ?o ?t ?v => constructor end
    | split; [lia|reflexivity]
    | left; eexists; split; [constructor|]; split; [lia|reflexivity]
    | right; split; [reflexivity|]; split; [reflexivity|]; left; split; reflexivity
    | right; split; [reflexivity|]; split; [reflexivity|]; right; split; reflexivity
    | eexists; split; [constructor|reflexivity]
    | left; split; reflexivity
    | right; left; split; reflexivity
    | right; right; split; reflexivity
    | left; split; [lia|reflexivity]
    | left; split; [lia|]; split; [lia|reflexivity] ].

Lemma dispatch_meaning o : is_octet o -> handler_meaning o (dispatch o).
Proof.
  intros O. assert (I : In o (zrange 256)) by (apply zrange_in; unfold is_octet in O; lia).
  assert (F : Forall (fun o => handler_meaning o (dispatch o)) (zrange 256)).
  { clear. match goal with |- Forall ?P ?l => let l' := eval vm_compute in l in change (Forall P l') end.
    repeat (apply Forall_cons; [octet_case|]). apply Forall_nil. }
  rewrite Forall_forall in F. apply F, I.
Qed.

(** * Values *)

(** What [p_typed] accepts. *)
Inductive accepts (ann : rctx -> Z -> Z -> list Z -> outcome) (fs : list frame) (c : rctx) (pos : Z) (bs : list Z)
  : outcome -> Prop :=
| acc_scalar t v body r o : bs = body ++ r -> scalar_code t v body ->
    p_emit fs c EScalar t v (pos + zlen body) r = o -> accepts ann fs c pos bs o
| acc_start t n hd r o : bs = hd ++ r -> container_code t n hd -> 0 <= n ->
    p_user ann fs (UContainer t) n c (pos + zlen hd) r = o -> accepts ann fs c pos bs o
| acc_wrapper n hd r o : bs = hd ++ r -> header 14 3 n hd -> 0 <= n ->
    ann c n (pos + zlen hd) r = o -> accepts ann fs c pos bs o
| acc_pad body r : bs = body ++ r -> pad_code body -> accepts ann fs c pos bs (ODone None fs (pos + zlen body) r)
| acc_ivm r : bs = ivm ++ r -> c_depth c = 0 ->
    accepts ann fs c pos bs (ODone (Some version_marker_event) fs (pos + 4) r).

Lemma header_short tid lo n : lo <= n < 14 -> header tid lo n [tid * 16 + n].
Proof. left; auto. Qed.
Lemma header_long tid lo n c : varuint_code c n -> header tid lo n (tid * 16 + 14 :: c).
Proof. right; eauto. Qed.

Lemma p_user_scalar_inv ann fs k t n c pos bs oe fs' pos' bs' : 0 <= n ->
  p_user ann fs (UScalar k t) n c pos bs = ODone oe fs' pos' bs' ->
  exists data r, bs = data ++ r /\ zlen data = n /\
    p_emit fs c EScalar t (payload_value k data) (pos + zlen data) r = ODone oe fs' pos' bs'.
Proof.
  intros N H. cbn [p_user] in H. destruct (n =? 0) eqn:E.
  - exists [], bs. split; [reflexivity|]. split; [cbn; lia|]. cbn [zlen length Z.of_nat]. rewrite Z.add_0_r. exact H.
  - apply p_read_inv in H as (data & r & -> & L & H); [|exact N]. exists data, r. split; [reflexivity|]. split; [exact L|].
    rewrite L. exact H.
Qed.

Lemma p_user_nop_inv ann fs n c pos bs oe fs' pos' bs' : 0 <= n ->
  p_user ann fs UNop n c pos bs = ODone oe fs' pos' bs' ->
  exists data r, bs = data ++ r /\ zlen data = n /\ ODone oe fs' pos' bs' = ODone None fs (pos + n) r.
Proof.
  intros N H.
  assert (G : (if 0 <? n then p_read c n incomplete_event (fun _ pos bs => ODone None fs pos bs) pos bs
     else ODone None fs pos bs) = ODone oe fs' pos' bs').
  { cbn [p_user] in H. destruct (c_field c) as [f|]; [|exact H]. destruct (token_eqb f symbol_zero); [exact H|discriminate]. }
  clear H. destruct (0 <? n) eqn:E.
  - apply p_read_inv in G as (data & r & -> & L & H); [|exact N]. exists data, r. auto.
  - exists [], bs. split; [reflexivity|]. split; [cbn; lia|]. rewrite <- G. f_equal. lia.
Qed.

Lemma p_typed_accepts ann fs c ex top pos bs oe fs' pos' bs' : octets bs ->
  p_typed ann fs c ex top pos bs = ODone oe fs' pos' bs' ->
  accepts ann fs c pos bs (ODone oe fs' pos' bs') /\ (ex = true -> exists r, bs = 0xE0 :: r).
Proof.
  intros OB H. unfold p_typed in H. apply p_read_inv in H as (d & r & -> & L & H); [|lia].
  destruct d as [|o [|o' d]]; [discriminate| |rewrite !zlen_cons in L; pose proof (zlen_nonneg d); lia].
  assert (EX : ex = true -> o = 0xE0).
  { intros ->. destruct (o =? 0xE0) eqn:E; [lia|]. cbn [andb negb] in H. discriminate. }
  split; [|intros X; exists r; rewrite (EX X); reflexivity].
  destruct (ex && negb (o =? 224)); [discriminate|]. clear EX.
  apply octets_app in OB as [OO OR]. inversion OO as [|x y O _]; subst. clear OO L.
  pose proof (dispatch_meaning o O) as M. destruct (dispatch o) as [| |t v|u n|u|] eqn:D; cbn [p_handler] in H.
  - discriminate.
  - cbn [handler_meaning] in M. subst o. destruct (negb (c_depth c =? 0)) eqn:E; [discriminate|].
    apply p_read_inv in H as (tl & r' & -> & L & H); [|lia]. destruct (zlist_eqb tl [1; 0; 234]) eqn:Z; [|discriminate].
    apply zlist_eqb_eq in Z. subst tl. rewrite <- H. replace (pos + 1 + 3) with (pos + 4) by lia.
    eapply acc_ivm; [reflexivity|lia].
  - cbn [handler_meaning] in M. eapply (acc_scalar _ _ _ _ _ t v [o] r); [reflexivity|constructor; exact M|exact H].
  - pose proof (dispatch_len_nonneg _ _ _ D) as N. destruct u as [k t|t| |]; cbn [handler_meaning] in M.
    + apply p_user_scalar_inv in H as (data & r' & -> & L & H); [|exact N]. destruct M as [(tid & PT & B & ->)|(-> & -> & M)].
      * eapply (acc_scalar _ _ _ _ _ t _ ([tid * 16 + n] ++ data) r'); [rewrite <- app_assoc; reflexivity| |].
        -- apply (sc_payload tid k t [tid * 16 + n] data PT). rewrite L. apply header_short. exact B.
        -- rewrite zlen_app. change (zlen [tid * 16 + n]) with 1. rewrite Z.add_assoc. exact H.
      * eapply (acc_scalar _ _ _ _ _ TFloat _ (o :: data) r'); [reflexivity| |].
        -- destruct M as [[-> ->]|[-> ->]]; constructor; exact L.
        -- rewrite zlen_cons. replace (pos + (1 + zlen data)) with (pos + 1 + zlen data) by lia. exact H.
    + eapply (acc_start _ _ _ _ _ t n [o] r); [reflexivity|exact M|exact N|exact H].
    + destruct M as [B ->]. eapply (acc_wrapper _ _ _ _ _ n [14 * 16 + n] r); [reflexivity|apply header_short; exact B|exact N|exact H].
    + destruct M as [B ->]. apply p_user_nop_inv in H as (data & r' & -> & L & ->); [|exact N].
      replace (pos + 1 + n) with (pos + zlen ([0 * 16 + n] ++ data)) by (rewrite zlen_app; change (zlen [0 * 16 + n]) with 1; lia).
      eapply acc_pad; [rewrite <- app_assoc; reflexivity|]. exists [0 * 16 + n], data. split; [|reflexivity].
      rewrite L. apply header_short. exact B.
  - apply p_var_inv in H as (cd & r' & n & -> & V & H); [|exact OR|lia].
    pose proof (var_code_nonneg _ _ _ V ltac:(lia)) as N. destruct u as [k t|t| |]; cbn [handler_meaning] in M.
    + destruct M as (tid & PT & ->). apply p_user_scalar_inv in H as (data & r'' & -> & L & H); [|exact N].
      eapply (acc_scalar _ _ _ _ _ t _ ((tid * 16 + 14 :: cd) ++ data) r''); [cbn [app]; rewrite <- app_assoc; reflexivity| |].
      * apply (sc_payload tid k t _ data PT). rewrite L. apply header_long. exact V.
      * rewrite zlen_app, zlen_cons. replace (pos + (1 + zlen cd + zlen data)) with (pos + 1 + zlen cd + zlen data) by lia. exact H.
    + eapply (acc_start _ _ _ _ _ t n (o :: cd) r'); [reflexivity| |exact N|].
      * destruct M as [[-> ->]|[[-> ->]|[-> ->]]]; cbn [container_code].
        -- apply (header_long 11). exact V.
        -- apply (header_long 12). exact V.
        -- right; left. eauto.
      * rewrite zlen_cons. replace (pos + (1 + zlen cd)) with (pos + 1 + zlen cd) by lia. exact H.
    + subst o. eapply (acc_wrapper _ _ _ _ _ n (14 * 16 + 14 :: cd) r'); [reflexivity|apply header_long; exact V|exact N|].
      rewrite zlen_cons. replace (pos + (1 + zlen cd)) with (pos + 1 + zlen cd) by lia. exact H.
    + subst o. apply p_user_nop_inv in H as (data & r'' & -> & L & ->); [|exact N].
      replace (pos + 1 + zlen cd + n) with (pos + zlen ((0 * 16 + 14 :: cd) ++ data)) by (rewrite zlen_app, zlen_cons; lia).
      eapply acc_pad; [cbn [app]; rewrite <- app_assoc; reflexivity|]. exists (0 * 16 + 14 :: cd), data. split; [|reflexivity].
      rewrite L. apply header_long. exact V.
  - cbn [handler_meaning] in M. subst o. apply p_var_inv in H as (cd & r' & n & -> & V & H); [|exact OR|lia].
    pose proof (var_code_nonneg _ _ _ V ltac:(lia)) as N. destruct (n <? 2) eqn:E; [discriminate|].
    eapply (acc_start _ _ _ _ _ TStruct n (0xD1 :: cd) r'); [reflexivity| |exact N|].
    + cbn [container_code]. right; right. exists cd. split; [exact V|]. split; [lia|reflexivity].
    + rewrite zlen_cons. replace (pos + (1 + zlen cd)) with (pos + 1 + zlen cd) by lia. exact H.
Qed.

(** * SID lists *)

Lemma parse_var_inv data : octets data -> forall acc s s' v rest, 0 <= acc ->
  parse_var_int_components data false s acc = Ok (s', v, rest) ->
  exists cd, data = cd ++ rest /\ var_code acc cd v /\ s' = s.
Proof.
  induction 1 as [|o l O OL IH]; intros acc s s' v rest A H; cbn [parse_var_int_components] in H; [discriminate|].
  change (Z.lor (Z.shiftl acc 7) (Z.land o 127)) with (varuint_step acc o) in H.
  unfold is_octet in O. rewrite bit7_octet in H by lia. rewrite varuint_step_eq in H. destruct (128 <=? o) eqn:E.
  - injection H as <- <- <-. exists [o]. split; [reflexivity|]. split; [|reflexivity].
    replace (o mod 128) with (o - 128) by (apply Z.mod_unique with 1; lia).
    replace [o] with [128 + (o - 128)] by (f_equal; lia). constructor. lia.
  - rewrite Z.mod_small in H by lia. apply IH in H as (cd & -> & V & ->); [|lia].
    exists (o :: cd). split; [reflexivity|]. split; [constructor; auto; lia|reflexivity].
Qed.

Lemma parse_sids_inv n : forall data sids, (length data <= n)%nat -> octets data -> parse_sids_aux n data = Ok sids ->
  exists l, data = flat_map fst l /\ sids = map snd l /\ Forall (fun p => varuint_code (fst p) (snd p)) l.
Proof.
  induction n as [|n IH]; intros data sids L O H; cbn [parse_sids_aux] in H.
  - destruct data; [|cbn in L; lia]. injection H as <-. exists []. auto.
  - destruct data as [|o d]; [injection H as <-; exists []; auto|].
    apply bind_ok in H as ([sid rest] & P & H). apply bind_ok in H as (l & P2 & H). injection H as <-.
    unfold parse_var_int in P. apply bind_ok in P as ([[s v] r0] & P & E). injection E as <- <-.
    apply parse_var_inv in P as (cd & E & V & ->); [|exact O|lia]. rewrite E in *.
    apply octets_app in O as [_ O]. pose proof (var_code_len _ _ _ V) as LC. rewrite app_length in L. unfold zlen in LC.
    apply IH in P2 as (l' & -> & -> & F); [|lia|exact O].
    exists ((cd, v) :: l'). cbn [flat_map map fst snd]. split; [reflexivity|]. split; [f_equal; lia|].
    constructor; auto.
Qed.

(** * Items *)

(** What an item is: field name, wrapper, body. *)
Inductive item : list frame -> Z -> list Z -> outcome -> Prop :=
| it_end f rest pos bs :
    f_limit f = Some pos ->
    item (f :: rest) pos bs
      (ODone (Some (mkev EContainerEnd (f_type f) EvNone None [] (Some (f_depth f - 1)))) rest pos bs)
| it_scalar f rest pos fld w t v body r :
    match f_type f with Some TStruct => field_code InStruct fld | _ => fld = None end ->
    wrapper_opt w (zlen body) -> scalar_code t v body ->
    item (f :: rest) pos (pre fld w ++ body ++ r)
      (ODone (Some (mkev EScalar (Some t) v (field_of fld) (annotations_of w) (Some (f_depth f))))
             (later f :: rest) (pos + zlen (pre fld w ++ body)) r)
| it_start f rest pos fld w t n hd r :
    match f_type f with Some TStruct => field_code InStruct fld | _ => fld = None end ->
    wrapper_opt w (zlen hd + n) -> container_code t n hd -> 0 <= n ->
    item (f :: rest) pos (pre fld w ++ hd ++ r)
      (ODone (Some (mkev EContainerStart (Some t) EvNone (field_of fld) (annotations_of w) (Some (f_depth f))))
             (mkframe (Some t) (Some (pos + zlen (pre fld w ++ hd) + n)) (f_depth f + 1) true :: later f :: rest)
             (pos + zlen (pre fld w ++ hd)) r)
| it_version f rest pos before r :
    f_depth f = 0 -> (f_first f = true -> f_type f = None -> before = []) ->
    item (f :: rest) pos (before ++ ivm ++ r)
      (ODone (Some version_marker_event) (later f :: rest) (pos + zlen before + 4) r)
| it_pad f rest pos before body r : pad_code body ->
    item (f :: rest) pos (before ++ body ++ r) (ODone None (later f :: rest) (pos + zlen before + zlen body) r).

Lemma emit_inv fs c t v pos bs oe fs' pos' bs' : p_emit fs c EScalar t v pos bs = ODone oe fs' pos' bs' ->
  ends_at c pos /\ ODone oe fs' pos' bs' =
  ODone (Some (mkev EScalar (Some t) v (c_field c)
                (map sid_token (match c_annot c with None => [] | Some a => a end)) (Some (c_depth c)))) fs pos bs.
Proof.
  intros H. assert (E : ends_at c pos).
  { unfold p_emit, ends_at in *. destruct (c_annot c) as [[|a l]|]; try exact Logic.I.
    destruct (c_limit c) as [lim|]; [|discriminate]. destruct (lim - pos =? 0) eqn:E; [|discriminate]. f_equal. lia. }
  split; [exact E|]. rewrite p_emit_scalar in H by exact E. congruence.
Qed.

Lemma start_inv ann fs c t n pos bs oe fs' pos' bs' : p_user ann fs (UContainer t) n c pos bs = ODone oe fs' pos' bs' ->
  ends_at c (pos + n) /\ ODone oe fs' pos' bs' =
  ODone (Some (mkev EContainerStart (Some t) EvNone (c_field c)
                (map sid_token (match c_annot c with None => [] | Some a => a end)) (Some (c_depth c))))
        (mkframe (Some t) (Some (pos + n)) (c_depth c + 1) true :: fs) pos bs.
Proof.
  intros H. cbn [p_user] in H. unfold ends_at, p_emit in *. destruct (c_annot c) as [[|a l]|]; try (split; [exact Logic.I|congruence]).
  destruct (opt_eqb Z.eqb (c_limit c) (Some (pos + n))) eqn:E; [|discriminate]. split; [|congruence].
  destruct (c_limit c); [|discriminate]. cbn [opt_eqb] in E. f_equal. lia.
Qed.

(** The item after the field name. *)
Lemma value_item f rest fld fo ex top pos bs pos0 oe fs' pos' bs' : octets bs ->
  match f_type f with Some TStruct => field_code InStruct fld | _ => fld = None end ->
  fo = opt_octets fst fld -> pos = pos0 + zlen fo ->
  (ex = f_first f && top) -> top = (f_depth f =? 0) ->
  p_typed (p_annot (later f :: rest)) (later f :: rest) (mkctx (f_limit f) (f_depth f) (field_of fld) None) ex top pos bs
    = ODone oe fs' pos' bs' ->
  item (f :: rest) pos0 (fo ++ bs) (ODone oe fs' pos' bs').
Proof.
  intros OB FC EF EP EX ET H. apply p_typed_accepts in H as [H XI]; [|exact OB].
  assert (FN : f_type f = None -> fo = []) by (intros T; rewrite T in FC; subst fld; exact EF).
  inversion H as [t v body r o E SC PE Eo|t n hd r o E CC N PE Eo|n hd r o E HD N PE Eo|body r E PC Eo|r E D Eo]; subst o || idtac; subst bs.
  - apply emit_inv in PE as [_ ->]. cbn [c_field c_annot c_depth map].
    pose proof (it_scalar f rest pos0 fld None t v body r FC Logic.I SC) as X. unfold pre in X; cbn [opt_octets] in X.
    rewrite app_nil_r, <- EF, zlen_app in X. subst pos. rewrite <- Z.add_assoc. exact X.
  - apply start_inv in PE as [_ ->]. cbn [c_field c_annot c_depth map].
    pose proof (it_start f rest pos0 fld None t n hd r FC Logic.I CC N) as X. unfold pre in X; cbn [opt_octets] in X.
    rewrite app_nil_r, <- EF, zlen_app in X. subst pos. rewrite <- (Z.add_assoc pos0). exact X.
  - (* a wrapper *)
    unfold p_annot in PE. cbn [c_annot c_limit c_depth c_field] in PE.
    apply octets_app in OB as [_ OR].
    apply p_var_inv in PE as (lc & r1 & al & -> & VL & PE); [|exact OR|lia].
    destruct (al <? 1) eqn:A1; [discriminate|]. apply octets_app in OR as [_ OR].
    apply p_read_inv in PE as (sd & r2 & -> & LS & PE); [|lia]. apply octets_app in OR as [OS OR].
    destruct (parse_sids sd) as [sids|e] eqn:PS; [|discriminate].
    unfold parse_sids in PS. apply parse_sids_inv in PS as (l & -> & -> & FS); [|lia|exact OS].
    match type of PE with (if ?x <? 1 then _ else _) = _ => destruct (x <? 1) eqn:L1; [discriminate|] end.
    apply p_typed_accepts in PE as [PE _]; [|exact OR].
    set (c' := mkctx (Some (pos + zlen hd + n)) (f_depth f) (field_of fld) (Some (map snd l))) in *.
    set (w := mkwrapper hd lc l).
    assert (WS : wr_sid_octets w = flat_map fst l) by reflexivity.
    assert (NE : l <> []) by (intros ->; cbn in LS; lia).
    assert (EA : map sid_token (map snd l) = annotations_of (Some w)) by (cbn [annotations_of w wr_sids]; rewrite map_map; reflexivity).
    assert (LW : zlen (wrapper_octets w) = zlen hd + zlen lc + zlen (flat_map fst l)).
    { unfold wrapper_octets. rewrite !zlen_app, WS. cbn [w wr_head wr_len]. lia. }
    assert (WC : forall m, n = zlen lc + zlen (flat_map fst l) + m -> wrapper_code w m).
    { intros m ->. unfold wrapper_code. rewrite WS. cbn [w wr_head wr_len wr_sids]. split; [exact NE|]. split; [exact FS|]. split; [rewrite LS; exact VL|exact HD]. }
    assert (EW : fo ++ hd ++ lc ++ flat_map fst l ++ r2 = (fo ++ wrapper_octets w) ++ r2)
      by (unfold wrapper_octets; rewrite WS, <- !app_assoc; reflexivity).
    rewrite EW. subst fo.
    inversion PE as [t v body r o E SC P2 Eo|t m hd' r o E CC N2 P2 Eo|m hd' r o E HD' N2 P2 Eo|body r E PC Eo|r E D Eo];
      subst o || idtac; subst r2.
    + apply emit_inv in P2 as [EN ->]. unfold ends_at in EN. cbn [c' c_field c_annot c_depth c_limit] in *.
      rewrite EA. assert (ln : wrapper_code w (zlen body)).
      { apply WC. destruct l; [congruence|]. cbn [map] in EN. injection EN as EN. lia. }
      pose proof (it_scalar f rest pos0 fld (Some w) t v body r FC ln SC) as X.
      unfold pre in X; cbn [opt_octets] in X. rewrite !zlen_app, LW in X.
      match type of X with item _ _ _ (ODone _ _ ?p _) => match goal with |- item _ _ _ (ODone _ _ ?q _) =>
        replace q with p by lia; exact X end end.
    + apply start_inv in P2 as [EN ->]. unfold ends_at in EN. cbn [c' c_field c_annot c_depth c_limit] in *.
      rewrite EA. assert (ln : wrapper_code w (zlen hd' + m)).
      { apply WC. destruct l; [congruence|]. cbn [map] in EN. injection EN as EN. lia. }
      pose proof (it_start f rest pos0 fld (Some w) t m hd' r FC ln CC N2) as X.
      unfold pre in X; cbn [opt_octets] in X. rewrite !zlen_app, LW in X.
      match type of X with item _ _ _ (ODone _ _ ?p _) => match goal with |- item _ _ _ (ODone _ _ ?q _) =>
        replace q with p by lia; exact X end end.
    + unfold p_no_annot in P2. cbn [c' c_annot] in P2. discriminate.
    + match goal with |- item _ _ _ (ODone _ _ ?q _) =>
        replace q with (pos0 + zlen (opt_octets fst fld ++ wrapper_octets w) + zlen body) by (rewrite zlen_app, LW; lia) end.
      apply it_pad. exact PC.
    + match goal with |- item _ _ _ (ODone _ _ ?q _) =>
        replace q with (pos0 + zlen (opt_octets fst fld ++ wrapper_octets w) + 4) by (rewrite zlen_app, LW; lia) end.
      cbn [c' c_depth] in D. apply it_version; [exact D|]. intros F1 _. exfalso.
      destruct XI as [x XI]; [subst; rewrite F1, D; reflexivity|].
      destruct HD as [(B & ->)|(cc & _ & ->)]; apply (f_equal (List.hd 0)) in XI; cbn [List.hd app] in XI; lia.
  - replace (pos + zlen body) with (pos0 + zlen fo + zlen body) by lia. apply it_pad. exact PC.
  - replace (pos + 4) with (pos0 + zlen fo + 4) by lia. cbn [c_depth] in D. apply it_version; [exact D|].
    intros _ T. apply FN. exact T.
Qed.

Theorem p_item_sound fs pos bs oe fs' pos' bs' : octets bs -> p_item fs pos bs = ODone oe fs' pos' bs' ->
  item fs pos bs (ODone oe fs' pos' bs').
Proof.
  intros OB H. unfold p_item in H. destruct fs as [|f rest]; [discriminate|].
  destruct (opt_eqb Z.eqb (Some pos) (f_limit f)) eqn:E.
  - rewrite <- H. apply it_end. destruct (f_limit f); [|discriminate]. cbn [opt_eqb] in E. f_equal. lia.
  - fold (later f) in H.
    assert (G : forall ex top bs, octets bs -> ex = f_first f && top -> top = (f_depth f =? 0) ->
       (forall x, f_type f <> Some x \/ x <> TStruct) -> 
       p_typed (p_annot (later f :: rest)) (later f :: rest) (mkctx (f_limit f) (f_depth f) None None) ex top pos bs = ODone oe fs' pos' bs' ->
       item (f :: rest) pos bs (ODone oe fs' pos' bs')).
    { intros ex top b Ob EX ET NT P. eapply (value_item f rest None [] ex top pos b pos); eauto.
      - destruct (f_type f) as [[]|]; auto. destruct (NT TStruct); congruence.
      - cbn; lia. }
    destruct (f_type f) as [t|] eqn:T.
    + destruct t; try (apply (G _ _ bs OB eq_refl eq_refl); [intros x; destruct x; first [right; discriminate|left; congruence]|exact H]).
      apply p_var_inv in H as (cd & r & v & -> & V & H); [|exact OB|lia]. apply octets_app in OB as [_ OR].
      apply (value_item f rest (Some (cd, v)) cd _ _ (pos + zlen cd) r pos) in H; auto. rewrite T. exact V.
    + apply (G _ _ bs OB eq_refl eq_refl); [intros x; left; congruence|exact H].
Qed.
