(** The reader's specification reads exactly what the grammar of BinFormat says. *)
From Verif Require Import Base BaseFacts FieldsModel FieldsFacts BufferModel CoreModel BinReaderModel
  BinReaderSpec BinReaderSim BinReaderRun BinReaderSession BinFormat.

(** * Pieces *)

(** [n] octets at [pos] lie inside the enclosing container. *)
Definition room (c : rctx) (pos n : Z) : Prop :=
  c_depth c = 0 \/ exists lim, c_limit c = Some lim /\ pos + n <= lim.

Lemma room_le c pos n pos' n' : room c pos n -> pos' + n' <= pos + n -> room c pos' n'.
Proof. intros [H|(lim & H & L)] E; [left; auto|right; exists lim; split; [auto|lia]]. Qed.

Lemma p_read_code c n sig k pos data r : room c pos n -> zlen data = n ->
  p_read c n sig k pos (data ++ r) = k data (pos + n) r.
Proof.
  intros R L. unfold p_read.
  assert (E : (if c_depth c =? 0 then Ok tt else match c_limit c with None => Err TypeError
     | Some lim => if lim - pos <? n then Err IonException else Ok tt end) = Ok tt).
  { destruct R as [-> | (lim & -> & B)]; [reflexivity|]. destruct (c_depth c =? 0); [reflexivity|].
    replace (lim - pos <? n) with false by lia. reflexivity. }
  rewrite E. rewrite zlen_app. pose proof (zlen_nonneg r). replace (zlen data + zlen r <? n) with false by lia.
  rewrite ztake_app_exact, zdrop_app_exact by lia. reflexivity.
Qed.

Lemma p_var_code c k : forall acc bs v, var_code acc bs v -> 0 <= acc -> forall pos r, room c pos (zlen bs) ->
  p_var c acc k pos (bs ++ r) = k v (pos + zlen bs) r.
Proof.
  intros acc bs v H. induction H as [acc d D|acc d bs v D H IH]; intros A pos r R.
  - cbn [app p_var]. replace (zlen [128 + d]) with 1 in * by reflexivity.
    assert (E : (if c_depth c =? 0 then Ok tt else match c_limit c with None => Err TypeError
      | Some lim => if lim - pos <? 1 then Err IonException else Ok tt end) = Ok tt).
    { destruct R as [-> | (lim & -> & B)]; [reflexivity|]. destruct (c_depth c =? 0); [reflexivity|].
      replace (lim - pos <? 1) with false by lia. reflexivity. }
    rewrite E. unfold varuint_last. rewrite bit7_octet by lia. replace (128 <=? 128 + d) with true by lia.
    rewrite varuint_step_eq. f_equal. replace (128 + d) with (d + 1 * 128) by lia.
    rewrite Z.mod_add, Z.mod_small by lia. reflexivity.
  - cbn [app p_var]. rewrite zlen_cons in *. pose proof (zlen_nonneg bs).
    assert (E : (if c_depth c =? 0 then Ok tt else match c_limit c with None => Err TypeError
      | Some lim => if lim - pos <? 1 then Err IonException else Ok tt end) = Ok tt).
    { destruct R as [-> | (lim & -> & B)]; [reflexivity|]. destruct (c_depth c =? 0); [reflexivity|].
      replace (lim - pos <? 1) with false by lia. reflexivity. }
    rewrite E. unfold varuint_last. rewrite bit7_octet by lia. replace (128 <=? d) with false by lia.
    rewrite varuint_step_eq, Z.mod_small by lia. rewrite IH; [f_equal; lia|lia|].
    eapply room_le; [exact R|lia].
Qed.

Lemma var_code_nonneg acc bs v : var_code acc bs v -> 0 <= acc -> 0 <= v.
Proof. induction 1; intros; lia. Qed.
Lemma var_code_len acc bs v : var_code acc bs v -> 1 <= zlen bs.
Proof. induction 1; [cbn; lia|]. rewrite zlen_cons. lia. Qed.
Lemma var_code_octets acc bs v : var_code acc bs v -> octets bs.
Proof. induction 1; (constructor; [unfold is_octet; lia|]); [constructor|assumption]. Qed.

(** The SID list of a wrapper. *)
Lemma parse_var_code bs n : forall acc s r, var_code acc bs n -> 0 <= acc ->
  parse_var_int_components (bs ++ r) false s acc = Ok (s, n, r).
Proof.
  intros acc s r H. induction H as [acc d D|acc d bs v D H IH]; intros A; cbn [app parse_var_int_components].
  - rewrite bit7_octet by lia. replace (128 <=? 128 + d) with true by lia. do 3 f_equal.
    change (Z.lor (Z.shiftl acc 7) (Z.land (128 + d) 127)) with (varuint_step acc (128 + d)).
    rewrite varuint_step_eq. replace (128 + d) with (d + 1 * 128) by lia. rewrite Z.mod_add, Z.mod_small by lia. reflexivity.
  - rewrite bit7_octet by lia. replace (128 <=? d) with false by lia.
    change (Z.lor (Z.shiftl acc 7) (Z.land d 127)) with (varuint_step acc d).
    rewrite varuint_step_eq, Z.mod_small by lia. apply IH. lia.
Qed.

Lemma parse_sids_code l : Forall (fun p => varuint_code (fst p) (snd p)) l ->
  parse_sids (flat_map fst l) = Ok (map snd l).
Proof.
  intros H. unfold parse_sids.
  assert (G : forall n, (length (flat_map (@fst (list Z) Z) l) <= n)%nat -> parse_sids_aux n (flat_map fst l) = Ok (map snd l)).
  { induction H as [|[c s] l H0 H IH]; intros n L.
    - destruct n; reflexivity.
    - cbn [flat_map fst snd map] in *. pose proof (var_code_len _ _ _ H0) as LC. cbn [fst] in LC.
      rewrite app_length in L. unfold zlen in LC. destruct n as [|n]; [lia|]. cbn [parse_sids_aux].
      destruct (c ++ flat_map fst l) eqn:E.
      + apply (f_equal (@length Z)) in E. rewrite app_length in E. cbn [length] in E. lia.
      + rewrite <- E. unfold parse_var_int. rewrite (parse_var_code c s 0 1 _ H0) by lia. cbn [bind].
        rewrite IH by lia. cbn [bind]. do 2 f_equal. lia. }
  apply G. lia.
Qed.

(** * Type octets *)

Definition tid_handler (tid lo : Z) (u : uhandler) : Prop :=
  (tid = 0 /\ lo = 0 /\ u = UNop) \/
  (exists k t, payload_type tid k t /\ lo = 1 /\ u = UScalar k t) \/
  (tid = 11 /\ lo = 0 /\ u = UContainer TList) \/
  (tid = 12 /\ lo = 0 /\ u = UContainer TSexp) \/
  (tid = 14 /\ lo = 3 /\ u = UAnnot).

(** Case split over a nibble below 14. *)
Ltac nibble n :=
  let E := fresh in
  assert (n = 0 \/ n = 1 \/ n = 2 \/ n = 3 \/ n = 4 \/ n = 5 \/ n = 6 \/ n = 7 \/ n = 8 \/ n = 9 \/ n = 10
    \/ n = 11 \/ n = 12 \/ n = 13) as E by lia;
  repeat (destruct E as [E|E]; [subst n|]); [..|subst n].

Lemma dispatch_short tid lo u n : tid_handler tid lo u -> lo <= n < 14 -> dispatch (tid * 16 + n) = HLen u n.
Proof.
  intros H B. assert (B0 : 0 <= n < 14).
  { destruct H as [(_ & -> & _)|[(k & t & _ & -> & _)|[(_ & -> & _)|[(_ & -> & _)|(_ & -> & _)]]]]; lia. }
  destruct H as [(-> & -> & ->)|[(k & t & PT & -> & ->)|[(-> & -> & ->)|[(-> & -> & ->)|(-> & -> & ->)]]]];
    [|inversion PT; subst k t tid; clear PT| | |]; nibble n; solve [reflexivity | exfalso; lia].
Qed.

Lemma dispatch_long tid lo u : tid_handler tid lo u -> dispatch (tid * 16 + 14) = HVarLen u.
Proof.
  intros [(-> & -> & ->)|[(k & t & PT & -> & ->)|[(-> & -> & ->)|[(-> & -> & ->)|(-> & -> & ->)]]]];
    [|inversion PT; subst k t tid; clear PT| | |]; reflexivity.
Qed.

(** A header takes the reader to the handler of its type. *)
Lemma p_typed_header ann fs c top tid lo u n hd r pos : tid_handler tid lo u -> header tid lo n hd ->
  room c pos (zlen hd) ->
  p_typed ann fs c false top pos (hd ++ r) = p_user ann fs u n c (pos + zlen hd) r.
Proof.
  intros T [(B & ->)|(cd & V & ->)] R; unfold p_typed.
  - rewrite (p_read_code c 1 _ _ pos [tid * 16 + n] r); [|exact R|reflexivity]. cbn [andb].
    rewrite (dispatch_short tid lo u n T B). reflexivity.
  - rewrite zlen_cons in *. pose proof (var_code_len _ _ _ V).
    rewrite (p_read_code c 1 _ _ pos [tid * 16 + 14] (cd ++ r)); [|eapply room_le; [exact R|lia]|reflexivity].
    cbn [andb]. rewrite (dispatch_long tid lo u T). cbn [p_handler].
    rewrite (p_var_code c _ 0 cd n V); [|lia|eapply room_le; [exact R|lia]]. f_equal. lia.
Qed.

Lemma p_typed_struct ann fs c top n hd r pos : container_code TStruct n hd -> room c pos (zlen hd) ->
  p_typed ann fs c false top pos (hd ++ r) = p_user ann fs (UContainer TStruct) n c (pos + zlen hd) r.
Proof.
  intros [(N1 & B & ->)|[(cd & V & ->)|(cd & V & L2 & ->)]] R; unfold p_typed.
  - rewrite (p_read_code c 1 _ _ pos [0xD0 + n] r); [|exact R|reflexivity]. cbn [andb].
    assert (E : dispatch (0xD0 + n) = HLen (UContainer TStruct) n).
    { clear R. nibble n; solve [reflexivity | exfalso; lia]. }
    rewrite E. reflexivity.
  - rewrite zlen_cons in *. pose proof (var_code_len _ _ _ V).
    rewrite (p_read_code c 1 _ _ pos [0xDE] (cd ++ r)); [|eapply room_le; [exact R|lia]|reflexivity].
    cbn [andb]. change (dispatch 0xDE) with (HVarLen (UContainer TStruct)). cbn [p_handler].
    rewrite (p_var_code c _ 0 cd n V); [|lia|eapply room_le; [exact R|lia]]. f_equal. lia.
  - rewrite zlen_cons in *. pose proof (var_code_len _ _ _ V).
    rewrite (p_read_code c 1 _ _ pos [0xD1] (cd ++ r)); [|eapply room_le; [exact R|lia]|reflexivity].
    cbn [andb]. change (dispatch 0xD1) with HOrdered. cbn [p_handler].
    rewrite (p_var_code c _ 0 cd n V); [|lia|eapply room_le; [exact R|lia]].
    replace (n <? 2) with false by lia. f_equal. lia.
Qed.

Lemma p_typed_container ann fs c top t n hd r pos : container_code t n hd -> room c pos (zlen hd) ->
  p_typed ann fs c false top pos (hd ++ r) = p_user ann fs (UContainer t) n c (pos + zlen hd) r.
Proof.
  intros C R. destruct t; try contradiction C.
  - apply (p_typed_header ann fs c top 11 0 (UContainer TList) n hd r pos); auto.
    right; right; left; auto.
  - apply (p_typed_header ann fs c top 12 0 (UContainer TSexp) n hd r pos); auto.
    right; right; right; left; auto.
  - apply p_typed_struct; auto.
Qed.

(** * Scalars *)

(** Where an annotated scalar must end. *)
Definition ends_at (c : rctx) (pos : Z) : Prop :=
  match c_annot c with Some (_ :: _) => c_limit c = Some pos | _ => True end.

Lemma p_emit_scalar fs c t v pos bs : ends_at c pos ->
  p_emit fs c EScalar t v pos bs =
  ODone (Some (mkev EScalar (Some t) v (c_field c)
                (map sid_token (match c_annot c with None => [] | Some a => a end)) (Some (c_depth c)))) fs pos bs.
Proof.
  unfold p_emit, ends_at. destruct (c_annot c) as [[|a l]|]; intros E; try reflexivity.
  rewrite E, Z.sub_diag. reflexivity.
Qed.

Lemma header_len tid lo n hd : header tid lo n hd -> 1 <= zlen hd.
Proof.
  intros [(_ & ->)|(c & V & ->)]; [cbn; lia|]. rewrite zlen_cons. pose proof (var_code_len _ _ _ V). lia.
Qed.
Lemma scalar_code_len t v bs : scalar_code t v bs -> 1 <= zlen bs.
Proof.
  intros H. inversion H; subst; try (rewrite zlen_cons; lia); [cbn; lia|].
  rewrite zlen_app. pose proof (header_len _ _ _ _ H1). pose proof (zlen_nonneg data). lia.
Qed.

Lemma dispatch_octet_value o t v : octet_value o t v -> dispatch o = HStatic t v.
Proof. destruct 1; try reflexivity. destruct t; reflexivity. Qed.

Lemma p_typed_scalar ann fs c top t v bs r pos : scalar_code t v bs -> room c pos (zlen bs) ->
  ends_at c (pos + zlen bs) ->
  p_typed ann fs c false top pos (bs ++ r) =
  ODone (Some (mkev EScalar (Some t) v (c_field c)
                (map sid_token (match c_annot c with None => [] | Some a => a end)) (Some (c_depth c))))
        fs (pos + zlen bs) r.
Proof.
  intros S R E. inversion S as [o t0 v0 OV|data L|data L|tid k t0 hd data PT HD]; subst; clear S.
  - unfold p_typed. rewrite (p_read_code c 1 _ _ pos [o] r); [|exact R|reflexivity]. cbn [andb].
    rewrite (dispatch_octet_value _ _ _ OV). cbn [p_handler]. apply p_emit_scalar. exact E.
  - unfold p_typed. rewrite zlen_cons in *.
    rewrite (p_read_code c 1 _ _ pos [0x44] (data ++ r)); [|eapply room_le; [exact R|lia]|reflexivity].
    cbn [andb]. change (dispatch 0x44) with (HLen (UScalar (Some KFloat) TFloat) 4). cbn [p_handler p_user].
    change (4 =? 0) with false. cbv iota.
    rewrite (p_read_code c 4 _ _ (pos + 1) data r); [|eapply room_le; [exact R|lia]|exact L].
    replace (pos + 1 + 4) with (pos + (1 + zlen data)) by lia. apply p_emit_scalar. exact E.
  - unfold p_typed. rewrite zlen_cons in *.
    rewrite (p_read_code c 1 _ _ pos [0x48] (data ++ r)); [|eapply room_le; [exact R|lia]|reflexivity].
    cbn [andb]. change (dispatch 0x48) with (HLen (UScalar (Some KFloat) TFloat) 8). cbn [p_handler p_user].
    change (8 =? 0) with false. cbv iota.
    rewrite (p_read_code c 8 _ _ (pos + 1) data r); [|eapply room_le; [exact R|lia]|exact L].
    replace (pos + 1 + 8) with (pos + (1 + zlen data)) by lia. apply p_emit_scalar. exact E.
  - rewrite zlen_app in *. pose proof (zlen_nonneg data). rewrite <- app_assoc.
    rewrite (p_typed_header ann fs c top tid 1 (UScalar k t) (zlen data) hd (data ++ r) pos);
      [|right; left; eauto|exact HD|eapply room_le; [exact R|lia]].
    cbn [p_user]. destruct (zlen data =? 0) eqn:Z0.
    + assert (data = []) by (apply zlen_zero; lia). subst data. cbn [app zlen length Z.of_nat].
      rewrite Z.add_0_r. apply p_emit_scalar. replace (pos + zlen hd) with (pos + (zlen hd + zlen (@nil Z))) by (cbn; lia). exact E.
    + rewrite (p_read_code c (zlen data) _ _ (pos + zlen hd) data r); [|eapply room_le; [exact R|lia]|reflexivity].
      replace (pos + zlen hd + zlen data) with (pos + (zlen hd + zlen data)) by lia. apply p_emit_scalar. exact E.
Qed.

(** * Containers, pads, version markers *)

Lemma p_typed_start ann fs c top t n hd r pos : container_code t n hd -> room c pos (zlen hd) ->
  ends_at c (pos + zlen hd + n) ->
  p_typed ann fs c false top pos (hd ++ r) =
  ODone (Some (mkev EContainerStart (Some t) EvNone (c_field c)
                (map sid_token (match c_annot c with None => [] | Some a => a end)) (Some (c_depth c))))
        (mkframe (Some t) (Some (pos + zlen hd + n)) (c_depth c + 1) true :: fs) (pos + zlen hd) r.
Proof.
  intros C R E. rewrite (p_typed_container ann fs c top t n hd r pos C R). cbn [p_user].
  unfold ends_at in E. destruct (c_annot c) as [[|a l]|] eqn:A; unfold p_emit; rewrite A; try reflexivity.
  rewrite E. cbn [opt_eqb]. rewrite Z.eqb_refl. reflexivity.
Qed.

Lemma p_typed_pad ann fs c top bs r pos : pad_code bs -> room c pos (zlen bs) ->
  (match c_field c with Some f => f = symbol_zero | None => True end) ->
  p_typed ann fs c false top pos (bs ++ r) = ODone None fs (pos + zlen bs) r.
Proof.
  intros (hd & data & H & ->) R F. rewrite zlen_app in *. pose proof (zlen_nonneg data). rewrite <- app_assoc.
  rewrite (p_typed_header ann fs c top 0 0 UNop (zlen data) hd (data ++ r) pos);
    [|left; auto|exact H|eapply room_le; [exact R|lia]].
  assert (G : (if 0 <? zlen data
     then p_read c (zlen data) incomplete_event (fun _ pos bs => ODone None fs pos bs) (pos + zlen hd) (data ++ r)
     else ODone None fs (pos + zlen hd) (data ++ r)) = ODone None fs (pos + (zlen hd + zlen data)) r).
  { destruct (0 <? zlen data) eqn:Z0.
    - rewrite (p_read_code c (zlen data) _ _ (pos + zlen hd) data r); [|eapply room_le; [exact R|lia]|reflexivity].
      f_equal. lia.
    - assert (data = []) by (apply zlen_zero; lia). subst data. cbn [app zlen length Z.of_nat]. f_equal. lia. }
  cbn [p_user]. destruct (c_field c); [subst; cbn [token_eqb symbol_zero sid_token tk_text tk_sid tk_loc opt_eqb Z.eqb andb]|]; exact G.
Qed.

(** A wrapper hands over to its value, with the annotations and the wrapper's end as limit. *)
Lemma p_typed_wrapper fs c top w n r pos : wrapper_code w n -> room c pos (zlen (wrapper_octets w) + n) ->
  1 <= n -> c_annot c = None ->
  p_typed (p_annot fs) fs c false top pos (wrapper_octets w ++ r) =
  p_typed p_no_annot fs
    (mkctx (Some (pos + zlen (wrapper_octets w) + n)) (c_depth c) (c_field c) (Some (map snd (wr_sids w))))
    false false (pos + zlen (wrapper_octets w)) r.
Proof.
  intros (NE & FS & VL & HD) R N1 A. unfold wrapper_octets in *. rewrite !zlen_app in *.
  pose proof (header_len _ _ _ _ HD) as L1. pose proof (var_code_len _ _ _ VL) as L2.
  assert (L3 : 1 <= zlen (wr_sid_octets w)).
  { unfold wr_sid_octets. destruct (wr_sids w) as [|[cc s] l]; [congruence|]. inversion FS; subst.
    cbn [flat_map fst] in *. pose proof (var_code_len _ _ _ H1) as X. rewrite zlen_app. pose proof (zlen_nonneg (flat_map (@fst (list Z) Z) l)). lia. }
  rewrite <- !app_assoc.
  rewrite (p_typed_header (p_annot fs) fs c top 14 3 UAnnot (zlen (wr_len w) + zlen (wr_sid_octets w) + n) (wr_head w) (wr_len w ++ wr_sid_octets w ++ r) pos);
    [|right; right; right; right; auto|exact HD|eapply room_le; [exact R|lia]].
  cbn [p_user]. unfold p_annot. rewrite A. cbn [c_limit c_depth c_field].
  rewrite (p_var_code _ _ 0 (wr_len w) _ VL); [|lia|].
  2: { right. eexists. split; [reflexivity|]. lia. }
  replace (zlen (wr_sid_octets w) <? 1) with false by lia.
  rewrite (p_read_code _ (zlen (wr_sid_octets w)) _ _ _ (wr_sid_octets w) r); [|right; eexists; split; [reflexivity|lia]|reflexivity].
  unfold wr_sid_octets at 1. rewrite parse_sids_code by exact FS.
  match goal with |- context [if ?x <? 1 then _ else _] => replace (x <? 1) with false by lia end.
  f_equal; [f_equal; f_equal|]; lia.
Qed.

(** * Reading items *)

Inductive reads : list frame -> Z -> list Z -> list event -> list frame -> Z -> list Z -> Prop :=
| reads_nil fs pos bs : reads fs pos bs [] fs pos bs
| reads_event fs pos bs ev fs1 pos1 bs1 evs fs2 pos2 bs2 :
    p_item fs pos bs = ODone (Some ev) fs1 pos1 bs1 -> reads fs1 pos1 bs1 evs fs2 pos2 bs2 ->
    reads fs pos bs (ev :: evs) fs2 pos2 bs2
| reads_pad fs pos bs fs1 pos1 bs1 evs fs2 pos2 bs2 :
    p_item fs pos bs = ODone None fs1 pos1 bs1 -> reads fs1 pos1 bs1 evs fs2 pos2 bs2 ->
    reads fs pos bs evs fs2 pos2 bs2.

Lemma reads_app fs pos bs e1 fs1 pos1 bs1 e2 fs2 pos2 bs2 : reads fs pos bs e1 fs1 pos1 bs1 ->
  reads fs1 pos1 bs1 e2 fs2 pos2 bs2 -> reads fs pos bs (e1 ++ e2) fs2 pos2 bs2.
Proof.
  intros H G. induction H; cbn [app]; auto; [eapply reads_event|eapply reads_pad]; eauto.
Qed.

(** The frame of the place where trees stand. *)
Definition frame_at (p : place) (f : frame) : Prop :=
  match p with
  | Top => f_depth f = 0 /\ f_limit f = None /\ f_type f = None /\ f_first f = false
  | InSequence => 1 <= f_depth f /\ (f_type f = Some TList \/ f_type f = Some TSexp)
  | InStruct => 1 <= f_depth f /\ f_type f = Some TStruct
  end.
Definition later (f : frame) : frame := mkframe (f_type f) (f_limit f) (f_depth f) false.
Lemma later_at p f : frame_at p f -> frame_at p (later f).
Proof. destruct p; cbn; intuition. Qed.
Lemma later_later f : later (later f) = later f. Proof. reflexivity. Qed.

Definition frame_room (f : frame) (pos n : Z) : Prop :=
  match f_limit f with Some lim => pos + n <= lim | None => f_depth f = 0 end.

(** From an item to its value: the field name is taken. *)
Lemma p_item_value p f rest pos fld body r : frame_at p f -> field_code p fld ->
  frame_room f pos (zlen (opt_octets fst fld ++ body)) -> 1 <= zlen (opt_octets fst fld ++ body) ->
  p_item (f :: rest) pos (opt_octets fst fld ++ r) =
  p_typed (p_annot (later f :: rest)) (later f :: rest)
          (mkctx (f_limit f) (f_depth f) (field_of fld) None) false (f_depth f =? 0)
          (pos + zlen (opt_octets fst fld)) r.
Proof.
  intros FA FC FR L. unfold p_item.
  assert (NL : opt_eqb Z.eqb (Some pos) (f_limit f) = false).
  { unfold frame_room in FR. destruct (f_limit f) as [lim|]; [|reflexivity]. cbn [opt_eqb]. lia. }
  rewrite NL. fold (later f).
  assert (EX : f_first f && (f_depth f =? 0) = false).
  { destruct p; cbn [frame_at] in FA.
    - destruct FA as (_ & _ & _ & ->). reflexivity.
    - replace (f_depth f =? 0) with false by lia. apply andb_false_r.
    - replace (f_depth f =? 0) with false by lia. apply andb_false_r. }
  rewrite EX.
  destruct p; cbn [field_code] in FC.
  - destruct fld; [contradiction|]. destruct FA as (_ & _ & -> & _). cbn [opt_octets app zlen length Z.of_nat field_of].
    rewrite Z.add_0_r. reflexivity.
  - destruct fld; [contradiction|]. cbn [opt_octets app zlen length Z.of_nat field_of]. rewrite Z.add_0_r.
    destruct FA as (_ & [-> | ->]); reflexivity.
  - destruct fld as [[cc s]|]; [|contradiction]. destruct FA as (FD & ->). cbn [opt_octets fst field_of] in *.
    rewrite (p_var_code _ _ 0 cc s FC); [reflexivity|lia|].
    unfold frame_room in FR. right. cbn [c_limit]. destruct (f_limit f) as [lim|]; [|lia].
    exists lim. split; [reflexivity|]. rewrite zlen_app in FR. pose proof (zlen_nonneg body). lia.
Qed.

Lemma room_of f fld ann pos n m : frame_room f pos (m + n) -> room (mkctx (f_limit f) (f_depth f) fld ann) (pos + m) n.
Proof.
  unfold frame_room, room; cbn [c_depth c_limit]. destruct (f_limit f) as [lim|]; [|left; auto].
  right. exists lim. split; [reflexivity|lia].
Qed.

Definition pre (f : option fieldname) (w : option wrapper) : list Z := opt_octets fst f ++ opt_octets wrapper_octets w.

Lemma zlen_pos_ne {A} (l : list A) : 1 <= zlen l -> l <> [].
Proof. intros H ->. cbn in H. lia. Qed.

(** Field name and wrapper, then a body [body] read by [k]. *)
Lemma p_item_prefix p f rest pos fld w body r (K : rctx -> Z -> outcome) :
  frame_at p f -> field_code p fld -> wrapper_opt w (zlen body) -> 1 <= zlen body ->
  frame_room f pos (zlen (pre fld w ++ body)) ->
  (forall ann c at_top, c_depth c = f_depth f -> c_field c = field_of fld ->
     map sid_token (match c_annot c with None => [] | Some a => a end) = annotations_of w ->
     room c (pos + zlen (pre fld w)) (zlen body) -> ends_at c (pos + zlen (pre fld w) + zlen body) ->
     p_typed ann (later f :: rest) c false at_top (pos + zlen (pre fld w)) (body ++ r) = K c (pos + zlen (pre fld w))) ->
  exists c, c_depth c = f_depth f /\ c_field c = field_of fld /\
    p_item (f :: rest) pos (pre fld w ++ body ++ r) = K c (pos + zlen (pre fld w)).
Proof.
  intros FA FC WO LB FR HK. unfold pre in *. rewrite <- app_assoc. rewrite !zlen_app in HK. rewrite !zlen_app in FR.
  pose proof (zlen_nonneg (opt_octets fst fld)) as N1. pose proof (zlen_nonneg (opt_octets wrapper_octets w)) as N2.
  assert (PI : p_item (f :: rest) pos (opt_octets fst fld ++ opt_octets wrapper_octets w ++ body ++ r) =
     p_typed (p_annot (later f :: rest)) (later f :: rest)
          (mkctx (f_limit f) (f_depth f) (field_of fld) None) false (f_depth f =? 0)
          (pos + zlen (opt_octets fst fld)) (opt_octets wrapper_octets w ++ body ++ r)).
  { apply (p_item_value p f rest pos fld (opt_octets wrapper_octets w ++ body)); auto; rewrite !zlen_app; [|lia].
    replace (zlen (opt_octets fst fld) + (zlen (opt_octets wrapper_octets w) + zlen body)) with
      (zlen (opt_octets fst fld) + zlen (opt_octets wrapper_octets w) + zlen body) by lia. exact FR. }
  rewrite PI. clear PI. destruct w as [w|]; cbn [opt_octets] in *.
  - rewrite (p_typed_wrapper (later f :: rest) _ (f_depth f =? 0) w (zlen body)); auto.
    2: { apply room_of. replace (zlen (opt_octets fst fld) + (zlen (wrapper_octets w) + zlen body)) with
      (zlen (opt_octets fst fld) + zlen (wrapper_octets w) + zlen body) by lia. exact FR. }
    cbn [c_depth c_field]. eexists. split; [|split]; [| |
    rewrite zlen_app; replace (pos + zlen (opt_octets fst fld) + zlen (wrapper_octets w)) with
      (pos + (zlen (opt_octets fst fld) + zlen (wrapper_octets w))) by lia; erewrite HK; [reflexivity| | | | |]]; try reflexivity.
    + cbn [c_annot annotations_of]. rewrite map_map. reflexivity.
    + unfold frame_room in FR. cbn [room c_depth c_limit]. right. eexists. split; [reflexivity|]. lia.
    + unfold ends_at; cbn [c_annot c_limit]. destruct WO as (NE & _). destruct (wr_sids w); [congruence|]. cbn [map]. reflexivity.
  - cbn [app zlen length Z.of_nat] in *. rewrite app_nil_r. rewrite Z.add_0_r in *.
    eexists. split; [|split]; [| |erewrite HK; [reflexivity| | | | |]]; try reflexivity.
    apply room_of. exact FR.
Qed.

Lemma p_item_scalar p f rest pos fld w t v body r :
  frame_at p f -> field_code p fld -> wrapper_opt w (zlen body) -> scalar_code t v body ->
  frame_room f pos (zlen (pre fld w ++ body)) ->
  p_item (f :: rest) pos (pre fld w ++ body ++ r) =
  ODone (Some (mkev EScalar (Some t) v (field_of fld) (annotations_of w) (Some (f_depth f))))
        (later f :: rest) (pos + zlen (pre fld w ++ body)) r.
Proof.
  intros FA FC WO SC FR. pose proof (scalar_code_len _ _ _ SC) as LB.
  destruct (p_item_prefix p f rest pos fld w body r (fun c q => ODone (Some (mkev EScalar (Some t) v (field_of fld)
      (annotations_of w) (Some (f_depth f)))) (later f :: rest) (q + zlen body) r) FA FC WO LB FR) as (c & _ & _ & E).
  - intros ann c at_top D F A R En. rewrite (p_typed_scalar ann _ c at_top t v body r _ SC R En). rewrite A, D, F. reflexivity.
  - rewrite E. rewrite zlen_app. f_equal. lia.
Qed.

Lemma container_len t n hd : container_code t n hd -> 1 <= zlen hd.
Proof.
  destruct t; cbn [container_code]; try contradiction; try apply header_len.
  intros [(_ & _ & ->)|[(c & V & ->)|(c & V & _ & ->)]]; [cbn; lia| |]; rewrite zlen_cons; pose proof (zlen_nonneg c); lia.
Qed.

(** A container's start: here the body is the header and the whole content. *)
Lemma p_item_start p f rest pos fld w t hd content r :
  frame_at p f -> field_code p fld -> wrapper_opt w (zlen (hd ++ content)) -> container_code t (zlen content) hd ->
  frame_room f pos (zlen (pre fld w ++ hd ++ content)) ->
  p_item (f :: rest) pos (pre fld w ++ (hd ++ content) ++ r) =
  ODone (Some (mkev EContainerStart (Some t) EvNone (field_of fld) (annotations_of w) (Some (f_depth f))))
        (mkframe (Some t) (Some (pos + zlen (pre fld w ++ hd ++ content))) (f_depth f + 1) true :: later f :: rest)
        (pos + zlen (pre fld w ++ hd)) (content ++ r).
Proof.
  intros FA FC WO CC FR. pose proof (container_len _ _ _ CC) as LB. pose proof (zlen_nonneg content) as LC.
  destruct (p_item_prefix p f rest pos fld w (hd ++ content) r
     (fun c q => ODone (Some (mkev EContainerStart (Some t) EvNone (field_of fld) (annotations_of w) (Some (f_depth f))))
        (mkframe (Some t) (Some (q + zlen hd + zlen content)) (f_depth f + 1) true :: later f :: rest) (q + zlen hd) (content ++ r))
     FA FC WO ltac:(rewrite zlen_app; lia) FR) as (c & _ & _ & E).
  - intros ann c at_top D F A R En. rewrite zlen_app in R, En. rewrite <- app_assoc.
    rewrite (p_typed_start ann _ c at_top t (zlen content) hd (content ++ r) _ CC).
    + rewrite A, D, F. reflexivity.
    + eapply room_le; [exact R|lia].
    + rewrite <- Z.add_assoc. exact En.
  - rewrite E. rewrite !zlen_app. f_equal; [f_equal; [f_equal; f_equal; lia]|]. lia.
Qed.

Lemma p_item_padding p f rest pos fld body r :
  frame_at p f -> field_code p fld -> (match fld with Some (_, sid) => sid = 0 | None => True end) -> pad_code body ->
  frame_room f pos (zlen (opt_octets fst fld ++ body)) ->
  p_item (f :: rest) pos (opt_octets fst fld ++ body ++ r) =
  ODone None (later f :: rest) (pos + zlen (opt_octets fst fld ++ body)) r.
Proof.
  intros FA FC F0 PC FR.
  assert (LB : 1 <= zlen body).
  { destruct PC as (hd & data & H & ->). rewrite zlen_app. pose proof (header_len _ _ _ _ H). pose proof (zlen_nonneg data). lia. }
  rewrite (p_item_value p f rest pos fld body); auto.
  - rewrite (p_typed_pad _ _ _ _ body r _ PC).
    + rewrite zlen_app. f_equal. lia.
    + apply room_of. rewrite zlen_app in FR. exact FR.
    + cbn [c_field]. destruct fld as [[cc s]|]; cbn [field_of]; [subst; reflexivity|exact Logic.I].
  - rewrite zlen_app. pose proof (zlen_nonneg (opt_octets fst fld)). lia.
Qed.

Lemma p_item_ivm f rest pos r : f_depth f = 0 -> f_limit f = None -> f_type f = None ->
  p_item (f :: rest) pos (ivm ++ r) = ODone (Some version_marker_event) (later f :: rest) (pos + 4) r.
Proof.
  intros D L T. unfold p_item. rewrite L, T. cbn [opt_eqb]. unfold p_typed.
  rewrite (p_read_code _ 1 _ _ pos [0xE0] ([0x01; 0x00; 0xEA] ++ r)); [|left; exact D|reflexivity].
  change (dispatch 0xE0) with HIvm. cbn [Z.eqb negb]. rewrite andb_false_r. cbn [p_handler c_depth]. rewrite D. cbn [Z.eqb negb].
  rewrite (p_read_code _ 3 _ _ (pos + 1) [0x01; 0x00; 0xEA] r); [|left; reflexivity|reflexivity].
  cbn [zlist_eqb Z.eqb andb]. replace (pos + 1 + 3) with (pos + 4) by lia. unfold later. rewrite ?T, ?L, ?D. reflexivity.
Qed.

Lemma p_item_end f rest pos bs t : f_type f = Some t -> f_limit f = Some pos ->
  p_item (f :: rest) pos bs =
  ODone (Some (mkev EContainerEnd (Some t) EvNone None [] (Some (f_depth f - 1)))) rest pos bs.
Proof. intros T L. unfold p_item. rewrite T, L. cbn [opt_eqb]. rewrite Z.eqb_refl. reflexivity. Qed.

(** * Trees *)

Section NODE_IND.
  Variable P : node -> Prop.
  Hypothesis Hpad : forall f bs, P (NPad f bs).
  Hypothesis Hscalar : forall f w t v bs, P (NScalar f w t v bs).
  Hypothesis Hcont : forall f w t hd kids, Forall P kids -> P (NCont f w t hd kids).
  Hypothesis Hivm : P NIvm.
  Fixpoint node_induction (n : node) : P n :=
    match n with
    | NPad f bs => Hpad f bs
    | NScalar f w t v bs => Hscalar f w t v bs
    | NCont f w t hd kids =>
      Hcont f w t hd kids ((fix all l : Forall P l := match l with [] => Forall_nil P | k :: ks => Forall_cons k (node_induction k) (all ks) end) kids)
    | NIvm => Hivm
    end.
End NODE_IND.

Lemma fold_and_Forall {A} (Q : A -> Prop) l : fold_right (fun k P => Q k /\ P) True l <-> Forall Q l.
Proof.
  induction l; cbn; split; intros H; auto.
  - destruct H. constructor; auto. apply IHl; auto.
  - inversion H; subst. split; auto. apply IHl; auto.
Qed.

Definition node_reads (n : node) : Prop := forall p f rest pos r,
  node_ok p n -> frame_at p f -> frame_room f pos (zlen (code n)) ->
  reads (f :: rest) pos (code n ++ r) (events (f_depth f) n) (later f :: rest) (pos + zlen (code n)) r.

Lemma nodes_read_from ns : Forall node_reads ns -> forall p f rest pos r,
  Forall (node_ok p) ns -> frame_at p f -> frame_room f pos (zlen (flat_map code ns)) ->
  f_first f = false ->
  reads (f :: rest) pos (flat_map code ns ++ r) (flat_map (events (f_depth f)) ns) (f :: rest)
        (pos + zlen (flat_map code ns)) r.
Proof.
  induction 1 as [|n ns Hn Hns IH]; intros p f rest pos r OK FA FR FF; cbn [flat_map app].
  - cbn [zlen length Z.of_nat]. rewrite Z.add_0_r. constructor.
  - inversion OK; subst. cbn [flat_map] in FR. rewrite zlen_app in FR. rewrite <- app_assoc, zlen_app, Z.add_assoc.
    pose proof (zlen_nonneg (code n)). pose proof (zlen_nonneg (flat_map code ns)).
    assert (EL : later f = f) by (destruct f; cbn in *; subst; reflexivity).
    eapply reads_app.
    + apply (Hn p f rest pos); auto. unfold frame_room in *. destruct (f_limit f); lia.
    + rewrite EL. apply (IH p f rest); auto. unfold frame_room in *. destruct (f_limit f); lia.
Qed.

(** The same for the first item of a container, whose frame is still marked. *)
Lemma nodes_read_marked ns : Forall node_reads ns -> forall p f rest pos r,
  Forall (node_ok p) ns -> frame_at p f -> frame_room f pos (zlen (flat_map code ns)) ->
  exists f', (f' = f \/ f' = later f) /\
  reads (f :: rest) pos (flat_map code ns ++ r) (flat_map (events (f_depth f)) ns) (f' :: rest)
        (pos + zlen (flat_map code ns)) r.
Proof.
  intros H p f rest pos r OK FA FR. destruct ns as [|n ns].
  - exists f. split; [auto|]. cbn [flat_map app zlen length Z.of_nat]. rewrite Z.add_0_r. constructor.
  - exists (later f). split; [auto|]. inversion OK; subst. inversion H; subst. cbn [flat_map] in *. rewrite zlen_app in FR.
    rewrite <- app_assoc, zlen_app, Z.add_assoc. pose proof (zlen_nonneg (code n)). pose proof (zlen_nonneg (flat_map code ns)).
    eapply reads_app.
    + apply (H4 p f rest pos); auto. unfold frame_room in *. destruct (f_limit f); lia.
    + apply (nodes_read_from ns H5 p (later f) rest); auto; [apply later_at; auto|].
      unfold frame_room in *; cbn [later f_limit f_depth]. destruct (f_limit f); lia.
Qed.

Lemma node_reads_all n : node_reads n.
Proof.
  induction n as [f bs|f w t v bs|f w t hd kids IH| ] using node_induction; intros p fr rest pos r OK FA FR;
    cbn [node_ok code events] in *.
  - destruct OK as (FC & F0 & PC). rewrite <- app_assoc. eapply reads_pad; [|constructor].
    apply (p_item_padding p); auto.
  - destruct OK as (FC & WO & SC).
    assert (E : opt_octets fst f ++ opt_octets wrapper_octets w ++ bs = pre f w ++ bs) by (unfold pre; rewrite app_assoc; reflexivity).
    rewrite E in *. rewrite <- app_assoc. eapply reads_event; [|constructor]. apply (p_item_scalar p); auto.
  - destruct OK as (FC & WO & CC & KO). apply fold_and_Forall in KO.
    assert (E : opt_octets fst f ++ opt_octets wrapper_octets w ++ hd ++ flat_map code kids = pre f w ++ hd ++ flat_map code kids)
      by (unfold pre; rewrite app_assoc; reflexivity).
    rewrite E in *. rewrite <- app_assoc. eapply reads_event; [apply (p_item_start p); auto|].
    set (lim := pos + zlen (pre f w ++ hd ++ flat_map code kids)).
    set (g := mkframe (Some t) (Some lim) (f_depth fr + 1) true).
    assert (PD : 0 <= f_depth fr) by (destruct p; cbn [frame_at] in FA; lia).
    destruct (nodes_read_marked kids IH (inside t) g (later fr :: rest) (pos + zlen (pre f w ++ hd)) r) as (g' & G & RK).
    + exact KO.
    + destruct t; try contradiction CC; cbn [inside frame_at g f_depth f_type]; split; auto; lia.
    + unfold frame_room; cbn [g f_limit]. unfold lim. rewrite !zlen_app. lia.
    + cbn [g f_depth] in RK. eapply reads_app; [exact RK|]. assert (EL : pos + zlen (pre f w ++ hd) + zlen (flat_map code kids) = lim)
        by (unfold lim; rewrite !zlen_app; lia). rewrite EL.
      eapply reads_event; [|constructor].
      replace (Some (f_depth fr)) with (Some (f_depth g' - 1)) by (f_equal; destruct G as [-> | ->]; cbn [later g f_depth]; lia).
      apply p_item_end; destruct G as [-> | ->]; reflexivity.
  - subst p. destruct FA as (D & L & T & FF). change (zlen ivm) with 4. eapply reads_event; [|constructor].
    apply p_item_ivm; auto.
Qed.

(** * Sessions *)

Lemma p_next_fuel n m fs pos bs : (length bs < n)%nat -> (length bs < m)%nat -> p_next n fs pos bs = p_next m fs pos bs.
Proof.
  intros A B. destruct (p_next_resolves n fs pos bs A) as [R1 _]. destruct (p_next_resolves m fs pos bs B) as [R2 _].
  eapply resolves_fun; eauto.
Qed.

Lemma spec_started fs pos bs n s s' : spec_session s fs pos bs (repeat DNext n) = spec_session s' fs pos bs (repeat DNext n).
Proof. destruct n; reflexivity. Qed.

Lemma reads_session fs pos bs evs fs' pos' bs' : reads fs pos bs evs fs' pos' bs' -> forall s n,
  spec_session s fs pos bs (repeat DNext (length evs + n)) =
  (evs ++ fst (spec_session true fs' pos' bs' (repeat DNext n)), snd (spec_session true fs' pos' bs' (repeat DNext n))).
Proof.
  induction 1 as [fs pos bs|fs pos bs ev fs1 pos1 bs1 evs fs2 pos2 bs2 P H IH|fs pos bs fs1 pos1 bs1 evs fs2 pos2 bs2 P H IH]; intros s n.
  - cbn [length Nat.add app]. rewrite (spec_started _ _ _ n s true). destruct (spec_session true fs pos bs _); reflexivity.
  - cbn [length Nat.add repeat spec_session p_next]. rewrite P. rewrite IH. reflexivity.
  - rewrite <- (IH s n). destruct (length evs + n)%nat as [|k]; [reflexivity|]. cbn [repeat spec_session].
    assert (E : p_next (S (length bs)) fs pos bs = p_next (S (length bs1)) fs1 pos1 bs1).
    { cbn [p_next]. rewrite P. apply p_item_pad in P as (u & -> & -> & L).
      apply (p_next_fuel _ (S (length bs1))); rewrite ?app_length; unfold zlen in L; lia. }
    rewrite E. destruct (p_next (S (length bs1)) fs1 pos1 bs1) as [[e|] f0 p0 b0|e|sg]; reflexivity.
Qed.

Lemma top_reads ns : stream_ok ns -> 
  reads [top_frame] 0 (stream ns) (stream_events ns) [later top_frame] (zlen (stream ns)) [].
Proof.
  intros H. unfold stream, stream_events. eapply reads_event; [apply p_item_ivm; reflexivity|].
  assert (NR : Forall node_reads ns) by (apply Forall_forall; intros; apply node_reads_all).
  pose proof (nodes_read_from ns NR Top (later top_frame) [] (0 + 4) [] H) as R.
  rewrite app_nil_r in R. rewrite zlen_app. apply R; try reflexivity. cbn. auto.
Qed.

Theorem grammar_read ns n : stream_ok ns ->
  spec_read (stream ns) (repeat DNext (length (stream_events ns) + n)) =
  (stream_events ns, match n with O => PMore | S _ => PEnd end).
Proof.
  intros H. unfold spec_read. rewrite (reads_session _ _ _ _ _ _ _ (top_reads ns H)).
  assert (E : spec_session true [later top_frame] (zlen (stream ns)) [] (repeat DNext n) =
     ([], match n with O => PMore | S _ => PEnd end)) by (destruct n; reflexivity).
  rewrite E. cbn [fst snd]. rewrite app_nil_r. reflexivity.
Qed.

(** Through the reader itself, in any division into pieces. *)
Theorem grammar_session ns chunks n : stream_ok ns -> chunks_ok chunks -> concat chunks = stream ns ->
  session reader_new chunks (repeat DNext (length (stream_events ns) + n)) =
  (stream_events ns, match n with O => SMore | S _ => SEnd end).
Proof.
  intros H C E. pose proof (session_meets_spec chunks (repeat DNext (length (stream_events ns) + n)) C) as M.
  rewrite E, (grammar_read ns n H) in M. unfold session_matches in M. cbn [fst snd] in M. destruct n; exact M.
Qed.
