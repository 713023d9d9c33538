(** The raw binary writer builds trees of the format (BinFormat): invariant and one step. *)
From Verif Require Import Base BaseFacts FieldsModel FieldsFacts BufferModel BufferFacts CoreModel BinWriterModel
  BinReaderModel BinReaderSpec CalendarFacts TimestampFacts ScalarFacts ScalarProofs BinFormat BinFormatFacts.

(** * Headers *)

Fixpoint sids_of (ts : list token) : option (list Z) :=
  match ts with
  | [] => Some []
  | t :: ts => match tk_sid t, sids_of ts with Some s, Some l => Some (s :: l) | _, _ => None end
  end.
Definition sids_ok (ts : list token) : Prop := Forall (fun t => match tk_sid t with Some s => 0 <= s | None => True end) ts.
Definition sid_octets (sids : list Z) : list Z := flat_map varuint_octets sids.

Lemma write_sids_spec annots : sids_ok annots -> forall buf len,
  write_sids buf len annots =
  match sids_of annots with Some l => Ok (buf ++ sid_octets l, len + zlen (sid_octets l)) | None => Err TypeError end.
Proof.
  induction 1 as [|t ts Ht _ IH]; intros buf len; cbn [write_sids sids_of].
  - cbn. rewrite app_nil_r, Z.add_0_r. reflexivity.
  - destruct (tk_sid t) as [s|]; [|reflexivity]. rewrite write_varuint_spec by exact Ht. cbn [bind]. rewrite IH.
    destruct (sids_of ts) as [l|]; [|reflexivity]. unfold sid_octets; cbn [flat_map]. rewrite zlen_app, Z.add_assoc, app_assoc. reflexivity.
Qed.
Lemma sids_of_nonneg ts : forall l, sids_ok ts -> sids_of ts = Some l -> Forall (fun s => 0 <= s) l.
Proof.
  induction ts as [|t ts IH]; intros l H E; cbn [sids_of] in E; [injection E as <-; constructor|].
  inversion H as [|? ? Ht Hts]; subst. destruct (tk_sid t) as [s|]; [|discriminate]. destruct (sids_of ts) as [l'|]; [|discriminate].
  injection E as <-. constructor; auto.
Qed.
Lemma sids_of_nil ts l : sids_of ts = Some l -> (l = [] <-> ts = []).
Proof.
  destruct ts as [|t ts]; cbn [sids_of]; intros E; [injection E as <-; tauto|].
  destruct (tk_sid t); [|discriminate]. destruct (sids_of ts); [|discriminate]. injection E as <-. split; discriminate.
Qed.

(** The wrapper the writer makes. *)
Definition wrapper_for (sids : list Z) (n : Z) : wrapper :=
  let o := sid_octets sids in
  mkwrapper (length_octets 0xE0 (zlen (varuint_octets (zlen o)) + zlen o + n)) (varuint_octets (zlen o))
    (map (fun s => (varuint_octets s, s)) sids).
Lemma wrapper_for_sids sids n : wr_sid_octets (wrapper_for sids n) = sid_octets sids.
Proof. unfold wr_sid_octets, wrapper_for, sid_octets; cbn [wr_sids]. induction sids; cbn [map flat_map]; [reflexivity|]. rewrite IHsids. reflexivity. Qed.
Lemma annotation_header_spec annots n : sids_ok annots -> 0 <= n ->
  annotation_header annots n =
  match sids_of annots with Some l => Ok (wrapper_octets (wrapper_for l n)) | None => Err TypeError end.
Proof.
  intros H N. unfold annotation_header. rewrite write_sids_spec by exact H. destruct (sids_of annots) as [l|]; [|reflexivity].
  cbn [bind app]. rewrite Z.add_0_l. rewrite write_varuint_spec by apply zlen_nonneg. cbn [bind app].
  pose proof (zlen_nonneg (sid_octets l)). pose proof (zlen_nonneg (varuint_octets (zlen (sid_octets l)))).
  rewrite write_length_spec by (try reflexivity; lia). cbn [bind app].
  unfold wrapper_octets. rewrite wrapper_for_sids. reflexivity.
Qed.
Lemma sid_octets_len sids : Forall (fun s => 0 <= s) sids -> sids <> [] -> 1 <= zlen (sid_octets sids).
Proof.
  intros H N. destruct H as [|s l Hs Hl]; [congruence|]. unfold sid_octets; cbn [flat_map]. rewrite zlen_app.
  pose proof (octets_len_pos_varuint s Hs). pose proof (zlen_nonneg (flat_map varuint_octets l)). lia.
Qed.
Lemma wrapper_for_code sids n : Forall (fun s => 0 <= s) sids -> sids <> [] -> 1 <= n -> wrapper_code (wrapper_for sids n) n.
Proof.
  intros H N L. pose proof (sid_octets_len sids H N) as SL. split; [|split; [|split]].
  - unfold wrapper_for; cbn [wr_sids]. destruct sids; [congruence|discriminate].
  - unfold wrapper_for; cbn [wr_sids]. apply Forall_map. eapply Forall_impl; [|exact H]. intros s Hs. cbn [fst snd]. apply varuint_octets_code. exact Hs.
  - rewrite wrapper_for_sids. unfold wrapper_for; cbn [wr_len]. apply varuint_octets_code. lia.
  - rewrite wrapper_for_sids. unfold wrapper_for; cbn [wr_len wr_head].
    pose proof (octets_len_pos_varuint (zlen (sid_octets sids)) ltac:(lia)).
    apply (length_octets_header 14); lia.
Qed.
Lemma wrapper_for_annots sids n : annotations_of (Some (wrapper_for sids n)) = map by_sid sids.
Proof. unfold annotations_of, wrapper_for; cbn [wr_sids]. rewrite map_map. reflexivity. Qed.

Lemma container_header_spec t n : is_container t = true -> 0 <= n ->
  exists hd, container_header (Some t) n = Ok hd /\ container_code t n hd /\ octets hd.
Proof.
  intros C N. destruct t; try discriminate; cbn [container_header container_code].
  - rewrite write_length_spec by (try reflexivity; exact N). cbn [app]. eexists. split; [reflexivity|].
    split; [apply (length_octets_header 11); lia|apply length_octets_octets; [split; [lia|reflexivity]|exact N]].
  - rewrite write_length_spec by (try reflexivity; exact N). cbn [app]. eexists. split; [reflexivity|].
    split; [apply (length_octets_header 12); lia|apply length_octets_octets; [split; [lia|reflexivity]|exact N]].
  - destruct (n =? 0) eqn:Z0.
    + exists [0xD0]. apply Z.eqb_eq in Z0. subst n. split; [reflexivity|]. split; [left; repeat split; lia|constructor; [unfold is_octet; lia|constructor]].
    + rewrite write_varuint_spec by exact N. cbn [bind]. eexists. split; [reflexivity|].
      split; [right; left; exists (varuint_octets n); split; [apply varuint_octets_code; exact N|reflexivity]|].
      apply octets_app. split; [constructor; [unfold is_octet; cbn; lia|constructor]|apply varuint_octets_octets].
Qed.

(** * The buffer *)

Definition holds (b : btree) (cs : list (list (list Z))) : Prop := bt_inv b /\ bt_abs b = cs.
Lemma holds_init : holds bt_init [[]]. Proof. split; [apply bt_inv_init|reflexivity]. Qed.
Lemma holds_add b c cs x : holds b (c :: cs) -> holds (bt_add b x) ((c ++ [x]) :: cs).
Proof. intros [I A]. pose proof (bt_step_refines b (OAdd x) I) as R. cbn [bt_step] in R. rewrite A in R. exact R. Qed.
Lemma holds_start b cs : holds b cs -> holds (bt_start b) ([] :: cs).
Proof. intros [I A]. pose proof (bt_step_refines b OStart I) as R. cbn [bt_step] in R. rewrite A in R. exact R. Qed.
Lemma holds_end b c p cs h : holds b (c :: p :: cs) -> exists b', bt_end b h = Ok b' /\ holds b' ((p ++ h :: c) :: cs).
Proof.
  intros [I A]. pose proof (bt_step_refines b (OEnd (fun _ => h)) I) as R. cbn [bt_step] in R. rewrite A in R. cbn [spec_step] in R.
  destruct (bt_end b h) as [b'|]; [|contradiction]. exists b'. auto.
Qed.
Lemma holds_len b c cs : holds b (c :: cs) -> bt_len b = zlen (concat c).
Proof. intros [(_ & _ & L & _) A]. rewrite L. unfold bt_abs in A. cbn [map] in A. injection A as -> _. reflexivity. Qed.
Lemma holds_drain b c : holds b [c] -> bt_drain b = Ok (c, bt_init).
Proof.
  intros [I A]. unfold bt_abs in A. cbn [map] in A. injection A as A1 A2. apply map_eq_nil in A2.
  unfold bt_drain. rewrite A2. unfold chunks in A1. rewrite A1. reflexivity.
Qed.

(** * The invariant *)

(** An open container: its type, its annotation SIDs, its field name, and what stands before it in
    its own container. *)
Record open_ := mkopen { o_type : iontype; o_sids : list Z; o_field : option fieldname; o_before : list BinFormat.node }.

Fixpoint written (cur : list BinFormat.node) (pending : list Z) (st : list open_) (cs : list (list (list Z))) : Prop :=
  match st with
  | [] => exists c, cs = [c] /\ concat c = flat_map code cur ++ pending
  | o :: st' => exists c rest, cs = c :: (match o_sids o with [] => rest | _ => [] :: rest end) /\
      concat c = flat_map code cur ++ pending /\ written (o_before o) (opt_octets fst (o_field o)) st' rest
  end.

Definition place_of (st : list open_) : place := match st with [] => Top | o :: _ => inside (o_type o) end.
Fixpoint stack_ok (st : list open_) : Prop :=
  match st with
  | [] => True
  | o :: st' => is_container (o_type o) = true /\ Forall (fun s => 0 <= s) (o_sids o) /\ field_code (place_of st') (o_field o) /\
                Forall (node_ok (place_of st')) (o_before o) /\ stack_ok st'
  end.
Definition frame_of (f : wframe) (o : open_) : Prop :=
  wf_type f = Some (o_type o) /\ sids_ok (wf_annot f) /\ sids_of (wf_annot f) = Some (o_sids o).

Definition winv (s : wstate) (cur : list BinFormat.node) (st : list open_) : Prop :=
  Forall (node_ok (place_of st)) cur /\ stack_ok st /\ Forall2 frame_of (w_frames s) st /\
  exists cs, holds (w_buf s) cs /\ written cur [] st cs /\ Forall (Forall octets) cs.

(** The events a reader has for what was written. *)
Fixpoint so_far (cur : list BinFormat.node) (st : list open_) : list event :=
  match st with
  | [] => flat_map (events 0) cur
  | o :: st' => so_far (o_before o) st' ++
      mkev EContainerStart (Some (o_type o)) EvNone (field_of (o_field o)) (map by_sid (o_sids o)) (Some (zlen st'))
      :: flat_map (events (zlen st)) cur
  end.

(** Sanity of an incoming event: the values are what Python can hold, SIDs are not negative. *)
Definition event_sane (e : event) : Prop :=
  sids_ok (ev_annot e) /\ sids_of (ev_annot e) <> None /\
  (match ev_field e with Some t => match tk_sid t with Some s => 0 <= s | None => True end | None => True end) /\
  (forall s, ev_force (ev_value e) = Ok (Some s) -> scalar_sane s).

Lemma winv_init : winv w_init [] [].
Proof.
  split; [constructor|]. split; [exact Logic.I|]. split; [constructor|]. exists [[]]. split; [apply holds_init|]. split; [exists []; auto|]. repeat constructor.
Qed.

(** Appending a node. *)
Lemma so_far_snoc cur st n : so_far (cur ++ [n]) st = so_far cur st ++ events (zlen st) n.
Proof.
  destruct st as [|o st]; cbn [so_far]; rewrite flat_map_app; cbn [flat_map]; rewrite app_nil_r; [reflexivity|].
  rewrite <- app_assoc. reflexivity.
Qed.
Lemma written_add cur pending st cs x : written cur pending st cs -> exists c rest, cs = c :: rest /\
  written cur (pending ++ x) st ((c ++ [x]) :: rest).
Proof.
  destruct st as [|o st]; cbn [written].
  - intros (c & -> & E). exists c, []. split; [reflexivity|]. exists (c ++ [x]). split; [reflexivity|].
    rewrite concat_app. cbn [concat]. rewrite app_nil_r, E, app_assoc. reflexivity.
  - intros (c & rest & -> & E & W). do 2 eexists. split; [reflexivity|]. exists (c ++ [x]), rest. split; [reflexivity|].
    split; [|exact W]. rewrite concat_app. cbn [concat]. rewrite app_nil_r, E, app_assoc. reflexivity.
Qed.
Lemma written_head cur pending st cs : written cur pending st cs -> exists c rest, cs = c :: rest /\ concat c = flat_map code cur ++ pending.
Proof. destruct st as [|o st]; cbn [written]; [intros (c & -> & E)|intros (c & rest & -> & E & _)]; eauto. Qed.
Lemma written_replace cur pending st c rest c' cur' pending' : written cur pending st (c :: rest) ->
  concat c' = flat_map code cur' ++ pending' -> written cur' pending' st (c' :: rest).
Proof.
  destruct st as [|o st]; cbn [written].
  - intros (c0 & E & _) H. injection E as <- ->. eauto.
  - intros (c0 & r0 & E & _ & W) H. injection E as <- ->. exists c', r0. auto.
Qed.

(** * One event *)

Definition in_struct_place (p : place) : bool := match p with InStruct => true | _ => false end.

(** The names of an event as a reader reports them. *)
Definition named (p : place) (e : event) (fld : option token) (an : list token) : Prop :=
  match p with
  | InStruct => exists t sid, ev_field e = Some t /\ tk_sid t = Some sid /\ fld = Some (by_sid sid)
  | _ => fld = None
  end /\
  exists l, sids_of (ev_annot e) = Some l /\ an = map by_sid l.

Definition same_value (e : event) (v : evalue) : Prop :=
  match ev_force (ev_value e) with
  | Ok None => v = EvNone
  | Ok (Some s) => forall t, ev_ion_type e = Some t -> scalar_portable t s -> ev_force v = Ok (Some (as_read s))
  | Err _ => False
  end.

Lemma frames_place fs st : Forall2 frame_of fs st ->
  (match fs with f :: _ => match wf_type f with Some TStruct => true | _ => false end | [] => false end) =
  in_struct_place (place_of st).
Proof.
  intros H. destruct H as [|f o fs st (T & _) _]; [reflexivity|]. rewrite T. cbn [place_of]. destruct (o_type o); reflexivity.
Qed.

Lemma octets_snoc c rest x : Forall (Forall octets) (c :: rest) -> octets x -> Forall (Forall octets) ((c ++ [x]) :: rest).
Proof. intros H O. inversion H; subst. constructor; [apply Forall_app; split; auto|auto]. Qed.

Lemma field_written s cur st e buf :
  winv s cur st -> event_sane e -> begins_value (ev_type e) = true ->
  (if in_struct_place (place_of st) && begins_value (ev_type e)
    then match ev_field e with
         | None => Err AttributeError
         | Some f => match tk_sid f with
                     | None => Err TypeError
                     | Some sid => let* (b, _) := write_varuint [] sid in Ok (bt_add (w_buf s) b)
                     end
         end
    else Ok (w_buf s)) = Ok buf ->
  exists fld cs, field_code (place_of st) fld /\ holds buf cs /\ written cur (opt_octets fst fld) st cs /\
    Forall (Forall octets) cs /\
    forall an l, sids_of (ev_annot e) = Some l -> an = map by_sid l -> named (place_of st) e (field_of fld) an.
Proof.
  intros (_ & _ & _ & cs & HB & W & O) (_ & _ & FS & _) B H. rewrite B, andb_true_r in H.
  destruct (place_of st) eqn:P; cbn [in_struct_place] in H.
  1,2: injection H as <-; exists None, cs; repeat (split; [exact Logic.I || assumption|]); intros an l L ->; split; [reflexivity|eauto].
  destruct (ev_field e) as [t|] eqn:F; [|discriminate]. destruct (tk_sid t) as [sid|] eqn:T; [|discriminate].
  rewrite write_varuint_spec in H by exact FS. cbn [bind app] in H. injection H as <-.
  destruct (written_add _ _ _ _ (varuint_octets sid) W) as (c & rest & -> & W'). cbn [app] in W'.
  exists (Some (varuint_octets sid, sid)), ((c ++ [varuint_octets sid]) :: rest).
  split; [apply varuint_octets_code; exact FS|]. split; [apply holds_add; exact HB|]. split; [exact W'|].
  split; [apply octets_snoc; [exact O|apply varuint_octets_octets]|].
  intros an l L ->. split; [exists t, sid; auto|eauto].
Qed.

(** Closing a value: its octets and, when annotated, the wrapper. *)
Lemma finish_annotated (buf : btree) c p rest annots sids :
  holds buf (c :: p :: rest) -> sids_ok annots -> sids_of annots = Some sids ->
  exists buf', end_annotation_wrapper buf annots = Ok buf' /\
    holds buf' ((p ++ wrapper_octets (wrapper_for sids (zlen (concat c))) :: c) :: rest).
Proof.
  intros H S1 S2. unfold end_annotation_wrapper. rewrite (holds_len _ _ _ H).
  rewrite annotation_header_spec by (auto; apply zlen_nonneg). rewrite S2. cbn [bind]. apply holds_end. exact H.
Qed.

Lemma wrapper_for_octets sids n : 0 <= n -> octets (wrapper_octets (wrapper_for sids n)).
Proof.
  intros N. unfold wrapper_octets. rewrite wrapper_for_sids. unfold wrapper_for; cbn [wr_head wr_len].
  pose proof (zlen_nonneg (sid_octets sids)). pose proof (zlen_nonneg (varuint_octets (zlen (sid_octets sids)))).
  apply octets_app. split; [apply length_octets_octets; [split; [lia|reflexivity]|lia]|].
  apply octets_app. split; [apply varuint_octets_octets|]. unfold sid_octets. clear.
  induction sids as [|x l IH]; cbn [flat_map]; [constructor|]. apply octets_app. split; [apply varuint_octets_octets|exact IH].
Qed.

Lemma scalar_code_fun t v v' bs : scalar_code t v bs -> scalar_code t v' bs -> v = v'.
Proof.
  intros A B. set (c := mkctx None 0 None None).
  pose proof (p_typed_scalar p_no_annot [] c false t v bs [] 0 A (or_introl eq_refl) Logic.I) as X.
  pose proof (p_typed_scalar p_no_annot [] c false t v' bs [] 0 B (or_introl eq_refl) Logic.I) as Y.
  rewrite X in Y. injection Y as ->. reflexivity.
Qed.

Lemma scalar_written e bs v : event_sane e -> ev_force (ev_value e) = Ok v -> serialize_scalar (ev_ion_type e) v = Ok bs ->
  exists t w, ev_ion_type e = Some t /\ scalar_code t w bs /\ octets bs /\ same_value e w.
Proof.
  intros (_ & _ & _ & SS) F S. unfold same_value. rewrite F. destruct (ev_ion_type e) as [t|]; [|destruct v; discriminate].
  exists t. destruct v as [s|].
  - destruct (serialize_scalar_shape t s bs (SS s F) S) as [O [w W]]. exists w. split; [reflexivity|]. split; [exact W|]. split; [exact O|].
    intros t' E P. injection E as <-. destruct (scalar_carried t s P) as (bs' & w' & S' & _ & W' & FV).
    rewrite S in S'. injection S' as <-. rewrite (scalar_code_fun _ _ _ _ W W'). exact FV.
  - cbn [serialize_scalar] in S. injection S as <-. exists EvNone. split; [reflexivity|].
    split; [replace (null_octet t) with (type_id t * 16 + 15) by (destruct t; reflexivity); apply sc_octet; constructor|].
    split; [constructor; [destruct t; unfold is_octet; cbn; lia|constructor]|reflexivity].
Qed.

Lemma node_len_pos t w bs : scalar_code t w bs -> 1 <= zlen bs.
Proof. apply scalar_code_len. Qed.

(** What one accepted event does. *)
Inductive stepped (s : wstate) (cur : list BinFormat.node) (st : list open_) (e : event) (s' : wstate) (out : list Z) : Prop :=
| st_flush : ev_type e = EStreamEnd -> st = [] -> out = flat_map code cur -> octets out -> winv s' [] [] -> stepped s cur st e s' out
| st_scalar v fld an t n : ev_type e = EScalar -> out = [] -> winv s' (cur ++ [n]) st ->
    ev_ion_type e = Some t -> named (place_of st) e fld an -> same_value e v ->
    events (zlen st) n = [mkev EScalar (Some t) v fld an (Some (zlen st))] -> stepped s cur st e s' out
| st_start o : ev_type e = EContainerStart -> out = [] -> winv s' [] (o :: st) -> o_before o = cur ->
    ev_ion_type e = Some (o_type o) -> named (place_of st) e (field_of (o_field o)) (map by_sid (o_sids o)) ->
    stepped s cur st e s' out
| st_end o st' n : ev_type e = EContainerEnd -> out = [] -> st = o :: st' -> winv s' (o_before o ++ [n]) st' ->
    so_far (o_before o ++ [n]) st' = so_far cur st ++ [mkev EContainerEnd (Some (o_type o)) EvNone None [] (Some (zlen st'))] ->
    stepped s cur st e s' out.

Definition wrap_of (sids : list Z) (n : Z) : option wrapper := match sids with [] => None | _ => Some (wrapper_for sids n) end.
Lemma wrap_of_annots sids n : annotations_of (wrap_of sids n) = map by_sid sids.
Proof. destruct sids; [reflexivity|]. apply wrapper_for_annots. Qed.
Lemma wrap_of_ok sids n : Forall (fun s => 0 <= s) sids -> 1 <= n -> wrapper_opt (wrap_of sids n) n.
Proof. intros H N. destruct sids; [exact Logic.I|]. apply wrapper_for_code; [exact H|discriminate|exact N]. Qed.

(** A value of octets [x] (already one or more chunks [xs]) closes in the current container. *)
Lemma written_value cur (fld : option fieldname) st c rest w (xs : list (list Z)) n :
  written cur (opt_octets fst fld) st (c :: rest) ->
  code n = opt_octets fst fld ++ opt_octets wrapper_octets w ++ concat xs ->
  written (cur ++ [n]) [] st ((c ++ match w with Some w => wrapper_octets w :: xs | None => xs end) :: rest).
Proof.
  intros W E. eapply written_replace; [exact W|]. destruct (written_head _ _ _ _ W) as (c0 & r0 & E0 & C). injection E0 as <- <-.
  rewrite concat_app, C, flat_map_app. cbn [flat_map]. rewrite E, !app_nil_r, <- !app_assoc. do 2 f_equal.
  destruct w; reflexivity.
Qed.

Theorem raw_write_step s cur st e s' ws : winv s cur st -> event_sane e -> raw_write s e = Ok (s', ws) ->
  stepped s cur st e s' (flat_map wdata ws).
Proof.
  intros WI ES H. pose proof WI as (NC & SO & FR & cs0 & HB0 & W0 & O0). pose proof ES as (AK & AN & FK & VS).
  unfold raw_write in H. rewrite (frames_place _ _ FR) in H.
  destruct (sids_of (ev_annot e)) as [sids|] eqn:AS; [|congruence].
  pose proof (sids_of_nonneg _ _ AK AS) as SN. pose proof (sids_of_nil _ _ AS) as NIL.
  pose proof (field_written s cur st e) as FW.
  destruct (ev_type e) eqn:TY; cbn [begins_value andb] in *; rewrite ?andb_true_r, ?andb_false_r in *; cbn [bind] in H; try discriminate.
  - (* stream end *)
    destruct FR as [|f o fs st' FO FR]; [|discriminate].
    destruct W0 as (c & -> & CC). rewrite (holds_drain _ _ HB0) in H. cbn [bind] in H. injection H as <- <-.
    apply st_flush; auto.
    + rewrite flat_map_app. cbn [flat_map wdata]. rewrite !app_nil_r. rewrite app_nil_r in CC. rewrite <- CC.
      clear. induction c as [|x c IH]; cbn [map flat_map concat wdata]; [reflexivity|]. rewrite IH. reflexivity.
    + rewrite flat_map_app. cbn [flat_map wdata]. rewrite !app_nil_r. inversion O0 as [|? ? O1 _]; subst. clear -O1.
      induction O1 as [|x c O _ IH]; cbn [map flat_map wdata]; [constructor|]. apply octets_app; auto.
    + apply winv_init.
  - (* scalar *)
    destruct (if in_struct_place (place_of st) then _ else _) as [buf|] eqn:FE; [|discriminate]. cbn [bind] in H.
    destruct (FW buf WI ES eq_refl eq_refl) as (fld & cs & FC & HB & W & O & NM). clear FW.
    destruct (ev_force (ev_value e)) as [v|] eqn:EF; [|discriminate]. cbn [bind] in H.
    destruct (serialize_scalar (ev_ion_type e) v) as [bs|] eqn:SS; [|discriminate]. cbn [bind] in H.
    destruct (scalar_written e bs v ES EF SS) as (t & w & T & SC & OB & SV). pose proof (node_len_pos _ _ _ SC) as LB.
    set (n := NScalar fld (wrap_of sids (zlen bs)) t w bs).
    assert (NO : node_ok (place_of st) n) by (split; [exact FC|]; split; [apply wrap_of_ok; auto|exact SC]).
    destruct (written_head _ _ _ _ W) as (c & rest & -> & _).
    assert (G : exists buf', (if match ev_annot e with [] => false | _ => true end
        then end_annotation_wrapper (bt_add (if match ev_annot e with [] => false | _ => true end then bt_start buf else buf) bs) (ev_annot e)
        else Ok (bt_add (if match ev_annot e with [] => false | _ => true end then bt_start buf else buf) bs)) = Ok buf' /\
        exists cs', holds buf' cs' /\ written (cur ++ [n]) [] st cs' /\ Forall (Forall octets) cs').
    { destruct (ev_annot e) as [|a an] eqn:EA.
      - assert (sids = []) by tauto. subst sids. eexists. split; [reflexivity|]. exists ((c ++ [bs]) :: rest).
        split; [apply holds_add; exact HB|]. split; [|apply octets_snoc; auto].
        apply (written_value cur fld st c rest None [bs] n W). unfold n; cbn [code wrap_of opt_octets concat]. rewrite app_nil_r. reflexivity.
      - pose proof (holds_start _ _ HB) as H1. apply (holds_add _ _ _ bs) in H1. cbn [app] in H1.
        destruct (finish_annotated _ _ _ _ (a :: an) sids H1) as (buf' & E' & H2); [exact AK|exact AS|].
        exists buf'. split; [exact E'|]. cbn [concat] in H2. rewrite app_nil_r in H2. eexists. split; [exact H2|].
        assert (sids <> []) by (intros X; apply NIL in X; discriminate).
        assert (WE : wrap_of sids (zlen bs) = Some (wrapper_for sids (zlen bs))) by (destruct sids; [congruence|reflexivity]).
        split.
        + apply (written_value cur fld st c rest (Some (wrapper_for sids (zlen bs))) [bs] n W). unfold n; cbn [code]. rewrite WE.
          cbn [opt_octets concat]. rewrite app_nil_r. reflexivity.
        + inversion O; subst. constructor; [|auto]. apply Forall_app. split; [auto|]. constructor; [apply wrapper_for_octets; lia|].
          constructor; [exact OB|constructor]. }
    destruct G as (buf' & GE & cs' & H2 & W2 & O2). rewrite GE in H. cbn [bind] in H. injection H as <- <-.
    apply (st_scalar s cur st e _ _ w (field_of fld) (map by_sid sids) t n); auto.
    + split; [apply Forall_app; split; [exact NC|constructor; [exact NO|constructor]]|]. split; [exact SO|].
      split; [exact FR|]. exists cs'. auto.
    + apply (NM (map by_sid sids) sids); auto.
    + unfold n. cbn [events]. rewrite wrap_of_annots. reflexivity.
  - (* container start *)
    destruct (if in_struct_place (place_of st) then _ else _) as [buf|] eqn:FE; [|discriminate]. cbn [bind] in H.
    destruct (FW buf WI ES eq_refl eq_refl) as (fld & cs & FC & HB & W & O & NM). clear FW.
    destruct (ev_ion_type e) as [t|] eqn:T; [|discriminate]. destruct (is_container t) eqn:C; [|discriminate]. injection H as <- <-.
    apply (st_start s cur st e _ _ (mkopen t sids fld cur)); auto.
    + split; [constructor|]. split; [repeat (split; [assumption|]); assumption|].
      split; [constructor; [split; [reflexivity|]; split; assumption|exact FR]|].
      destruct (ev_annot e) as [|a an] eqn:EA.
      * assert (sids = []) by tauto. subst sids. exists ([] :: cs). split; [apply holds_start; exact HB|].
        split; [exists [], cs; cbn; auto|constructor; [constructor|exact O]].
      * assert (sids <> []) by (intros X; apply NIL in X; discriminate).
        exists ([] :: [] :: cs). split; [do 2 apply holds_start; exact HB|].
        split; [|constructor; [constructor|constructor; [constructor|exact O]]].
        exists [], cs. cbn [o_sids o_before o_field]. split; [destruct sids; [congruence|reflexivity]|]. auto.
    + apply (NM (map by_sid sids) sids); auto.
  - (* container end *)
    clear FW. destruct FR as [|f o fs st' FO FR]; [discriminate|]. destruct FO as (FT & FA & FS).
    destruct W0 as (c & rest & -> & CC & W). rewrite app_nil_r in CC.
    destruct SO as (CT & OS & FC & BN & SO).
    unfold end_container_value in H. rewrite (holds_len _ _ _ HB0), FT, CC in H.
    destruct (container_header_spec (o_type o) (zlen (flat_map code cur)) CT (zlen_nonneg _)) as (hd & HE & HC & HO).
    rewrite HE in H. cbn [bind] in H.
    destruct (written_head _ _ _ _ W) as (p & rest' & -> & PC).
    assert (HL : 1 <= zlen hd).
    { clear -HC. destruct (o_type o); cbn [container_code] in HC; try contradiction.
      - exact (header_len _ _ _ _ HC).
      - exact (header_len _ _ _ _ HC).
      - destruct HC as [(_ & _ & ->)|[(x & _ & ->)|(x & _ & _ & ->)]]; rewrite zlen_cons;
          match goal with |- context [zlen ?l] => pose proof (zlen_nonneg l) end; lia. }
    pose proof (sids_of_nil _ _ FS) as NIL2. pose proof (sids_of_nonneg _ _ FA FS) as SN2.
    set (body := hd ++ flat_map code cur).
    set (n := NCont (o_field o) (wrap_of (o_sids o) (zlen body)) (o_type o) hd cur).
    assert (NO : node_ok (place_of st') n).
    { unfold n. cbn [node_ok]. split; [exact FC|]. split; [apply wrap_of_ok; [exact SN2|unfold body; rewrite zlen_app; pose proof (zlen_nonneg (flat_map code cur)); lia]|].
      split; [exact HC|]. cbn [place_of] in NC. clear -NC. induction NC; cbn [fold_right]; auto. }
    assert (G : exists buf', (let* buf0 := bt_end (w_buf s) hd in
        match wf_annot f with [] => Ok buf0 | _ => end_annotation_wrapper buf0 (wf_annot f) end) = Ok buf' /\
        exists cs', holds buf' cs' /\ written (o_before o ++ [n]) [] st' cs' /\ Forall (Forall octets) cs').
    { destruct (wf_annot f) as [|a an] eqn:EA.
      - assert (Z0 : o_sids o = []) by tauto. rewrite Z0 in HB0, O0.
        destruct (holds_end _ _ _ _ hd HB0) as (b1 & -> & H1). cbn [bind]. eexists. split; [reflexivity|]. eexists. split; [exact H1|].
        split.
        + apply (written_value _ _ st' p rest' None (hd :: c) n W). unfold n. rewrite Z0. cbn [code wrap_of opt_octets concat].
          rewrite CC. reflexivity.
        + inversion O0 as [|? ? O1 O2]; subst. inversion O2; subst. constructor; [|auto]. apply Forall_app. split; [auto|]. constructor; auto.
      - assert (Z0 : o_sids o <> []) by (intros X; apply NIL2 in X; discriminate).
        assert (ZE : (match o_sids o with [] => p :: rest' | _ :: _ => [] :: p :: rest' end) = [] :: p :: rest')
          by (destruct (o_sids o); [congruence|reflexivity]).
        rewrite ZE in HB0, O0. destruct (holds_end _ _ _ _ hd HB0) as (b1 & -> & H1). cbn [bind app] in *.
        destruct (finish_annotated _ _ _ _ (a :: an) (o_sids o) H1) as (b2 & -> & H2); [exact FA|exact FS|].
        cbn [concat] in H2. rewrite CC in H2. fold body in H2.
        eexists. split; [reflexivity|]. eexists. split; [exact H2|].
        assert (WE : wrap_of (o_sids o) (zlen body) = Some (wrapper_for (o_sids o) (zlen body))) by (destruct (o_sids o); [congruence|reflexivity]).
        split.
        + apply (written_value _ _ st' p rest' (Some (wrapper_for (o_sids o) (zlen body))) (hd :: c) n W).
          unfold n. cbn [code]. rewrite WE. cbn [opt_octets concat]. rewrite CC. reflexivity.
        + inversion O0 as [|? ? O1 O2]; subst. inversion O2 as [|? ? _ O3]; subst. inversion O3; subst. constructor; [|auto].
          apply Forall_app. split; [auto|]. constructor; [apply wrapper_for_octets; apply zlen_nonneg|]. constructor; auto. }
    destruct G as (buf' & GE & cs' & H2 & W2 & O2).
    assert (HH : s' = mkw fs buf' /\ ws = [NeedsInput []]).
    { destruct (bt_end (w_buf s) hd) as [b1|]; [|discriminate]. cbn [bind] in GE, H.
      destruct (wf_annot f) as [|a an]; [injection GE as ->; cbn [bind] in H; injection H as <- <-; auto|].
      rewrite GE in H. cbn [bind] in H. injection H as <- <-. auto. }
    destruct HH as [-> ->].
    apply (st_end s cur (o :: st') e _ _ o st' n); auto.
    + split; [apply Forall_app; split; [exact BN|constructor; [exact NO|constructor]]|]. split; [exact SO|].
      split; [exact FR|]. exists cs'. auto.
    + rewrite so_far_snoc. cbn [so_far]. rewrite <- app_assoc. f_equal. unfold n. cbn [events app].
      rewrite wrap_of_annots. replace (zlen (o :: st')) with (zlen st' + 1) by (rewrite zlen_cons; lia). reflexivity.
Qed.
