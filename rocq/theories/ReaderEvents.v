(** Every event the raw reader reports was read from octets the format gives that meaning: whatever is sent, in any
    pieces, with any requests, and whether or not the reader meets an error later. *)
From Verif Require Import Base BaseFacts FieldsModel FieldsFacts BufferModel CoreModel BinReaderModel BinReaderSpec BinReaderSim BinReaderNest
  BinReaderSession BinFormat BinFormatFacts BinSoundFacts ReaderGrammarProofs.
Local Open Scope Z_scope.
Local Open Scope list_scope.

(** The events [es] were read from pieces of [l] that follow one another. *)
Inductive in_order : list event -> list Z -> Prop :=
| io_nil l : in_order [] l
| io_cons ev es gap seg l : read_from ev seg -> in_order es l -> in_order (ev :: es) (gap ++ seg ++ l).
Lemma in_order_snoc es l : in_order es l -> forall gap seg ev, read_from ev seg -> in_order (es ++ [ev]) (l ++ gap ++ seg).
Proof.
  induction 1 as [l|e es g s l R I IH]; intros gap seg ev R'.
  - cbn [app]. rewrite <- (app_nil_r seg), (app_assoc l gap). apply io_cons; [exact R'|constructor].
  - rewrite <- !app_assoc. cbn [app]. constructor; auto.
Qed.
Lemma in_order_more es l r : in_order es l -> in_order es (l ++ r).
Proof. induction 1; [constructor|]. rewrite <- !app_assoc. constructor; auto. Qed.
Lemma in_order_in es l ev : in_order es l -> In ev es -> exists before seg after, l = before ++ seg ++ after /\ read_from ev seg.
Proof.
  induction 1 as [l|e es g s l R I IH]; intros H; [destruct H|]. destruct H as [<-|H]; [exists g, s, l; auto|].
  destruct (IH H) as (b & sg & a & -> & R'). exists (g ++ s ++ b), sg, a. rewrite <- !app_assoc. auto.
Qed.

(** * Inside an item *)
Section ITEM.
(** [p0]: where the reader thinks the item starts (after a late SKIP this need not be where it does). *)
Variable p0 : Z.
Definition named (fld : option fieldname) : Prop := fld = None \/ field_code InStruct fld.
Definition wrapped (w : wrapper) (n : Z) : Prop :=
  wr_sids w <> [] /\ Forall (fun p => varuint_code (fst p) (snd p)) (wr_sids w) /\ varuint_code (wr_len w) (zlen (wr_sid_octets w)) /\ header 14 3 n (wr_head w).
Definition before_type (c : rctx) (u : list Z) : Prop := exists fld w, named fld /\ u = opt_octets fst fld ++ opt_octets wrapper_octets w /\ c_field c = field_of fld /\
  match w with
  | None => c_annot c = None
  | Some w => exists n, wrapped w n /\ c_limit c = Some (p0 + zlen (opt_octets fst fld) + zlen (wr_head w) + n) /\ c_annot c = Some (map snd (wr_sids w))
  end.
Definition var_so_far (up : list Z) (acc : Z) : Prop := 0 <= acc /\ forall t v, var_code acc t v -> varuint_code (up ++ t) v.
Definition wrap_open (c : rctx) (u : list Z) : Prop := exists fld hd n, named fld /\ u = opt_octets fst fld ++ hd /\ header 14 3 n hd /\
  c_limit c = Some (p0 + zlen (opt_octets fst fld) + zlen hd + n) /\ c_field c = field_of fld.
Definition before_var (vk : vkont) (c : rctx) (u : list Z) : Prop :=
  match vk with
  | VField => u = []
  | VUser us => exists uv o, u = uv ++ [o] /\ before_type c uv /\ handler_meaning o (HVarLen us)
  | VOrdered => exists uv, u = uv ++ [0xD1] /\ before_type c uv
  | VAnnLen => wrap_open c u
  end.
Definition k_from (k : kont) (u : list Z) : Prop :=
  match k with
  | KVar acc vk c => exists u0 up, u = u0 ++ up /\ var_so_far up acc /\ before_var vk c u0
  | KIvm => exists uv, u = uv ++ [0xE0]
  | KType c ex => before_type c u
  | KScalar k t n c => 0 < n /\ exists uv hd, u = uv ++ hd /\ before_type c uv /\ forall data, zlen data = n -> scalar_code t (payload_value k data) (hd ++ data)
  | KAnn n c => 1 <= n /\ exists uo lc, u = uo ++ lc /\ wrap_open c uo /\ varuint_code lc n
  | KLoop | KSkipped => u = []
  end.
Definition pc_from (p : pc) (u data : list Z) : Prop :=
  match p with
  | PLoop => u = []
  | PVar acc vk c => k_from (KVar acc vk c) u
  | PK k => k_from k u
  | PRead n skip sev k => k_from k u /\ is_stream_signal (ev_type sev) = true /\ (skip = true -> (k = KLoop \/ k = KSkipped) /\ u = [] /\ (0 < n -> data = []))
  end.
End ITEM.

(** [D]: the octets sent so far; [es]: the events reported so far. *)
Definition from (p0 : Z) (past u : list Z) (q : aq) (D : list Z) (es : list event) : Prop :=
  D = past ++ u ++ aq_data q /\ in_order es past /\ aq_pos q = p0 + zlen u /\ octets (aq_data q).
Definition Read (s : rstate) (D : list Z) (es : list event) : Prop :=
  exists p0 past u, from p0 past u (r_q s) D es /\ pc_from p0 (r_pc s) u (aq_data (r_q s)).
Definition waiting (s : rstate) : Prop := exists n b sev k, r_pc s = PRead n b sev k /\ 0 < n.
Definition good_out (D : list Z) (es : list event) (r : sres) : Prop :=
  match r with
  | Err _ => True
  | Ok (s', None) => Read s' D es
  | Ok (s', Some ev) => if is_stream_signal (ev_type ev) then Read s' D es /\ waiting s' else Read s' D (es ++ [ev]) /\ r_pc s' = PLoop
  end.

Lemma from_done p0 past gap seg q D es ev : from p0 past (gap ++ seg) q D es -> read_from ev seg -> from (aq_pos q) (past ++ gap ++ seg) [] q D (es ++ [ev]).
Proof.
  intros (E & I & P & O) R. split; [rewrite E, <- !app_assoc; reflexivity|]. split; [apply in_order_snoc; assumption|]. split; [change (zlen (@nil Z)) with 0; lia|exact O].
Qed.
Lemma from_drop p0 past u q D es : from p0 past u q D es -> from (aq_pos q) (past ++ u) [] q D es.
Proof. intros (E & I & P & O). split; [rewrite E, <- !app_assoc; reflexivity|]. split; [apply in_order_more; exact I|]. split; [change (zlen (@nil Z)) with 0; lia|exact O]. Qed.
Lemma event_out p0 past gap seg q D es ev fs : from p0 past (gap ++ seg) q D es -> read_from ev seg -> is_stream_signal (ev_type ev) = false -> good_out D es (Ok (mkr fs PLoop q, Some ev)).
Proof.
  intros B R S. cbn [good_out]. rewrite S. split; [|reflexivity]. exists (aq_pos q), (past ++ gap ++ seg), []. cbn [r_q r_pc pc_from]. split; [apply (from_done p0); assumption|reflexivity].
Qed.
Lemma from_take p0 past u q D es a r n p : from p0 past u q D es -> aq_data q = a ++ r -> p = aq_pos q + zlen a -> from p0 past (u ++ a) (mkaq r n p) D es.
Proof.
  intros (E & I & P & O) A ->. rewrite A in *. unfold from. cbn [aq_data aq_pos]. split; [rewrite E, <- !app_assoc; reflexivity|]. split; [exact I|]. split; [rewrite zlen_app; lia|]. apply octets_app in O. tauto.
Qed.
Lemma from_extend p0 past u q D es d : from p0 past u q D es -> octets d -> from p0 past u (aq_extend q d) (D ++ d) es.
Proof. intros (E & I & P & O) OD. unfold from, aq_extend. cbn [aq_data aq_pos]. split; [rewrite E, <- !app_assoc; reflexivity|]. split; [exact I|]. split; [exact P|]. apply octets_app; auto. Qed.
(** Taking octets from the buffer. *)
Lemma took q n data q' : aq_read q n = Ok (data, q') -> 0 <= n -> data = ztake n (aq_data q) /\ zlen data = n /\ exists m, q' = mkaq (zdrop n (aq_data q)) m (aq_pos q + n).
Proof.
  unfold aq_read. destruct (aq_size q <? n); [discriminate|]. destruct (zlen (aq_data q) <? n) eqn:L; [discriminate|]. intros H N. injection H as <- <-. split; [reflexivity|]. split; [apply zlen_ztake; lia|eauto].
Qed.
Lemma from_took p0 past u q D es n data q' : from p0 past u q D es -> aq_read q n = Ok (data, q') -> 0 <= n -> from p0 past (u ++ data) q' D es.
Proof. intros B H N. apply took in H as (-> & L & m & ->); [|exact N]. apply (from_take p0 past u q D es (ztake n (aq_data q)) (zdrop n (aq_data q))); [exact B|symmetry; apply ztake_drop|lia]. Qed.

(** * The pieces of the machine *)
Lemma read_out p0 past u q D es fs c n sev k : from p0 past u q D es -> k_from p0 k u -> is_stream_signal (ev_type sev) = true -> good_out D es (begin_read fs q c n false sev k).
Proof.
  intros B K S. unfold begin_read. destruct (if c_depth c =? 0 then _ else _); [|exact Logic.I]. cbn [bind good_out]. exists p0, past, u. cbn [r_q r_pc pc_from]. split; [exact B|]. split; [exact K|]. split; [destruct (0 <? aq_size q); [reflexivity|exact S]|discriminate].
Qed.
Lemma skip_read_out p0 past u q D es fs c n sev k : from p0 past u q D es -> k = KLoop \/ k = KSkipped -> is_stream_signal (ev_type sev) = true -> good_out D es (begin_read fs q c n true sev k).
Proof.
  intros B K S. unfold begin_read. destruct (if c_depth c =? 0 then _ else _); [|exact Logic.I]. cbn [bind].
  assert (KF : forall p, k_from p k []) by (intros p; destruct K; subst k; reflexivity).
  assert (SG : is_stream_signal (ev_type (if 0 <? aq_size q then incomplete_event else sev)) = true) by (destruct (0 <? aq_size q); [reflexivity|exact S]).
  assert (G : forall q' rem m, (exists a, aq_data q = a ++ aq_data q') -> (0 < m -> aq_data q' = []) -> good_out D es (let* q0 := (let* (_, q0) := Ok (rem : Z, q') in Ok q0) in Ok (mkr fs (PRead m true (if 0 <? aq_size q then incomplete_event else sev) k) q0, None))).
  { intros q' rem m (a0 & A) N. cbn [bind good_out]. exists (aq_pos q'), (past ++ u ++ a0), []. cbn [r_q r_pc pc_from]. destruct B as (E & I & P & O). split; [|split; [apply KF|auto]].
    split; [rewrite E, A, <- !app_assoc; reflexivity|]. split; [apply in_order_more; exact I|]. split; [change (zlen (@nil Z)) with 0; lia|]. rewrite A in O. apply octets_app in O. tauto. }
  unfold aq_skip. destruct (0 <=? n - aq_size q) eqn:L.
  - rewrite Z.leb_refl. apply G; [exists (aq_data q); symmetry; apply app_nil_r|reflexivity].
  - destruct (aq_size q <=? aq_size q + (n - aq_size q)) eqn:L2; [lia|]. unfold aq_read. destruct (aq_size q <? _); [exact Logic.I|]. destruct (zlen (aq_data q) <? _); [exact Logic.I|].
    cbn [bind]. match goal with |- context [mkaq ?d ?m ?p] => apply (G (mkaq d m p) 0) end; [exists (ztake (aq_size q + (n - aq_size q)) (aq_data q)); symmetry; apply ztake_drop|lia].
Qed.
Lemma emit_out p0 past u body q D es fs c t v : from p0 past (u ++ body) q D es -> before_type p0 c u -> scalar_code t v body -> good_out D es (emit fs q c EScalar t v).
Proof.
  intros B (fld & w & F & -> & CF & V) S. unfold emit. cbv zeta. rewrite CF.
  assert (G : wrapper_opt w (zlen body) -> map sid_token (match c_annot c with Some a => a | None => [] end) = annotations_of w ->
    good_out D es (Ok (mkr fs PLoop q, Some (mkev EScalar (Some t) v (field_of fld) (map sid_token (match c_annot c with Some a => a | None => [] end)) (Some (c_depth c)))))).
  { intros W ->. apply (event_out p0 past [] (opt_octets fst fld ++ opt_octets wrapper_octets w ++ body)); [cbn [app]; rewrite <- app_assoc in B; exact B|constructor; assumption|reflexivity]. }
  destruct w as [w|].
  - destruct V as (n & (NE & FS & VL & HD) & CL & CA). rewrite CA, CL in *. destruct w as [wh wl ws]. cbn [wr_sids wr_head wr_len] in *. destruct ws as [|x ws]; [congruence|]. cbn [map] in *.
    match goal with |- context [if ?b then _ else _] => destruct b eqn:EQ; cbn [bind]; [|exact Logic.I] end. apply G.
    + split; [discriminate|]. split; [exact FS|]. split; [exact VL|]. cbn [wr_head wr_len]. apply Z.eqb_eq in EQ. destruct B as (_ & _ & P & _). rewrite P in EQ. cbn [opt_octets] in EQ. unfold wrapper_octets in EQ. cbn [wr_head wr_len] in EQ. rewrite !zlen_app in EQ.
      match goal with |- header _ _ ?a _ => replace a with n by lia end. exact HD.
    + cbn [annotations_of wr_sids map]. rewrite map_map. reflexivity.
  - rewrite V in *. cbn [bind]. apply G; [exact Logic.I|reflexivity].
Qed.
Lemma start_out p0 past u hd q D es fs c t n : from p0 past (u ++ hd) q D es -> before_type p0 c u -> container_code t n hd -> good_out D es (run_user fs q (UContainer t) n c).
Proof.
  intros B (fld & w & F & -> & CF & V) S. cbn [run_user]. cbv zeta.
  assert (G : wrapper_opt w (zlen hd + n) -> map sid_token (match c_annot c with Some a => a | None => [] end) = annotations_of w ->
    good_out D es (emit (mkframe (Some t) (Some (aq_pos q + n)) (c_depth c + 1) true :: fs) q c EContainerStart t EvNone)).
  { intros W CA. unfold emit. cbv zeta. cbn [bind]. rewrite CF, CA. apply (event_out p0 past [] (opt_octets fst fld ++ opt_octets wrapper_octets w ++ hd)); [cbn [app]; rewrite <- app_assoc in B; exact B|econstructor; eassumption|reflexivity]. }
  destruct w as [w|].
  - destruct V as (m & (NE & FS & VL & HD) & CL & CA). rewrite CA, CL in *. destruct w as [wh wl ws]. cbn [wr_sids wr_head wr_len] in *. destruct ws as [|x ws]; [congruence|]. cbn [map] in *.
    match goal with |- context [if ?b then _ else _] => destruct b eqn:EQ; cbn [bind]; [|exact Logic.I] end. apply G.
    + split; [discriminate|]. split; [exact FS|]. split; [exact VL|]. cbn [wr_head wr_len]. cbn [opt_eqb] in EQ. apply Z.eqb_eq in EQ. destruct B as (_ & _ & P & _). rewrite P in EQ. cbn [opt_octets] in EQ. unfold wrapper_octets in EQ. cbn [wr_head wr_len] in EQ. rewrite !zlen_app in EQ.
      match goal with |- header _ _ ?a _ => replace a with m by lia end. exact HD.
    + cbn [annotations_of wr_sids map]. rewrite map_map. reflexivity.
  - rewrite V in *. cbn [bind]. apply G; [exact Logic.I|reflexivity].
Qed.
Lemma var_out p0 past u q D es fs vk c : from p0 past u q D es -> before_var p0 vk c u -> good_out D es (Ok (mkr fs (PVar 0 vk c) q, None)).
Proof. intros B V. exists p0, past, u. cbn [r_q r_pc pc_from k_from]. split; [exact B|]. exists u, []. split; [rewrite app_nil_r; reflexivity|]. split; [split; [lia|intros t v X; exact X]|exact V]. Qed.
Lemma user_out p0 past u hd q D es fs c us n : from p0 past (u ++ hd) q D es -> before_type p0 c u -> 0 <= n ->
  match us with
  | UScalar k t => forall data, zlen data = n -> scalar_code t (payload_value k data) (hd ++ data)
  | UContainer t => container_code t n hd
  | UAnnot => header 14 3 n hd
  | UNop => True
  end -> good_out D es (run_user fs q us n c).
Proof.
  intros B V N H. destruct us as [k t|t| |].
  - cbn [run_user]. destruct (n =? 0) eqn:N0.
    + unfold emit_scalar. apply (emit_out p0 past u hd); auto. assert (n = 0) by lia. subst n. specialize (H [] eq_refl). rewrite app_nil_r in H. destruct k; exact H.
    + apply (read_out p0 past (u ++ hd)); [exact B| |reflexivity]. cbn [k_from]. split; [lia|]. exists u, hd. auto.
  - apply (start_out p0 past u hd); auto.
  - cbn [run_user]. destruct V as (fld & w & F & -> & CF & V). destruct w as [w|]; [destruct V as (m & _ & _ & ->); exact Logic.I|]. rewrite V. cbn [opt_octets] in B. rewrite app_nil_r in B.
    apply (var_out p0 past (opt_octets fst fld ++ hd)); [exact B|]. cbn [before_var]. exists fld, hd, n. split; [exact F|]. split; [reflexivity|]. split; [exact H|]. cbn [c_limit c_field]. split; [|exact CF]. destruct B as (_ & _ & P & _). rewrite P, zlen_app. f_equal. lia.
  - cbn [run_user]. cbv zeta. destruct (match c_field c with Some _ => _ | None => _ end); [exact Logic.I|]. destruct (0 <? n).
    + apply (skip_read_out p0 past (u ++ hd)); auto.
    + cbn [good_out]. exists (aq_pos q), (past ++ u ++ hd), []. cbn [r_q r_pc pc_from]. split; [apply (from_drop p0); exact B|reflexivity].
Qed.
Lemma handler_out p0 past u q D es fs c o : from p0 past (u ++ [o]) q D es -> is_octet o -> before_type p0 c u -> good_out D es (run_handler fs q (dispatch o) c).
Proof.
  intros B O V. pose proof (dispatch_meaning o O) as M. destruct (dispatch o) as [| |t v|us n|us|] eqn:DH; cbn [run_handler handler_meaning] in *.
  - exact Logic.I.
  - destruct (negb (c_depth c =? 0)); [exact Logic.I|]. subst o. apply (read_out p0 past (u ++ [0xE0])); [exact B| |reflexivity]. exists u. reflexivity.
  - apply (emit_out p0 past u [o]); auto. constructor. exact M.
  - pose proof (dispatch_len_nonneg _ _ _ DH) as N. apply (user_out p0 past u [o]); auto. destruct us as [k t|t| |]; cbn [handler_meaning] in M.
    + intros data L. destruct M as [(tid & PT & R & ->)|(-> & -> & M)].
      * apply (sc_payload tid k t [tid * 16 + n] data PT). rewrite L. apply header_short. exact R.
      * destruct M as [[-> ->]|[-> ->]]; constructor; exact L.
    + exact M.
    + destruct M as (R & ->). apply header_short. exact R.
    + exact Logic.I.
  - apply (var_out p0 past (u ++ [o])); [exact B|]. exists u, o. auto.
  - subst o. apply (var_out p0 past (u ++ [0xD1])); [exact B|]. exists u. auto.
Qed.
Lemma start_type_out p0 past u q D es fs c ex top : from p0 past u q D es -> before_type p0 c u -> good_out D es (start_type fs q c ex top).
Proof. intros B V. unfold start_type. apply (read_out p0 past u); [exact B|exact V|destruct top; reflexivity]. Qed.
Lemma var_done_out p0 past u0 up q D es fs v vk c : from p0 past (u0 ++ up) q D es -> varuint_code up v -> before_var p0 vk c u0 -> good_out D es (var_done fs q v vk c).
Proof.
  intros B C V. pose proof (var_code_nonneg _ _ _ C ltac:(lia)) as N. destruct vk as [|us| |]; cbn [before_var var_done] in *.
  - destruct fs as [|f rest]; [exact Logic.I|]. cbv zeta. subst u0. cbn [app] in B. apply (start_type_out p0 past up); [exact B|]. exists (Some (up, v)), None. cbn [opt_octets fst c_field c_annot]. rewrite app_nil_r. split; [right; exact C|]. split; [reflexivity|]. split; reflexivity.
  - destruct V as (uv & o & -> & V & M). rewrite <- app_assoc in B. apply (user_out p0 past uv ([o] ++ up)); auto. destruct us as [k t|t| |]; cbn [handler_meaning] in M.
    + intros data L. destruct M as (tid & PT & ->). apply (sc_payload tid k t _ data PT). rewrite L. apply header_long. exact C.
    + destruct M as [[-> ->]|[[-> ->]|[-> ->]]]; cbn [container_code].
      * apply (header_long 11). exact C.
      * apply (header_long 12). exact C.
      * right; left. exists up. auto.
    + subst o. apply header_long. exact C.
    + exact Logic.I.
  - destruct V as (uv & -> & V). destruct (v <? 2) eqn:L; [exact Logic.I|]. rewrite <- app_assoc in B. apply (user_out p0 past uv ([0xD1] ++ up)); auto. cbn [container_code]. right; right. exists up. split; [exact C|]. split; [lia|reflexivity].
  - destruct (v <? 1) eqn:L; [exact Logic.I|]. apply (read_out p0 past (u0 ++ up)); [exact B| |reflexivity]. cbn [k_from]. split; [lia|]. exists u0, up. auto.
Qed.
Lemma byte_out p0 past u q D es fs acc vk c : from p0 past u q D es -> k_from p0 (KVar acc vk c) u ->
  good_out D es (let* (octet, q) := aq_read_byte q in let value := varuint_step acc octet in if varuint_last octet then var_done fs q value vk c else Ok (mkr fs (PVar value vk c) q, None)).
Proof.
  intros B (u0 & up & -> & (A0 & VP) & V). unfold aq_read_byte. destruct (aq_size q <? 1); [exact Logic.I|]. destruct (aq_data q) as [|b r] eqn:DQ; [exact Logic.I|]. cbn [bind]. cbv zeta.
  assert (O : is_octet b) by (destruct B as (_ & _ & _ & O); rewrite DQ in O; apply octets_cons in O; tauto).
  assert (B' : from p0 past (u0 ++ up ++ [b]) (mkaq r (aq_size q - 1) (aq_pos q + 1)) D es) by (rewrite app_assoc; apply (from_take p0 past (u0 ++ up) q D es [b] r); auto).
  unfold varuint_last. unfold is_octet in O. rewrite bit7_octet by lia. rewrite varuint_step_eq. destruct (128 <=? b) eqn:L.
  - apply (var_done_out p0 past u0 (up ++ [b])); [exact B'| |exact V]. apply VP. replace (b mod 128) with (b - 128) by (apply Z.mod_unique with 1; lia). replace [b] with [128 + (b - 128)] by (f_equal; lia). constructor. lia.
  - rewrite Z.mod_small by lia. cbn [good_out]. exists p0, past, (u0 ++ up ++ [b]). cbn [r_q r_pc pc_from k_from]. split; [exact B'|]. exists u0, (up ++ [b]). split; [reflexivity|]. split; [|exact V]. split; [lia|]. intros t v X. rewrite <- app_assoc. apply VP. cbn [app]. constructor; [lia|exact X].
Qed.
Lemma body_out p0 past q D es fs : from p0 past [] q D es -> good_out D es (container_body fs q).
Proof.
  intros B. unfold container_body. destruct fs as [|f rest]; [exact Logic.I|]. destruct (opt_eqb Z.eqb (Some (aq_pos q)) (f_limit f)).
  - apply (event_out p0 past [] []); [exact B|constructor|reflexivity].
  - cbv zeta. assert (G : forall g r d fr a b, good_out D es (start_type (mkframe g r d fr :: rest) q (mkctx (f_limit f) (f_depth f) None None) a b)).
    { intros. apply (start_type_out p0 past []); [exact B|]. exists None, None. split; [left; reflexivity|]. split; [reflexivity|]. split; reflexivity. }
    destruct (f_type f) as [[]|]; try apply G. apply (var_out p0 past []); [exact B|reflexivity].
Qed.

(** * Steps *)
Definition can_take (s : rstate) (inp : option devent) : Prop :=
  match inp with Some (DData d) => octets d /\ waiting s | _ => True end.
Theorem step_out s inp D es : Read s D es -> can_take s inp -> good_out (D ++ data_of inp) es (step s inp).
Proof.
  intros (p0 & past & u & B & S) CT. destruct s as [fs p q]. cbn [r_q r_pc] in *. unfold step. cbn [r_q r_pc r_frames].
  assert (NR : (forall n b sev k, p <> PRead n b sev k) -> D ++ data_of inp = D).
  { intros X. destruct inp as [[| |d]|]; try apply app_nil_r. destruct CT as (_ & n & b & sev & k & E & _). destruct (X n b sev k E). }
  destruct p as [|n b sev k|k|acc vk c].
  - rewrite NR by discriminate. cbn [pc_from] in S. subst u. destruct inp as [[| |d]|]; try exact (body_out p0 past q D es fs B).
    destruct fs as [|f rest]; [exact Logic.I|]. destruct (f_limit f); [|exact Logic.I]. apply (skip_read_out p0 past []); auto.
  - cbn [pc_from] in S. destruct S as (K & SG & SK).
    assert (G : forall p1 m sv past' u' q' D', from p1 past' u' q' D' es -> k_from p1 k u' -> is_stream_signal (ev_type sv) = true -> (b = true -> (k = KLoop \/ k = KSkipped) /\ u' = [] /\ (0 < m -> aq_data q' = [])) ->
       good_out D' es (if m <=? 0 then Ok (mkr fs (PK k) q', None) else Ok (mkr fs (PRead m b sv k) q', Some sv))).
    { intros p1 m sv past' u' q' D' B' K' SG' SK'. destruct (m <=? 0) eqn:M; cbn [good_out].
      - exists p1, past', u'. auto.
      - rewrite SG'. split; [exists p1, past', u'; cbn [r_q r_pc pc_from]; auto|]. exists m, b, sv, k. split; [reflexivity|lia]. }
    destruct inp as [[| |d]|]; cbn [data_of]; try (rewrite app_nil_r; apply (G p0 n sev past u q D); assumption).
    destruct CT as (OD & n' & b' & sev' & k' & X & NP). cbn [r_pc] in X. injection X as <- <- <- <-.
    assert (SG' : is_stream_signal (ev_type (if 0 <? zlen d then incomplete_event else sev)) = true) by (destruct (0 <? zlen d); [reflexivity|exact SG]).
    destruct b; [|apply (G p0 _ _ past u); [apply from_extend; assumption|exact K|exact SG'|discriminate]].
    destruct (SK eq_refl) as (KK & -> & DE). specialize (DE NP). pose proof B as (E & I & P & O). rewrite DE in *. cbn [app] in E. rewrite app_nil_r in E. subst past.
    assert (KF : forall p, k_from p k []) by (intros p; destruct KK; subst k; reflexivity).
    destruct (n - zlen d <? 0) eqn:L0; cbn [app].
    + match goal with |- context [mkaq ?a ?m ?p] => apply (G p _ _ (D ++ ztake (zlen d + (n - zlen d)) d) [] (mkaq a m p)) end; [|apply KF|exact SG'|intros _; split; [exact KK|split; [reflexivity|lia]]].
      unfold from. cbn [aq_data aq_pos app]. split; [rewrite <- app_assoc, ztake_drop; reflexivity|]. split; [apply in_order_more; exact I|]. split; [change (zlen (@nil Z)) with 0; lia|].
      rewrite <- (ztake_drop (zlen d + (n - zlen d)) d) in OD. apply octets_app in OD. tauto.
    + match goal with |- context [mkaq ?a ?m ?p] => apply (G p _ _ (D ++ d) [] (mkaq a m p)) end; [|apply KF|exact SG'|intros _; split; [exact KK|split; [reflexivity|reflexivity]]].
      unfold from. cbn [aq_data aq_pos app]. split; [rewrite app_nil_r; reflexivity|]. split; [apply in_order_more; exact I|]. split; [change (zlen (@nil Z)) with 0; lia|constructor].
  - rewrite NR by discriminate. cbn [pc_from] in S. destruct k as [acc vk c| |c ex|k t n c|n c| |].
    + apply (byte_out p0 past u); assumption.
    + destruct S as (uv & ->). destruct (aq_read q 3) as [[tail q']|] eqn:R; [|exact Logic.I]. cbn [bind]. destruct (zlist_eqb _ _) eqn:Z; [|exact Logic.I]. apply zlist_eqb_eq in Z.
      pose proof (from_took _ _ _ _ _ _ _ _ _ B R ltac:(lia)) as B'. rewrite Z, <- app_assoc in B'. apply (event_out p0 past uv ivm); [exact B'|constructor|reflexivity].
    + cbn [k_from] in S. unfold aq_read_byte. destruct (aq_size q <? 1); [exact Logic.I|]. destruct (aq_data q) as [|o r] eqn:DQ; [exact Logic.I|]. cbn [bind].
      assert (O : is_octet o) by (destruct B as (_ & _ & _ & O); rewrite DQ in O; apply octets_cons in O; tauto). destruct (ex && negb (o =? 224)); [exact Logic.I|].
      apply (handler_out p0 past u); [apply (from_take p0 past u q D es [o] r); auto|exact O|exact S].
    + destruct S as (N & uv & hd & -> & V & H). destruct (aq_read q n) as [[data q']|] eqn:R; [|exact Logic.I]. cbn [bind]. unfold emit_scalar.
      pose proof (from_took _ _ _ _ _ _ _ _ _ B R ltac:(lia)) as B'. rewrite <- app_assoc in B'. apply (emit_out p0 past uv (hd ++ data)); [exact B'|exact V|]. apply (H data). apply took in R; [tauto|lia].
    + destruct S as (N & uo & lc & -> & (fld & hd & m & F & -> & HD & CL & CF) & VL). destruct (aq_read q n) as [[data q']|] eqn:R; [|exact Logic.I]. cbn [bind].
      pose proof (from_took _ _ _ _ _ _ _ _ _ B R ltac:(lia)) as B'. apply took in R as (-> & LN & _); [|lia].
      destruct (parse_sids (ztake n (aq_data q))) as [sids|e] eqn:PS; [|exact Logic.I]. cbn [bind]. rewrite CL. match goal with |- context [if ?x <? 1 then _ else _] => destruct (x <? 1); [exact Logic.I|] end.
      assert (OT : octets (ztake n (aq_data q))) by (destruct B as (_ & _ & _ & O); rewrite <- (ztake_drop n (aq_data q)) in O; apply octets_app in O; tauto).
      unfold parse_sids in PS. apply parse_sids_inv in PS as (l & EL & -> & FS); [|lia|exact OT]. rewrite EL in *.
      apply (start_type_out p0 past (opt_octets fst fld ++ opt_octets wrapper_octets (Some (mkwrapper hd lc l)))).
      * cbn [opt_octets]. unfold wrapper_octets, wr_sid_octets. cbn [wr_head wr_len wr_sids]. rewrite <- !app_assoc in *. exact B'.
      * exists fld, (Some (mkwrapper hd lc l)). split; [exact F|]. split; [reflexivity|]. cbn [c_field c_annot c_limit]. split; [exact CF|]. exists m. split; [|split; reflexivity].
        split; [cbn; intros ->; cbn in LN; change (zlen (@nil Z)) with 0 in LN; lia|]. split; [exact FS|]. split; [|exact HD]. unfold wr_sid_octets. cbn [wr_len wr_sids]. rewrite LN. exact VL.
    + cbn [k_from] in S. subst u. exact (body_out p0 past q D es fs B).
    + cbn [k_from] in S. subst u. exact (body_out p0 past q D es fs B).
  - rewrite NR by discriminate. cbn [pc_from] in S. destruct (aq_size q =? 0).
    + apply (read_out p0 past u); [exact B|exact S|reflexivity].
    + apply (byte_out p0 past u); assumption.
Qed.

(** * Runs, replies, sessions *)
Lemma run_out fuel : forall s inp D es, Read s D es -> can_take s inp ->
  match run fuel s inp with Err _ => True | Ok (s', ev) => good_out (D ++ data_of inp) es (Ok (s', Some ev)) end.
Proof.
  induction fuel as [|fuel IH]; intros s inp D es R C; [exact Logic.I|]. cbn [run]. pose proof (step_out s inp D es R C) as K. destruct (step s inp) as [[s' [ev|]]|e]; [exact K| |exact Logic.I].
  specialize (IH s' None (D ++ data_of inp) es K Logic.I). cbn [data_of] in IH. rewrite app_nil_r in IH. exact IH.
Qed.
Definition reader_from (r : reader) (D : list Z) (es : list event) : Prop :=
  match r with
  | RFresh s => Read s D es
  | RAt s last => Read s D es /\ (is_stream_signal (ev_type last) = true -> waiting s)
  | RDead => in_order es D
  end.
Definition reported (ev : event) : list event := if is_stream_signal (ev_type ev) then [] else [ev].
Definition octets_in (d : devent) : Prop := match d with DData x => octets x | _ => True end.
Lemma send_out r D es d : reader_from r D es -> octets_in d ->
  match reader_send r d with (Ok ev, r') => reader_from r' (D ++ data_of (Some d)) (es ++ reported ev) | (Err _, _) => True end.
Proof.
  intros R O.
  assert (G : forall s, Read s D es -> can_take s (Some d) -> match (match run (steps_fuel s (Some d)) s (Some d) with Ok (s', ev) => (Ok ev, RAt s' ev) | Err e => (Err e, RDead) end) with (Ok ev, r') => reader_from r' (D ++ data_of (Some d)) (es ++ reported ev) | (Err _, _) => True end).
  { intros s RS C. pose proof (run_out (steps_fuel s (Some d)) s (Some d) D es RS C) as K. destruct (run (steps_fuel s (Some d)) s (Some d)) as [[s' ev]|]; [|exact Logic.I]. cbn [good_out] in K. cbn [reader_from]. unfold reported. destruct (is_stream_signal (ev_type ev)); [rewrite app_nil_r; tauto|split; [tauto|discriminate]]. }
  destruct r as [s|s last|]; cbn [reader_send reader_from] in *; [| |exact Logic.I].
  - destruct d; try exact Logic.I. apply G; [exact R|exact Logic.I].
  - destruct R as (R & W). destruct (protocol_check last d) as [x|] eqn:PC; [|exact Logic.I]. apply G; [exact R|]. destruct d as [| |x0]; try exact Logic.I. split; [exact O|]. apply W.
    unfold protocol_check in PC. destruct (is_stream_signal (ev_type last)); [reflexivity|discriminate PC].
Qed.
Lemma send_at r d ev r' : reader_send r d = (Ok ev, r') -> exists s, r' = RAt s ev.
Proof.
  intros H. destruct r as [s|s last|]; cbn [reader_send] in H; [| |discriminate].
  - destruct d; try discriminate. destruct (run _ _ _) as [[s' ev']|]; [|discriminate]. injection H as <- <-. eauto.
  - destruct (protocol_check last d); [|discriminate]. destruct (run _ _ _) as [[s' ev']|]; [|discriminate]. injection H as <- <-. eauto.
Qed.
Lemma reader_order r D es : reader_from r D es -> in_order es D.
Proof.
  destruct r as [s|s last|]; cbn [reader_from]; [| |auto].
  - intros (p0 & past & u & (-> & I & _) & _). apply in_order_more. exact I.
  - intros ((p0 & past & u & (-> & I & _) & _) & _). apply in_order_more. exact I.
Qed.
Lemma start_from : reader_from reader_new [] [].
Proof. cbn [reader_from reader_new]. exists 0, [], []. cbn [reader_init r_q r_pc pc_from]. split; [|reflexivity]. split; [reflexivity|]. split; [constructor|]. split; [reflexivity|constructor]. Qed.
Definition values (evs : list event) : list event := filter (fun e => negb (is_stream_signal (ev_type e))) evs.
Lemma replies_order ds : forall r D es, reader_from r D es -> Forall octets_in ds -> in_order (es ++ values (replies r ds)) (D ++ sent ds).
Proof.
  induction ds as [|d ds IH]; intros r D es R O; cbn [replies].
  - cbn [values filter sent]. rewrite !app_nil_r. exact (reader_order _ _ _ R).
  - pose proof (send_out r D es d R (Forall_inv O)) as S. destruct (reader_send r d) as [[ev|e] r'].
    + specialize (IH r' _ _ S (Forall_inv_tail O)). replace (D ++ sent (d :: ds)) with ((D ++ data_of (Some d)) ++ sent ds) by (destruct d; cbn [sent data_of]; rewrite ?app_nil_r, <- ?app_assoc; reflexivity).
      rewrite <- app_assoc in IH. unfold reported in IH. cbn [values filter]. destruct (is_stream_signal (ev_type ev)); exact IH.
    + cbn [values filter]. rewrite app_nil_r. apply in_order_more. exact (reader_order _ _ _ R).
Qed.
Lemma feed_out chunks : chunks_ok chunks -> forall s ev D es, reader_from (RAt s ev) D (es ++ reported ev) ->
  match feed (RAt s ev) ev chunks with
  | (Ok ev', r', cs) => ev_type ev' = EStreamEnd \/ is_stream_signal (ev_type ev') = false /\ exists gone, chunks = gone ++ cs /\ reader_from r' (D ++ concat gone) (es ++ [ev'])
  | (Err _, _, _) => True
  end.
Proof.
  induction chunks as [|c cs IH]; intros CO s ev D es R; cbn [feed]; destruct (is_stream_signal (ev_type ev)) eqn:SG.
  - destruct (ev_type ev) eqn:T; try discriminate SG; [|auto]. cbn [reader_send]. unfold protocol_check. rewrite T. exact Logic.I.
  - right. split; [exact SG|]. exists []. split; [reflexivity|]. change (concat (@nil (list Z))) with (@nil Z). rewrite (app_nil_r D). unfold reported in R. rewrite SG in R. exact R.
  - assert (OC : octets_in (DData c)) by (apply (Forall_inv CO)). unfold reported in R. rewrite SG, app_nil_r in R. pose proof (send_out _ D es (DData c) R OC) as S. destruct (reader_send (RAt s ev) (DData c)) as [[ev'|e] r'] eqn:RS; [|exact Logic.I].
    destruct (send_at _ _ _ _ RS) as (s' & ->). specialize (IH (Forall_inv_tail CO) s' ev' _ es S). destruct (feed (RAt s' ev') ev' cs) as [[[ev2|e] r2] cs2]; [|exact Logic.I]. destruct IH as [IH|(SG2 & gone & -> & H)]; [auto|]. right. split; [exact SG2|]. exists (c :: gone). split; [reflexivity|]. cbn [concat data_of] in *. rewrite app_assoc. exact H.
  - right. split; [exact SG|]. exists []. split; [reflexivity|]. change (concat (@nil (list Z))) with (@nil Z). rewrite (app_nil_r D). unfold reported in R. rewrite SG in R. exact R.
Qed.
Definition idle (r : reader) : Prop := match r with RAt _ last => is_stream_signal (ev_type last) = false | _ => True end.
Lemma feed_idle chunks : forall s ev, match feed (RAt s ev) ev chunks with (Ok ev', r', _) => is_stream_signal (ev_type ev') = false -> idle r' | _ => True end.
Proof.
  induction chunks as [|c cs IH]; intros s ev; cbn [feed]; destruct (is_stream_signal (ev_type ev)) eqn:SG; try (intros _; exact SG).
  - destruct (ev_type ev) eqn:T; try discriminate SG; [|discriminate]. cbn [reader_send]. unfold protocol_check. rewrite T. exact Logic.I.
  - destruct (reader_send (RAt s ev) (DData c)) as [[ev'|e] r'] eqn:RS; [|exact Logic.I]. destruct (send_at _ _ _ _ RS) as (s' & ->). apply IH.
Qed.
Lemma idle_data r d : idle r -> exists e r', reader_send r (DData d) = (Err e, r').
Proof. destruct r as [s|s last|]; cbn [idle reader_send]; eauto. intros I. unfold protocol_check. rewrite I. cbn [bind]. eauto. Qed.
Lemma session_order reqs : forall r chunks D es, chunks_ok chunks -> reader_from r D es -> idle r -> in_order (es ++ fst (session r chunks reqs)) (D ++ concat chunks).
Proof.
  induction reqs as [|q qs IH]; intros r chunks D es CO R ID; cbn [session].
  - cbn [fst]. rewrite app_nil_r. apply in_order_more. exact (reader_order _ _ _ R).
  - assert (OR : in_order (es ++ []) (D ++ concat chunks)) by (rewrite app_nil_r; apply in_order_more; exact (reader_order _ _ _ R)).
    assert (G : octets_in q -> data_of (Some q) = [] -> in_order (es ++ fst (match blocking_next r chunks q with (Ok ev, r', cs) => match ev_type ev with EStreamEnd => ([], SEnd) | _ => let '(evs, st) := session r' cs qs in (ev :: evs, st) end | (Err e, _, _) => ([], SExc e) end)) (D ++ concat chunks)).
    { intros OI DQ. unfold blocking_next. pose proof (send_out r D es q R OI) as S. rewrite DQ, (app_nil_r D) in S. destruct (reader_send r q) as [[ev|e] r'] eqn:RS; [|exact OR]. destruct (send_at _ _ _ _ RS) as (s & ->).
      pose proof (feed_out chunks CO s ev D es S) as F. pose proof (feed_idle chunks s ev) as FI. destruct (feed (RAt s ev) ev chunks) as [[[ev2|e] r2] cs2]; [|exact OR]. destruct F as [T|(SG & gone & -> & F)]; [rewrite T; exact OR|].
      assert (X : in_order (es ++ fst (let '(evs, st) := session r2 cs2 qs in (ev2 :: evs, st))) (D ++ concat (gone ++ cs2)))
        by (apply Forall_app in CO; specialize (IH r2 cs2 _ _ (proj2 CO) F (FI SG)); destruct (session r2 cs2 qs) as [evs st]; cbn [fst] in *; rewrite concat_app, app_assoc; rewrite <- app_assoc in IH; exact IH).
      destruct (ev_type ev2); try exact X; exact OR. }
    destruct q as [| |d]; [exact (G Logic.I eq_refl)|exact (G Logic.I eq_refl)|]. clear G. unfold blocking_next. destruct (idle_data r d ID) as (e & r' & ->). exact OR.
Qed.
