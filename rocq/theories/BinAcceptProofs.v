(** The reader machine only takes what [accepted] allows: a forward invariant over the octets sent so far. *)
From Verif Require Import Base BaseFacts FieldsModel FieldsFacts BufferModel CoreModel BinReaderModel BinReaderSpec BinReaderSim BinReaderSession BinFormat BinFormatFacts BinSoundFacts BinAccepts.
Local Open Scope Z_scope.
Local Open Scope list_scope.

(** * Items and chains of items *)
Definition place_of (f : frame) : place := match f_type f with None => Top | Some t => inside t end.
Definition early (f : frame) : bool := f_first f && (f_depth f =? 0).
Definition end_of (f : frame) : event := mkev EContainerEnd (f_type f) EvNone None [] (Some (f_depth f - 1)).
Section SKIP.
(** [opens e]: what is inside the top-level container that starts with the event [e] may be left unread. *)
Variable opens : event -> bool.
Definition opening (e : event) : bool := match ev_type e, ev_depth e with EContainerStart, Some d => d =? 0 | _, _ => false end.
Definition mode_after (m : bool) (e : event) : bool := if opening e then opens e else m.
Definition modes (es : list event) : bool := fold_left mode_after es false.
Definition next_mode (m : bool) (oe : option event) : bool := match oe with Some e => mode_after m e | None => m end.
Inductive piece (m : bool) : list frame -> Z -> list Z -> option event -> list frame -> Prop :=
| pc_end f rest pos : f_limit f = Some pos -> piece m (f :: rest) pos [] (Some (end_of f)) rest
| pc_scalar f rest pos fld w t v body : early f = false -> field_code (place_of f) fld -> wrapper_opt w (zlen body) -> scalar_code t v body ->
    piece m (f :: rest) pos (lead fld w ++ body) (Some (mkev EScalar (Some t) v (field_of fld) (annotations_of w) (Some (f_depth f)))) (later f :: rest)
| pc_start f rest pos fld w t n hd : early f = false -> field_code (place_of f) fld -> wrapper_opt w (zlen hd + n) -> container_code t n hd -> 0 <= n ->
    piece m (f :: rest) pos (lead fld w ++ hd) (Some (mkev EContainerStart (Some t) EvNone (field_of fld) (annotations_of w) (Some (f_depth f))))
      (mkframe (Some t) (Some (pos + zlen (lead fld w ++ hd) + n)) (f_depth f + 1) true :: later f :: rest)
| pc_version f rest pos w : f_depth f = 0 -> f_type f = None -> unfilled true w -> (early f = true -> w = None) ->
    piece m (f :: rest) pos (opt_octets wrapper_octets w ++ ivm) (Some version_marker_event) (later f :: rest)
| pc_pad f rest pos fld w body : early f = false -> field_code (place_of f) fld -> match fld with Some (_, sid) => sid = 0 | None => True end -> unfilled true w -> pad_code body ->
    piece m (f :: rest) pos (lead fld w ++ body) None (later f :: rest)
| pc_skip f rest pos seg : m = true -> f_limit f = Some (pos + zlen seg) -> piece m (f :: rest) pos seg (Some (end_of f)) rest.
Definition told (oe : option event) : list event := match oe with Some e => [e] | None => [] end.
Inductive chain : bool -> list frame -> Z -> list Z -> list event -> list frame -> Prop :=
| ch_nil m fs pos : chain m fs pos [] [] fs
| ch_cons m fs pos seg oe fs1 l es fs2 : piece m fs pos seg oe fs1 -> chain (next_mode m oe) fs1 (pos + zlen seg) l es fs2 -> chain m fs pos (seg ++ l) (told oe ++ es) fs2.
Lemma modes_told m oe es : fold_left mode_after (told oe ++ es) m = fold_left mode_after es (next_mode m oe).
Proof. destruct oe; reflexivity. Qed.
Lemma chain_snoc m fs pos l es fs1 seg oe fs2 : chain m fs pos l es fs1 -> piece (fold_left mode_after es m) fs1 (pos + zlen l) seg oe fs2 -> chain m fs pos (l ++ seg) (es ++ told oe) fs2.
Proof.
  induction 1 as [m fs pos|m fs pos s1 oe1 fs1 l es fs3 P C IH]; intros H.
  - cbn [app]. rewrite <- (app_nil_r seg), <- (app_nil_r (told oe)). econstructor; [|constructor]. change (zlen (@nil Z)) with 0 in H. rewrite Z.add_0_r in H. exact H.
  - rewrite <- !app_assoc. econstructor; [exact P|]. apply IH. rewrite modes_told in H. rewrite zlen_app, Z.add_assoc in H. exact H.
Qed.

(** Open containers. *)
Fixpoint stack_ok (fs : list frame) : Prop :=
  match fs with
  | [] => False
  | f :: rest => match rest with
                 | [] => f_type f = None /\ f_limit f = None /\ f_depth f = 0
                 | g :: _ => (exists t, f_type f = Some t /\ (t = TList \/ t = TSexp \/ t = TStruct)) /\ f_limit f <> None /\ f_depth f = f_depth g + 1 /\ 1 <= f_depth f /\ f_first g = false /\ stack_ok rest
                 end
  end.
Lemma stack_later f rest : stack_ok (f :: rest) -> stack_ok (later f :: rest).
Proof. destruct rest; exact (fun H => H). Qed.
Lemma stack_tail f rest : stack_ok (f :: rest) -> f_limit f <> None -> stack_ok rest.
Proof. destruct rest; cbn [stack_ok]; [intros (_ & L & _); contradiction|tauto]. Qed.
Lemma stack_depth f rest : stack_ok (f :: rest) -> (f_depth f = 0 /\ f_type f = None /\ rest = []) \/ (1 <= f_depth f /\ f_type f <> None).
Proof. destruct rest; cbn [stack_ok]; [left; tauto|]. intros ((t & -> & _) & _ & _ & D & _). right. split; [exact D|discriminate]. Qed.
Lemma container_type t n hd : container_code t n hd -> t = TList \/ t = TSexp \/ t = TStruct.
Proof. destruct t; cbn; try contradiction; auto. Qed.
Lemma piece_stack m fs pos seg oe fs' : piece m fs pos seg oe fs' -> stack_ok fs -> stack_ok fs'.
Proof.
  destruct 1 as [f rest pos L|f rest pos fld w t v body E F W C|f rest pos fld w t n hd E F W C N|f rest pos w D T U E|f rest pos fld w body E F Z U P|f rest pos seg K L]; intros S.
  - apply (stack_tail _ _ S). congruence.
  - apply stack_later. exact S.
  - assert (S' : stack_ok (later f :: rest)) by (apply stack_later; exact S). cbn [stack_ok f_type f_limit f_depth]. cbn [stack_ok] in S'. split; [exists t; split; [reflexivity|apply (container_type _ _ _ C)]|]. split; [discriminate|]. split; [reflexivity|]. split; [|split; [reflexivity|exact S']].
    destruct (stack_depth _ _ S) as [(D & _)|(D & _)]; lia.
  - apply stack_later. exact S.
  - apply stack_later. exact S.
  - apply (stack_tail _ _ S). congruence.
Qed.
Lemma chain_stack m fs pos l es fs' : chain m fs pos l es fs' -> stack_ok fs -> stack_ok fs'.
Proof. induction 1; intros S; [exact S|]. apply IHchain. eapply piece_stack; eauto. Qed.

(** * From a chain to its events *)
Fixpoint stack_accepted (m : bool) (fs : list frame) (pos : Z) (l : list Z) (es : list event) : Prop :=
  match fs with
  | [] => False
  | f :: rest => match rest with
                 | [] => accepted true opens false Top 0 l es
                 | _ => exists l1 es1 l2 es2, l = l1 ++ l2 /\ es = es1 ++ end_of f :: es2 /\ accepted true opens m (place_of f) (f_depth f) l1 es1 /\ f_limit f = Some (pos + zlen l1) /\ stack_accepted m rest (pos + zlen l1) l2 es2
                 end
  end.
Lemma stack_accepted_later m f rest pos l es : stack_accepted m (later f :: rest) pos l es -> stack_accepted m (f :: rest) pos l es.
Proof. destruct rest; exact (fun H => H). Qed.
(** Something in front of the innermost container's rest. *)
Lemma accepted_front m f rest pos seg l oe es : stack_ok (f :: rest) ->
  (forall u l1 es1, accepted true opens u (place_of f) (f_depth f) l1 es1 -> accepted true opens u (place_of f) (f_depth f) (seg ++ l1) (told oe ++ es1)) ->
  stack_accepted m (later f :: rest) (pos + zlen seg) l es -> stack_accepted m (f :: rest) pos (seg ++ l) (told oe ++ es).
Proof.
  intros S H A. destruct rest as [|g rest]; cbn [stack_accepted] in *.
  - cbn [stack_ok] in S. destruct S as (T & _ & D). unfold place_of in H. rewrite T, D in H. apply H. exact A.
  - destruct A as (l1 & es1 & l2 & es2 & -> & -> & A & L & R). exists (seg ++ l1), (told oe ++ es1), l2, es2. rewrite <- !app_assoc. split; [reflexivity|]. split; [reflexivity|]. split; [apply H; exact A|].
    rewrite zlen_app. split; [change (f_limit (later f)) with (f_limit f) in L; rewrite L; f_equal; lia|]. replace (pos + (zlen seg + zlen l1)) with (pos + zlen seg + zlen l1) by lia. exact R.
Qed.
Lemma piece_accepted m fs pos seg oe fs' l es : piece m fs pos seg oe fs' -> stack_ok fs -> stack_accepted (next_mode m oe) fs' (pos + zlen seg) l es -> stack_accepted m fs pos (seg ++ l) (told oe ++ es).
Proof.
  destruct 1 as [f rest pos L|f rest pos fld w t v body E F W C|f rest pos fld w t n hd E F W C N|f rest pos w D T U E|f rest pos fld w body E F Z U P|f rest pos seg K L]; intros S A.
  - change (next_mode m (Some (end_of f))) with m in A. destruct rest as [|g rest]; [destruct S as (_ & X & _); congruence|]. cbn [stack_accepted]. exists [], [], l, es. split; [reflexivity|]. split; [reflexivity|]. split; [constructor|]. change (zlen (@nil Z)) with 0 in *. rewrite Z.add_0_r in *. split; [exact L|exact A].
  - apply (accepted_front m f rest pos _ l (Some _) es S); [|exact A]. intros u l1 es1 H. rewrite <- app_assoc. cbn [told app]. apply ac_scalar; assumption.
  - remember (mkev EContainerStart (Some t) EvNone (field_of fld) (annotations_of w) (Some (f_depth f))) as start eqn:ES.
    cbn [stack_accepted place_of f_type f_limit f_depth] in A. destruct A as (l1 & es1 & l2 & es2 & -> & -> & A & L & R). injection L as L.
    assert (N1 : n = zlen l1) by lia. subst n.
    assert (G : stack_accepted m (f :: rest) pos ((lead fld w ++ hd ++ l1) ++ l2) (([start] ++ es1 ++ [mkev EContainerEnd (Some t) EvNone None [] (Some (f_depth f))]) ++ es2)).
    { destruct rest as [|g rest]; cbn [stack_accepted] in *.
      - cbn [stack_ok] in S. destruct S as (T & _ & D). unfold place_of in F. rewrite T in F. rewrite D in A, ES |- *. rewrite <- !app_assoc. cbn [app].
        apply (ac_container true opens false Top 0 fld w t hd); [exact F|rewrite zlen_app; exact W|exact C|exact ES| |exact R]. cbn [unread_inside]. rewrite ES in A. cbn in A. rewrite ES. exact A.
      - assert (NM : next_mode m (Some start) = m). { cbn [next_mode]. unfold mode_after, opening. rewrite ES. cbn [ev_type ev_depth]. destruct S as (_ & _ & _ & S & _). destruct (f_depth f =? 0) eqn:Q; [lia|reflexivity]. }
        rewrite NM in *. destruct R as (l3 & es3 & l4 & es4 & -> & -> & A3 & L3 & R). change (f_limit (later f)) with (f_limit f) in L3. exists ((lead fld w ++ hd ++ l1) ++ l3), (([start] ++ es1 ++ [mkev EContainerEnd (Some t) EvNone None [] (Some (f_depth f))]) ++ es3), l4, es4.
        split; [rewrite <- !app_assoc; reflexivity|]. split; [rewrite <- !app_assoc; reflexivity|]. split.
        + rewrite <- !app_assoc. cbn [app]. apply (ac_container true opens m (place_of f) (f_depth f) fld w t hd); [exact F|rewrite zlen_app; exact W|exact C|exact ES| |exact A3].
          replace (unread_inside opens m (place_of f) start) with m; [exact A|]. destruct S as ((t0 & T & _) & _). unfold place_of. rewrite T. destruct t0; reflexivity.
        + replace (pos + zlen ((lead fld w ++ hd ++ l1) ++ l3)) with (pos + zlen (lead fld w ++ hd) + zlen l1 + zlen l3) by (rewrite !zlen_app; lia). split; [exact L3|exact R]. }
    rewrite <- !app_assoc in *. cbn [app told] in *. unfold end_of; cbn [f_type f_depth]. replace (f_depth f + 1 - 1) with (f_depth f) by lia. exact G.
  - apply (accepted_front m f rest pos _ l (Some _) es S); [|exact A]. intros u l1 es1 H. unfold place_of in *. rewrite T, D in *. rewrite <- app_assoc. cbn [told app]. apply ac_marker; assumption.
  - apply (accepted_front m f rest pos _ l None es S); [|exact A]. intros u l1 es1 H. rewrite <- app_assoc. cbn [told app]. apply ac_pad; assumption.
  - change (next_mode m (Some (end_of f))) with m in A. destruct rest as [|g rest]; [destruct S as (_ & X & _); congruence|]. cbn [stack_accepted]. exists seg, [], l, es. split; [reflexivity|]. split; [reflexivity|]. split; [rewrite K; apply ac_unread|split; [exact L|exact A]].
    destruct S as ((t & T & _) & _). unfold place_of. rewrite T. destruct t; discriminate.
Qed.
Lemma chain_accepted m fs pos l es f : chain m fs pos l es [f] -> stack_ok fs -> stack_accepted m fs pos l es.
Proof.
  intros C. remember [f] as fs2 eqn:E. induction C as [m fs pos|m fs pos seg oe fs1 l es fs2 P C IH]; intros S.
  - subst fs. destruct S as (T & _). cbn. constructor.
  - eapply piece_accepted; [exact P|exact S|]. apply IH; [exact E|]. eapply piece_stack; eauto.
Qed.
(** The first item of a stream is a version marker. *)
Theorem whole_chain l es f : chain false [top_frame] 0 l es [f] -> (l = [] /\ es = []) \/ exists r rs, l = ivm ++ r /\ es = version_marker_event :: rs /\ accepted_stream true opens r rs.
Proof.
  intros C. inversion C as [m0 fs pos|m0 fs pos seg oe fs1 l1 es1 fs2 P C1]; subst; [auto|]. right.
  inversion P as [? ? ? L|? ? ? ? ? ? ? ? E|? ? ? ? ? ? ? ? E|? ? ? w D T U E|? ? ? ? ? ? E|? ? ? ? K L]; subst; try discriminate.
  rewrite (E eq_refl) in *. cbn [opt_octets app]. exists l1, es1. split; [reflexivity|]. split; [reflexivity|]. apply (chain_accepted _ _ _ _ _ _ C1). cbn. auto.
Qed.
(** Levels of nesting. *)
Definition level_of (e : event) : Z := match ev_type e with EContainerStart => 1 | EContainerEnd => -1 | _ => 0 end.
Fixpoint level (es : list event) : Z := match es with [] => 0 | e :: es => level_of e + level es end.
Lemma level_app a b : level (a ++ b) = level a + level b.
Proof. clear opens. induction a as [|e a IH]; cbn [level app]; [reflexivity|]. rewrite IH. lia. Qed.
Lemma piece_level m fs pos seg oe fs' : piece m fs pos seg oe fs' -> zlen fs' = zlen fs + level (told oe).
Proof. destruct 1; cbn [told level level_of ev_type end_of version_marker_event]; rewrite !zlen_cons; lia. Qed.
Lemma chain_level m fs pos l es fs' : chain m fs pos l es fs' -> zlen fs' = zlen fs + level es.
Proof. induction 1 as [|m fs pos seg oe fs1 l es fs2 P C IH]; [cbn; lia|]. rewrite IH, (piece_level _ _ _ _ _ _ P), level_app. lia. Qed.
Lemma piece_opening m fs pos seg e fs' : piece m fs pos seg (Some e) fs' -> stack_ok fs -> opening e = true -> zlen fs = 1.
Proof.
  intros P S O. inversion P; subst; cbn [opening ev_type end_of version_marker_event] in O; try discriminate O. unfold opening in O. cbn in O. match goal with H : stack_ok (?f :: ?r) |- _ => destruct (stack_depth _ _ H) as [(_ & _ & ->)|(X & _)]; [reflexivity|lia] end.
Qed.
(** A top-level container starts only where no container is open. *)
Lemma chain_opening es0 e : opening e = true -> forall m fs pos l es fs', chain m fs pos l es fs' -> es = es0 ++ [e] -> stack_ok fs -> zlen fs + level es0 = 1.
Proof.
  intros O m fs pos l es fs' C. revert es0. induction C as [m fs pos|m fs pos seg oe fs1 l es fs2 P C IH]; intros es0 E S; [destruct es0; discriminate|].
  pose proof (piece_stack _ _ _ _ _ _ P S) as S1. pose proof (piece_level _ _ _ _ _ _ P) as LV. destruct oe as [e1|]; cbn [told app level] in *.
  - destruct es0 as [|e2 es0]; cbn [app] in E; injection E as -> E.
    + cbn [level]. pose proof (piece_opening _ _ _ _ _ _ P S O). lia.
    + subst es. specialize (IH es0 eq_refl S1). cbn [level]. lia.
  - specialize (IH es0 E S1). lia.
Qed.
(** When anything may be left unread. *)
Lemma chain_any m fs pos l es fs' : chain m fs pos l es fs' -> (forall e, opens e = true) -> stack_ok fs -> (1 < zlen fs -> m = true) -> 1 < zlen fs' -> fold_left mode_after es m = true.
Proof.
  intros C A. induction C as [m fs pos|m fs pos seg oe fs1 l es fs2 P C IH]; intros S M; [exact M|]. rewrite modes_told. apply IH; [exact (piece_stack _ _ _ _ _ _ P S)|]. intros L. destruct oe as [e|]; cbn [next_mode].
  - unfold mode_after. destruct (opening e) eqn:O; [apply A|]. apply M. pose proof (piece_level _ _ _ _ _ _ P) as LV. cbn [told level] in LV. destruct (Z_lt_le_dec 1 (zlen fs)); [assumption|]. exfalso.
    inversion P; subst; cbn [level_of ev_type end_of version_marker_event] in LV; rewrite ?zlen_cons in *; try lia; pose proof (zlen_nonneg rest); try lia.
    assert (rest = []) by (apply zlen_zero; lia). subst rest. destruct S as (_ & _ & D). unfold opening in O. cbn [ev_type ev_depth] in O. rewrite D in O. discriminate.
  - apply M. pose proof (piece_level _ _ _ _ _ _ P) as LV. cbn [told level] in LV. lia.
Qed.

(** * Where the machine is inside an item *)
Definition unf (w : wrapper) (n : Z) : Prop :=
  wr_sids w <> [] /\ Forall (fun p => varuint_code (fst p) (snd p)) (wr_sids w) /\ varuint_code (wr_len w) (zlen (wr_sid_octets w)) /\ header 14 3 n (wr_head w).
Section ITEM.
Variables (md : bool) (f : frame) (rest : list frame) (pos0 : Z).
Notation fl := (later f :: rest).
(** Before the type octet of a value. *)
Definition vctx (c : rctx) (u : list Z) : Prop := exists fld w, field_code (place_of f) fld /\ u = lead fld w /\
  match w with
  | None => c = mkctx (f_limit f) (f_depth f) (field_of fld) None
  | Some w => early f = false /\ exists n, unf w n /\ c = mkctx (Some (pos0 + zlen (opt_octets fst fld) + zlen (wr_head w) + n)) (f_depth f) (field_of fld) (Some (map snd (wr_sids w)))
  end.
Definition vpart (up : list Z) (acc : Z) : Prop := 0 <= acc /\ forall t v, var_code acc t v -> varuint_code (up ++ t) v.
Definition var_at (vk : vkont) (c : rctx) (u0 : list Z) (fs : list frame) : Prop :=
  match vk with
  | VField => u0 = [] /\ c = mkctx (f_limit f) (f_depth f) None None /\ f_type f = Some TStruct /\ fs = f :: rest
  | VUser us => fs = fl /\ early f = false /\ exists uv o, u0 = uv ++ [o] /\ vctx c uv /\ handler_meaning o (HVarLen us)
  | VOrdered => fs = fl /\ early f = false /\ exists uv, u0 = uv ++ [0xD1] /\ vctx c uv
  | VAnnLen => fs = fl /\ early f = false /\ exists fld hd n, field_code (place_of f) fld /\ u0 = opt_octets fst fld ++ hd /\ header 14 3 n hd /\ 0 <= n /\
      c = mkctx (Some (pos0 + zlen (opt_octets fst fld) + zlen hd + n)) (f_depth f) (field_of fld) None
  end.
Definition k_at (k : kont) (u : list Z) (fs : list frame) : Prop :=
  match k with
  | KVar acc vk c => exists u0 up, u = u0 ++ up /\ vpart up acc /\ var_at vk c u0 fs
  | KIvm => fs = fl /\ f_depth f = 0 /\ exists uv c, u = uv ++ [0xE0] /\ vctx c uv
  | KType c ex => fs = fl /\ vctx c u /\ (ex = false -> early f = false)
  | KScalar k t n c => fs = fl /\ early f = false /\ exists uv hd, u = uv ++ hd /\ vctx c uv /\ forall data, zlen data = n -> scalar_code t (payload_value k data) (hd ++ data)
  | KAnn n c => fs = fl /\ early f = false /\ exists fld hd lc m, field_code (place_of f) fld /\ u = opt_octets fst fld ++ hd ++ lc /\ header 14 3 m hd /\ varuint_code lc n /\ 1 <= n /\
      c = mkctx (Some (pos0 + zlen (opt_octets fst fld) + zlen hd + m)) (f_depth f) (field_of fld) None
  | KLoop | KSkipped => False
  end.
Definition stage (p : pc) (u data : list Z) (fs : list frame) : Prop :=
  match p with
  | PLoop | PK KLoop => u = [] /\ fs = f :: rest
  | PK KSkipped => fs = f :: rest /\ md = true /\ f_limit f = Some (pos0 + zlen u)
  | PVar acc vk c => k_at (KVar acc vk c) u fs
  | PK k => k_at k u fs /\ 1 <= need k <= zlen data
  | PRead n true sev k => ev_type sev = EIncomplete /\ (0 < n -> data = []) /\
      match k with
      | KLoop => fs = fl /\ forall more, zlen more = Z.max 0 n -> piece md (f :: rest) pos0 (u ++ more) None fl
      | KSkipped => fs = f :: rest /\ md = true /\ f_limit f = Some (pos0 + zlen u + Z.max 0 n)
      | _ => False
      end
  | PRead n false sev k => k_at k u fs /\ n + zlen data = need k /\ 1 <= need k /\ is_stream_signal (ev_type sev) = true /\
      (ev_type sev = EStreamEnd -> data = [] /\ u = [] /\ f_depth f = 0)
  end.
End ITEM.

(** The invariant: [D] are the octets sent so far, [es] the events reported so far. *)
Definition base (f : frame) (rest : list frame) (past u : list Z) (q : aq) (D : list Z) (es : list event) : Prop :=
  D = past ++ u ++ aq_data q /\ chain false [top_frame] 0 past es (f :: rest) /\ aq_pos q = zlen past + zlen u /\ qwf q /\ octets (aq_data q) /\
  (f_first f = true -> match f_limit f with Some lim => zlen past <= lim | None => True end).
Definition Inv (s : rstate) (D : list Z) (es : list event) : Prop :=
  exists f rest past u, base f rest past u (r_q s) D es /\ stage (modes es) f rest (zlen past) (r_pc s) u (aq_data (r_q s)) (r_frames s).
Definition waits (s : rstate) (ev : event) : Prop := exists n b k, r_pc s = PRead n b ev k /\ 0 < n.
Definition keeps (D : list Z) (es : list event) (r : sres) : Prop :=
  match r with
  | Err _ => True
  | Ok (s', None) => Inv s' D es
  | Ok (s', Some ev) => if is_stream_signal (ev_type ev) then Inv s' D es /\ waits s' ev else Inv s' D (es ++ [ev]) /\ r_pc s' = PLoop /\ (ev_type ev = EContainerStart -> match r_frames s' with f :: _ => f_first f = true | [] => True end)
  end.
Lemma top_stack : stack_ok [top_frame]. Proof. cbn. auto. Qed.
Lemma base_stack f rest past u q D es : base f rest past u q D es -> stack_ok (f :: rest).
Proof. intros (_ & C & _). exact (chain_stack _ _ _ _ _ _ C top_stack). Qed.

(** An item is complete. *)
Lemma item_done f rest past u q D es seg oe f' rest' : base f rest past (u ++ seg) q D es -> piece (modes es) (f :: rest) (zlen past) (u ++ seg) oe (f' :: rest') ->
  (f_first f' = true -> match f_limit f' with Some lim => aq_pos q <= lim | None => True end) -> base f' rest' (past ++ u ++ seg) [] q D (es ++ told oe).
Proof.
  intros (E & C & P & W & O & _) PC FR. split; [rewrite E, <- !app_assoc; reflexivity|]. split; [apply (chain_snoc _ _ _ _ _ _ _ _ _ C PC)|].
  change (zlen (@nil Z)) with 0. rewrite Z.add_0_r. split; [rewrite zlen_app; exact P|]. split; [exact W|]. split; [exact O|]. replace (zlen (past ++ u ++ seg)) with (aq_pos q) by (rewrite (zlen_app past); exact P). exact FR.
Qed.
Lemma event_done f rest past u q D es ev f' rest' : base f rest past u q D es -> piece (modes es) (f :: rest) (zlen past) u (Some ev) (f' :: rest') -> is_stream_signal (ev_type ev) = false ->
  (f_first f' = true -> match f_limit f' with Some lim => aq_pos q <= lim | None => True end) -> keeps D es (Ok (mkr (f' :: rest') PLoop q, Some ev)).
Proof.
  intros B P S FR. cbn [keeps]. rewrite S. split; [|split; [reflexivity|]].
  2:{ cbn [r_frames]. intros X. inversion P; subst; try reflexivity; try discriminate X. }
  exists f', rest', (past ++ u), []. cbn [r_q r_pc r_frames stage]. split; [|auto].
  pose proof (item_done f rest past u q D es [] (Some ev) f' rest') as X. rewrite app_nil_r in X. apply X; assumption.
Qed.
(** Octets move from the buffer into the item. *)
Lemma base_take f rest past u q D es a r n p : base f rest past u q D es -> aq_data q = a ++ r -> n = aq_size q - zlen a -> p = aq_pos q + zlen a -> base f rest past (u ++ a) (mkaq r n p) D es.
Proof.
  intros (E & C & P & W & O & F) A -> ->. rewrite A in *. unfold base. cbn [aq_data aq_pos]. split; [rewrite E, <- !app_assoc; reflexivity|]. split; [exact C|]. split; [rewrite zlen_app; lia|]. split; [unfold qwf in *; cbn [aq_size aq_data]; rewrite W, A, zlen_app; lia|]. split; [apply octets_app in O; tauto|exact F].
Qed.

(** * The pieces of the machine *)
Lemma begin_read_keeps f rest past u q D es fs c n sev k : base f rest past u q D es -> k_at f rest (zlen past) k u fs -> need k = n -> 1 <= n -> is_stream_signal (ev_type sev) = true ->
  (ev_type sev = EStreamEnd -> u = [] /\ f_depth f = 0) -> keeps D es (begin_read fs q c n false sev k).
Proof.
  intros B K N L S SE. unfold begin_read. destruct (if c_depth c =? 0 then _ else _); [|exact Logic.I]. cbn [bind keeps].
  exists f, rest, past, u. cbn [r_q r_pc r_frames stage]. split; [exact B|]. split; [exact K|]. destruct B as (_ & _ & _ & W & _). unfold qwf in W. rewrite W. split; [lia|]. split; [lia|].
  destruct (0 <? zlen (aq_data q)) eqn:Z; [split; [reflexivity|discriminate]|]. split; [exact S|]. intros X. split; [apply zlen_zero; pose proof (zlen_nonneg (aq_data q)); lia|exact (SE X)].
Qed.
Lemma vctx_emit f rest past u body q D es c t v : base f rest past (u ++ body) q D es -> early f = false -> vctx f (zlen past) c u -> scalar_code t v body ->
  keeps D es (emit (later f :: rest) q c EScalar t v).
Proof.
  intros B E (fld & w & F & -> & V) S. unfold emit. cbv zeta.
  assert (G : wrapper_opt w (zlen body) -> c_field c = field_of fld -> c_depth c = f_depth f -> map sid_token (match c_annot c with Some a => a | None => [] end) = annotations_of w ->
    keeps D es (Ok (mkr (later f :: rest) PLoop q, Some (mkev EScalar (Some t) v (c_field c) (map sid_token (match c_annot c with Some a => a | None => [] end)) (Some (c_depth c)))))).
  { intros W -> -> ->. apply (event_done f rest past (lead fld w ++ body)); [exact B|apply pc_scalar; assumption|reflexivity|discriminate]. }
  destruct w as [w|].
  - destruct V as (_ & n & (NE & FS & VL & HD) & ->). cbn [c_annot c_limit c_field c_depth] in *. destruct w as [wh wl ws]. cbn [wr_sids wr_head wr_len] in *. destruct ws as [|x ws]; [congruence|]. cbn [map] in *.
    match goal with |- context [if ?b then _ else _] => destruct b eqn:EQ; cbn [bind]; [|exact Logic.I] end. apply G; try reflexivity.
    + split; [discriminate|]. split; [exact FS|]. split; [exact VL|]. cbn [wr_head wr_len]. apply Z.eqb_eq in EQ. destruct B as (_ & _ & P & _). rewrite P in EQ. unfold lead in EQ. cbn [opt_octets] in EQ. unfold wrapper_octets in EQ. cbn [wr_head wr_len] in EQ. rewrite !zlen_app in EQ.
      match goal with |- header _ _ ?a _ => replace a with n by lia end. exact HD.
    + cbn [annotations_of wr_sids map]. rewrite map_map. reflexivity.
  - subst c. cbn [c_annot c_limit c_field c_depth bind] in *. apply G; try reflexivity; exact Logic.I.
Qed.
Lemma vctx_start f rest past u hd q D es c t n : base f rest past (u ++ hd) q D es -> early f = false -> vctx f (zlen past) c u -> container_code t n hd -> 0 <= n ->
  keeps D es (run_user (later f :: rest) q (UContainer t) n c).
Proof.
  intros B E (fld & w & F & -> & V) S N. cbn [run_user]. cbv zeta. pose proof B as (_ & _ & P & _).
  assert (G : wrapper_opt w (zlen hd + n) -> c_field c = field_of fld -> c_depth c = f_depth f -> map sid_token (match c_annot c with Some a => a | None => [] end) = annotations_of w ->
    keeps D es (emit (mkframe (Some t) (Some (aq_pos q + n)) (c_depth c + 1) true :: later f :: rest) q c EContainerStart t EvNone)).
  { intros W CF CD CA. unfold emit. cbv zeta. cbn [bind]. rewrite CF, CD, CA. apply (event_done f rest past (lead fld w ++ hd)); [exact B| |reflexivity|cbn [f_limit]; lia]. rewrite P. apply pc_start; assumption. }
  destruct w as [w|].
  - destruct V as (_ & m & (NE & FS & VL & HD) & ->). cbn [c_annot c_limit c_field c_depth] in *. destruct w as [wh wl ws]. cbn [wr_sids wr_head wr_len] in *. destruct ws as [|x ws]; [congruence|]. cbn [map] in *.
    match goal with |- context [if ?b then _ else _] => destruct b eqn:EQ; cbn [bind]; [|exact Logic.I] end. apply G; try reflexivity.
    + split; [discriminate|]. split; [exact FS|]. split; [exact VL|]. cbn [wr_head wr_len]. cbn [opt_eqb] in EQ. apply Z.eqb_eq in EQ. rewrite P in EQ. unfold lead in EQ. cbn [opt_octets] in EQ. unfold wrapper_octets in EQ. cbn [wr_head wr_len] in EQ. rewrite !zlen_app in EQ.
      match goal with |- header _ _ ?a _ => replace a with m by lia end. exact HD.
    + cbn [annotations_of wr_sids map]. rewrite map_map. reflexivity.
  - subst c. cbn [c_annot c_limit c_field c_depth bind] in *. apply G; try reflexivity; exact Logic.I.
Qed.
Lemma unf_unfilled w n : unf w n -> wrapper_unfilled w.
Proof. intros (A & B & C & H). split; [exact A|]. split; [exact B|]. split; [exact C|]. exists n. exact H. Qed.
Lemma pad_piece m f rest pos fld w n hd : early f = false -> field_code (place_of f) fld -> match fld with Some (_, sid) => sid = 0 | None => True end ->
  match w with Some w => exists m, unf w m | None => True end -> header 0 0 n hd -> forall data, zlen data = n -> piece m (f :: rest) pos ((lead fld w ++ hd) ++ data) None (later f :: rest).
Proof.
  intros E F Z W H data L. rewrite <- app_assoc. apply pc_pad; [exact E|exact F|exact Z| |exists hd, data; split; [rewrite L; exact H|reflexivity]].
  destruct w as [w|]; [|exact Logic.I]. destruct W as (m0 & W). split; [reflexivity|exact (unf_unfilled _ _ W)].
Qed.
Lemma token_zero sid : token_eqb (sid_token sid) symbol_zero = true -> sid = 0.
Proof. unfold token_eqb, sid_token, symbol_zero. cbn. destruct (sid =? 0) eqn:E; [lia|]. cbn. discriminate. Qed.
Lemma vctx_pad f rest past uv hd q D es c n : base f rest past (uv ++ hd) q D es -> early f = false -> vctx f (zlen past) c uv -> header 0 0 n hd -> 0 <= n ->
  keeps D es (run_user (later f :: rest) q UNop n c).
Proof.
  intros B E (fld & w & F & -> & V) H N. cbn [run_user]. cbv zeta.
  assert (CF : c_field c = field_of fld) by (destruct w; [destruct V as (_ & m & _ & ->)|subst c]; reflexivity).
  assert (W : match w with Some w => exists m, unf w m | None => True end) by (destruct w; [destruct V as (_ & m & U & _); exists m; exact U|exact Logic.I]).
  assert (Z : (match c_field c with Some f => negb (token_eqb f symbol_zero) | None => false end) = false -> match fld with Some (_, sid) => sid = 0 | None => True end).
  { rewrite CF. destruct fld as [[cd sid]|]; [|intros _; exact Logic.I]. cbn [field_of]. intros X. apply token_zero. apply negb_false_iff. exact X. }
  destruct (match c_field c with Some f => negb (token_eqb f symbol_zero) | None => false end); [exact Logic.I|]. specialize (Z eq_refl).
  pose proof (pad_piece (modes es) f rest (zlen past) fld w n hd E F Z W H) as PP. clear V W CF Z F.
  destruct (0 <? n) eqn:N0.
  - unfold begin_read. destruct (if c_depth c =? 0 then _ else _); [|exact Logic.I]. cbn [bind]. pose proof B as (_ & _ & _ & WF & _). unfold qwf in WF. 
    pose proof (zlen_nonneg (aq_data q)) as Q0. destruct (0 <=? n - aq_size q) eqn:EQ.
    + unfold aq_skip. rewrite Z.leb_refl. cbn [bind keeps]. exists f, rest, past, ((lead fld w ++ hd) ++ aq_data q). cbn [r_q r_pc r_frames stage aq_data]. split.
      * apply (base_take f rest past _ q D es (aq_data q) []); [exact B|rewrite app_nil_r; reflexivity|lia|lia].
      * split; [destruct (0 <? aq_size q); reflexivity|]. split; [reflexivity|]. split; [reflexivity|]. intros more L. rewrite <- app_assoc. apply PP. rewrite zlen_app. lia.
    + replace (aq_size q + (n - aq_size q)) with n by lia. unfold aq_skip. replace (aq_size q <=? n) with false by lia.
      destruct (aq_read_ok q n ltac:(exact WF) ltac:(lia)) as [-> _]. cbn [bind keeps]. exists f, rest, past, ((lead fld w ++ hd) ++ ztake n (aq_data q)). cbn [r_q r_pc r_frames stage aq_data]. split.
      * apply (base_take f rest past _ q D es (ztake n (aq_data q)) (zdrop n (aq_data q))); [exact B|symmetry; apply ztake_drop|rewrite zlen_ztake by lia; lia|rewrite zlen_ztake by lia; lia].
      * split; [destruct (0 <? aq_size q); reflexivity|]. split; [lia|]. split; [reflexivity|]. intros more L. rewrite <- app_assoc. apply PP. rewrite zlen_app, zlen_ztake by lia. lia.
  - cbn [keeps]. assert (n = 0) by lia. subst n. specialize (PP [] eq_refl). rewrite app_nil_r in PP. exists (later f), rest, (past ++ lead fld w ++ hd), []. cbn [r_q r_pc r_frames stage]. split; [|auto].
    pose proof (item_done f rest past (lead fld w ++ hd) q D es [] None (later f) rest) as X. rewrite !app_nil_r in X. apply X; [exact B|exact PP|discriminate].
Qed.
(** A value whose length is known. *)
Lemma user_keeps f rest past u hd q D es c us n : base f rest past (u ++ hd) q D es -> early f = false -> vctx f (zlen past) c u -> 0 <= n ->
  match us with
  | UScalar k t => forall data, zlen data = n -> scalar_code t (payload_value k data) (hd ++ data)
  | UContainer t => container_code t n hd
  | UAnnot => header 14 3 n hd
  | UNop => header 0 0 n hd
  end -> keeps D es (run_user (later f :: rest) q us n c).
Proof.
  intros B E V N H. destruct us as [k t|t| |].
  - cbn [run_user]. destruct (n =? 0) eqn:N0.
    + unfold emit_scalar. apply (vctx_emit f rest past u hd q D es c t); auto. assert (n = 0) by lia. subst n. specialize (H [] eq_refl). rewrite app_nil_r in H. destruct k; exact H.
    + apply (begin_read_keeps f rest past (u ++ hd)); [exact B| |reflexivity|lia|reflexivity|discriminate]. cbn [k_at]. split; [reflexivity|]. split; [exact E|]. exists u, hd. auto.
  - apply (vctx_start f rest past u hd); auto.
  - cbn [run_user]. destruct V as (fld & w & F & -> & V). destruct w as [w|]; [destruct V as (_ & m & _ & ->); exact Logic.I|]. subst c. cbn [c_annot c_depth c_field keeps].
    unfold lead in B. cbn [opt_octets] in B. rewrite app_nil_r in B. exists f, rest, past, (opt_octets fst fld ++ hd). cbn [r_q r_pc r_frames stage k_at]. split; [exact B|]. exists (opt_octets fst fld ++ hd), []. split; [rewrite app_nil_r; reflexivity|]. split; [split; [lia|intros t v X; exact X]|].
    cbn [var_at]. split; [reflexivity|]. split; [exact E|]. exists fld, hd, n. split; [exact F|]. split; [reflexivity|]. split; [exact H|]. split; [exact N|]. destruct B as (_ & _ & P & _). rewrite P, zlen_app. f_equal. f_equal. lia.
  - apply (vctx_pad f rest past u hd); auto.
Qed.
Lemma pvar_keeps f rest past u q D es fs vk c : base f rest past u q D es -> var_at f rest (zlen past) vk c u fs -> keeps D es (Ok (mkr fs (PVar 0 vk c) q, None)).
Proof.
  intros B V. cbn [keeps]. exists f, rest, past, u. cbn [r_q r_pc r_frames stage k_at]. split; [exact B|]. exists u, []. split; [rewrite app_nil_r; reflexivity|]. split; [split; [lia|intros t v X; exact X]|exact V].
Qed.
Lemma handler_keeps f rest past u q D es c o : base f rest past (u ++ [o]) q D es -> is_octet o -> vctx f (zlen past) c u -> (early f = true -> o = 0xE0) ->
  keeps D es (run_handler (later f :: rest) q (dispatch o) c).
Proof.
  intros B O V X. pose proof (dispatch_meaning o O) as M.
  assert (E : dispatch o <> HIvm -> early f = false) by (intros H; destruct (early f); [|reflexivity]; exfalso; apply H; rewrite (X eq_refl); reflexivity).
  assert (CD : c_depth c = f_depth f) by (destruct V as (fld & w & _ & _ & V); destruct w; [destruct V as (_ & m & _ & ->)|subst c]; reflexivity).
  destruct (dispatch o) as [| |t v|us n|us|] eqn:DH; cbn [run_handler handler_meaning] in *.
  - exact Logic.I.
  - destruct (negb (c_depth c =? 0)) eqn:D0; [exact Logic.I|]. subst o. apply (begin_read_keeps f rest past (u ++ [0xE0])); [exact B| |reflexivity|lia|reflexivity|discriminate]. cbn [k_at]. split; [reflexivity|]. split; [lia|]. exists u, c. auto.
  - apply (vctx_emit f rest past u [o] q D es c t); auto; [apply E; discriminate|]. constructor. exact M.
  - pose proof (dispatch_len_nonneg _ _ _ DH) as N. apply (user_keeps f rest past u [o]); auto; [apply E; discriminate|]. destruct us as [k t|t| |]; cbn [handler_meaning] in M.
    + intros data L. destruct M as [(tid & PT & R & ->)|(-> & -> & M)].
      * apply (sc_payload tid k t [tid * 16 + n] data PT). rewrite L. apply header_short. exact R.
      * destruct M as [[-> ->]|[-> ->]]; constructor; exact L.
    + exact M.
    + destruct M as (R & ->). apply header_short. exact R.
    + destruct M as (R & ->). apply header_short. exact R.
  - apply (pvar_keeps f rest past (u ++ [o])); [exact B|]. cbn [var_at]. split; [reflexivity|]. split; [apply E; discriminate|]. exists u, o. auto.
  - subst o. apply (pvar_keeps f rest past (u ++ [0xD1])); [exact B|]. cbn [var_at]. split; [reflexivity|]. split; [apply E; discriminate|]. exists u. auto.
Qed.
Lemma start_keeps f rest past u q D es c ex top : base f rest past u q D es -> vctx f (zlen past) c u -> (ex = false -> early f = false) -> (top = true -> u = [] /\ f_depth f = 0) ->
  keeps D es (start_type (later f :: rest) q c ex top).
Proof.
  intros B V X T. unfold start_type. apply (begin_read_keeps f rest past u); [exact B|split; [reflexivity|split; [exact V|exact X]]|reflexivity|lia|destruct top; reflexivity|]. destruct top; [intros _; apply T; reflexivity|discriminate].
Qed.
Lemma var_keeps f rest past u0 up q D es fs v vk c : base f rest past (u0 ++ up) q D es -> varuint_code up v -> var_at f rest (zlen past) vk c u0 fs -> keeps D es (var_done fs q v vk c).
Proof.
  intros B C V. pose proof (var_code_nonneg _ _ _ C ltac:(lia)) as N. destruct vk as [|us| |]; cbn [var_at var_done] in *.
  - destruct V as (-> & -> & T & ->). cbn [app] in B. change (mkframe (f_type f) (f_limit f) (f_depth f) false) with (later f). change (f_first f && (f_depth f =? 0)) with (early f).
    apply (start_keeps f rest past up); [exact B| |auto|].
    + exists (Some (up, v)), None. split; [unfold place_of; rewrite T; exact C|]. unfold lead. cbn [opt_octets fst]. rewrite app_nil_r. split; reflexivity.
    + intros X. destruct (stack_depth _ _ (base_stack _ _ _ _ _ _ _ B)) as [(_ & Y & _)|(Y & _)]; [congruence|lia].
  - destruct V as (-> & E & uv & o & -> & V & M). rewrite <- app_assoc in B. apply (user_keeps f rest past uv ([o] ++ up)); auto. destruct us as [k t|t| |]; cbn [handler_meaning] in M.
    + intros data L. destruct M as (tid & PT & ->). apply (sc_payload tid k t _ data PT). rewrite L. apply header_long. exact C.
    + destruct M as [[-> ->]|[[-> ->]|[-> ->]]]; cbn [container_code].
      * apply (header_long 11). exact C.
      * apply (header_long 12). exact C.
      * right; left. exists up. auto.
    + subst o. apply header_long. exact C.
    + subst o. apply header_long. exact C.
  - destruct V as (-> & E & uv & -> & V). destruct (v <? 2) eqn:L; [exact Logic.I|]. rewrite <- app_assoc in B. apply (user_keeps f rest past uv ([0xD1] ++ up)); auto. cbn [container_code]. right; right. exists up. split; [exact C|]. split; [lia|reflexivity].
  - destruct V as (-> & E & fld & hd & n & F & -> & H & _ & ->). destruct (v <? 1) eqn:L; [exact Logic.I|]. apply (begin_read_keeps f rest past ((opt_octets fst fld ++ hd) ++ up)); [exact B| |reflexivity|lia|reflexivity|discriminate].
    cbn [k_at]. split; [reflexivity|]. split; [exact E|]. exists fld, hd, up, n. rewrite <- app_assoc. repeat (split; [solve [auto; lia]|]). reflexivity.
Qed.
Lemma byte_keeps f rest past u q D es fs acc vk c : base f rest past u q D es -> k_at f rest (zlen past) (KVar acc vk c) u fs ->
  keeps D es (let* (octet, q) := aq_read_byte q in let value := varuint_step acc octet in if varuint_last octet then var_done fs q value vk c else Ok (mkr fs (PVar value vk c) q, None)).
Proof.
  intros B (u0 & up & -> & (A0 & VP) & V). destruct (aq_data q) as [|b r] eqn:DQ.
  { unfold aq_read_byte. rewrite DQ. destruct (aq_size q <? 1); exact Logic.I. }
  pose proof B as (_ & _ & _ & W & O & _). destruct (aq_read_byte_cons q b r W DQ) as [-> _]. cbn [bind]. cbv zeta. rewrite DQ in O. apply octets_cons in O. destruct O as (O & _).
  assert (B' : base f rest past (u0 ++ up ++ [b]) (mkaq r (aq_size q - 1) (aq_pos q + 1)) D es) by (rewrite app_assoc; apply (base_take f rest past (u0 ++ up) q D es [b] r); auto).
  unfold varuint_last. unfold is_octet in O. rewrite bit7_octet by lia. rewrite varuint_step_eq. destruct (128 <=? b) eqn:L.
  - apply (var_keeps f rest past u0 (up ++ [b])); [exact B'| |exact V]. apply VP. replace (b mod 128) with (b - 128) by (apply Z.mod_unique with 1; lia). replace [b] with [128 + (b - 128)] by (f_equal; lia). constructor. lia.
  - rewrite Z.mod_small by lia. cbn [keeps]. exists f, rest, past, (u0 ++ up ++ [b]). cbn [r_q r_pc r_frames stage k_at]. split; [exact B'|]. exists u0, (up ++ [b]). split; [reflexivity|]. split; [|exact V]. split; [lia|]. intros t v X. rewrite <- app_assoc. apply VP. cbn [app]. constructor; [lia|exact X].
Qed.
Lemma body_keeps f rest past q D es : base f rest past [] q D es -> keeps D es (container_body (f :: rest) q).
Proof.
  intros B. unfold container_body. pose proof B as (E & C & P & W & O & _). change (zlen (@nil Z)) with 0 in P. rewrite Z.add_0_r in P. destruct (opt_eqb Z.eqb (Some (aq_pos q)) (f_limit f)) eqn:L.
  - pose proof (base_stack _ _ _ _ _ _ _ B) as S. assert (FL : f_limit f = Some (zlen past)) by (destruct (f_limit f); [|discriminate]; cbn [opt_eqb] in L; f_equal; lia).
    pose proof (pc_end (modes es) f rest (zlen past) FL) as PE. pose proof (piece_stack _ _ _ _ _ _ PE S) as S'. destruct rest as [|g rest]; [contradiction|]. change (mkev EContainerEnd (f_type f) EvNone None [] (Some (f_depth f - 1))) with (end_of f).
    apply (event_done f (g :: rest) past []); [exact B|exact PE|reflexivity|]. intros F1.
    destruct S as (_ & _ & _ & _ & F0 & _). congruence.
  - cbv zeta. change (mkframe (f_type f) (f_limit f) (f_depth f) false) with (later f). change (f_first f && (f_depth f =? 0)) with (early f).
    assert (G : place_of f <> InStruct -> keeps D es (start_type (later f :: rest) q (mkctx (f_limit f) (f_depth f) None None) (early f) (f_depth f =? 0))).
    { intros NS. apply (start_keeps f rest past []); [exact B| |auto|]; [|intros X; split; [reflexivity|lia]]. exists None, None. split; [destruct (place_of f); [exact Logic.I|exact Logic.I|congruence]|]. split; reflexivity. }
    destruct (f_type f) as [t|] eqn:T; [|apply G; unfold place_of; rewrite T; discriminate].
    destruct t; try (apply G; unfold place_of; rewrite T; discriminate). apply (pvar_keeps f rest past []); [exact B|]. cbn [var_at]. auto.
Qed.

(** * Steps *)
Definition feasible (es : list event) (s : rstate) (inp : option devent) : Prop :=
  match inp with
  | None => True
  | Some DNext => r_pc s = PLoop
  | Some DSkip => r_pc s = PLoop /\ (1 < zlen (r_frames s) -> modes es = true) /\ match r_frames s with f :: _ => f_first f = true | [] => True end
  | Some (DData d) => octets d /\ exists n b sev k, r_pc s = PRead n b sev k /\ 0 < n
  end.
Lemma base_extend f rest past u q D es d : base f rest past u q D es -> octets d -> base f rest past u (aq_extend q d) (D ++ d) es.
Proof.
  intros (E & C & P & W & O & F) OD. unfold base, aq_extend. cbn [aq_data aq_pos]. split; [rewrite E, <- !app_assoc; reflexivity|]. split; [exact C|]. split; [exact P|]. split; [unfold qwf in *; cbn [aq_size aq_data]; rewrite zlen_app; lia|]. split; [apply octets_app; auto|exact F].
Qed.
Lemma base_pass f rest past u q D es a r d n p : base f rest past u q D es -> aq_data q = [] -> octets d -> d = a ++ r -> n = zlen r -> p = aq_pos q + zlen a -> base f rest past (u ++ a) (mkaq r n p) (D ++ d) es.
Proof.
  intros B E0 OD -> -> ->. pose proof (base_extend _ _ _ _ _ _ _ _ B OD) as X. apply (base_take f rest past u _ _ es a r) with (n := zlen r) (p := aq_pos q + zlen a) in X; [exact X| | |reflexivity].
  - cbn [aq_extend aq_data]. rewrite E0. reflexivity.
  - cbn [aq_extend aq_size]. destruct B as (_ & _ & _ & W & _). unfold qwf in W. rewrite W, E0, zlen_app. change (zlen (@nil Z)) with 0. lia.
Qed.
(** A pad or a skipped container is behind. *)
Lemma passed f rest past u q D es fs k m sev : base f rest past u q D es -> m <= 0 -> stage (modes es) f rest (zlen past) (PRead m true sev k) u (aq_data q) fs -> Inv (mkr fs (PK k) q) D es.
Proof.
  intros B M (_ & _ & S). destruct k; try contradiction.
  - destruct S as (-> & S). specialize (S [] ltac:(change (zlen (@nil Z)) with 0; lia)). rewrite app_nil_r in S. exists (later f), rest, (past ++ u), []. cbn [r_q r_pc r_frames stage]. split; [|auto].
    pose proof (item_done f rest past u q D es [] None (later f) rest) as X. rewrite !app_nil_r in X. apply X; [exact B|exact S|discriminate].
  - destruct S as (-> & K & L). exists f, rest, past, u. cbn [r_q r_pc r_frames stage]. split; [exact B|]. split; [reflexivity|]. split; [exact K|]. rewrite L. f_equal. lia.
Qed.
Theorem step_keeps s inp D es : Inv s D es -> feasible es s inp -> keeps (D ++ data_of inp) es (step s inp).
Proof.
  intros (f & rest & past & u & B & S) FE. destruct s as [fs p q]. cbn [r_q r_pc r_frames feasible] in *. unfold step. cbn [r_q r_pc r_frames].
  assert (D0 : match inp with Some (DData _) => True | _ => D ++ data_of inp = D end) by (destruct inp as [[| |d]|]; cbn [data_of]; try (apply app_nil_r); exact Logic.I).
  assert (NR : (forall n b sev k, p <> PRead n b sev k) -> D ++ data_of inp = D).
  { intros NR. destruct inp as [[| |d]|]; try exact D0. unfold feasible in FE; cbn [r_pc] in FE. destruct FE as (_ & n & b & sev & k & X & _). destruct (NR n b sev k X). }
  pose proof B as (ED & CH & PO & W & O & FR). assert (W0 : qwf q) by exact W. unfold qwf in W.
  destruct p as [|n b sev k|k|acc vk c].
  - (* between items *)
    rewrite NR by discriminate. destruct S as (-> & ->). destruct inp as [[| |d]|]; try exact (body_keeps f rest past q D es B).
    destruct FE as (_ & K & F1). cbn [r_frames] in K. specialize (FR F1). pose proof (base_stack _ _ _ _ _ _ _ B) as SO. change (zlen (@nil Z)) with 0 in PO. rewrite Z.add_0_r in PO. destruct (f_limit f) as [lim|] eqn:FL; [|exact Logic.I]. assert (K' : modes es = true) by (apply K; rewrite zlen_cons; destruct rest as [|g rest']; [destruct SO as (_ & X & _); congruence|rewrite zlen_cons; pose proof (zlen_nonneg rest'); lia]). clear K. rename K' into K.
    unfold begin_read. cbn [c_depth c_limit]. destruct (if f_depth f =? 0 then _ else _); [|exact Logic.I]. cbn [bind]. pose proof (zlen_nonneg (aq_data q)) as Q0.
    destruct (0 <=? lim - aq_pos q - aq_size q) eqn:EQ.
    + unfold aq_skip. rewrite Z.leb_refl. cbn [bind keeps]. exists f, rest, past, (aq_data q). cbn [r_q r_pc r_frames stage aq_data]. split.
      * apply (base_take f rest past [] q D es (aq_data q) []); [exact B|rewrite app_nil_r; reflexivity|lia|lia].
      * split; [destruct (0 <? aq_size q); reflexivity|]. split; [reflexivity|]. split; [reflexivity|]. split; [exact K|]. rewrite FL. f_equal. lia.
    + replace (aq_size q + (lim - aq_pos q - aq_size q)) with (lim - aq_pos q) by lia. unfold aq_skip. replace (aq_size q <=? lim - aq_pos q) with false by lia.
      destruct (aq_read_ok q (lim - aq_pos q) W ltac:(lia)) as [-> _]. cbn [bind keeps]. exists f, rest, past, (ztake (lim - aq_pos q) (aq_data q)). cbn [r_q r_pc r_frames stage aq_data]. split.
      * apply (base_take f rest past [] q D es (ztake (lim - aq_pos q) (aq_data q)) (zdrop (lim - aq_pos q) (aq_data q))); [exact B|symmetry; apply ztake_drop|rewrite zlen_ztake by lia; lia|rewrite zlen_ztake by lia; lia].
      * split; [destruct (0 <? aq_size q); reflexivity|]. split; [lia|]. split; [reflexivity|]. split; [exact K|]. rewrite FL, zlen_ztake by lia. f_equal. lia.
  - (* a read *)
    assert (NONE : inp = None -> keeps D es (if n <=? 0 then Ok (mkr fs (PK k) q, None) else Ok (mkr fs (PRead n b sev k) q, Some sev))).
    { intros _. destruct (n <=? 0) eqn:N0; cbn [keeps].
      - destruct b; [exact (passed f rest past u q D es fs k n sev B ltac:(lia) S)|]. destruct S as (K & L & Nd & _). exists f, rest, past, u. cbn [r_q r_pc r_frames]. split; [exact B|]. destruct k; try contradiction; cbn [stage]; (split; [exact K|lia]).
      - assert (SG : is_stream_signal (ev_type sev) = true) by (destruct b; [destruct S as (-> & _); reflexivity|destruct S as (_ & _ & _ & X & _); exact X]). rewrite SG. split; [exists f, rest, past, u; split; [exact B|exact S]|]. exists n, b, k. split; [reflexivity|lia]. }
    destruct inp as [[| |d]|]; try discriminate FE; try (destruct FE as (FE & _); discriminate FE); [|rewrite D0; apply NONE; reflexivity].
    clear NONE. destruct FE as (OD & n' & b' & sev' & k' & X & NP). injection X as <- <- <- <-. cbn [data_of]. pose proof (zlen_nonneg d) as Pd. destruct b.
    + destruct S as (SV & DE & S). specialize (DE NP). rewrite DE in *. change (zlen (@nil Z)) with 0 in W.
      destruct (n - zlen d <? 0) eqn:L0.
      * replace (n - zlen d <=? 0) with true by lia. cbn [keeps app]. replace (zlen d + (n - zlen d)) with n by lia. replace (aq_pos q + zlen d + (n - zlen d)) with (aq_pos q + n) by lia.
        apply (passed f rest past (u ++ ztake n d) _ _ es fs k 0 incomplete_event).
        -- apply (base_pass f rest past u q D es (ztake n d) (zdrop n d) d); [exact B|exact DE|exact OD|symmetry; apply ztake_drop|rewrite zlen_zdrop by lia; lia|rewrite zlen_ztake by lia; lia].
        -- lia.
        -- cbn [stage]. split; [reflexivity|]. split; [lia|]. destruct k; try contradiction.
           ++ destruct S as (-> & S). split; [reflexivity|]. intros more L. rewrite <- app_assoc. apply S. rewrite zlen_app, zlen_ztake by lia. lia.
           ++ destruct S as (-> & K & L). split; [reflexivity|]. split; [exact K|]. rewrite L, zlen_app, zlen_ztake by lia. f_equal. lia.
      * assert (B' : base f rest past (u ++ d) (mkaq [] (aq_size q) (aq_pos q + zlen d)) (D ++ d) es) by (apply (base_pass f rest past u q D es d [] d); auto; [rewrite app_nil_r; reflexivity]).
        assert (S' : forall ev, ev_type ev = EIncomplete -> stage (modes es) f rest (zlen past) (PRead (n - zlen d) true ev k) (u ++ d) [] fs).
        { intros ev EV. cbn [stage]. split; [exact EV|]. split; [reflexivity|]. destruct k; try contradiction.
          ++ destruct S as (-> & S). split; [reflexivity|]. intros more L. rewrite <- app_assoc. apply S. rewrite zlen_app. lia.
          ++ destruct S as (-> & K & L). split; [reflexivity|]. split; [exact K|]. rewrite L, zlen_app. f_equal. lia. }
        destruct (n - zlen d <=? 0) eqn:L1; cbn [keeps].
        -- exact (passed f rest past (u ++ d) _ _ es fs k (n - zlen d) incomplete_event B' ltac:(lia) (S' incomplete_event eq_refl)).
        -- assert (SE : ev_type (if 0 <? zlen d then incomplete_event else sev) = EIncomplete) by (destruct (0 <? zlen d); [reflexivity|exact SV]). rewrite SE. cbn [is_stream_signal]. split; [|eexists _, _, _; split; [reflexivity|lia]].
           exists f, rest, past, (u ++ d). cbn [r_q r_pc r_frames aq_data]. split; [exact B'|apply S'; exact SE].
    + destruct S as (K & L & Nd & SG & SE). pose proof (base_extend _ _ _ _ _ _ _ _ B OD) as B'. destruct (n - zlen d <=? 0) eqn:L1; cbn [keeps].
      * exists f, rest, past, u. cbn [r_q r_pc r_frames]. split; [exact B'|]. destruct k; try contradiction; cbn [stage aq_extend aq_data]; rewrite zlen_app; (split; [exact K|lia]).
      * assert (SG' : is_stream_signal (ev_type (if 0 <? zlen d then incomplete_event else sev)) = true) by (destruct (0 <? zlen d); [reflexivity|exact SG]). rewrite SG'. split; [|eexists _, _, _; split; [reflexivity|lia]].
        exists f, rest, past, u. cbn [r_q r_pc r_frames stage aq_extend aq_data]. split; [exact B'|]. split; [exact K|]. rewrite zlen_app. split; [lia|]. split; [exact Nd|]. split; [exact SG'|].
        destruct (0 <? zlen d) eqn:Z; [discriminate|]. intros X. destruct (SE X) as (-> & -> & D1). assert (d = []) by (apply zlen_zero; lia). subst d. auto.
  - (* after a read *)
    rewrite NR by discriminate. destruct k as [acc vk c| |c ex|k t n c|n c| |]; cbn [stage] in S.
    + destruct S as (K & _). apply (byte_keeps f rest past u q D es); assumption.
    + destruct S as ((-> & D1 & uv & c & -> & V) & N). cbn [need] in N. destruct (aq_read_ok q 3 W ltac:(lia)) as [-> _]. cbn [bind]. destruct (zlist_eqb _ _) eqn:Z; [|exact Logic.I]. apply zlist_eqb_eq in Z.
      assert (B' : base f rest past ((uv ++ [0xE0]) ++ ztake 3 (aq_data q)) (mkaq (zdrop 3 (aq_data q)) (aq_size q - 3) (aq_pos q + 3)) D es)
        by (apply (base_take f rest past _ q D es (ztake 3 (aq_data q)) (zdrop 3 (aq_data q))); [exact B|symmetry; apply ztake_drop|rewrite zlen_ztake by lia; lia|rewrite zlen_ztake by lia; lia]).
      rewrite Z, <- app_assoc in B'. cbn [app] in B'. apply (event_done f rest past (uv ++ ivm)); [exact B'| |reflexivity|discriminate].
      destruct V as (fld & w & F & -> & V). destruct (stack_depth _ _ (base_stack _ _ _ _ _ _ _ B)) as [(_ & T & _)|(Y & _)]; [|lia]. unfold place_of in F. rewrite T in F. destruct fld as [p|]; [destruct F|]. unfold lead. cbn [opt_octets app].
      apply pc_version; [exact D1|exact T| |]; destruct w as [w|]; try exact Logic.I; [destruct V as (_ & m & U & _); split; [reflexivity|exact (unf_unfilled _ _ U)]|destruct V as (E & _); congruence|reflexivity].
    + destruct S as ((-> & V & X) & N). destruct (aq_data q) as [|o r] eqn:DQ; [cbn in N; lia|]. destruct (aq_read_byte_cons q o r W0 DQ) as [-> _]. cbn [bind]. apply octets_cons in O. destruct O as (O & _).
      destruct (ex && negb (o =? 224)) eqn:XO; [exact Logic.I|]. apply (handler_keeps f rest past u); [apply (base_take f rest past u q D es [o] r); auto|exact O|exact V|].
      intros E. destruct ex; [|rewrite X in E by reflexivity; discriminate]. cbn [andb] in XO. apply negb_false_iff in XO. lia.
    + destruct S as ((-> & E & uv & hd & -> & V & H) & N). cbn [need] in N. destruct (aq_read_ok q n W ltac:(lia)) as [-> _]. cbn [bind]. unfold emit_scalar.
      apply (vctx_emit f rest past uv (hd ++ ztake n (aq_data q))); [|exact E|exact V|].
      * rewrite app_assoc. apply (base_take f rest past _ q D es (ztake n (aq_data q)) (zdrop n (aq_data q))); [exact B|symmetry; apply ztake_drop|rewrite zlen_ztake by lia; lia|rewrite zlen_ztake by lia; lia].
      * apply (H (ztake n (aq_data q))). apply zlen_ztake. lia.
    + destruct S as ((-> & E & fld & hd & lc & m & F & -> & HD & VL & N1 & ->) & N). cbn [need] in N. destruct (aq_read_ok q n W ltac:(lia)) as [-> _]. cbn [bind].
      destruct (parse_sids (ztake n (aq_data q))) as [sids|e] eqn:PS; [|exact Logic.I]. cbn [bind c_limit]. match goal with |- context [if ?x <? 1 then _ else _] => destruct (x <? 1); [exact Logic.I|] end.
      assert (OT : octets (ztake n (aq_data q))) by (rewrite <- (ztake_drop n (aq_data q)) in O; apply octets_app in O; tauto).
      unfold parse_sids in PS. apply parse_sids_inv in PS as (l & EL & -> & FS); [|lia|exact OT].
      assert (LL : zlen (flat_map fst l) = n) by (rewrite <- EL; apply zlen_ztake; lia).
      apply (start_keeps f rest past (lead fld (Some (mkwrapper hd lc l)))).
      * unfold lead. cbn [opt_octets]. unfold wrapper_octets, wr_sid_octets. cbn [wr_head wr_len wr_sids]. rewrite <- EL. rewrite <- !app_assoc in *. rewrite (app_assoc hd lc), (app_assoc _ (hd ++ lc)).
        apply (base_take f rest past _ q D es (ztake n (aq_data q)) (zdrop n (aq_data q))); [exact B|symmetry; apply ztake_drop|rewrite zlen_ztake by lia; lia|rewrite zlen_ztake by lia; lia].
      * exists fld, (Some (mkwrapper hd lc l)). split; [exact F|]. split; [reflexivity|]. split; [exact E|]. exists m. split; [|reflexivity]. split; [cbn; intros ->; cbn in LL; change (zlen (@nil Z)) with 0 in LL; lia|]. split; [exact FS|]. split; [|exact HD]. unfold wr_sid_octets. cbn [wr_len wr_sids]. rewrite LL. exact VL.
      * intros _. exact E.
      * discriminate.
    + destruct S as (-> & ->). exact (body_keeps f rest past q D es B).
    + destruct S as (-> & K & L). unfold container_body. rewrite L, PO. cbn [opt_eqb]. rewrite Z.eqb_refl.
      pose proof (base_stack _ _ _ _ _ _ _ B) as ST. pose proof (pc_skip (modes es) f rest (zlen past) u K L) as PE. pose proof (piece_stack _ _ _ _ _ _ PE ST) as S'. destruct rest as [|g rest]; [contradiction|].
      apply (event_done f (g :: rest) past u); [exact B|exact PE|reflexivity|]. intros F1. destruct ST as (_ & _ & _ & _ & F0 & _). congruence.
  - rewrite NR by discriminate. cbn [stage] in S. destruct (aq_size q =? 0) eqn:SZ.
    + apply (begin_read_keeps f rest past u); [exact B|exact S|reflexivity|lia|reflexivity|discriminate].
    + apply (byte_keeps f rest past u q D es); assumption.
Qed.

(** * Runs and sessions *)
Definition keeps_run (D : list Z) (es : list event) (r : res (rstate * event)) : Prop :=
  match r with Err _ => True | Ok (s', ev) => keeps D es (Ok (s', Some ev)) end.
Lemma run_keeps fuel : forall s inp D es, Inv s D es -> feasible es s inp -> keeps_run (D ++ data_of inp) es (run fuel s inp).
Proof.
  induction fuel as [|fuel IH]; intros s inp D es I F; [exact Logic.I|]. cbn [run]. pose proof (step_keeps s inp D es I F) as K. destruct (step s inp) as [[s' [ev|]]|e]; [exact K| |exact Logic.I].
  specialize (IH s' None (D ++ data_of inp) es K Logic.I). cbn [data_of] in IH. rewrite app_nil_r in IH. exact IH.
Qed.
(** A reader object: [D] sent, [es] reported, [last] the event it waits on. *)
Definition at_event (s : rstate) (last : event) : Prop :=
  if is_stream_signal (ev_type last) then waits s last
  else r_pc s = PLoop /\ (ev_type last = EContainerStart -> match r_frames s with f :: _ => f_first f = true | [] => True end).
Lemma keeps_at D es s ev : keeps D es (Ok (s, Some ev)) -> Inv s D (if is_stream_signal (ev_type ev) then es else es ++ [ev]) /\ at_event s ev.
Proof. unfold keeps, at_event. destruct (is_stream_signal (ev_type ev)); tauto. Qed.
Definition asked_well (es : list event) (last : option event) (q : devent) : Prop :=
  match q with DNext => True | DSkip => (modes es = true \/ forall e, opens e = true) /\ (exists e, last = Some e /\ ev_type e = EContainerStart) | DData _ => False end.
Lemma deep_mode s D es : Inv s D es -> r_pc s = PLoop -> modes es = true \/ (forall e, opens e = true) -> 1 < zlen (r_frames s) -> modes es = true.
Proof.
  intros (f & rest & past & u & (_ & C & _) & S) P [M|A] L; [exact M|]. rewrite P in S. cbn [stage] in S. destruct S as (_ & E). rewrite E in L. apply (chain_any _ _ _ _ _ _ C A top_stack); [|exact L]. cbn. lia.
Qed.
Definition rok (r : reader) (D : list Z) (es : list event) : Prop :=
  match r with RFresh s => Inv s D es /\ r_pc s = PLoop /\ es = [] | RAt s last => Inv s D es /\ at_event s last | RDead => False end.
Definition sent (D : list Z) (es : list event) (x : res event * reader) : Prop :=
  match x with (Err _, _) => True | (Ok ev, r) => exists s, r = RAt s ev /\ Inv s D (if is_stream_signal (ev_type ev) then es else es ++ [ev]) /\ at_event s ev end.
Lemma run_sent D es s d : Inv s D es -> feasible es s (Some d) -> forall fuel, sent (D ++ data_of (Some d)) es (match run fuel s (Some d) with Ok (s', ev) => (Ok ev, RAt s' ev) | Err e => (Err e, RDead) end).
Proof.
  intros I F fuel. pose proof (run_keeps fuel s (Some d) D es I F) as K. destruct (run fuel s (Some d)) as [[s' ev]|e]; [|exact Logic.I]. cbn [sent]. exists s'. split; [reflexivity|]. apply keeps_at. exact K.
Qed.
Lemma request_sent r D es q : rok r D es -> asked_well es (match r with RAt _ last => Some last | _ => None end) q -> sent D es (reader_send r q).
Proof.
  intros R A. destruct r as [s|s last|]; [| |destruct R]; cbn [reader_send rok] in *.
  - destruct R as (I & P & _). destruct q; [|exact Logic.I|exact Logic.I]. pose proof (run_sent D es s DNext I P (steps_fuel s (Some DNext))) as X. cbn [data_of] in X. rewrite app_nil_r in X. exact X.
  - destruct R as (I & AT). destruct (protocol_check last q) as [u|e] eqn:PC; [|exact Logic.I]. unfold at_event in AT. unfold protocol_check in PC. destruct (is_stream_signal (ev_type last)) eqn:SG.
    + destruct q; try discriminate PC. destruct A.
    + destruct AT as (P & F). assert (FE : feasible es s (Some q)) by (destruct q; cbn [feasible asked_well] in *; [exact P|destruct A as (K & e & X & T); injection X as X; subst e; split; [exact P|split; [exact (deep_mode s D es I P K)|exact (F T)]]|destruct A]).
      pose proof (run_sent D es s q I FE (steps_fuel s (Some q))) as X. destruct q; cbn [data_of] in X; try destruct A; rewrite app_nil_r in X; exact X.
Qed.
Lemma data_sent s last D es c : Inv s D es -> waits s last -> octets c -> sent (D ++ c) es (reader_send (RAt s last) (DData c)).
Proof.
  intros I (n & b & k & P & N) O. cbn [reader_send]. destruct (protocol_check last (DData c)); [|exact Logic.I]. apply (run_sent D es s (DData c) I). cbn [feasible]. split; [exact O|]. eauto 6.
Qed.
(** At the end of the octets. *)
Lemma ends_whole s ev D es : Inv s D es -> waits s ev -> ev_type ev = EStreamEnd -> exists f, chain false [top_frame] 0 D es [f].
Proof.
  intros (f & rest & past & u & B & S) (n & b & k & P & N) T. rewrite P in S. destruct b; cbn [stage] in S; [destruct S as (X & _); congruence|]. destruct S as (K & L & _ & _ & E). destruct (E T) as (D0 & -> & F0).
  pose proof (base_stack _ _ _ _ _ _ _ B) as SO. destruct (stack_depth _ _ SO) as [(_ & _ & ->)|(X & _)]; [|lia].
  destruct B as (-> & C & _). rewrite D0, !app_nil_r. exists f. exact C.
Qed.
Definition fed (D : list Z) (es : list event) (chunks : list (list Z)) (x : res event * reader * list (list Z)) : Prop :=
  match x with
  | (Err _, _, _) => True
  | (Ok ev, r, cs) => (ev_type ev = EStreamEnd /\ exists f, chain false [top_frame] 0 (D ++ concat chunks) es [f]) \/
      (ev_type ev <> EStreamEnd /\ exists s gone, r = RAt s ev /\ chunks = gone ++ cs /\ Inv s (D ++ concat gone) (es ++ [ev]) /\ at_event s ev)
  end.
Lemma feed_fed chunks : chunks_ok chunks -> forall s ev D es, Inv s D (if is_stream_signal (ev_type ev) then es else es ++ [ev]) -> at_event s ev -> fed D es chunks (feed (RAt s ev) ev chunks).
Proof.
  induction chunks as [|c cs IH]; intros CO s ev D es I A; cbn [feed]; unfold at_event in A; destruct (is_stream_signal (ev_type ev)) eqn:SG.
  - destruct (ev_type ev) eqn:T; try discriminate SG.
    + assert (E : reader_send (RAt s ev) DNext = (Err TypeError, RDead)) by (cbn [reader_send]; unfold protocol_check; rewrite T; reflexivity). rewrite E. exact Logic.I.
    + left. split; [reflexivity|]. cbn [concat]. rewrite app_nil_r. apply (ends_whole s ev D es I A T).
  - right. split; [intros X; rewrite X in SG; discriminate|]. exists s, []. split; [reflexivity|]. split; [reflexivity|]. change (concat (@nil (list Z))) with (@nil Z). rewrite (app_nil_r D). split; [exact I|]. unfold at_event. rewrite SG. exact A.
  - assert (OC : octets c) by (apply (Forall_inv CO)). pose proof (data_sent s ev D es c I A OC) as X. destruct (reader_send (RAt s ev) (DData c)) as [[ev'|e] r']; [|exact Logic.I]. destruct X as (s' & -> & I' & A').
    specialize (IH (Forall_inv_tail CO) s' ev' (D ++ c) es I' A'). destruct (feed (RAt s' ev') ev' cs) as [[[ev2|e] r2] cs2]; [|exact Logic.I]. destruct IH as [(T & f & C)|(T & s2 & gone & -> & -> & I2 & A2)].
    + left. split; [exact T|]. exists f. cbn [concat]. rewrite app_assoc. exact C.
    + right. split; [exact T|]. exists s2, (c :: gone). split; [reflexivity|]. split; [reflexivity|]. cbn [concat]. rewrite app_assoc. auto.
  - right. split; [intros X; rewrite X in SG; discriminate|]. exists s, []. split; [reflexivity|]. split; [reflexivity|]. change (concat (@nil (list Z))) with (@nil Z). rewrite (app_nil_r D). split; [exact I|]. unfold at_event. rewrite SG. exact A.
Qed.
Lemma next_fed r D es chunks q : chunks_ok chunks -> rok r D es -> asked_well es (match r with RAt _ last => Some last | _ => None end) q -> fed D es chunks (blocking_next r chunks q).
Proof.
  intros CO R A. unfold blocking_next. pose proof (request_sent r D es q R A) as X. destruct (reader_send r q) as [[ev|e] r']; [|exact Logic.I]. destruct X as (s & -> & I & AT). exact (feed_fed chunks CO s ev D es I AT).
Qed.
(** Requests: SKIP only just after a container was opened. *)
Fixpoint asks (before : list event) (last : option event) (reqs : list devent) (evs : list event) : Prop :=
  match reqs with
  | [] => True
  | q :: qs => asked_well before last q /\ match evs with [] => True | e :: es => asks (before ++ [e]) (Some e) qs es end
  end.
Lemma session_whole reqs : forall r chunks D es evs, chunks_ok chunks -> rok r D es -> asks es (match r with RAt _ last => Some last | _ => None end) reqs evs ->
  session r chunks reqs = (evs, SEnd) -> exists f, chain false [top_frame] 0 (D ++ concat chunks) (es ++ evs) [f].
Proof.
  induction reqs as [|q qs IH]; intros r chunks D es evs CO R A; cbn [session]; [discriminate|]. cbn [asks] in A. destruct A as (A & A').
  pose proof (next_fed r D es chunks q CO R A) as F. destruct (blocking_next r chunks q) as [[[ev|e] r'] cs]; [|discriminate]. destruct F as [(T & f & C)|(T & s & gone & -> & -> & I & AT)].
  - rewrite T. intros X. injection X as <-. rewrite app_nil_r. exists f. exact C.
  - intros H. assert (E : exists evs', evs = ev :: evs' /\ session (RAt s ev) cs qs = (evs', SEnd)).
    { destruct (session (RAt s ev) cs qs) as [evs' st]. destruct (ev_type ev); try congruence; injection H as <- ->; eauto. }
    destruct E as (evs' & -> & E). destruct (IH (RAt s ev) cs (D ++ concat gone) (es ++ [ev]) evs') as (f & C); auto.
    + apply Forall_app in CO. tauto.
    + cbn [rok]. auto.
    + exists f. rewrite concat_app, app_assoc. rewrite <- (app_assoc es) in C. exact C.
Qed.
Lemma start_rok : rok reader_new [] [].
Proof.
  cbn [rok reader_new]. split; [|auto]. exists top_frame, [], [], []. cbn [reader_init r_q r_pc r_frames stage]. split; [|auto]. split; [reflexivity|]. split; [constructor|]. split; [reflexivity|]. split; [reflexivity|]. split; [constructor|]. intros _. exact Logic.I.
Qed.
Theorem session_accepted chunks reqs evs : chunks_ok chunks -> asks [] None reqs evs -> session reader_new chunks reqs = (evs, SEnd) ->
  (concat chunks = [] /\ evs = []) \/ exists l es, concat chunks = ivm ++ l /\ evs = version_marker_event :: es /\ accepted_stream true opens l es.
Proof.
  intros CO A H. destruct (session_whole reqs reader_new chunks [] [] evs CO start_rok A H) as (f & C). exact (whole_chain _ _ f C).
Qed.

(** SKIP is answered with the end of the container. *)
Definition skipping (s : rstate) : Prop := r_pc s = PK KSkipped \/ exists n b sev, r_pc s = PRead n b sev KSkipped.
Definition skip_out (s' : rstate) (ev : event) : Prop := if is_stream_signal (ev_type ev) then skipping s' else ev_type ev = EContainerEnd.
Lemma skip_step s inp D es s' oe : Inv s D es -> skipping s \/ (r_pc s = PLoop /\ inp = Some DSkip) -> step s inp = Ok (s', oe) ->
  match oe with None => skipping s' | Some ev => skip_out s' ev end.
Proof.
  intros (f & rest & past & u & B & S) SK. destruct s as [fs p q]. cbn [r_q r_pc r_frames] in *. unfold step. cbn [r_q r_pc r_frames]. destruct SK as [[SP|(n & b & sev & SP)]|(SP & ->)]; cbn [r_pc] in SP; subst p.
  - cbn [stage] in S. destruct S as (-> & _ & L). pose proof B as (_ & _ & PO & _). unfold container_body. rewrite L, PO. cbn [opt_eqb]. rewrite Z.eqb_refl. intros H. injection H as <- <-. reflexivity.
  - assert (SG : is_stream_signal (ev_type sev) = true) by (destruct b; cbn [stage] in S; [destruct S as (X & _); rewrite X; reflexivity|destruct S as (X & _); destruct X]).
    intros H.
    assert (G : forall len sv q', is_stream_signal (ev_type sv) = true -> (if len <=? 0 then Ok (mkr fs (PK KSkipped) q', None) else Ok (mkr fs (PRead len b sv KSkipped) q', Some sv)) = Ok (s', oe) -> match oe with None => skipping s' | Some ev => skip_out s' ev end).
    { intros len sv q' V X. destruct (len <=? 0); injection X as <- <-; [left; reflexivity|]. unfold skip_out. rewrite V. right. cbn [r_pc]. eauto. }
    destruct inp as [[| |d]|]; [exact (G _ _ _ SG H)|exact (G _ _ _ SG H)| |exact (G _ _ _ SG H)]. eapply G; [|exact H]. destruct (0 <? zlen d); [reflexivity|exact SG].
  - destruct fs as [|g fs]; [discriminate|]. destruct (f_limit g); [|discriminate]. unfold begin_read. destruct (if _ =? 0 then _ else _); [|discriminate]. cbn [bind]. 
    match goal with |- context [aq_skip q ?x] => destruct (aq_skip q x) as [[rem q']|]; [|discriminate] end. cbn [bind]. intros H. injection H as <- <-. right. cbn [r_pc]. eauto.
Qed.
Lemma skip_run fuel : forall s inp D es s' ev, Inv s D es -> feasible es s inp -> skipping s \/ (r_pc s = PLoop /\ inp = Some DSkip) -> run fuel s inp = Ok (s', ev) -> skip_out s' ev.
Proof.
  induction fuel as [|fuel IH]; intros s inp D es s' ev I F SK; cbn [run]; [discriminate|]. pose proof (step_keeps s inp D es I F) as K. pose proof (skip_step s inp D es) as X. destruct (step s inp) as [[s1 [ev1|]]|e]; [| |discriminate].
  - intros H. injection H as <- <-. exact (X s1 (Some ev1) I SK eq_refl).
  - intros H. exact (IH s1 None (D ++ data_of inp) es s' ev K Logic.I (or_introl (X s1 None I SK eq_refl)) H).
Qed.
Definition skip_reply (x : res event * reader) : Prop := match x with (Ok ev, RAt s _) => skip_out s ev | _ => True end.
Lemma skip_sent s last D es : Inv s D es -> at_event s last -> asked_well es (Some last) DSkip -> skip_reply (reader_send (RAt s last) DSkip).
Proof.
  intros I A (K & e & X & T). injection X as X. subst e. unfold at_event in A. rewrite T in A. cbn [is_stream_signal] in A. destruct A as (P & F). cbn [reader_send]. destruct (protocol_check last DSkip); [|exact Logic.I].
  destruct (run (steps_fuel s (Some DSkip)) s (Some DSkip)) as [[s' ev]|] eqn:R; [|exact Logic.I]. cbn [skip_reply]. apply (skip_run _ _ _ D es _ _ I) in R; [exact R| |right; auto]. cbn [feasible]. split; [exact P|]. split; [exact (deep_mode s D es I P K)|exact (F eq_refl)].
Qed.
Lemma skip_more s last D es c : Inv s D es -> waits s last -> skipping s -> octets c -> skip_reply (reader_send (RAt s last) (DData c)).
Proof.
  intros I (n & b & k & P & N) SK O. cbn [reader_send]. destruct (protocol_check last (DData c)); [|exact Logic.I]. destruct (run (steps_fuel s (Some (DData c))) s (Some (DData c))) as [[s' ev]|] eqn:R; [|exact Logic.I].
  apply (skip_run _ _ _ D es _ _ I) in R; [exact R| |auto]. cbn [feasible]. split; [exact O|]. eauto 6.
Qed.
(** An event that opens a top-level container is not inside one. *)
Lemma opening_level s D es e : Inv s D (es ++ [e]) -> opening e = true -> level es = 0.
Proof. intros (f & rest & past & u & (_ & C & _) & _) O. pose proof (chain_opening es e O _ _ _ _ _ _ C eq_refl top_stack) as X. change (zlen [top_frame]) with 1 in X. lia. Qed.
End SKIP.
