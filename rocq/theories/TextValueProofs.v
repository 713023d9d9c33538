(** [loads(dumps(v, binary=False))]. *)
From Coq Require Import String.
From Verif Require Import Base BaseFacts CoreModel ScalarFacts TimestampFacts BinWriterModel BinReaderModel SymbolsModel ManagedModel ManagedSpec MultimapModel MultimapProofs SimpleionModel SimpleionSpec SimpleionProofs
  TextWriterModel Props_TextWriter TextReaderModel TextRoundTripSpec TextValueSpec TextValueModel.
Local Open Scope Z_scope.

(** * What [dump] sends is carried by the text format *)
Fixpoint carried_to (open : list iontype) (es : list uevent) (open' : list iontype) : Prop :=
  match es with
  | [] => open = open'
  | e :: es' => event_fits open e /\ match nests open e with Some o => carried_to o es' open' | None => False end
  end.
Lemma carried_end es : forall open, carried_to open es [] <-> carried open es.
Proof. induction es as [|e es IH]; intros open; cbn [carried_to carried]; [tauto|]. destruct (nests open e); [rewrite IH|]; tauto. Qed.
Lemma carried_app es1 : forall open o es2 o2, carried_to open es1 o -> carried_to o es2 o2 -> carried_to open (es1 ++ es2) o2.
Proof.
  induction es1 as [|e es1 IH]; intros open o es2 o2 H1 H2; cbn [app carried_to] in *; [subst; exact H2|]. destruct H1 as (F & H1). split; [exact F|]. destruct (nests open e); [|contradiction]. eapply IH; eassumption.
Qed.

Lemma name_carried a : text_name a -> name_fits a.
Proof.
  unfold text_name, name_fits, text_of, sid_of. destruct a as [k|x]; cbn [arg_text]; [|auto]. destruct (tk_text k); [auto|]. intros ->. exists 0. split; [reflexivity|lia].
Qed.
Lemma scalar_carried t s : text_scalar_ok t s -> scalar_fits t s.
Proof.
  unfold text_scalar_ok. destruct t; auto. intros (a & E & N). apply name_carried in N. destruct s; try discriminate; injection E as <-; exact N.
Qed.

(** What the reader resolves: names that are text or symbol zero. *)
Definition named (e : uevent) : Prop :=
  match ue_field e with Some a => text_name a | None => True end /\ Forall text_name (ue_annot e) /\
  (ue_ion_type e = Some TSymbol -> forall s, ev_force (ue_value e) = Ok (Some s) -> exists a, symbol_arg s = Some a /\ text_name a).

Definition text_ctx (open : list iontype) (field : option text) (ins : bool) (v : pyval) : Prop :=
  (in_a_struct open -> ins = true) /\ (if ins then text_key field v else field = None).
Definition text_sends (tas : bool) (v : pyval) : Prop := forall field ins depth open, text_storable v -> text_ctx open field ins v -> (open = [] -> ~ text_reserved v) ->
  carried_to open (dump_value tas v field ins depth) open /\ Forall named (dump_value tas v field ins depth).

Lemma plain_field_fits open field ins v : text_ctx open field ins v -> ~ has_nature v ->
  (in_a_struct open -> exists a, plain_field field = Some a /\ name_fits a) /\ match plain_field field with Some a => text_name a | None => True end.
Proof.
  intros (W & K) NN. split.
  - intros I. rewrite (W I) in K. destruct field as [x|]; [|contradiction]. exists (AText x). split; [reflexivity|]. apply name_carried, K.
  - destruct ins; [|subst field; exact Logic.I]. destruct field as [x|]; [exact K|exact Logic.I].
Qed.
Lemma nature_field_fits open field ins v : text_ctx open field ins v ->
  (in_a_struct open -> exists a, nature_field ins field = Some a /\ name_fits a) /\ match nature_field ins field with Some a => text_name a | None => True end.
Proof.
  intros (W & K). assert (N : ins = true -> text_name (ATok (mktok field (match field with None => Some 0 | Some _ => None end) None))).
  { intros ->. unfold text_name. cbn [arg_text tk_text tk_sid]. destruct field; [exact K|reflexivity]. }
  split; [intros I; specialize (W I); subst ins; eexists; split; [reflexivity|]; apply name_carried, N; reflexivity|]. destruct ins; [apply N; reflexivity|exact Logic.I].
Qed.
Lemma one_carried open e : event_fits open e -> named e -> ue_type e = EScalar -> carried_to open [e] open /\ Forall named [e].
Proof. intros F N T. split; [|constructor; [exact N|constructor]]. cbn [carried_to]. split; [exact F|]. unfold nests. rewrite T. reflexivity. Qed.
Lemma wrap_carried open e t es : event_fits open e -> named e -> ue_type e = EContainerStart -> ue_ion_type e = Some t -> is_container t = true ->
  carried_to (t :: open) es (t :: open) /\ Forall named es -> carried_to open (e :: es ++ [container_end_event]) open /\ Forall named (e :: es ++ [container_end_event]).
Proof.
  intros F N T I C (CA & NA). split.
  - cbn [carried_to]. split; [exact F|]. unfold nests. rewrite T, I, C. eapply carried_app; [exact CA|]. cbn [carried_to]. split; [intros E; discriminate E|reflexivity].
  - constructor; [exact N|]. apply Forall_app. split; [exact NA|]. constructor; [|constructor]. split; [exact Logic.I|]. split; [constructor|]. intros _ s E. discriminate E.
Qed.
Lemma elements_carried tas l open depth : Forall (text_sends tas) l -> Forall text_storable l -> open <> [] -> ~ in_a_struct open ->
  carried_to open (flat_map (fun x => dump_value tas x None false depth) l) open /\ Forall named (flat_map (fun x => dump_value tas x None false depth) l).
Proof.
  intros S ST NE W. induction l as [|v l IH]; cbn [flat_map]; [split; [reflexivity|constructor]|]. inversion S as [|? ? S1 S2]; subst. inversion ST as [|? ? T1 T2]; subst.
  destruct (S1 None false depth open T1) as [A B]; [split; [intros E; contradiction|reflexivity]|intros E; contradiction|]. destruct (IH S2 T2) as [C D]. split; [eapply carried_app; eassumption|apply Forall_app; auto].
Qed.
Lemma items_carried tas l open depth : Forall (fun p => text_sends tas (snd p)) l -> Forall (fun p => text_key (fst p) (snd p) /\ text_storable (snd p)) l -> open <> [] ->
  carried_to open (flat_map (fun p => dump_value tas (snd p) (fst p) true depth) l) open /\ Forall named (flat_map (fun p => dump_value tas (snd p) (fst p) true depth) l).
Proof.
  intros S ST NE. induction l as [|[k v] l IH]; cbn [flat_map fst snd]; [split; [reflexivity|constructor]|]. inversion S as [|? ? S1 S2]; subst. inversion ST as [|? ? [K1 T1] T2]; subst.
  destruct (S1 k true depth open T1) as [A B]; [split; [reflexivity|exact K1]|intros E; contradiction|]. destruct (IH S2 T2) as [C D]. split; [eapply carried_app; eassumption|apply Forall_app; auto].
Qed.
Lemma scalar_event_fits open t s field an depth :
  (in_a_struct open -> exists a, field = Some a /\ name_fits a) -> match field with Some a => text_name a | None => True end -> Forall text_name an -> text_scalar_ok t s ->
  (open = [] -> t = TSymbol -> an = [] -> forall a x, symbol_arg s = Some a -> arg_text a = Some x -> ~ like_ivm x) ->
  let e := mkue EScalar (Some t) (EvVal s) field an (Some depth) in carried_to open [e] open /\ Forall named [e].
Proof.
  intros FI FN AN K RV e. apply one_carried; [| |reflexivity].
  - intros _. cbn [e ue_field ue_annot ue_type ue_ion_type ue_value]. split; [exact FI|]. split; [eapply Forall_impl; [|exact AN]; apply name_carried|]. intros _. exists t, (Some s).
    split; [reflexivity|]. split; [reflexivity|]. split; [exact (scalar_carried _ _ K)|]. intros O (T & A & v & x & E & VX & IV). cbn [ue_ion_type ue_annot ue_value ev_force] in *. injection T as ->. injection E as <-.
    destruct VX as [-> | (k & -> & TK)]; [exact (RV O eq_refl A (AText x) x eq_refl eq_refl IV)|exact (RV O eq_refl A (ATok k) x eq_refl TK IV)].
  - split; [exact FN|]. split; [exact AN|]. cbn [e ue_ion_type ue_value ev_force]. intros [= ->] s0 [= <-]. exact K.
Qed.
Lemma null_event_fits open t field an depth :
  (in_a_struct open -> exists a, field = Some a /\ name_fits a) -> match field with Some a => text_name a | None => True end -> Forall text_name an ->
  let e := mkue EScalar (Some t) EvNone field an (Some depth) in carried_to open [e] open /\ Forall named [e].
Proof.
  intros FI FN AN e. apply one_carried; [| |reflexivity].
  - intros _. cbn [e ue_field ue_annot ue_type ue_ion_type ue_value]. split; [exact FI|]. split; [eapply Forall_impl; [|exact AN]; apply name_carried|]. intros _. exists t, None.
    split; [reflexivity|]. split; [reflexivity|]. split; [exact Logic.I|]. intros _ (_ & _ & v & x & E & _). discriminate E.
  - split; [exact FN|]. split; [exact AN|]. intros _ s E. discriminate E.
Qed.
Lemma start_event_fits open t field an depth :
  (in_a_struct open -> exists a, field = Some a /\ name_fits a) -> match field with Some a => text_name a | None => True end -> Forall text_name an ->
  let e := mkue EContainerStart (Some t) EvNone field an (Some depth) in event_fits open e /\ named e.
Proof.
  intros FI FN AN e. split.
  - intros _. split; [exact FI|]. split; [eapply Forall_impl; [|exact AN]; apply name_carried|]. intros E. discriminate E.
  - split; [exact FN|]. split; [exact AN|]. intros _ s E. discriminate E.
Qed.
Lemma not_struct t o : t <> TStruct -> ~ in_a_struct (t :: o).
Proof. intros N (o' & E). congruence. Qed.

Theorem value_carried tas v : text_sends tas v.
Proof.
  induction v as [ |s|l IH|l IH|l IH|t an|t an s|sexp an l IH|an m IH] using pyval_induction; intros field ins depth open ST CX RV; inversion ST; subst; cbn [dump_value].
  - destruct (plain_field_fits _ _ _ _ CX (fun H => H)) as (A & B). apply null_event_fits; auto.
  - destruct (plain_field_fits _ _ _ _ CX (fun H => H)) as (A & B). apply scalar_event_fits; auto. intros O T _ a x SA TX IV. apply (RV O). destruct s; try discriminate T. injection SA as <-. exists x. auto.
  - destruct (plain_field_fits _ _ _ _ CX (fun H => H)) as (A & B). destruct (start_event_fits open TList _ [] depth A B ltac:(constructor)) as (F & N).
    apply (wrap_carried open _ TList _ F N eq_refl eq_refl eq_refl). apply elements_carried; auto; [discriminate|apply not_struct; discriminate].
  - destruct (plain_field_fits _ _ _ _ CX (fun H => H)) as (A & B). destruct (start_event_fits open (if tas then TSexp else TList) _ [] depth A B ltac:(constructor)) as (F & N).
    apply (wrap_carried open _ (if tas then TSexp else TList) _ F N eq_refl eq_refl); [destruct tas; reflexivity|]. apply elements_carried; auto; [discriminate|apply not_struct; destruct tas; discriminate].
  - destruct (plain_field_fits _ _ _ _ CX (fun H => H)) as (A & B). destruct (start_event_fits open TStruct _ [] depth A B ltac:(constructor)) as (F & N).
    apply (wrap_carried open _ TStruct _ F N eq_refl eq_refl eq_refl). apply items_carried; auto. discriminate.
  - destruct (nature_field_fits _ _ _ _ CX) as (A & B). apply null_event_fits; auto.
  - destruct (nature_field_fits _ _ _ _ CX) as (A & B). apply scalar_event_fits; auto. intros O -> -> a x SA TX IV. apply (RV O). exists a, x. auto.
  - destruct (nature_field_fits _ _ _ _ CX) as (A & B). destruct (start_event_fits open (if sexp then TSexp else TList) _ an depth A B ltac:(assumption)) as (F & N).
    apply (wrap_carried open _ (if sexp then TSexp else TList) _ F N eq_refl eq_refl); [destruct sexp; reflexivity|]. apply elements_carried; auto; [discriminate|apply not_struct; destruct sexp; discriminate].
  - destruct (nature_field_fits _ _ _ _ CX) as (A & B). destruct (start_event_fits open TStruct _ an depth A B ltac:(assumption)) as (F & N).
    rewrite struct_items. match goal with H : Forall _ m |- _ => rename H into FS end.
    apply (wrap_carried open _ TStruct _ F N eq_refl eq_refl eq_refl). apply items_carried; [apply items_Forall; exact IH|apply items_Forall; eapply Forall_impl; [|exact FS]; intros p [_ Q]; exact Q|discriminate].
Qed.
Lemma values_carried tas l : Forall text_storable l -> Forall (fun v => ~ text_reserved v) l ->
  carried_to [] (flat_map (fun x => dump_value tas x None false 0) l) [] /\ Forall named (flat_map (fun x => dump_value tas x None false 0) l).
Proof.
  intros ST NR. induction l as [|v l IH]; cbn [flat_map]; [split; [reflexivity|constructor]|]. inversion ST as [|? ? T1 T2]; subst. inversion NR as [|? ? N1 N2]; subst.
  destruct (value_carried tas v None false 0 [] T1) as [A B]; [split; [intros (o & E); discriminate E|reflexivity]|auto|]. destruct (IH T2 N2) as [C D]. split; [eapply carried_app; eassumption|apply Forall_app; auto].
Qed.

(** * What is read shows what was written *)
Definition text_read (s : scalar) : scalar :=
  match s with
  | VFloat b => if 2047 * 2 ^ 52 <? b mod 2 ^ 63 then VFloat 0x7FF8000000000000 else s
  | VTimestamp (TsPlain d) => VTimestamp (TsStamp (datetime_as d))
  | _ => s
  end.
Definition text_shows (e : uevent) (u : mevent) : Prop :=
  match ev_force (ue_value e) with
  | Ok None => me_value u = Ok None
  | Ok (Some s) =>
    match ue_ion_type e with
    | Some TSymbol => exists a r, symbol_arg s = Some a /\ me_value u = Ok (Some (VSymbol r)) /\ tk_text r = arg_text a
    | Some t => scalar_fits t s -> me_value u = Ok (Some (text_read s))
    | None => False
    end
  | Err _ => False
  end.
Lemma resolve_name a k : text_name a -> same_symbol a k -> exists r, resolve_token system_table k = Ok r /\ tk_text r = arg_text a.
Proof.
  unfold text_name, same_symbol. replace (text_of a) with (arg_text a) by (destruct a; reflexivity). destruct (arg_text a) as [x|] eqn:E.
  - intros _ ->. unfold resolve_token. cbn [tk_text tk_sid]. eexists. split; [reflexivity|reflexivity].
  - intros N (n & S & ->). destruct a as [t|x]; [|contradiction]. cbn [sid_of] in S. assert (n = 0) as -> by congruence. eexists. split; [vm_compute; reflexivity|reflexivity].
Qed.
Lemma nan_bool b : 0 <= b < 2 ^ 64 -> (not_a_number b <-> 2047 * 2 ^ 52 <? b mod 2 ^ 63 = true).
Proof.
  intros B. unfold not_a_number. split.
  - intros (s & f & -> & S1 & F). destruct S1 as [-> | ->]; apply Z.ltb_lt.
    + rewrite Z.mod_small by lia. lia.
    + replace (1 * 2 ^ 63 + 2047 * 2 ^ 52 + f) with (2047 * 2 ^ 52 + f + 1 * 2 ^ 63) by lia. rewrite Z.mod_add by lia. rewrite Z.mod_small by lia. lia.
  - intros H. apply Z.ltb_lt in H. exists (b / 2 ^ 63), (b mod 2 ^ 63 - 2047 * 2 ^ 52). pose proof (Z.div_mod b (2 ^ 63) ltac:(lia)) as D. pose proof (Z.mod_pos_bound b (2 ^ 63) ltac:(lia)).
    split; [lia|]. split; [|lia]. assert (b / 2 ^ 63 < 2) by (apply Z.div_lt_upper_bound; lia). assert (0 <= b / 2 ^ 63) by (apply Z.div_pos; lia). lia.
Qed.
Lemma same_read t s w : t <> TSymbol -> scalar_fits t s -> same_scalar t s w -> w = text_read s.
Proof.
  intros NT F S. inversion S as [t0 v0 I|b NN|b N|x|d|k j K|x j K]; subst; try congruence; try reflexivity.
  - cbn in I. repeat destruct I as [<-|I]; try contradiction; destruct w; cbn in F; try contradiction; reflexivity.
  - cbn [text_read]. destruct (2047 * 2 ^ 52 <? b mod 2 ^ 63) eqn:E; [|reflexivity]. exfalso. apply NN, nan_bool; assumption.
  - cbn [text_read]. rewrite (proj1 (nan_bool b F) N). reflexivity.
Qed.

Definition tagged (e : event) : mevent := mkme e system_table.
Definition is_value (e : event) : bool := match ev_type e with EVersionMarker => false | _ => true end.
Lemma value_shown e t y f an d : ue_ion_type e = Some t -> named e -> same_value t (ue_value e) y ->
  text_shows e (tagged (mkev EScalar (Some t) y f an d)).
Proof.
  intros T (_ & _ & NV) S. unfold text_shows. destruct S as [y E E'|v w y E E' SS]; rewrite E.
  - unfold me_value. cbn [tagged me_ev ev_value]. rewrite E'. cbn [bind ev_ion_type]. destruct t; reflexivity.
  - rewrite T. destruct (iontype_eqb t TSymbol) eqn:ET.
    + assert (t = TSymbol) as -> by (destruct t; try discriminate; reflexivity). destruct (NV T v E) as (a & SA & NA).
      assert (exists j, w = VSymbol j /\ same_symbol a j) as (j & -> & SJ).
      { inversion SS as [t0 v0 I| | | | |k j K|x j K]; subst; [cbn in I; intuition discriminate| |]; injection SA as <-; eauto. }
      destruct (resolve_name a j NA SJ) as (r & R & TX). exists a, r. split; [exact SA|]. split; [|exact TX]. unfold me_value. cbn [tagged me_ev ev_value]. rewrite E'. cbn [bind ev_ion_type me_table tagged me_ev]. rewrite R. reflexivity.
    + assert (NT : t <> TSymbol) by (intros ->; discriminate). assert (V : scalar_fits t v -> me_value (tagged (mkev EScalar (Some t) y f an d)) = Ok (Some (text_read v))).
      { intros F. rewrite <- (same_read t v w NT F SS). unfold me_value. cbn [tagged me_ev ev_value]. rewrite E'. cbn [bind ev_ion_type]. destruct t; try congruence; reflexivity. }
      destruct t; try exact V. congruence.
Qed.
Lemma names_shown open e ty t y f an d : named e -> same_field open e f -> Forall2 same_symbol (ue_annot e) an ->
  shows_names (within open) e (tagged (mkev ty t y f an d)).
Proof.
  intros (NF & NA & _) SF SA. split.
  - destruct SF as [a k IS E S|NI].
    + destruct IS as (o & ->). cbn [within]. rewrite E in NF. destruct (resolve_name a k NF S) as (r & R & T). exists a, r. split; [exact E|]. split; [|exact T].
      unfold me_field. cbn [tagged me_ev ev_field me_table]. rewrite R. reflexivity.
    + destruct open as [|[] o]; cbn [within]; try reflexivity. exfalso. apply NI. now exists o.
  - unfold me_annotations. cbn [tagged me_ev ev_annot me_table]. clear SF NF. induction SA as [|a k l l' S SA IH]; [exists []; split; reflexivity|]. inversion NA as [|? ? N1 N2]; subst.
    destruct (IH N2) as (rs & R & T). destruct (resolve_name a k N1 S) as (r & R1 & T1). exists (r :: rs). cbn [mapM map]. rewrite R1. cbn [bind]. rewrite R. split; [reflexivity|]. cbn [map]. rewrite T1, T. reflexivity.
Qed.
Lemma same_mirrors open es evs : same_events open es evs -> Forall named es -> mirrors_by text_shows open es (map tagged (filter is_value evs)).
Proof.
  induction 1 as [|e es evs T S IH|e es evs T S IH|open e t y f an es evs T I V F A S IH|open e t f an es evs T I C F A S IH|open e t es evs T S IH]; intros N; try (inversion N as [|? ? N1 N2]; subst; specialize (IH N2)); cbn [filter is_value ev_type map].
  - constructor.
  - apply mi_mark; auto.
  - apply mi_mark; auto.
  - apply mi_scalar; [exact T|rewrite I; reflexivity|exact (names_shown _ _ _ _ _ _ _ _ N1 F A)|exact (value_shown _ _ _ _ _ _ I N1 V)|exact IH].
  - apply (mi_start _ _ t); [exact T|exact I|cbn in C; intuition (subst; reflexivity)|reflexivity|exact (names_shown _ _ _ _ _ _ _ _ N1 F A)|exact IH].
  - apply mi_end; [exact T|reflexivity|exact IH].
Qed.

(** * The managed reader hands on what was written *)
Lemma handed_deep cat e d : ev_depth e = Some d -> d <> 0 -> mr_step cat mstate_new e = Ok (mstate_new, None).
Proof. intros E N. unfold mr_step. cbn [mstate_new ms_proc]. rewrite E. destruct d; [congruence|reflexivity|reflexivity]. Qed.
Lemma is_text_spec x t : ManagedModel.is_text x t = true <-> x = Some t.
Proof. unfold ManagedModel.is_text. destruct x as [y|]; cbn; [|split; discriminate]. rewrite zlist_eqb_eq. split; congruence. Qed.
Lemma ivm_like : like_ivm TEXT_ION_1_0.
Proof. exists [49], [48]. split; [reflexivity|]. unfold digit. repeat split; try discriminate; repeat (constructor; [lia|]); constructor. Qed.
Lemma handed_scalar cat e t y f an : ue_ion_type e = Some t -> named e -> same_value t (ue_value e) y -> Forall2 same_symbol (ue_annot e) an -> ~ spells_ivm e ->
  mr_step cat mstate_new (mkev EScalar (Some t) y f an (Some 0)) = Ok (mstate_new, None).
Proof.
  intros T (_ & _ & NV) V A NS. unfold mr_step. cbn [mstate_new ms_proc ev_depth ev_type ev_ion_type ev_annot].
  destruct (iontype_eqb t TSymbol) eqn:ET; [|destruct t, an; try discriminate; reflexivity]. assert (t = TSymbol) as -> by (destruct t; try discriminate; reflexivity).
  destruct an as [|a an]; [|reflexivity]. inversion A as [AE|]; subst. unfold symbol_value. cbn [ev_value]. destruct V as [y E E'|v w y E E' SS]; rewrite E'; cbn [bind]; [reflexivity|].
  destruct (NV T v E) as (a & SA & NA). assert (exists j, w = VSymbol j /\ same_symbol a j) as (j & -> & SJ).
  { inversion SS as [t0 v0 I| | | | |k j K|x j K]; subst; [cbn in I; intuition discriminate| |]; injection SA as <-; eauto. }
  cbn [bind]. destruct (resolve_name a j NA SJ) as (r & R & TX). cbn [ms_table]. change (ms_table mstate_new) with system_table. rewrite R. cbn [bind].
  destruct (ManagedModel.is_text (tk_text r) TEXT_ION_1_0) eqn:X; [|reflexivity]. apply is_text_spec in X. exfalso. apply NS. split; [exact T|]. split; [congruence|].
  exists v, TEXT_ION_1_0. split; [exact E|]. split; [|exact ivm_like]. rewrite TX in X. destruct v; try discriminate; injection SA as <-; cbn [arg_text] in X; [right; eauto|left; congruence].
Qed.
Lemma handed_start cat e t f an : ue_type e = EContainerStart -> ue_ion_type e = Some t -> named e -> Forall2 same_symbol (ue_annot e) an -> ~ reserved e -> In t [TList; TSexp; TStruct] ->
  mr_step cat mstate_new (mkev EContainerStart (Some t) EvNone f an (Some 0)) = Ok (mstate_new, None).
Proof.
  intros ET T (_ & NA & _) A NR C. unfold mr_step. cbn [mstate_new ms_proc ev_depth ev_type ev_ion_type ev_annot].
  destruct t; try (cbn in C; intuition discriminate); try (destruct an; reflexivity). destruct an as [|k an]; [reflexivity|].
  inversion A as [|a k0 l l' S A' EA]; subst. rewrite <- EA in NA. inversion NA as [|? ? N1 N2]; subst. destruct (resolve_name a k N1 S) as (r & R & TX). change (ms_table _) with system_table. rewrite R. cbn [bind].
  destruct (ManagedModel.is_text (tk_text r) TEXT_ION_SYMBOL_TABLE) eqn:X; [|reflexivity]. apply is_text_spec in X. exfalso. apply NR. unfold reserved. rewrite ET, T, <- EA. rewrite <- TX. exact X.
Qed.
Definition handed (cat : catalog) (e : event) : Prop := is_stream_signal (ev_type e) = false /\ mr_step cat mstate_new e = Ok (mstate_new, None).
Lemma zlen_pos {A} (x : A) l : zlen (x :: l) <> 0.
Proof. unfold zlen. cbn [List.length]. lia. Qed.
Lemma same_handed cat open es evs : same_events open es evs -> carried open es -> Forall named es -> unreserved (List.length open) es -> Forall (fun e => is_value e = true -> handed cat e) evs.
Proof.
  induction 1 as [|e es evs T S IH|e es evs T S IH|open e t y f an es evs T I V F A S IH|open e t f an es evs T I C F A S IH|open e t es evs T S IH]; intros CA N U;
    [constructor|..]; inversion N as [|? ? N1 N2]; subst; cbn [carried] in CA; destruct CA as (EF & CA); cbn [unreserved] in U; destruct U as (U1 & U2); unfold nests in CA; rewrite T in CA, U2.
  - constructor; [discriminate|]. apply IH; assumption.
  - apply IH; assumption.
  - constructor; [|apply IH; assumption]. intros _. split; [reflexivity|]. destruct open as [|o open]; [|eapply handed_deep; [reflexivity|apply zlen_pos]].
    apply (handed_scalar cat e); try assumption. unfold event_fits in EF. rewrite T in EF. destruct (EF eq_refl) as (_ & _ & V'). destruct (V' eq_refl) as (t0 & v0 & _ & _ & _ & NS). exact (NS eq_refl).
  - rewrite I in CA. replace (is_container t) with true in CA by (cbn in C; intuition (subst; reflexivity)). constructor; [|apply IH; assumption]. intros _. split; [reflexivity|].
    destruct open as [|o open]; [|eapply handed_deep; [reflexivity|apply zlen_pos]]. apply (handed_start cat e); try assumption. apply U1. reflexivity.
  - constructor; [|apply IH; assumption]. intros _. split; [reflexivity|]. destruct open as [|o open]; [destruct t; reflexivity|eapply handed_deep; [reflexivity|apply zlen_pos]].
Qed.

(** * Loading *)
Lemma text_null e u : ev_force (ue_value e) = Ok None -> text_shows e u -> me_value u = Ok None.
Proof. intros E V. unfold text_shows in V. rewrite E in V. exact V. Qed.
Lemma text_symbol e u s : ue_ion_type e = Some TSymbol -> ue_value e = EvVal s -> text_scalar_ok TSymbol s -> text_shows e u ->
  exists a r, symbol_arg s = Some a /\ me_value u = Ok (Some (VSymbol r)) /\ tk_text r = arg_text a.
Proof. intros T E _ V. unfold text_shows in V. rewrite E in V. cbn [ev_force] in V. rewrite T in V. exact V. Qed.
Lemma stamp_rebuilt x p : ts_canonical x -> ts_prec x = Some p -> timestamp_new (dt_year (ts_dt x)) (dt_month (ts_dt x)) (dt_day (ts_dt x)) (dt_hour (ts_dt x)) (dt_minute (ts_dt x)) (dt_second (ts_dt x)) None (dt_off (ts_dt x)) (ts_prec x) None (Some (ts_frac x)) = Ok x.
Proof. intros C E. exact C. Qed.
Lemma text_scalar_loads e u t s : ue_ion_type e = Some t -> t <> TSymbol -> ue_value e = EvVal s -> text_scalar_ok t s -> text_shows e u ->
  exists w, me_value u = Ok (Some w) /\ py_scalar t w = Ok (text_content s) /\ text_content (text_content s) = text_content s /\ class_fits t (text_content s).
Proof.
  intros T NT E K V. unfold text_shows in V. rewrite E in V. cbn [ev_force] in V. rewrite T in V.
  assert (SP : scalar_fits t s) by (destruct t; try exact K; congruence).
  exists (text_read s). split; [destruct t; try (apply V; exact SP); congruence|]. clear V E T K.
  destruct t; try congruence; destruct s as [b|n|b|d|[x|d]|k|x|b]; cbn [scalar_fits] in SP; try contradiction; try (repeat split; reflexivity).
  - cbn [text_read text_content]. destruct (2047 * 2 ^ 52 <? b mod 2 ^ 63) eqn:E; [repeat split; reflexivity|]. cbn [text_content]. rewrite E. repeat split; reflexivity.
  - destruct SP as (C & _ & P & _). destruct x as [dt [p|] fp fr]; [|contradiction]. cbn [text_read text_content content ts_dt ts_prec ts_fprec ts_frac]. split; [|repeat split; reflexivity].
    cbn [py_scalar]. pose proof (stamp_rebuilt _ p C eq_refl) as R. cbn [ts_dt ts_prec ts_frac] in *. rewrite R. reflexivity.
  - destruct SP as (C & _). split; [|repeat split; reflexivity]. cbn [text_read text_content content]. unfold datetime_as in *. cbn [py_scalar]. pose proof (stamp_rebuilt _ PSecond C eq_refl) as R. cbn [ts_dt ts_prec ts_frac] in *. rewrite R. reflexivity.
Qed.
Definition text_loads := stream_loads text_name text_scalar_ok text_key text_shows text_content text_null text_symbol text_scalar_loads (fun _ => eq_refl).
