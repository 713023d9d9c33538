(** What the managed writer wrote, as the managed reader sees it. *)
From Verif Require Import Base BaseFacts FieldsModel BufferModel CoreModel BinWriterModel BinReaderModel BinReaderSpec BinReaderSession
  ScalarFacts ScalarProofs SymbolsModel SymbolsProofs BinFormat BinFormatFacts WriterFacts WriterProofs ManagedModel Cursor ManagedSpec
  ManagedReaderFacts ManagedReaderProofs ManagedWriterFacts ManagedWriterRun.
Local Open Scope Z_scope.

(** * Taking echoes apart *)
Lemma echo_scalar open e es evs : echoes open (e :: es) evs -> ev_type e = EScalar ->
  exists v fld an evs', evs = mkev EScalar (ev_ion_type e) v fld an (Some (zlen open)) :: evs' /\ named (standing open) e fld an /\ same_value e v /\ echoes open es evs'.
Proof. intros H T. inversion H; subst; try congruence. do 4 eexists. split; [reflexivity|auto]. Qed.
Lemma echo_start open e es evs t : echoes open (e :: es) evs -> ev_type e = EContainerStart -> ev_ion_type e = Some t ->
  exists fld an evs', evs = mkev EContainerStart (Some t) EvNone fld an (Some (zlen open)) :: evs' /\ named (standing open) e fld an /\ echoes (t :: open) es evs'.
Proof.
  intros H T IT. inversion H; subst; try congruence. match goal with E : ev_ion_type e = Some ?u |- _ => assert (u = t) by congruence; subst end.
  do 3 eexists. split; [reflexivity|auto].
Qed.
Lemma echo_end t open e es evs : echoes (t :: open) (e :: es) evs -> ev_type e = EContainerEnd ->
  exists evs', evs = mkev EContainerEnd (Some t) EvNone None [] (Some (zlen open)) :: evs' /\ echoes open es evs'.
Proof. intros H T. inversion H; subst; try congruence. eexists. split; [reflexivity|auto]. Qed.
Lemma no_annots p e fld an : named p e fld an -> ev_annot e = [] -> an = [].
Proof. intros [_ (l & S & ->)] E. rewrite E in S. cbn in S. injection S as <-. reflexivity. Qed.
Lemma struct_field p e fld an t sid : named p e fld an -> p = InStruct -> ev_field e = Some t -> tk_sid t = Some sid -> fld = Some (by_sid sid).
Proof. intros [H _] -> E S. destruct H as (u & k & A & B & ->). congruence. Qed.

(** * The symbol table is read as it was meant *)
Section LST.
Variable cat : catalog.
Definition known_import (t : symtab) : Prop :=
  exists n v, st_name t = Some n /\ st_version t = Some v /\ resolve cat n v (Some (st_max t)) = Ok t.

Lemma read_string e x v fld an d : ev_type e = EScalar -> ev_ion_type e = Some TString -> ev_value e = EvVal (VString x) -> encodable e ->
  same_value e v -> string_value (mkev EScalar (Some TString) v fld an d) = Ok (Some x).
Proof.
  intros T IT V (u & bs & F & S) SV. unfold same_value in SV. rewrite V in *. cbn [ev_force] in *. injection F as <-. rewrite IT in S.
  unfold string_value. cbn [ev_value]. rewrite (SV TString IT) by (apply encoded_text; exists bs; exact S). reflexivity.
Qed.
Lemma read_int e z v fld an d : ev_ion_type e = Some TInt -> ev_value e = EvVal (VInt z) ->
  same_value e v -> int_value (mkev EScalar (Some TInt) v fld an d) = Ok (Some z).
Proof.
  intros IT V SV. unfold same_value in SV. rewrite V in *. cbn [ev_force] in *. unfold int_value. cbn [ev_value]. rewrite (SV TInt IT) by exact Logic.I. reflexivity.
Qed.

Lemma read_symbols xs : forall open rest evs, echoes (TList :: open) (map str_ev xs ++ rest) evs -> Forall (fun e => ev_type e = EScalar -> encodable e) (map str_ev xs) ->
  exists ks evs', evs = flat_map flatten ks ++ evs' /\ Forall proper ks /\ echoes (TList :: open) rest evs' /\ listed ks = Ok (map Some xs).
Proof.
  induction xs as [|x xs IH]; intros open rest evs H EN; cbn [map app] in *.
  - exists [], evs. split; [reflexivity|]. split; [constructor|]. auto.
  - inversion EN as [|? ? EN1 EN2]; subst. destruct (echo_scalar _ _ _ _ H eq_refl) as (v & fld & an & evs1 & -> & NM & SV & H1).
    destruct (IH _ _ _ H1 EN2) as (ks & evs' & -> & P & H2 & L).
    eexists (Leaf _ :: ks), evs'. split; [reflexivity|]. split; [constructor; [split; discriminate|exact P]|]. split; [exact H2|].
    cbn [listed has_type head_of ev_ion_type str_ev opt_eqb]. change (iontype_eqb TString TString) with true. cbn iota.
    rewrite (read_string (str_ev x) x v fld an) by (try reflexivity; auto). cbn [bind]. rewrite L. reflexivity.
Qed.

Lemma read_import t open rest evs : known_import t -> echoes (TList :: open) (import_events t ++ rest) evs ->
  Forall (fun e => ev_type e = EScalar -> encodable e) (import_events t) ->
  exists k evs', evs = flatten k ++ evs' /\ proper k /\ echoes (TList :: open) rest evs' /\
    forall ks ts, imported cat system_table ks = Ok ts -> imported cat system_table (k :: ks) = Ok (t :: ts).
Proof.
  intros (n & v & SN & SV & RS) H EN. unfold import_events in *. rewrite SN, SV in *. cbn [app] in H.
  inversion EN as [|? ? _ EN1]; subst. inversion EN1 as [|? ? EN2 _]; subst.
  destruct (echo_start _ _ _ _ TStruct H eq_refl eq_refl) as (fld & an & e1 & -> & NM & H1).
  destruct (echo_scalar _ _ _ _ H1 eq_refl) as (v1 & f1 & a1 & e2 & -> & NM1 & SV1 & H2).
  destruct (echo_scalar _ _ _ _ H2 eq_refl) as (v2 & f2 & a2 & e3 & -> & NM2 & SV2 & H3).
  destruct (echo_scalar _ _ _ _ H3 eq_refl) as (v3 & f3 & a3 & e4 & -> & NM3 & SV3 & H4).
  destruct (echo_end _ _ _ _ _ H4 eq_refl) as (evs' & -> & H5).
  rewrite (struct_field _ _ _ _ _ 4 NM1 eq_refl eq_refl eq_refl) in *. rewrite (struct_field _ _ _ _ _ 5 NM2 eq_refl eq_refl eq_refl) in *.
  rewrite (struct_field _ _ _ _ _ 8 NM3 eq_refl eq_refl eq_refl) in *.
  pose proof (read_string (ev_field_value TString (EvVal (VString n)) 4) n v1 (Some (by_sid 4)) a1 (Some (zlen (TStruct :: TList :: open))) eq_refl eq_refl eq_refl (EN2 eq_refl) SV1) as R1.
  pose proof (read_int (ev_field_value TInt (EvVal (VInt v)) 5) v v2 (Some (by_sid 5)) a2 (Some (zlen (TStruct :: TList :: open))) eq_refl eq_refl SV2) as R2.
  pose proof (read_int (ev_field_value TInt (EvVal (VInt (st_max t))) 8) (st_max t) v3 (Some (by_sid 8)) a3 (Some (zlen (TStruct :: TList :: open))) eq_refl eq_refl SV3) as R3.
  eexists (Branch _ [Leaf _; Leaf _; Leaf _] _), evs'. split; [reflexivity|]. split.
  { cbn [proper fold_right ev_type]. repeat (split; try discriminate; try reflexivity). }
  split; [exact H5|]. intros ks ts IM. cbn [imported has_type head_of ev_ion_type opt_eqb]. change (iontype_eqb TStruct TStruct) with true. cbn iota.
  assert (D : described system_table desc_new
     [Leaf (mkev EScalar (Some TString) v1 (Some (by_sid 4)) a1 (Some (zlen (TStruct :: TList :: open))));
      Leaf (mkev EScalar (Some TInt) v2 (Some (by_sid 5)) a2 (Some (zlen (TStruct :: TList :: open))));
      Leaf (mkev EScalar (Some TInt) v3 (Some (by_sid 8)) a3 (Some (zlen (TStruct :: TList :: open))))] = Ok (mkdesc (Some n) (Some v) (Some (st_max t)))).
  { cbn [described ev_field]. change (resolve_token system_table (by_sid 4)) with (Ok (system_token TEXT_NAME 4)).
    change (resolve_token system_table (by_sid 5)) with (Ok (system_token TEXT_VERSION 5)).
    change (resolve_token system_table (by_sid 8)) with (Ok (system_token TEXT_MAX_ID 8)). cbn [bind tk_text system_token].
    change (is_text (Some TEXT_NAME) TEXT_NAME && has_type (Leaf (mkev EScalar (Some TString) v1 (Some (by_sid 4)) a1 (Some (zlen (TStruct :: TList :: open))))) TString) with true. cbn iota.
    rewrite R1. cbn [bind]. 
    change (is_text (Some TEXT_VERSION) TEXT_NAME) with false. change (is_text (Some TEXT_VERSION) TEXT_VERSION) with true.
    change (has_type (Leaf (mkev EScalar (Some TInt) v2 (Some (by_sid 5)) a2 (Some (zlen (TStruct :: TList :: open))))) TInt) with true. cbn [andb]. cbn iota.
    rewrite R2. cbn [bind].
    change (is_text (Some TEXT_MAX_ID) TEXT_NAME) with false. change (is_text (Some TEXT_MAX_ID) TEXT_VERSION) with false. change (is_text (Some TEXT_MAX_ID) TEXT_MAX_ID) with true.
    change (has_type (Leaf (mkev EScalar (Some TInt) v3 (Some (by_sid 8)) a3 (Some (zlen (TStruct :: TList :: open))))) TInt) with true. cbn [andb]. cbn iota.
    rewrite R3. reflexivity. }
  cbn [ev_ion_type ev_field_value] in D |- *. rewrite D. cbn [bind import_table desc_name desc_version desc_max]. rewrite RS. cbn [bind]. rewrite IM. reflexivity.
Qed.
Lemma read_imports ts : forall open rest evs, Forall known_import ts -> echoes (TList :: open) (flat_map import_events ts ++ rest) evs ->
  Forall (fun e => ev_type e = EScalar -> encodable e) (flat_map import_events ts) ->
  exists ks evs', evs = flat_map flatten ks ++ evs' /\ Forall proper ks /\ echoes (TList :: open) rest evs' /\ imported cat system_table ks = Ok ts.
Proof.
  induction ts as [|t ts IH]; intros open rest evs K H EN; cbn [flat_map app] in *.
  - exists [], evs. split; [reflexivity|]. split; [constructor|]. auto.
  - inversion K as [|? ? K1 K2]; subst. apply Forall_app in EN. destruct EN as [EN1 EN2]. rewrite <- app_assoc in H.
    destruct (read_import _ _ _ _ K1 H EN1) as (k & e1 & -> & P & H1 & IM). destruct (IH _ _ _ K2 H1 EN2) as (ks & e2 & -> & PS & H2 & IMS).
    exists (k :: ks), e2. cbn [flat_map]. rewrite <- app_assoc. split; [reflexivity|]. split; [constructor; assumption|]. split; [exact H2|]. apply IM. exact IMS.
Qed.

Definition read_imports_as (imports : option (list symtab)) : option (list symtab) := if has_imports imports then Some (truthy_imports imports) else None.

Theorem read_lst imports has xs evs : Forall known_import (truthy_imports imports) ->
  echoes [] (lst_events imports has xs) evs -> Forall (fun e => ev_type e = EScalar -> encodable e) (lst_events imports has xs) -> (has = false -> xs = []) ->
  exists s ks f, evs = flatten (Branch s ks f) /\ proper (Branch s ks f) /\
    system_value cat system_table (Branch s ks f) = let* t := st_new LocalTable (map Some xs) None None (read_imports_as imports) false in Ok (Some t).
Proof.
  intros K H EN HX. unfold lst_events, lst_head in *. cbn [app] in H, EN. pose proof (Forall_inv_tail EN) as EN1.
  destruct (echo_start _ _ _ _ TStruct H eq_refl eq_refl) as (fld & an & e1 & -> & NM & H1).
  assert (AN : an = [by_sid 3]) by (destruct NM as [_ (l & S & ->)]; cbn in S; injection S as <-; reflexivity).
  (* the imports *)
  assert (exists ki e2, e1 = flat_map flatten ki ++ e2 /\ Forall proper ki /\
     echoes [TStruct] (lst_body has xs ++ (if has then [ev_container_end] else []) ++ [ev_container_end]) e2 /\
     forall ks, declared cat system_table [] None (ki ++ ks) = declared cat system_table [] (read_imports_as imports) ks) as (ki & e2 & -> & PI & H2 & DI).
  { unfold read_imports_as, has_imports. destruct (truthy_imports imports) as [|t ts] eqn:TI.
    - exists [], e1. split; [reflexivity|]. split; [constructor|]. split; [exact H1|]. reflexivity.
    - cbn iota. remember (t :: ts) as l eqn:EL. clear EL t ts. cbn [app] in H1, EN1. pose proof (Forall_inv_tail EN1) as EN2. rewrite <- app_assoc in EN2. apply Forall_app in EN2. destruct EN2 as [EN2 _].
      destruct (echo_start _ _ _ _ TList H1 eq_refl eq_refl) as (f1 & a1 & e3 & -> & NM1 & H2). rewrite <- app_assoc in H2.
      destruct (read_imports l [TStruct] _ _ K H2 EN2) as (ks & e4 & -> & P & H3 & IM). cbn [app] in H3.
      destruct (echo_end _ _ _ _ _ H3 eq_refl) as (e5 & -> & H4).
      rewrite (struct_field _ _ _ _ _ 6 NM1 eq_refl eq_refl eq_refl) in *.
      eexists [Branch _ ks _], e5. split; [cbn [flat_map flatten]; rewrite app_nil_r; cbn [app]; rewrite <- app_assoc; reflexivity|]. split.
      { constructor; [|constructor]. cbn [proper ev_type]. do 2 (split; [reflexivity|]). apply proper_kids. exact P. }
      split; [exact H4|]. intros ks'. cbn [app declared name_in head_of ev_field].
      change (resolve_token system_table (by_sid 6)) with (Ok (system_token TEXT_IMPORTS 6)). cbn [bind tk_text system_token].
      change (is_text (Some TEXT_IMPORTS) TEXT_SYMBOLS) with false. change (is_text (Some TEXT_IMPORTS) TEXT_IMPORTS) with true. cbn [andb]. cbn iota.
      cbn [has_type head_of ev_ion_type opt_eqb]. change (iontype_eqb TList TList) with true. cbn iota. rewrite IM. reflexivity. }
  (* the symbols *)
  assert (EB : Forall (fun e => ev_type e = EScalar -> encodable e) (lst_body has xs)).
  { apply Forall_app in EN1. destruct EN1 as [_ EN2]. apply Forall_app in EN2. apply EN2. }
  assert (exists kb e3, e2 = flat_map flatten kb ++ e3 /\ Forall proper kb /\ echoes [TStruct] [ev_container_end] e3 /\
     forall imps, declared cat system_table [] imps kb = st_new LocalTable (map Some xs) None None imps false) as (kb & e3 & -> & PB & H3 & DB).
  { unfold lst_body in *. destruct has.
    - cbn [app] in H2. inversion EB as [|? ? _ EN3]; subst.
      destruct (echo_start _ _ _ _ TList H2 eq_refl eq_refl) as (f1 & a1 & e3 & -> & NM1 & H3).
      destruct (read_symbols xs [TStruct] _ _ H3 EN3) as (ks & e4 & -> & P & H4 & L).
      destruct (echo_end _ _ _ _ _ H4 eq_refl) as (e5 & -> & H5). rewrite (struct_field _ _ _ _ _ 7 NM1 eq_refl eq_refl eq_refl) in *.
      eexists [Branch _ ks _], e5. split; [cbn [flat_map flatten]; rewrite app_nil_r; cbn [app]; rewrite <- app_assoc; reflexivity|]. split.
      { constructor; [|constructor]. cbn [proper ev_type]. do 2 (split; [reflexivity|]). apply proper_kids. exact P. }
      split; [exact H5|]. intros imps. cbn [declared name_in head_of ev_field].
      change (resolve_token system_table (by_sid 7)) with (Ok (system_token TEXT_SYMBOLS 7)). cbn [bind tk_text system_token].
      change (is_text (Some TEXT_SYMBOLS) TEXT_SYMBOLS) with true. cbn [andb has_type head_of ev_ion_type opt_eqb]. change (iontype_eqb TList TList) with true. cbn iota.
      rewrite L. reflexivity.
    - rewrite (HX eq_refl) in *. exists [], e2. split; [reflexivity|]. split; [constructor|]. split; [exact H2|]. reflexivity. }
  destruct (echo_end _ _ _ _ _ H3 eq_refl) as (e4 & -> & H4). inversion H4; subst.
  eexists _, (ki ++ kb), _. split; [cbn [flatten]; rewrite flat_map_app, <- app_assoc; reflexivity|]. split.
  { cbn [proper ev_type]. do 2 (split; [reflexivity|]). apply proper_kids. apply Forall_app. auto. }
  cbn [system_value ev_annot has_type head_of ev_ion_type opt_eqb]. change (iontype_eqb TStruct TStruct) with true. cbn iota.
  change (resolve_token system_table (by_sid 3)) with (Ok (system_token TEXT_ION_SYMBOL_TABLE 3)). cbn [bind tk_text system_token].
  change (is_text (Some TEXT_ION_SYMBOL_TABLE) TEXT_ION_SYMBOL_TABLE) with true. cbn iota. rewrite DI, DB. reflexivity.
Qed.
End LST.

(** * The values *)

Definition same_symbols (a b : symtab) : Prop := forall k, get_sid a k None = get_sid b k None.
Lemma names_resolve w table a t : same_symbols table w -> names w a t -> exists sid r, tk_sid t = Some sid /\ 0 <= sid /\ resolve_token table (by_sid sid) = Ok r /\ tk_text r = arg_text a.
Proof. intros S (sid & r & A & B & C & D). exists sid, r. split; [exact A|]. split; [exact B|]. split; [|exact D]. unfold resolve_token, by_sid. cbn [tk_text tk_sid]. rewrite S, C. reflexivity. Qed.
Lemma annots_resolve w table l ts : same_symbols table w -> Forall2 (names w) l ts -> forall sids, sids_of ts = Some sids ->
  exists rs, mapM (resolve_token table) (map by_sid sids) = Ok rs /\ map tk_text rs = map arg_text l.
Proof.
  intros S H. induction H as [|a t l ts N _ IH]; intros sids E; cbn [sids_of] in E.
  - injection E as <-. exists []. auto.
  - destruct (names_resolve _ _ _ _ S N) as (sid & r & A & B & C & D). rewrite A in E. destruct (sids_of ts) as [l'|]; [|discriminate]. injection E as <-.
    destruct (IH l' eq_refl) as (rs & M & T). exists (r :: rs). cbn [map mapM]. rewrite C. cbn [bind]. rewrite M. cbn [bind map]. rewrite D, T. auto.
Qed.
Lemma names_shown w table open e e' fld an ty v d : same_symbols table w -> interned w e e' -> named (standing open) e' fld an ->
  shows_names (within open) e (tagged table (mkev ty (ev_ion_type e') v fld an d)).
Proof.
  intros S (A & B & F & AN & V) [NF (l & SL & ->)]. split.
  - assert (G : standing open = InStruct -> exists a r, ue_field e = Some a /\ me_field (tagged table (mkev ty (ev_ion_type e') v fld (map by_sid l) d)) = Ok (Some r) /\ tk_text r = arg_text a).
    { intros SI. rewrite SI in NF. destruct NF as (t & sid & EF & ES & ->). unfold field_interned in F. rewrite EF in F.
      assert (K : forall a, (exists u, Some t = Some u /\ names w a u) -> exists r, resolve_token table (by_sid sid) = Ok r /\ tk_text r = arg_text a).
      { intros a (u & E & N). injection E as <-. destruct (names_resolve _ _ _ _ S N) as (sid' & r & A' & B' & C & D). exists r. assert (sid' = sid) by congruence. subst. auto. }
      destruct (ue_field e) as [a|]; [|discriminate].
      assert (exists r, resolve_token table (by_sid sid) = Ok r /\ tk_text r = arg_text a) as (r & R1 & R2) by (destruct a as [u|[|c x]]; [exact (K _ F)|discriminate|exact (K _ F)]).
      exists a, r. split; [reflexivity|]. split; [|exact R2]. unfold me_field, tagged. cbn [me_ev ev_field me_table]. rewrite R1. reflexivity. }
    destruct open as [|t open]; cbn [standing within] in *; [rewrite NF; reflexivity|].
    destruct t; cbn [inside] in *; try (rewrite NF; reflexivity). apply G. reflexivity.
  - unfold me_annotations, tagged. cbn [me_ev ev_annot me_table]. eapply annots_resolve; eassumption.
Qed.

Lemma value_shown w table e e' v fld an d : same_symbols table w -> interned w e e' -> encodable e' -> same_value e' v ->
  shows_value e (tagged table (mkev EScalar (ev_ion_type e') v fld an d)).
Proof.
  intros S (A & B & F & AN & V) EC SV. unfold shows_value, value_interned, same_value, me_value, tagged in *. cbn [me_ev ev_value ev_ion_type me_table].
  assert (NS : ue_ion_type e <> Some TSymbol -> ev_value e' = ue_value e) by (intros N; destruct (ue_ion_type e) as [[]|]; try exact V; congruence).
  assert (DEC : ue_ion_type e = Some TSymbol \/ ue_ion_type e <> Some TSymbol) by (destruct (ue_ion_type e) as [[]|]; try (right; discriminate); left; reflexivity).
  destruct DEC as [TY|TY].
  - rewrite TY in *. rewrite B. destruct (ev_force (ue_value e)) as [[s|]|]; [|rewrite V in SV; cbn in SV; rewrite SV; reflexivity|contradiction].
    destruct V as (a & t & SA & N & EV). rewrite EV in SV. cbn [ev_force] in SV. destruct (names_resolve _ _ _ _ S N) as (sid & r & A1 & B1 & C & D).
    specialize (SV TSymbol B). cbn [scalar_portable as_read] in SV. rewrite A1 in SV. rewrite SV by (exists sid; auto). cbn [bind]. rewrite C. cbn [bind].
    exists a, r. auto.
  - rewrite (NS TY) in SV. destruct (ev_force (ue_value e)) as [[s|]|] eqn:EF; [| |contradiction].
    + destruct (ue_ion_type e) as [t|] eqn:UT.
      * assert (G : scalar_portable t s -> (let* x := ev_force v in match ev_ion_type e' with Some TSymbol => match x with Some (VSymbol t0) => let* r := resolve_token table t0 in Ok (Some (VSymbol r)) | Some _ => Err AttributeError | None => Ok x end | _ => Ok x end) = Ok (Some (as_read s))).
        { intros P. rewrite (SV t B P), B. cbn [bind]. destruct t; try reflexivity. congruence. }
        destruct t; try exact G. congruence.
      * destruct EC as (u & bs & F1 & F2). rewrite B in F2. rewrite (NS TY), EF in F1. injection F1 as <-. discriminate.
    + rewrite SV. cbn [ev_force bind]. destruct (ev_ion_type e') as [[]|]; reflexivity.
Qed.

Lemma values_mirror w table es : forall ies open evs, same_symbols table w -> Forall2 (interned w) es ies ->
  Forall (fun e => ev_type e = EScalar -> encodable e) ies -> echoes open ies evs -> mirrors open es (map (tagged table) evs).
Proof.
  induction es as [|e es IH]; intros ies open evs S F EN H; inversion F as [|? e' ? ies' N F']; subst.
  - inversion H; subst. constructor.
  - inversion EN as [|? ? EN1 EN2]; subst. pose proof N as (A & B & _). inversion H; subst; cbn [map].
    + apply mi_scalar; [congruence|rewrite <- B; reflexivity|eapply names_shown; eassumption|eapply value_shown; eauto|eapply IH; eassumption].
    + apply (mi_start _ _ t); [congruence|congruence|assumption|reflexivity| |eapply IH; eassumption].
      match goal with E : ev_ion_type e' = Some t |- _ => rewrite <- E end. eapply names_shown; eassumption.
    + apply mi_end; [congruence|reflexivity|eapply IH; eassumption].
Qed.

(** * No value is taken for a system value *)
Section USERS.
Variable cat : catalog.
Definition user_head (table : symtab) (e : event) : Prop :=
  ev_type e <> EVersionMarker /\
  (ev_type e = EScalar -> ev_ion_type e = Some TSymbol -> ev_annot e = [] ->
     exists v, symbol_value e = Ok v /\ forall t, v = Some t -> exists r, resolve_token table t = Ok r /\ tk_text r <> Some TEXT_ION_1_0) /\
  (ev_type e = EContainerStart -> ev_ion_type e = Some TStruct -> forall a l, ev_annot e = a :: l ->
     exists r, resolve_token table a = Ok r /\ tk_text r <> Some TEXT_ION_SYMBOL_TABLE).

Lemma not_text r x : tk_text r <> Some x -> is_text (tk_text r) x = false.
Proof.
  intros N. unfold is_text. destruct (tk_text r) as [y|]; [|reflexivity]. cbn [opt_eqb]. destruct (zlist_eqb y x) eqn:E; [|reflexivity].
  apply zlist_eqb_eq in E. congruence.
Qed.
Lemma user_tree table t : shaped 0 t -> user_head table (head_of t) -> system_value cat table t = Ok None.
Proof.
  intros SH (H1 & H2 & H3). destruct t as [e|s ks f]; cbn [head_of system_value] in *.
  - destruct SH as (D & [T|[T _]]); [|congruence]. rewrite T. destruct (ev_annot e) eqn:AN; [|reflexivity]. unfold has_type, head_of.
    destruct (ev_ion_type e) as [ty|]; [|reflexivity]. destruct ty; try reflexivity. cbn [opt_eqb]. change (iontype_eqb TSymbol TSymbol) with true. cbn iota.
    destruct (H2 T eq_refl eq_refl) as (v & -> & R). cbn [bind]. destruct v as [tok|]; [|reflexivity]. destruct (R tok eq_refl) as (r & -> & N). cbn [bind].
    rewrite (not_text _ _ N). reflexivity.
  - destruct SH as (T & _). destruct (ev_annot s) as [|a l] eqn:AN; [reflexivity|]. unfold has_type, head_of.
    destruct (ev_ion_type s) as [ty|]; [|reflexivity]. destruct ty; try reflexivity. cbn [opt_eqb]. change (iontype_eqb TStruct TStruct) with true. cbn iota.
    destruct (H3 T eq_refl a l eq_refl) as (r & -> & N). cbn [bind]. rewrite (not_text _ _ N). reflexivity.
Qed.
Lemma user_trees table ts rest : Forall (shaped 0) ts -> Forall (fun e => ev_depth e = Some 0 -> user_head table e) (flat_map flatten ts) ->
  user_view cat table (ts ++ rest) = let '(us, fin) := user_view cat table rest in (map (tree_map (tagged table)) ts ++ us, fin).
Proof.
  intros SH. induction SH as [|t ts S0 SS IH]; intros H; cbn [app flat_map map] in *; [destruct (user_view cat table rest); reflexivity|].
  apply Forall_app in H. destruct H as [H0 H]. cbn [user_view]. rewrite (user_tree table t S0).
  - rewrite (IH H). destruct (user_view cat table rest) as [us fin]. reflexivity.
  - destruct t as [e|s ks f]; cbn [flatten head_of] in *; inversion H0 as [|? ? H1 _]; subst; apply H1; cbn [shaped] in S0; apply S0.
Qed.
End USERS.

Lemma values_users w table es : forall ies open evs, same_symbols table w -> Forall2 (interned w) es ies ->
  echoes open ies evs -> unreserved (length open) es ->
  Forall (fun e => ev_depth e = Some 0 -> user_head table e) evs.
Proof.
  induction es as [|e es IH]; intros ies open evs S F H U; inversion F as [|? e' ? ies' N F']; subst.
  - inversion H; subst. constructor.
  - cbn [unreserved] in U. destruct U as [U1 U2]. pose proof N as (A & B & FI & AN & V). inversion H; subst.
    + rewrite <- A in U2. match goal with E : ev_type e' = EScalar |- _ => rewrite E in U2; rename E into TE end.
      constructor; [|eapply IH; eassumption]. cbn [ev_depth]. intros D. assert (Z0 : zlen open = 0) by congruence.
      assert (O0 : open = []) by (destruct open; [reflexivity|rewrite zlen_cons in Z0; pose proof (zlen_nonneg open); lia]). subst open. specialize (U1 eq_refl).
      split; [discriminate|]. split; [|discriminate]. cbn [ev_type ev_ion_type ev_annot]. intros _ TY EA.
      match goal with NM : named _ _ _ _ |- _ => destruct NM as [_ (l & SL & EL)] end. assert (ev_annot e' = []) by (apply (sids_of_nil _ _ SL); subst an; destruct l; [reflexivity|discriminate]).
      assert (ue_annot e = []) as UA by (destruct AN; [reflexivity|discriminate]).
      unfold reserved in U1. rewrite <- A, TE, <- B, TY, UA in U1. unfold value_interned in V. rewrite <- B, TY in V. unfold symbol_value. cbn [ev_value].
      match goal with SV : same_value _ _ |- _ => unfold same_value in SV; rename SV into SVV end.
      destruct (ev_force (ue_value e)) as [[s|]|] eqn:EF; [|rewrite V in SVV; cbn in SVV; rewrite SVV; cbn [ev_force bind]; exists None; split; [reflexivity|discriminate]|contradiction].
      destruct V as (a & t & SA & NA & EV). rewrite EV in SVV. cbn [ev_force] in SVV. destruct (names_resolve _ _ _ _ S NA) as (sid & r & A1 & B1 & C & D1).
      specialize (SVV TSymbol TY). cbn [scalar_portable as_read] in SVV. rewrite A1 in SVV. rewrite SVV by (exists sid; auto). cbn [bind].
      exists (Some (by_sid sid)). split; [reflexivity|]. intros tk E. injection E as <-. exists r. split; [exact C|]. rewrite D1. rewrite SA in U1. exact U1.
    + rewrite <- A in U2. match goal with E : ev_type e' = EContainerStart |- _ => rewrite E in U2; rename E into TE end.
      constructor; [|eapply (IH ies' (t :: open)); eassumption]. cbn [ev_depth]. intros D. assert (Z0 : zlen open = 0) by congruence.
      assert (O0 : open = []) by (destruct open; [reflexivity|rewrite zlen_cons in Z0; pose proof (zlen_nonneg open); lia]). subst open. specialize (U1 eq_refl).
      split; [discriminate|]. split; [discriminate|]. cbn [ev_type ev_ion_type ev_annot]. intros _ TY a l EA.
      match goal with NM : named _ _ _ _ |- _ => destruct NM as [_ (l' & SL & EL)] end. unfold reserved in U1. rewrite <- A, TE in U1.
      assert (TU : ue_ion_type e = Some TStruct) by congruence. rewrite TU in U1. subst an.
      destruct AN as [|ua ta ul tl NA AN']; [cbn in SL; injection SL as <-; discriminate|]. cbn [sids_of] in SL.
      destruct (names_resolve _ _ _ _ S NA) as (sid & r & A1 & B1 & C & D1). rewrite A1 in SL. destruct (sids_of tl); [|discriminate]. injection SL as <-. injection EA as <- _.
      exists r. split; [exact C|]. rewrite D1. exact U1.
    + rewrite <- A in U2. match goal with E : ev_type e' = EContainerEnd |- _ => rewrite E in U2 end.
      constructor; [|eapply IH; eassumption]. intros _. split; [discriminate|]. split; discriminate.
Qed.

(** * Tables *)
Lemma dense_content a b : dense a -> dense b -> content a = content b -> a = b.
Proof.
  intros DA DB E. apply nth_error_ext. intros i. assert (EI : nth_error (content a) i = nth_error (content b) i) by congruence. unfold content in EI. rewrite !nth_error_map in EI.
  destruct (nth_error a i) as [t|] eqn:A, (nth_error b i) as [u|] eqn:B; cbn in EI; try discriminate; [|reflexivity].
  pose proof (DA _ _ A) as SA. pose proof (DB _ _ B) as SB. destruct t, u. cbn in *. unfold content_of in EI. cbn in EI. congruence.
Qed.
Lemma same_syms a b : st_syms a = st_syms b -> same_symbols a b.
Proof. intros E k. unfold get_sid. rewrite E. reflexivity. Qed.
Lemma read_table imports xs w : table_of imports xs = Ok w ->
  exists t, st_new LocalTable (map Some xs) None None (read_imports_as imports) false = Ok t /\ same_symbols t w.
Proof.
  intros H. assert (exists t, st_new LocalTable (map Some xs) None None (read_imports_as imports) false = Ok t) as [t T]
    by (unfold st_new; cbn [is_system is_shared is_local andb]; eexists; reflexivity).
  exists t. split; [exact T|]. destruct (new_layout _ _ _ _ _ _ _ H) as ((_ & D1 & _) & _ & _ & _ & _ & _ & _ & L1 & _). destruct (new_layout _ _ _ _ _ _ _ T) as ((_ & D2 & _) & _ & _ & _ & _ & _ & _ & L2 & _).
  apply same_syms. apply dense_content; auto. rewrite L2, L1 by reflexivity. do 2 f_equal. unfold read_imports_as, has_imports, truthy_imports.
  destruct imports as [[|i l]|]; reflexivity.
Qed.
Lemma no_table imports w : table_of imports [] = Ok w -> has_imports imports = false -> same_symbols system_table w.
Proof.
  intros H N. destruct (new_layout _ _ _ _ _ _ _ H) as ((_ & D1 & _) & _ & _ & _ & _ & _ & _ & L1 & _). apply same_syms.
  apply dense_content; [exact system_dense|exact D1|]. rewrite L1 by reflexivity. unfold has_imports, truthy_imports in N.
  destruct imports as [[|i l]|]; try discriminate; cbn [flat_map map content app]; rewrite ?app_nil_r; reflexivity.
Qed.

(** * Whole runs *)
Lemma all_encodable es : forall w s out, raw_write_all w es = Ok (s, out) -> Forall (fun e => ev_type e = EScalar -> encodable e) es.
Proof.
  induction es as [|e es IH]; intros w s out H; [constructor|]. cbn [raw_write_all] in H. destruct (raw_write w e) as [[w1 ws]|] eqn:R; [|discriminate]. cbn [bind] in H.
  destruct (raw_write_all w1 es) as [[w2 o2]|] eqn:R2; [|discriminate]. constructor; [|eapply IH; exact R2].
  intros T. apply (put_encodable w e w1); [unfold put; rewrite R; reflexivity|exact T].
Qed.
Lemma lst_sane imports has xs : Forall event_sane (lst_events imports has xs).
Proof.
  assert (G : forall e, (ev_annot e = [] \/ ev_annot e = [sys_token 3]) -> (ev_field e = None \/ exists k, ev_field e = Some (sys_token k) /\ 0 <= k) ->
    (forall s, ev_force (ev_value e) = Ok (Some s) -> scalar_sane s) -> event_sane e).
  { intros e A F V. split; [|split; [|split; [|exact V]]].
    - destruct A as [-> | ->]; [constructor|]. constructor; [cbn; lia|constructor].
    - destruct A as [-> | ->]; cbn; discriminate.
    - destruct F as [-> | (k & -> & K)]; [exact Logic.I|]. cbn. exact K. }
  unfold lst_events, lst_head. constructor; [apply G; [right; reflexivity|left; reflexivity|discriminate]|]. apply Forall_app. split.
  - destruct (truthy_imports imports) as [|t ts]; [constructor|]. constructor; [apply G; [left; reflexivity|right; exists 6; split; [reflexivity|lia]|discriminate]|].
    apply Forall_app. split; [|constructor; [apply G; [left; reflexivity|left; reflexivity|discriminate]|constructor]].
    generalize (t :: ts). intros l. induction l as [|u l IH]; [constructor|]. cbn [flat_map]. apply Forall_app. split; [|exact IH]. unfold import_events.
    constructor; [apply G; [left; reflexivity|left; reflexivity|discriminate]|].
    constructor; [apply G; [left; reflexivity|right; exists 4; split; [reflexivity|lia]|destruct (st_name u); cbn; intros s E; [injection E as <-; exact Logic.I|discriminate]]|].
    constructor; [apply G; [left; reflexivity|right; exists 5; split; [reflexivity|lia]|destruct (st_version u); cbn; intros s E; [injection E as <-; exact Logic.I|discriminate]]|].
    constructor; [apply G; [left; reflexivity|right; exists 8; split; [reflexivity|lia]|cbn; intros s E; injection E as <-; exact Logic.I]|].
    constructor; [apply G; [left; reflexivity|left; reflexivity|discriminate]|constructor].
  - assert (EE : event_sane ev_container_end) by (apply G; [left; reflexivity|left; reflexivity|discriminate]).
    apply Forall_app. split; [|apply Forall_app; split; [destruct has; [constructor; [exact EE|constructor]|constructor]|constructor; [exact EE|constructor]]].
    unfold lst_body. destruct has; [|constructor]. constructor; [apply G; [left; reflexivity|right; exists 7; split; [reflexivity|lia]|discriminate]|].
    induction xs as [|x xs IH]; cbn [map]; constructor; [|exact IH]. apply G; [left; reflexivity|left; reflexivity|cbn; intros s E; injection E as <-; exact Logic.I].
Qed.
Lemma lst_quiet imports has xs : Forall (fun e => is_flush e = false) (lst_events imports has xs).
Proof.
  unfold lst_events. rewrite app_assoc. apply Forall_app. split; [apply body_quiet|]. destruct has; repeat (constructor; [reflexivity|]); constructor.
Qed.
Lemma flush_sane : event_sane stream_end_event.
Proof. split; [constructor|]. split; [discriminate|]. split; [exact Logic.I|]. intros s E. discriminate. Qed.

Section WHOLE.
Variable cat : catalog.
Variable imports : option (list symtab).
Hypothesis known : Forall (known_import cat) (truthy_imports imports).

Lemma mirrors_app open es us es2 us2 : mirrors open es us -> mirrors [] es2 us2 -> mirrors open (es ++ es2) (us ++ us2).
Proof.
  induction 1; intros M; cbn [app]; [exact M|apply mi_mark; auto|apply mi_scalar; auto|eapply mi_start; eauto|apply mi_end; auto].
Qed.
Lemma unreserved_app es : forall open us es2, mirrors open es us -> unreserved (length open) (es ++ es2) -> unreserved (length open) es /\ unreserved 0 es2.
Proof.
  intros open us es2 M. induction M as [|e es us T M IH|open e es u us T SH NM V M IH|open e t es u us T IT C SH NM M IH|t open e es u us T SH M IH]; cbn [app unreserved length]; intros U; [auto| | | |];
    destruct U as [U1 U2].
  - assert (unreserved 0 (es ++ es2)) as U3 by (destruct T as [T|T]; rewrite T in U2; exact U2). destruct (IH U3). split; [|assumption].
    split; [exact U1|]. destruct T as [T|T]; rewrite T; assumption.
  - rewrite T in *. destruct (IH U2). auto.
  - rewrite T in *. destruct (IH U2). auto.
  - rewrite T in *. destruct (IH U2). auto.
Qed.

Lemma flat_tree_map (f : event -> mevent) ts : flat_map flatten (map (tree_map f) ts) = map f (flat_map flatten ts).
Proof.
  assert (G : forall t, flatten (tree_map f t) = map f (flatten t)).
  { intros t. induction t as [e|s ks e IH] using tree_induction; [reflexivity|]. cbn [tree_map flatten map]. rewrite map_app. cbn [map]. f_equal. f_equal.
    induction IH as [|k ks Hk Hks IH']; [reflexivity|]. cbn [map flat_map]. rewrite map_app, Hk, IH'. reflexivity. }
  induction ts as [|t ts IH]; [reflexivity|]. cbn [map flat_map]. rewrite map_app, G, IH. reflexivity.
Qed.

(** One part: symbol table and values. *)
Lemma part_view es m out fl s : sym_start imports symw_new = Ok s ->
  Forall plain_event es -> ue_type fl = EStreamEnd -> Forall (fun e => ue_type e <> EStreamEnd) es -> 
  managed_write_all imports (mkmw w_init s true false) (es ++ [fl]) = Ok (m, out) ->
  m = mwriter_new /\ exists ns, Forall (node_ok Top) ns /\ out = flat_map code ns /\ octets out /\
    (unreserved 0 es -> exists us table, mirrors [] es (flat_map flatten us) /\
      forall rest, user_view cat system_table (flat_map (trees 0) ns ++ rest) =
        let '(us', fin) := user_view cat table rest in (us ++ us', fin)) /\
    (exists us, mirrors [] es us).
Proof.
  intros SS P FL NF H. destruct (sym_start_inv _ _ SS) as [t0 I0].
  destruct (segment imports es (mkmw w_init s true false) [] t0 m out fl eq_refl I0 P FL NF H) as (ies & ys & w & has & sout & vout & w' & -> & T & F2 & RW & LW & -> & NM).
  split; [reflexivity|]. cbn [app mw_value] in *.
  assert (IS : Forall event_sane ies) by (clear - P F2; induction F2; inversion P; subst; constructor; [eapply interned_sane; eassumption|auto]).
  assert (IQ : Forall (fun e => is_flush e = false) ies).
  { clear - NM F2. induction F2 as [|e e' es ies (A & _) _ IH]; inversion NM as [|? ? N1 N2]; subst; constructor; [|auto]. unfold is_flush. rewrite A. unfold is_mark in N1. destruct (ue_type e); try reflexivity; discriminate. }
  pose proof (all_encodable _ _ _ _ RW) as EN. apply Forall_app in EN. destruct EN as [EN _].
  destruct (run_echoes ies w_init [] [] w' vout stream_end_event winv_init IS IQ eq_refl flush_sane RW) as (vn & evs & VN & -> & VO & VE & VV & _).
  cbn [map so_far app] in VE, VV.
  destruct LW as [HX LW].
  assert (exists ln table, Forall (node_ok Top) ln /\ sout = flat_map code ln /\ octets sout /\ same_symbols table w /\
     forall rest, user_view cat system_table (flat_map (trees 0) ln ++ rest) = user_view cat table rest) as (ln & table & LN & -> & LO & SY & LV).
  { destruct (has || has_imports imports) eqn:HI.
    - destruct LW as (w2 & RL & ENL).
      destruct (run_echoes _ w_init [] [] w2 sout stream_end_event winv_init (lst_sane imports has ys) (lst_quiet imports has ys) eq_refl flush_sane RL) as (ln & le & LN & -> & LO & LE & LL & _).
      cbn [map so_far app] in LE, LL. destruct (read_lst cat imports has ys le known LE ENL HX) as (sb & kb & fb & EL & PB & SVB).
      destruct (read_table imports ys w T) as (tr & TR & SR). rewrite TR in SVB. cbn [bind] in SVB.
      exists ln, tr. split; [exact LN|]. split; [reflexivity|]. split; [exact LO|]. split; [exact SR|].
      assert (TL : flat_map (trees 0) ln = [Branch sb kb fb]).
      { apply flatten_inj; [apply stream_proper|constructor; [exact PB|constructor]|]. rewrite stream_flatten, LL. cbn [flat_map]. rewrite app_nil_r. exact EL. }
      rewrite TL. intros rest. cbn [app user_view]. rewrite SVB. reflexivity.
    - destruct has; [discriminate|]. rewrite (HX eq_refl) in T. exists [], system_table. split; [constructor|]. split; [exact LW|]. split; [rewrite LW; constructor|].
      split; [apply (no_table imports); assumption|]. reflexivity. }
  exists (ln ++ vn). split; [apply Forall_app; auto|]. split; [rewrite flat_map_app; reflexivity|]. split; [apply octets_app; auto|].
  assert (MI : mirrors [] es (map (tagged table) evs)) by (eapply values_mirror; eassumption). split; [|eauto].
  intros U. exists (map (tree_map (tagged table)) (flat_map (trees 0) vn)), table. split.
  - rewrite flat_tree_map, stream_flatten, VV. exact MI.
  - intros rest. rewrite flat_map_app, <- app_assoc, LV. apply user_trees; [apply stream_shaped; exact VN|]. rewrite stream_flatten, VV. eapply values_users; eassumption.
Qed.

Definition idle (b : bool) : mwriter := mkmw w_init symw_new false b.
Lemma write_all_app a : forall m b, managed_write_all imports m (a ++ b) =
  let* (m1, o1) := managed_write_all imports m a in let* (m2, o2) := managed_write_all imports m1 b in Ok (m2, o1 ++ o2).
Proof.
  induction a as [|e a IH]; intros m b; cbn [app managed_write_all bind].
  - destruct (managed_write_all imports m b) as [[? ?]|]; reflexivity.
  - destruct (managed_write imports m e) as [[m1 ws]|]; [|reflexivity]. cbn [bind]. rewrite IH. destruct (managed_write_all imports m1 a) as [[m2 o2]|]; [|reflexivity]. cbn [bind].
    destruct (managed_write_all imports m2 b) as [[m3 o3]|]; [|reflexivity]. cbn [bind]. rewrite app_assoc. reflexivity.
Qed.
Lemma first_value b e m ws : is_mark e = false -> managed_write imports (idle b) e = Ok (m, ws) ->
  exists s ws', sym_start imports symw_new = Ok s /\ managed_write imports (mkmw w_init s true false) e = Ok (m, ws') /\
    flat_map wdata ws = (if b then ivm else []) ++ flat_map wdata ws'.
Proof.
  intros NM H. unfold managed_write, is_mark, idle in *. cbn [mw_written mw_sym mw_value mw_ivm] in *.
  destruct (ue_type e); try discriminate; cbn [mw_sym mw_value mw_ivm mw_written bind] in *;
    (destruct (sym_start imports symw_new) as [s|]; [|discriminate]; cbn [bind mw_sym mw_value mw_ivm mw_written] in H;
     destruct (intern_symbols s e) as [[e' s']|] eqn:EI; [|discriminate]; cbn [bind] in H;
     destruct (raw_write w_init e') as [[w ws']|] eqn:ER; [|discriminate]; cbn [bind] in H; injection H as <- <-; exists s, ws';
     split; [reflexivity|]; split; [cbn [bind mw_sym mw_value mw_written mw_ivm]; rewrite EI; cbn [bind]; rewrite ER; reflexivity|]; rewrite flat_map_app; destruct b; reflexivity).
Qed.
Lemma split_flush es : (exists a fl b, es = a ++ fl :: b /\ ue_type fl = EStreamEnd /\ Forall (fun e => ue_type e <> EStreamEnd) a) \/
  Forall (fun e => ue_type e <> EStreamEnd) es.
Proof.
  induction es as [|e es IH]; [right; constructor|]. assert (D : ue_type e = EStreamEnd \/ ue_type e <> EStreamEnd) by (destruct (ue_type e); try (right; discriminate); left; reflexivity).
  destruct D as [D|D]; [left; exists [], e, es; split; [reflexivity|]; split; [exact D|constructor]|].
  destruct IH as [(a & fl & b & -> & F & A)|IH]; [left; exists (e :: a), fl, b; split; [reflexivity|]; split; [exact F|constructor; assumption]|right; constructor; assumption].
Qed.

(** Everything written up to a last flush. *)
Theorem whole n : forall es b m out fl, (length es <= n)%nat -> ue_type fl = EStreamEnd -> Forall plain_event es -> unreserved 0 es ->
  managed_write_all imports (idle b) (es ++ [fl]) = Ok (m, out) ->
  m = mwriter_new /\ exists ns us, Forall (node_ok Top) ns /\ out = flat_map code ns /\ octets out /\ mirrors [] es (flat_map flatten us) /\
    (b = true -> ns = [] \/ exists ns', ns = NIvm :: ns') /\
    forall table, b = true \/ table = system_table -> user_view cat table (flat_map (trees 0) ns) = (us, SEnd).
Proof.
  induction n as [|n IH]; intros es b m out fl L FL P U H.
  - destruct es; [|cbn in L; lia]. cbn [app managed_write_all managed_write] in H. unfold managed_write in H. rewrite FL in H. cbn [idle mw_written bind mw_value mw_sym] in H. injection H as <- <-.
    split; [reflexivity|]. exists [], []. split; [constructor|]. split; [reflexivity|]. split; [constructor|]. split; [constructor|]. split; [left; reflexivity|]. reflexivity.
  - destruct es as [|e es].
    { apply (IH [] b m out fl); auto. cbn; lia. }
    cbn [length] in L. inversion P as [|? ? P1 P2]; subst. 
    destruct (is_mark e) eqn:MK.
    + unfold is_mark in MK. cbn [unreserved] in U. destruct U as [_ U].
      destruct (ue_type e) eqn:T; try discriminate.
      * cbn [app managed_write_all] in H. unfold managed_write in H at 1. rewrite T in H. cbn [idle mw_written bind mw_value mw_sym] in H.
        change (mkmw w_init symw_new false true) with (idle true) in H. destruct (managed_write_all imports (idle true) (es ++ [fl])) as [[m1 o1]|] eqn:R; [|discriminate].
        cbn [bind flat_map wdata app] in H. injection H as <- <-. destruct (IH es true m1 o1 fl ltac:(lia) FL P2 U R) as (EM & ns & us & A & B & C & D & E & F).
        split; [exact EM|]. exists ns, us. split; [exact A|]. split; [exact B|]. split; [exact C|]. split; [apply mi_mark; auto|]. split; [intros _; exact (E eq_refl)|].
        intros table _. apply F. left; reflexivity.
      * cbn [app managed_write_all] in H. unfold managed_write in H at 1. rewrite T in H. cbn [idle mw_written bind mw_value mw_sym mw_ivm] in H.
        change (mkmw w_init symw_new false false) with (idle false) in H. destruct (managed_write_all imports (idle false) (es ++ [fl])) as [[m1 o1]|] eqn:R; [|discriminate].
        cbn [bind] in H. injection H as <- <-. destruct (IH es false m1 o1 fl ltac:(lia) FL P2 U R) as (EM & ns & us & A & B & C & D & _ & F).
        split; [exact EM|]. exists ((if b then [NIvm] else []) ++ ns), us. split; [apply Forall_app; split; [destruct b; [constructor; [reflexivity|constructor]|constructor]|exact A]|].
        split; [rewrite flat_map_app, B, flat_map_app; destruct b; reflexivity|]. split; [apply octets_app; split; [|exact C]|].
        { destruct b; cbn; [|constructor]. unfold IVM_BYTES. do 4 (constructor; [unfold is_octet; lia|]). constructor. }
        split; [apply mi_mark; auto|]. split; [intros ->; right; exists ns; reflexivity|].
        intros table TB. destruct b; [|destruct TB as [TB|TB]; [discriminate|]; subst; apply F; right; reflexivity]. cbn [app flat_map trees user_view system_value ev_type version_marker_event].
        change (is_version_1_0 version_marker_event) with true. cbn iota. apply F. right; reflexivity.
    + assert (NE : ue_type e <> EStreamEnd) by (unfold is_mark in MK; destruct (ue_type e); discriminate).
      assert (exists seg f1 rest, e :: es ++ [fl] = (e :: seg) ++ f1 :: rest /\ ue_type f1 = EStreamEnd /\ Forall (fun e => ue_type e <> EStreamEnd) (e :: seg) /\
        ((rest = [] /\ seg = es) \/ exists rest', rest = rest' ++ [fl] /\ es = seg ++ f1 :: rest')) as (seg & f1 & rest & ES & F1 & NS & RS).
      { destruct (split_flush es) as [(a & f1 & b' & -> & F1 & A)|A].
        - exists a, f1, (b' ++ [fl]). split; [rewrite <- app_assoc; reflexivity|]. split; [exact F1|]. split; [constructor; assumption|]. right. eauto.
        - exists es, fl, []. split; [reflexivity|]. split; [exact FL|]. split; [constructor; assumption|]. left; auto. }
      change ((e :: es) ++ [fl]) with (e :: es ++ [fl]) in H. rewrite ES in H. change ((e :: seg) ++ f1 :: rest) with ((e :: seg) ++ [f1] ++ rest) in H. rewrite app_assoc, write_all_app in H.
      destruct (managed_write_all imports (idle b) ((e :: seg) ++ [f1])) as [[m1 o1]|] eqn:R1; [|discriminate]. cbn [bind] in H.
      destruct (managed_write_all imports m1 rest) as [[m2 o2]|] eqn:R2; [|discriminate]. cbn [bind] in H. injection H as <- <-.
      assert (exists s o1', sym_start imports symw_new = Ok s /\ managed_write_all imports (mkmw w_init s true false) ((e :: seg) ++ [f1]) = Ok (m1, o1') /\ o1 = (if b then ivm else []) ++ o1') as (s & o1' & SS & R1' & ->).
      { cbn [app managed_write_all] in R1 |- *. destruct (managed_write imports (idle b) e) as [[m0 ws]|] eqn:W; [|discriminate]. cbn [bind] in R1.
        destruct (first_value b e m0 ws MK W) as (s & ws' & SS & W' & EO). destruct (managed_write_all imports m0 (seg ++ [f1])) as [[m3 o3]|] eqn:R3; [|discriminate]. cbn [bind] in R1. injection R1 as <- <-.
        exists s, (flat_map wdata ws' ++ o3). split; [exact SS|]. rewrite W'. cbn [bind]. rewrite R3. cbn [bind]. split; [reflexivity|]. rewrite EO, app_assoc. reflexivity. }
      assert (PS : Forall plain_event (e :: seg)).
      { constructor; [exact P1|]. destruct RS as [[_ ->]|(rest' & _ & ->)]; [exact P2|]. apply Forall_app in P2. apply P2. }
      destruct (part_view (e :: seg) m1 o1' f1 s SS PS F1 NS R1') as (EM1 & ns1 & N1 & E1 & O1 & V1 & (usx & MX)). subst m1.
      assert (U' : unreserved 0 (e :: seg) /\ match rest with [] => True | _ => unreserved 0 (removelast rest) end).
      { destruct RS as [[-> ->]|(rest' & -> & EE)]; [auto|]. rewrite EE in U. change (e :: seg ++ f1 :: rest') with ((e :: seg) ++ f1 :: rest') in U.
        destruct (unreserved_app (e :: seg) [] usx (f1 :: rest') MX U) as [U1 U2]. split; [exact U1|]. cbn [unreserved] in U2. rewrite F1 in U2. destruct U2 as [_ U2].
        destruct (rest' ++ [fl]) eqn:RR; [exact Logic.I|]. rewrite <- RR, removelast_last. exact U2. }
      destruct U' as [U1 U2]. destruct (V1 U1) as (us1 & table1 & M1 & UV1).
      assert (exists ns2 us2 tail, m2 = mwriter_new /\ Forall (node_ok Top) ns2 /\ o2 = flat_map code ns2 /\ octets o2 /\
         mirrors [] tail (flat_map flatten us2) /\ e :: es = (e :: seg) ++ tail /\ forall table, user_view cat table (flat_map (trees 0) ns2) = (us2, SEnd))
        as (ns2 & us2 & tail & EM2 & N2 & E2 & O2 & M2 & ET & UV2).
      { destruct RS as [[-> ->]|(rest' & -> & EE)].
        - cbn [managed_write_all] in R2. injection R2 as <- <-. exists [], [], []. split; [reflexivity|]. split; [constructor|]. split; [reflexivity|]. split; [constructor|].
          split; [constructor|]. split; [rewrite app_nil_r; reflexivity|]. reflexivity.
        - assert (LR : (length rest' <= n)%nat) by (subst es; rewrite app_length in L; cbn in L; lia).
          assert (PR : Forall plain_event rest') by (subst es; apply Forall_app in P2; destruct P2 as [_ P2]; inversion P2; assumption).
          assert (UR : unreserved 0 rest') by (destruct (rest' ++ [fl]) eqn:RR; [destruct rest'; discriminate|]; rewrite <- RR, removelast_last in U2; exact U2).
          destruct (IH rest' true m2 o2 fl LR FL PR UR R2) as (EM & ns & us & A & B & C & D & E & F).
          exists ns, us, (f1 :: rest'). split; [exact EM|]. split; [exact A|]. split; [exact B|]. split; [exact C|]. split; [apply mi_mark; auto|].
          split; [rewrite EE; reflexivity|]. intros table. apply F. left; reflexivity. }
      split; [exact EM2|]. exists ((if b then [NIvm] else []) ++ ns1 ++ ns2), (us1 ++ us2).
      split; [apply Forall_app; split; [destruct b; [constructor; [reflexivity|constructor]|constructor]|apply Forall_app; auto]|].
      split; [rewrite !flat_map_app, E1, E2, app_assoc; destruct b; reflexivity|].
      split; [apply octets_app; split; [apply octets_app; split; [|exact O1]|exact O2]|].
      { destruct b; [|constructor]. unfold ivm. do 4 (constructor; [unfold is_octet; lia|]). constructor. }
      split; [rewrite ET, flat_map_app; apply mirrors_app; assumption|]. split; [intros ->; right; eexists; reflexivity|].
      intros table TB. rewrite !flat_map_app.
      assert (G : user_view cat system_table (flat_map (trees 0) ns1 ++ flat_map (trees 0) ns2) = (us1 ++ us2, SEnd)) by (rewrite UV1, UV2; reflexivity).
      destruct b; [|destruct TB as [TB|TB]; [discriminate|]; subst; exact G]. cbn [app flat_map trees user_view system_value ev_type version_marker_event].
      change (is_version_1_0 version_marker_event) with true. cbn iota. exact G.
Qed.
End WHOLE.
