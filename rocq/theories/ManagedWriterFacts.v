(** The managed writer: the symbol table it writes and the events it hands to the raw writer. *)
From Verif Require Import Base BaseFacts FieldsModel BufferModel CoreModel BinWriterModel BinReaderModel BinReaderSpec
  ScalarFacts ScalarProofs SymbolsModel SymbolsProofs BinFormat BinFormatFacts WriterFacts WriterProofs ManagedModel Cursor ManagedSpec.
Local Open Scope Z_scope.

(** * Trees from events *)

Fixpoint proper (t : etree event) : Prop :=
  match t with
  | Leaf e => ev_type e <> EContainerStart /\ ev_type e <> EContainerEnd
  | Branch s ks f => ev_type s = EContainerStart /\ ev_type f = EContainerEnd /\ fold_right (fun k P => proper k /\ P) True ks
  end.
Lemma proper_kids ks : fold_right (fun k P => proper k /\ P) True ks <-> Forall proper ks.
Proof.
  induction ks as [|k ks IH]; cbn [fold_right]; split; intros H; auto.
  - destruct H. constructor; [assumption|]. apply IH; assumption.
  - inversion H; subst. split; [assumption|]. apply IH; assumption.
Qed.
Fixpoint build (es : list event) (cur : list (etree event)) (st : list (event * list (etree event))) : option (list (etree event)) :=
  match es with
  | [] => match st with [] => Some cur | _ => None end
  | e :: es' =>
    match ev_type e with
    | EContainerStart => build es' [] ((e, cur) :: st)
    | EContainerEnd => match st with (s, before) :: st' => build es' (before ++ [Branch s cur e]) st' | [] => None end
    | _ => build es' (cur ++ [Leaf e]) st
    end
  end.
Lemma build_tree t : proper t -> forall r cur st, build (flatten t ++ r) cur st = build r (cur ++ [t]) st.
Proof.
  induction t as [e|s ks f IH] using tree_induction; intros P r cur st; cbn [flatten proper] in *.
  - cbn [app build]. destruct P as [P1 P2]. destruct (ev_type e); try reflexivity; congruence.
  - destruct P as (S & F & K). apply proper_kids in K. cbn [app build]. rewrite S, <- app_assoc.
    assert (G : forall c, build (flat_map flatten ks ++ [f] ++ r) c ((s, cur) :: st) = build ([f] ++ r) (c ++ ks) ((s, cur) :: st)).
    { induction IH as [|k ks Hk Hks IH']; intros c; [rewrite app_nil_r; reflexivity|]. inversion K as [|? ? K1 K2]; subst.
      cbn [flat_map]. rewrite <- app_assoc, Hk by exact K1. rewrite IH' by exact K2. rewrite <- app_assoc. reflexivity. }
    rewrite G. cbn [app build]. rewrite F. reflexivity.
Qed.
Lemma build_trees ts : Forall proper ts -> forall cur, build (flat_map flatten ts) cur [] = Some (cur ++ ts).
Proof.
  induction 1 as [|t ts P _ IH]; intros cur; cbn [flat_map]; [rewrite app_nil_r; reflexivity|].
  rewrite build_tree by exact P. rewrite IH, <- app_assoc. reflexivity.
Qed.
Lemma flatten_inj ts1 ts2 : Forall proper ts1 -> Forall proper ts2 -> flat_map flatten ts1 = flat_map flatten ts2 -> ts1 = ts2.
Proof. intros P1 P2 E. pose proof (build_trees ts1 P1 []) as B1. rewrite E, (build_trees ts2 P2 []) in B1. injection B1 as ->. reflexivity. Qed.
Lemma trees_proper n : forall d, Forall proper (trees d n).
Proof.
  induction n as [f bs|f w t v bs|f w t hd kids IH| ] using node_induction; intros d; cbn [trees]; (constructor; [|constructor]) || constructor;
    cbn [proper ev_type version_marker_event]; try (split; discriminate).
  do 2 (split; [reflexivity|]). apply proper_kids. induction IH as [|k ks Hk Hks IH']; [constructor|]. cbn [flat_map]. apply Forall_app. auto.
Qed.
Lemma stream_proper ns : Forall proper (flat_map (trees 0) ns).
Proof. induction ns as [|n ns IH]; [constructor|]. cbn [flat_map]. apply Forall_app. split; [apply trees_proper|exact IH]. Qed.
Lemma stream_flatten ns : flat_map flatten (flat_map (trees 0) ns) = flat_map (events 0) ns.
Proof. induction ns as [|n ns IH]; [reflexivity|]. cbn [flat_map]. rewrite flat_map_app, trees_events, IH. reflexivity. Qed.

(** * Runs of the raw writer *)

Lemma put_quiet w e w' : put w e = Ok w' -> is_flush e = false -> raw_write w e = Ok (w', [NeedsInput []]).
Proof.
  unfold put, is_flush. destruct (raw_write w e) as [[w1 ws]|] eqn:R; [|discriminate]. cbn [bind]. intros H F. injection H as <-. f_equal. f_equal.
  unfold raw_write in R. match type of R with (let* _ := ?X in _) = _ => destruct X as [b|] end; [|discriminate]. cbn [bind] in R.
  destruct (ev_type e); try discriminate.
  - destruct (ev_force _); [|discriminate]. cbn [bind] in R. destruct (serialize_scalar _ _); [|discriminate]. cbn [bind] in R.
    match type of R with (let* _ := ?X in _) = _ => destruct X end; [|discriminate]. cbn [bind] in R. injection R as _ <-. reflexivity.
  - destruct (ev_ion_type e); [|discriminate]. destruct (is_container i); [|discriminate]. injection R as _ <-. reflexivity.
  - destruct (w_frames w); [discriminate|]. destruct (end_container_value _ _); [|discriminate]. cbn [bind] in R.
    match type of R with (let* _ := ?X in _) = _ => destruct X end; [|discriminate]. cbn [bind] in R. injection R as _ <-. reflexivity.
Qed.
Lemma puts_app a : forall w b, puts w (a ++ b) = let* w' := puts w a in puts w' b.
Proof. induction a as [|e a IH]; intros w b; cbn [app puts]; [reflexivity|]. destruct (put w e) as [w1|]; cbn [bind]; [apply IH|reflexivity]. Qed.
Lemma puts_run es : forall w w', puts w es = Ok w' -> Forall (fun e => is_flush e = false) es -> forall rest,
  raw_write_all w (es ++ rest) = raw_write_all w' rest.
Proof.
  induction es as [|e es IH]; intros w w' H F rest; cbn [puts] in H; [injection H as <-; reflexivity|]. inversion F as [|? ? F1 F2]; subst.
  destruct (put w e) as [w1|] eqn:P; [|discriminate]. cbn [bind] in H. cbn [app raw_write_all]. rewrite (put_quiet _ _ _ P F1). cbn [bind].
  rewrite (IH _ _ H F2 rest). destruct (raw_write_all w' rest) as [[s out]|]; reflexivity.
Qed.
Lemma put_encodable w e w' : put w e = Ok w' -> ev_type e = EScalar -> encodable e.
Proof.
  unfold put. destruct (raw_write w e) as [[w1 ws]|] eqn:R; [|discriminate]. intros _ T.
  unfold raw_write in R. match type of R with (let* _ := ?X in _) = _ => destruct X as [b|] end; [|discriminate]. cbn [bind] in R. rewrite T in R.
  destruct (ev_force (ev_value e)) as [v|] eqn:EF; [|discriminate]. cbn [bind] in R. destruct (serialize_scalar (ev_ion_type e) v) as [bs|] eqn:SS; [|discriminate].
  exists v, bs. auto.
Qed.
Lemma puts_encodable es : forall w w', puts w es = Ok w' -> Forall (fun e => ev_type e = EScalar -> encodable e) es.
Proof.
  induction es as [|e es IH]; intros w w' H; [constructor|]. cbn [puts] in H. destruct (put w e) as [w1|] eqn:P; [|discriminate].
  constructor; [intros T; eapply put_encodable; eassumption|]. eapply IH; exact H.
Qed.
Lemma encoded_text x : (exists bs, serialize_scalar (Some TString) (Some (VString x)) = Ok bs) -> text_ok x.
Proof.
  intros [bs H]. cbn [serialize_scalar is_container] in H. unfold serialize_string in H.
  assert (G : forall y bs, utf8_encode y = Ok bs -> text_ok y).
  { induction y as [|c y IH]; intros b E; [constructor|]. cbn [utf8_encode] in E. unfold utf8_encode_cp in E at 1.
    destruct (is_scalar c) eqn:C; [|discriminate]. constructor; [exact C|]. destruct (utf8_encode y) as [b'|] eqn:E2; [apply (IH b'); reflexivity|].
    cbn [negb] in E. destruct (c <? 128); [discriminate|]. destruct (c <? 2048); [discriminate|]. destruct (c <? 65536); discriminate. }
  destruct x as [|c x]; [constructor|]. destruct (utf8_encode (c :: x)) as [b|] eqn:E; [|discriminate]. eapply G; exact E.
Qed.

(** * The symbol table writer *)

Definition str_ev (x : text) : event := mkev EScalar (Some TString) (EvVal (VString x)) None [] None.
Definition lst_head (imports : option (list symtab)) : list event :=
  ev_lst_start :: match truthy_imports imports with
                  | [] => []
                  | ts => ev_imports_start :: flat_map import_events ts ++ [ev_container_end]
                  end.
Definition lst_body (has : bool) (xs : list text) : list event := if has then ev_symbols_start :: map str_ev xs else [].
Definition table_of (imports : option (list symtab)) (xs : list text) : res symtab := st_new LocalTable (map Some xs) None None imports false.

Definition sym_inv (imports : option (list symtab)) (s : symw) (xs : list text) (table : symtab) : Prop :=
  sw_table s = Some table /\ table_of imports xs = Ok table /\
  puts w_init (lst_head imports ++ lst_body (sw_has s) xs) = Ok (sw_raw s) /\ (sw_has s = false -> xs = []).

Lemma put_imports_puts ts : forall w w', put_imports w ts = Ok w' -> puts w (flat_map import_events ts) = Ok w'.
Proof.
  induction ts as [|t ts IH]; intros w w' H; cbn [put_imports flat_map] in *; [exact H|]. destruct (st_type t); try discriminate.
  rewrite puts_app. destruct (puts w (import_events t)) as [w1|]; [|discriminate]. cbn [bind] in *. apply IH. exact H.
Qed.
Lemma sym_start_inv imports s : sym_start imports symw_new = Ok s -> exists table, sym_inv imports s [] table.
Proof.
  unfold sym_start. cbn [symw_new sw_raw sw_has]. destruct (put w_init ev_lst_start) as [w1|] eqn:P1; [|discriminate]. cbn [bind].
  match goal with |- (let* _ := ?X in _) = _ -> _ => destruct X as [w2|] eqn:P2 end; [|discriminate]. cbn [bind].
  destruct (st_new LocalTable [] None None imports false) as [table|] eqn:N; [|discriminate]. cbn [bind]. intros H. injection H as <-.
  exists table. unfold sym_inv. cbn [sw_table sw_has sw_raw]. split; [reflexivity|]. split; [exact N|]. split; [|reflexivity].
  cbn [lst_body]. rewrite app_nil_r. unfold lst_head. cbn [puts]. rewrite P1. cbn [bind].
  destruct (truthy_imports imports) as [|t ts]; [exact P2|]. destruct (put w1 ev_imports_start) as [w3|] eqn:P3; [|discriminate].
  cbn [bind] in P2. destruct (put_imports w3 (t :: ts)) as [w4|] eqn:P4; [|discriminate]. cbn [bind] in P2. cbn [puts]. rewrite P3. cbn [bind].
  rewrite puts_app, (put_imports_puts _ _ _ P4). cbn [bind puts]. rewrite P2. reflexivity.
Qed.

(** Names. *)
(** A symbol whose text the user gives, or symbol zero. *)
Definition plain_arg (a : symarg) : Prop := match a with AText _ => True | ATok t => tk_text t <> None \/ tk_sid t = Some 0 end.
Definition names (table : symtab) (a : symarg) (t : token) : Prop :=
  exists sid r, tk_sid t = Some sid /\ 0 <= sid /\ get_sid table sid None = Some r /\ tk_text r = arg_text a.

Lemma table_app imports xs ys table : table_of imports xs = Ok table ->
  table_of imports (xs ++ ys) = Ok (fold_left (fun st x => fst (add_text st x)) (map Some ys) table).
Proof.
  unfold table_of, st_new. cbn [is_system is_shared is_local andb]. intros H. injection H as <-. rewrite map_app, fold_left_app. reflexivity.
Qed.
Lemma add_texts_keep ys : forall st, table_ok st -> table_ok (fold_left (fun st x => fst (add_text st x)) ys st) /\
  exists more, extends st (fold_left (fun st x => fst (add_text st x)) ys st) more.
Proof.
  induction ys as [|y ys IH]; intros st T; cbn [fold_left]; [split; [exact T|exists []; apply extends_refl]|].
  destruct (added st y (if is_shared (st_type st) then Some (import_location st (st_max st + 1)) else None) T) as [T1 X1].
  destruct (IH _ T1) as (T2 & m & X2). split; [exact T2|]. eexists. eapply extends_trans; [exact X1|exact X2].
Qed.
Lemma table_of_ok imports xs table : table_of imports xs = Ok table -> table_ok table /\ st_type table = LocalTable.
Proof. intros H. destruct (new_layout _ _ _ _ _ _ _ H) as (A & B & _). auto. Qed.
Lemma names_keep imports xs ys table table' a t : table_of imports xs = Ok table -> table_of imports (xs ++ ys) = Ok table' ->
  names table a t -> names table' a t.
Proof.
  intros T T' (sid & r & S & P & G & X). rewrite (table_app _ _ ys _ T) in T'. injection T' as <-.
  destruct (table_of_ok _ _ _ T) as [OK _]. destruct (add_texts_keep (map Some ys) table OK) as (OK' & m & E).
  exists sid, r. split; [exact S|]. split; [exact P|]. split; [|exact X].
  destruct (sid =? 0) eqn:Z0; [apply Z.eqb_eq in Z0; subst; exact G|].
  assert (K : 1 <= sid <= st_max table).
  { assert (~ (st_max table < sid)); [|lia]. intros L. rewrite (proj2 (sid_lookup table None sid OK)) in G by lia. discriminate. }
  rewrite (proj1 (extends_keeps table _ m None OK OK' E)) by exact K. exact G.
Qed.

Lemma sym_symbol_inv imports s xs table a tok s' : sym_inv imports s xs table -> sym_symbol s a = Ok (tok, s') ->
  exists ys table', sym_inv imports s' (xs ++ ys) table' /\ (plain_arg a -> names table' a tok).
Proof.
  intros (ST & TB & PW & HX) H. unfold sym_symbol in H. rewrite ST in H.
  destruct (table_of_ok _ _ _ TB) as [OK TY].
  assert (exists w, (if sw_has s then Ok (sw_raw s) else put (sw_raw s) ev_symbols_start) = Ok w /\ puts w_init (lst_head imports ++ lst_body true xs) = Ok w) as (w & EW & PW2).
  { destruct (sw_has s) eqn:HS.
    - exists (sw_raw s). split; [reflexivity|exact PW].
    - rewrite (HX eq_refl) in *. destruct (put (sw_raw s) ev_symbols_start) as [w|] eqn:P; [|discriminate]. exists w. split; [reflexivity|].
      cbn [lst_body map] in *. rewrite app_nil_r in PW. rewrite puts_app, PW. cbn [bind puts]. rewrite P. reflexivity. }
  rewrite EW in H. cbn [bind] in H.
  assert (FOUND : forall x u, get_text table x None = Some u -> names table (AText x) u).
  { intros x u G. apply (text_lookup table None x u OK) in G. destruct G as (k & K & G & T & _).
    destruct (proj1 (sid_lookup table None k OK) K) as (u' & G' & _ & SD). rewrite G in G'. injection G' as <-.
    exists k, u. split; [exact SD|]. split; [lia|]. split; [exact G|exact T]. }
  assert (NEW : forall x, get_text table x None = None ->
     (let* (tok0, table') := intern table x in
      let* w0 := put w (mkev EScalar (Some TString) (match tk_text tok0 with Some y => EvVal (VString y) | None => EvNone end) None [] None) in
      Ok (tok0, mksw (Some table') w0 true)) = Ok (tok, s') ->
     exists ys table', sym_inv imports s' (xs ++ ys) table' /\ names table' (AText x) tok).
  { intros x G E. pose proof (intern_spec table x OK) as I. rewrite TY in I. cbn [is_shared] in I. destruct I as (t & st' & IE & OK' & TT & C).
    rewrite G in C. destruct C as (-> & MX & EX). rewrite IE in E. cbn [bind tk_text] in E.
    destruct (put w _) as [w0|] eqn:PU; [|discriminate]. cbn [bind] in E. injection E as <- <-.
    assert (TS : table_of imports (xs ++ [x]) = Ok st').
    { rewrite (table_app _ _ [x] _ TB). cbn [map fold_left]. unfold intern in IE. rewrite TY, G in IE. cbn [is_shared] in IE.
      destruct (add_text table (Some x)) as [a1 a2]. injection IE as _ <-. reflexivity. }
    exists [x], st'. split.
    - unfold sym_inv. cbn [sw_table sw_has sw_raw]. split; [reflexivity|]. split; [exact TS|]. split; [|discriminate].
      cbn [lst_body] in *. rewrite map_app. cbn [map]. rewrite !app_comm_cons, app_assoc, puts_app, PW2. cbn [bind puts]. unfold str_ev. rewrite PU. reflexivity.
    - assert (K : 1 <= st_max table + 1 <= st_max st').
      { destruct OK as (_ & _ & M). rewrite M in *. pose proof (zlen_nonneg (st_syms table)). lia. }
      destruct (proj1 (sid_lookup st' None _ OK') K) as (u & GU & NU & _). exists (st_max table + 1), u. split; [reflexivity|]. split; [lia|]. split; [exact GU|].
      destruct EX as (_ & _ & _ & _ & _ & SY). destruct OK as (_ & _ & M). rewrite SY, M in NU. unfold zlen in NU.
      rewrite nth_error_app2 in NU by lia. replace (Z.to_nat (Z.of_nat (length (st_syms table)) + 1 - 1) - length (st_syms table))%nat with 0%nat in NU by lia.
      injection NU as <-. reflexivity. }
  assert (OLD : forall u, Ok (u, mksw (Some table) w true) = Ok (tok, s') -> u = tok /\ sym_inv imports s' (xs ++ []) table).
  { intros u E. injection E as <- <-. split; [reflexivity|]. rewrite app_nil_r. unfold sym_inv. cbn [sw_table sw_has sw_raw]. split; [reflexivity|]. split; [exact TB|]. split; [exact PW2|discriminate]. }
  destruct a as [t|x]; cbn [plain_arg].
  - destruct (tk_text t) as [x|] eqn:TT.
    + destruct (get_text table x None) as [u|] eqn:G.
      * destruct (OLD u H) as [-> I]. exists [], table. split; [exact I|]. intros _. destruct (FOUND x tok G) as (sid & r & A & B & C & D).
        exists sid, r. cbn [arg_text]. rewrite TT. auto.
      * destruct (NEW x G H) as (ys & tb & I & sid & r & A & B & C & D). exists ys, tb. split; [exact I|]. intros _. exists sid, r. cbn [arg_text]. rewrite TT. auto.
    + destruct (tk_sid t) as [sid|] eqn:SD.
      * destruct (get_sid table sid None) as [u|] eqn:G; [|discriminate]. destruct (OLD u H) as [-> I]. exists [], table. split; [exact I|].
        intros [P|P]; [congruence|]. injection P as ->. cbn in G. injection G as <-. exists 0, symbol_zero. cbn [arg_text]. rewrite TT. split; [reflexivity|]. split; [lia|]. split; reflexivity.
      * discriminate.
  - destruct (get_text table x None) as [u|] eqn:G.
    + destruct (OLD u H) as [-> I]. exists [], table. split; [exact I|]. intros _. apply FOUND. exact G.
    + destruct (NEW x G H) as (ys & tb & I & N). exists ys, tb. auto.
Qed.
