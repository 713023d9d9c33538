(** What the text reader does at the end of the data, and how much work it can do before it: used for C79. *)
From Verif Require Import Base BaseFacts CoreModel BinReaderModel TextNumbers TextWriterModel TextReaderModel TextReaderFacts.
Local Open Scope Z_scope.

(** * The handlers, without a slash and at the end of the data *)

(** Not one of the handlers of comments; a keyword handler looks for keywords with the same first letter. *)
Definition plain_handler (h : hs) : Prop :=
  match h with
  | HComm0 _ | HLine _ | HBlock _ _ | HSexpSlash _ _ | HSlash _ => False
  | HKw a b t f _ _ => (a || b) && (t || f) = false /\ t && f = false
  | _ => True
  end.
(** A property of the answers of a handler. *)
Definition gives (P : trans -> Prop) (r : res answer) : Prop := forall t k u, r = Ok (t, k, u) -> P t.
(** Not inside a comment between a slash and a star, and no handler that would go on in one; what goes on after another comment is not a comment. *)
Definition tame (h : hs) : Prop :=
  match h with
  | HBlock _ _ => False
  | HSlash _ => True
  | HComm0 w | HLine w | HSexpSlash w _ => match w with Some h => plain_handler h | None => True end
  | _ => plain_handler h
  end.
Lemma plain_tame h : plain_handler h -> tame h. Proof. destruct h; intros H; try exact H; destruct H. Qed.
(** The next handler, if there is one, is tame. *)
Definition to_tame (t : trans) : Prop :=
  match t with TGo h => tame h | TEv _ (Some (Some h, _)) => tame h | _ => True end.
(** No other handler goes on. *)
Definition to_rest (t : trans) : Prop :=
  match t with TGo h => False | TEv _ (Some (Some h, _)) => False | _ => True end.
(** After an event no other handler goes on. *)
Definition to_end (t : trans) : Prop :=
  match t with TEv _ (Some (Some h, _)) => False | _ => True end.

Lemma gives_err P e : gives P (Err e). Proof. intros ? ? ? ?. discriminate. Qed.
Lemma gives_illegal P : gives P illegal. Proof. apply gives_err. Qed.
Lemma gives_ok (P : trans -> Prop) t k u : P t -> gives P (Ok (t, k, u)). Proof. intros H ? ? ? E. injection E as <- _ _. exact H. Qed.
Lemma gives_bind P {A} (x : res A) f : (forall a, x = Ok a -> gives P (f a)) -> gives P (let* a := x in f a).
Proof. intros H. destruct x; cbn [bind]; [now apply H|apply gives_err]. Qed.
Lemma gives_back P v c r : gives P r -> gives P (putting_back v c r).
Proof. intros H. unfold putting_back. apply gives_bind. intros u _. apply gives_bind. intros [[t k] w] E. apply gives_ok. exact (H _ _ _ E). Qed.
Lemma gives_back_end P v r : gives P (putting_back v Eof r).
Proof. unfold putting_back. cbn [unread bind]. apply gives_err. Qed.

Lemma oper_plain c k h k' : start_oper c k = Ok (h, k') -> plain_handler h.
Proof. intros E. rewrite (start_oper_is _ _ _ _ E). exact Logic.I. Qed.
Lemma unquoted_plain v c k f h k' : start_unquoted v c k f = Ok (h, k') -> plain_handler h.
Proof.
  unfold start_unquoted. intros E. apply bind_ok in E as (x & _ & E). cbv zeta in E. destruct (negb _); [destruct (_ && _); [|discriminate]|]; injection E as <- _; exact Logic.I.
Qed.
Lemma quoted_plain c k f h k' : start_quoted_symbol c k f = Ok (h, k') -> plain_handler h.
Proof.
  unfold start_quoted_symbol. intros E. destruct (_ && _); [discriminate|]. cbv zeta in E. apply bind_ok in E as (x & _ & E). destruct (is_clob _); [discriminate|]. destruct (negb _); [discriminate|]. injection E as <- _. exact Logic.I.
Qed.
Lemma dollar_plain v k f h k' : start_dollar v k f = Ok (h, k') -> plain_handler h.
Proof. unfold start_dollar. intros E. apply bind_ok in E as (x & _ & E). cbv zeta in E. injection E as <- _. exact Logic.I. Qed.

Ltac gv :=
  cbv zeta;
  repeat first
  [ apply gives_err | apply gives_illegal | apply gives_back
  | match goal with
    | |- gives _ (go _ _) => apply gives_ok; exact Logic.I
    | |- gives _ (back _) => apply gives_ok; exact Logic.I
    | |- gives _ (emits _ _) => apply gives_ok; exact Logic.I
    | |- gives _ (emits_then _ _ None _) => apply gives_ok; exact Logic.I
    | |- gives _ (Ok _) => apply gives_ok; exact Logic.I
    | |- gives _ (let* _ := start_oper _ _ in _) => apply gives_bind; let h := fresh "h" in let k := fresh "k" in let E := fresh "E" in intros [h k] E; apply oper_plain in E; apply gives_ok; exact (plain_tame _ E)
    | |- gives _ (let* _ := start_unquoted _ _ _ _ in _) => apply gives_bind; let h := fresh "h" in let k := fresh "k" in let E := fresh "E" in intros [h k] E; apply unquoted_plain in E; apply gives_ok; exact (plain_tame _ E)
    | |- gives _ (let* _ := start_quoted_symbol _ _ _ in _) => apply gives_bind; let h := fresh "h" in let k := fresh "k" in let E := fresh "E" in intros [h k] E; apply quoted_plain in E; apply gives_ok; exact (plain_tame _ E)
    | |- gives _ (let* _ := start_dollar _ _ _ in _) => apply gives_bind; let h := fresh "h" in let k := fresh "k" in let E := fresh "E" in intros [h k] E; apply dollar_plain in E; apply gives_ok; exact (plain_tame _ E)
    | |- gives _ (let* _ := _ in _) => apply gives_bind; intros ? ?
    | |- gives _ (if ?b then _ else _) => destruct b
    | |- gives _ (match ?x with _ => _ end) => destruct x
    end ].
Notation P_start x := (gives to_tame x) (only parsing).
Lemma plain_numeric n c k : P_start (start_numeric n c k). Proof. unfold start_numeric. gv. Qed.
Lemma plain_ts c k : P_start (start_ts c k). Proof. unfold start_ts. gv. Qed.
Lemma plain_zero c k : P_start (start_zero c k). Proof. unfold start_zero. gv. Qed.
Lemma plain_symbol_end v c k f s : P_start (symbol_end v c k f s). Proof. unfold symbol_end. gv. Qed.
Lemma plain_go_oper c k : P_start (go_oper c k). Proof. unfold go_oper. gv. Qed.
Lemma plain_go_unquoted v c k f : P_start (go_unquoted v c k f). Proof. unfold go_unquoted. gv. Qed.
Lemma plain_long k f : P_start (start_long k f). Proof. unfold start_long. gv. Qed.
Lemma plain_string k f : P_start (start_string k f). Proof. unfold start_string. gv. Qed.
Lemma plain_blob c k : P_start (start_blob c k). Proof. unfold start_blob. gv. Qed.
Lemma plain_clob c k : P_start (start_clob_end c k). Proof. unfold start_clob_end. gv. Qed.
Lemma plain_kw v c k f : P_start (start_kw v c k f). Proof. unfold start_kw. gv. apply gives_ok. cbn [to_tame plain_handler]. split; lia. Qed.
Lemma plain_number_end v c k r : P_start (number_end v c k r).
Proof. unfold number_end. gv. Qed.
Ltac gp := gv; try solve [apply plain_numeric|apply plain_ts|apply plain_zero|apply plain_symbol_end|apply plain_go_oper|apply plain_go_unquoted|apply plain_long|apply plain_string|apply plain_blob|apply plain_clob|apply plain_kw|apply plain_number_end].
Lemma plain_keyword v s t x d m f c k b a : check_keyword v s t x d m f c k = Ok (b, Some a) -> to_tame (fst (fst a)).
Proof.
  unfold check_keyword. intros H.
  repeat match type of H with
  | Ok _ = Ok _ => injection H; clear H; intros; subst; try discriminate; try exact Logic.I
  | (if ?x then _ else _) = _ => destruct x
  | _ => discriminate
  end.
Qed.
Lemma plain_send_kw v a b t f m i c k : plain_handler (HKw a b t f m i) -> P_start (send_kw v a b t f m i c k).
Proof.
  intros (F1 & F2). unfold send_kw. intros T K U E.
  apply bind_ok in E. destruct E as ([n1 t1] & E1 & E).
  apply bind_ok in E. destruct E as ([[[n2 tr] fl] t2] & E2 & E).
  assert (C1 : forall x, t1 = Some x -> to_tame (fst (fst x))).
  { intros x ->. destruct a; [|discriminate]. exact (plain_keyword _ _ _ _ _ _ _ _ _ _ _ E1). }
  assert (C2 : forall x, t2 = Some x -> to_tame (fst (fst x))).
  { intros x ->. destruct b; [|destruct t; [|destruct f]].
    1-3: apply bind_ok in E2; destruct E2 as ([b2 t2] & E2 & E3); injection E3 as _ _ _ ->; exact (plain_keyword _ _ _ _ _ _ _ _ _ _ _ E2).
    injection E2 as _ _ _ ->. now apply C1. }
  destruct (n1 || n2 || tr || fl).
  - destruct t2 as [x|].
    + injection E as ->. apply (C2 _ eq_refl).
    + injection E as <- _ _. cbn [to_tame plain_handler].
      assert (A1 : a = false -> n1 = false) by (intros ->; injection E1 as <- _; reflexivity).
      destruct b; [|destruct t; [|destruct f]].
      1-3: apply bind_ok in E2; destruct E2 as ([b2 t2] & E2 & E3); injection E3 as <- <- <- ->.
      4: injection E2 as <- <- <- _.
      all: destruct a; try rewrite (A1 eq_refl); cbn in *; try discriminate; repeat match goal with x : bool |- _ => destruct x; cbn in *; try discriminate end; auto.
  - revert E. match goal with |- ?x = _ -> _ => enough (C : gives to_tame x) by (intros E; exact (C _ _ _ E)) end. gp.
Qed.
Theorem tame_send v h c k : tame h -> cz c <> 42 -> gives to_tame (send v h c k).
Proof.
  intros H N. assert (NC : (cz c =? 42) = false) by lia.
  destruct h; try contradiction; cbn [send]; cbv zeta;
    unfold send_zero, send_num, send_numeric, send_ts_zero, send_ts, send_long, send_null, send_inf, send_unquoted, send_dollar, send_string, send_quoted_symbol, send_quote1, send_quote2, send_lob0, send_blob, send_clob, start_comment, comment_done; rewrite ?NC;
    try (apply plain_send_kw; exact H); gp.
  - destruct (cz c =? 47); [injection H0 as <- _|destruct c; discriminate]. apply gives_ok. exact Logic.I.
  - destruct (cz c =? 47); [injection H0 as <- _|destruct c; discriminate]. apply gives_ok. exact H.
  - apply gives_ok. apply plain_tame. exact H.
  - apply gives_ok. exact H.
  - apply gives_ok. exact H.
Qed.

(** At the end of the data. *)
Lemma nth_letter l mi : Forall (fun z => 0 <= z) l -> (-1 =? nth mi l 0) = false.
Proof.
  intros F. assert (0 <= nth mi l 0); [|lia]. destruct (Nat.lt_ge_cases mi (List.length l)) as [L|L]; [|rewrite nth_overflow by lia; lia].
  rewrite Forall_forall in F. apply F. now apply nth_In.
Qed.
Lemma prefix_in seen b : prefixb (seen ++ [-1]) b = true -> In (-1) b.
Proof.
  revert b. induction seen as [|x seen IH]; intros [|y b] E; cbn [prefixb app] in E; try discriminate; apply andb_true_iff in E as (A & B); [left; apply Z.eqb_eq in A; symmetry; exact A|right; now apply IH].
Qed.
Lemma no_null_end seen : existsb (fun p => prefixb (seen ++ [-1]) (fst p)) typed_nulls = false.
Proof.
  apply Bool.not_true_is_false. intros E. apply existsb_exists in E as (p & I & E). apply prefix_in in E. revert p I E.
  apply (Forall_forall (fun p : text * iontype => ~ In (-1) (fst p))).
  unfold typed_nulls. repeat (apply Forall_cons; [cbn [fst In]; intros H; repeat (destruct H as [H|H]; [discriminate|]); contradiction|]). apply Forall_nil.
Qed.
Lemma rest_number_end v k r : gives to_rest (number_end v Eof k r).
Proof. unfold number_end. cbn [cz]. change (-1 =? 47) with false. cbv iota zeta. apply gives_ok. exact Logic.I. Qed.
Lemma rest_symbol_end v k f s : gives to_rest (symbol_end v Eof k f s).
Proof. unfold symbol_end. destruct (_ || _); [apply gives_ok; exact Logic.I|]. apply gives_bind. intros. apply gives_ok. exact Logic.I. Qed.
Lemma keyword_end v s t x d m f k b a : Forall (fun z => 0 <= z) s -> check_keyword v s t x d m f Eof k = Ok (b, a) ->
  match a with Some a => to_rest (fst (fst a)) | None => b = false end.
Proof.
  unfold check_keyword. cbn [cz]. intros F H. rewrite (nth_letter _ _ F) in H. change (-1 =? 46) with false in H. rewrite andb_false_r in H. change (ends Eof) with true in H.
  destruct (_ <? _)%nat; [injection H as <- <-; reflexivity|]. destruct f; [discriminate|]. injection H as _ <-. exact Logic.I.
Qed.
Lemma letters : Forall (fun z => 0 <= z) t_ull /\ Forall (fun z => 0 <= z) t_an /\ Forall (fun z => 0 <= z) t_rue /\ Forall (fun z => 0 <= z) t_alse /\ Forall (fun z => 0 <= z) t_inf.
Proof. unfold t_ull, t_an, t_rue, t_alse, t_inf. repeat split; repeat (apply Forall_cons; [lia|]); apply Forall_nil. Qed.
Lemma unquoted_end v k f x : start_unquoted v Eof k f = Ok x -> False.
Proof.
  unfold start_unquoted. intros E. apply bind_ok in E as (y & _ & E). cbn [cz] in E. cbv zeta in E. change (ident_char (-1)) with false in E. change (is_op (-1)) with false in E. rewrite andb_false_r in E. discriminate.
Qed.
Lemma rest_kw v a b t f m i k : plain_handler (HKw a b t f m i) -> gives to_rest (send_kw v a b t f m i Eof k).
Proof.
  intros (F1 & F2). destruct letters as (L1 & L2 & L3 & L4 & _).
  unfold send_kw. intros T K U E.
  apply bind_ok in E. destruct E as ([n1 t1] & E1 & E).
  apply bind_ok in E. destruct E as ([[[n2 tr] fl] t2] & E2 & E).
  assert (C1 : match t1 with Some x => to_rest (fst (fst x)) | None => n1 = false end).
  { destruct a; [exact (keyword_end _ _ _ _ _ _ _ _ _ _ L1 E1)|injection E1 as <- <-; reflexivity]. }
  cbn [cz] in E. change (mem (-1) c_symbol_end) with false in E. change (ends Eof) with true in E. cbn [orb] in E.
  destruct (n1 || n2 || tr || fl) eqn:O.
  - destruct t2 as [x|].
    + injection E as ->. destruct b; [|destruct t; [|destruct f]].
      * apply bind_ok in E2. destruct E2 as ([b2 t2] & E2 & E3). injection E3 as _ _ _ ->. exact (keyword_end _ _ _ _ _ _ _ _ _ _ L2 E2).
      * apply bind_ok in E2. destruct E2 as ([b2 t2] & E2 & E3). injection E3 as _ _ _ ->. exact (keyword_end _ _ _ _ _ _ _ _ _ _ L3 E2).
      * apply bind_ok in E2. destruct E2 as ([b2 t2] & E2 & E3). injection E3 as _ _ _ ->. exact (keyword_end _ _ _ _ _ _ _ _ _ _ L4 E2).
      * injection E2 as _ _ _ ->. exact C1.
    + exfalso. destruct b; [|destruct t; [|destruct f]].
      * apply bind_ok in E2. destruct E2 as ([b2 t2] & E2 & E3). injection E3 as <- <- <- ->. pose proof (keyword_end _ _ _ _ _ _ _ _ _ _ L2 E2) as C2. cbn beta iota in C2. subst b2.
        assert (n1 = false).
        { destruct a; [|injection E1 as <- _; reflexivity]. unfold check_keyword in E1, E2. destruct (m <? List.length t_an)%nat eqn:M2.
          - replace (m <? List.length t_ull)%nat with true in E1 by (symmetry; apply Nat.ltb_lt; apply Nat.ltb_lt in M2; cbn in *; lia). cbn [cz] in E1. rewrite (nth_letter _ _ L1) in E1. injection E1 as <- _. reflexivity.
          - cbn [cz andb] in E2. change (ends Eof) with true in E2. destruct i; discriminate. }
        subst n1. destruct t, f; rewrite ?orb_true_r in F1; cbn in O, F1; discriminate.
      * apply bind_ok in E2. destruct E2 as ([b2 t2] & E2 & E3). injection E3 as <- <- <- ->. pose proof (keyword_end _ _ _ _ _ _ _ _ _ _ L3 E2) as C2. cbn beta iota in C2. subst b2.
        destruct a; [discriminate|]. injection E1 as <- _. destruct f; discriminate.
      * apply bind_ok in E2. destruct E2 as ([b2 t2] & E2 & E3). injection E3 as <- <- <- ->. pose proof (keyword_end _ _ _ _ _ _ _ _ _ _ L4 E2) as C2. cbn beta iota in C2. subst b2.
        destruct a; [discriminate|]. injection E1 as <- _. discriminate.
      * injection E2 as <- <- <- ->. cbn beta iota in C1. subst n1. discriminate.
  - revert E. match goal with |- ?x = _ -> _ => enough (C : gives to_rest x) by (intros E; exact (C _ _ _ E)) end. apply gives_bind. intros. apply gives_ok. exact Logic.I.
Qed.

Lemma rest_quoted k f x : start_quoted_symbol Eof k f = Ok x -> False.
Proof.
  unfold start_quoted_symbol. cbn [cz]. change (-1 =? 39) with false. cbn [andb]. cbv zeta. intros E. apply bind_ok in E as (y & _ & E). destruct (is_clob _); [discriminate|]. change (negb (valid_quoted c_ws_not_nl false Eof)) with true in E. discriminate.
Qed.
Theorem rest_send v h k : plain_handler h -> gives to_rest (send v h Eof k).
Proof.
  intros H. destruct h; try contradiction; cbn [send cz]; cbv zeta.
  - change (-1 =? 48) with false. change (is_digit (-1)) with false. cbv iota. apply gives_back_end.
  - unfold send_zero. cbn [cz]. change (ends Eof) with true. apply rest_number_end.
  - unfold send_num. cbn [cz]. change (ends Eof) with true. apply rest_number_end.
  - unfold send_numeric. cbn [cz]. cbv zeta. change (ends Eof) with true. cbv iota. destruct (_ || _); [apply gives_err|apply rest_number_end].
  - unfold send_ts_zero. cbn. apply gives_err.
  - unfold send_ts. cbn [cz is_eof]. cbv zeta. rewrite andb_true_r. destruct can.
    + rewrite orb_true_r. cbn [negb]. rewrite andb_false_r. apply rest_number_end.
    + cbn [negb]. rewrite andb_true_r. destruct nxt; apply gives_err.
  - unfold send_long. cbn [cz is_eof]. cbv zeta. change (-1 =? 39) with false. cbn [andb]. cbv iota. destruct in_data.
    { change (valid_quoted c_ws is_clob Eof) with (false || (false && (-1 <=? if is_clob then 0x7f else 0x10ffff))). cbn. apply gives_err. }
    destruct (0 <? quotes).
    { destruct (_ || _); [apply gives_err|]. destruct (is_delimited _); [apply gives_err|]. destruct (quotes =? 1); [apply gives_err|]. apply gives_ok. exact Logic.I. }
    change (is_ws (-1)) with false. cbv iota. destruct is_clob.
    { unfold start_clob_end. cbn [cz]. cbv zeta. change ((-1 =? 125) || is_ws (-1)) with false. change (-1 =? 34) with false. rewrite andb_false_r. apply gives_err. }
    change (-1 =? 47) with false. change (-1 =? 58) with false. cbv iota. destruct is_field; [apply gives_err|apply gives_ok; exact Logic.I].
  - apply gives_bind. intros x E. destruct (rest_quoted _ _ _ E).
  - unfold send_null. destruct (find _ _) as [[? ?]|].
    + change (ends Eof) with true. cbn [orb]. apply gives_ok. exact Logic.I.
    + cbn [cz]. rewrite no_null_end. apply gives_err.
  - apply gives_back_end.
  - apply rest_kw. exact H.
  - unfold send_inf. cbn [cz]. cbv zeta. rewrite (nth_letter _ _ (proj2 (proj2 (proj2 (proj2 letters))))). rewrite ?andb_false_r. destruct (_ && _); [apply gives_ok; exact Logic.I|].
    apply gives_bind. intros k' _. destruct (negb _); [apply gives_err|]. apply gives_bind. intros ev _. destruct mi.
    + change (is_op (-1)) with false. apply gives_ok. exact Logic.I.
    + apply gives_bind. intros x E. destruct (unquoted_end _ _ _ _ E).
  - change (is_op (-1)) with false. cbv iota. apply gives_bind. intros. apply gives_ok. exact Logic.I.
  - apply gives_back_end.
  - unfold send_unquoted. cbn [cz]. cbv zeta. change (is_ws (-1)) with false. unfold breaks. change (ends Eof) with true. rewrite orb_true_r. cbn [orb]. apply rest_symbol_end.
  - unfold send_dollar. cbn [cz]. cbv zeta. change (is_ws (-1)) with false. unfold breaks. change (ends Eof) with true. rewrite orb_true_r. cbn [orb]. cbv iota.
    destruct (k_val k) as [|? [|]]; repeat match goal with |- gives _ (if ?b then _ else _) => destruct b end; try apply gives_err; apply rest_symbol_end.
  - unfold send_string. cbn [cz]. cbv zeta. change (-1 =? 34) with false. cbn [andb]. cbv iota. unfold valid_quoted. cbn [cz escaped]. change (0x20 <=? -1) with false. change (mem (-1) c_ws_not_nl) with false. cbn. apply gives_err.
  - unfold send_quoted_symbol. cbn [cz]. cbv zeta. change (-1 =? 39) with false. cbn [andb]. cbv iota. unfold valid_quoted. cbn [cz escaped]. change (0x20 <=? -1) with false. change (mem (-1) c_ws_not_nl) with false. cbn. apply gives_err.
  - unfold send_quote1. cbn [cz]. change (-1 =? 39) with false. cbn [andb]. cbv iota. apply gives_bind. intros k' _. apply gives_bind. intros x E. destruct (rest_quoted _ _ _ E).
  - unfold send_quote2. cbn [cz]. change (-1 =? 39) with false. cbn [andb]. cbv iota. apply gives_bind. intros k' _. apply gives_ok. exact Logic.I.
  - change (-1 =? 123) with false. apply gives_back_end.
  - unfold send_lob0. cbn. apply gives_err.
  - unfold send_blob. cbn. apply gives_err.
  - unfold send_clob. cbn. apply gives_err.
  - apply gives_ok. exact Logic.I.
Qed.
(** A comment that goes on to the end of its line ends there. *)
Definition to_plain (t : trans) : Prop := match t with TGo h => plain_handler h | _ => True end.
Theorem line_send v h k : tame h -> gives to_plain (send v h Eof k).
Proof.
  assert (D : plain_handler h -> gives to_plain (send v h Eof k)).
  { intros H t k' u E. pose proof (rest_send v h k H _ _ _ E) as R. destruct t as [? [[[|] ?]|]| |]; try exact Logic.I; destruct R. }
  intros H. destruct h; try contradiction; try (apply D; exact H); cbn [send].
  - unfold start_comment. cbn. apply gives_err.
  - unfold start_comment. cbn. apply gives_err.
  - cbn [is_eof cz]. rewrite orb_true_r. unfold comment_done. destruct w; [|apply gives_ok; exact Logic.I]. apply gives_ok. exact H.
  - apply gives_back_end.
Qed.
(** Whatever the handler: after an event at the end of the data no handler goes on. *)
Theorem end_send v h k : gives to_end (send v h Eof k).
Proof.
  assert (D : plain_handler h -> gives to_end (send v h Eof k)).
  { intros H t k' u E. pose proof (rest_send v h k H _ _ _ E) as R. destruct t as [? [[[|] ?]|]| |]; try exact Logic.I; exact R. }
  destruct h; try (apply D; exact Logic.I); cbn [send].
  - unfold start_comment. cbn. apply gives_err.
  - unfold start_comment. cbn. apply gives_err.
  - cbn [is_eof cz]. rewrite orb_true_r. unfold comment_done. destruct w; apply gives_ok; exact Logic.I.
  - cbn [cz]. change (-1 =? 47) with false. rewrite andb_false_r. apply gives_ok. exact Logic.I.
  - apply gives_back_end.
  - clear D. unfold send_kw. intros T K U E.
    apply bind_ok in E. destruct E as ([n1 t1] & E1 & E).
    apply bind_ok in E. destruct E as ([[[n2 tr0] fl0] t2] & E2 & E).
    destruct letters as (L1 & L2 & L3 & L4 & _).
    assert (W : forall s t x d m f k b a, Forall (fun z => 0 <= z) s -> check_keyword v s t x d m f Eof k = Ok (b, Some a) -> to_end (fst (fst a))).
    { intros s t x d m f k0 b a F HC. pose proof (keyword_end _ _ _ _ _ _ _ _ _ _ F HC) as R. cbn beta iota in R. destruct (fst (fst a)) as [? [[[|] ?]|]| |]; try exact Logic.I; exact R. }
    destruct (n1 || n2 || tr0 || fl0) eqn:O.
    + destruct t2 as [x|]; [|injection E as <- _ _; exact Logic.I].
      injection E as ->. destruct nan; [|destruct tru; [|destruct fls]].
      1-3: apply bind_ok in E2; destruct E2 as ([b2 t2] & E2 & E3); injection E3 as _ _ _ ->; change (to_end (fst (fst (T, K, U)))); eapply W; [|exact E2]; assumption.
      injection E2 as _ _ _ ->. destruct null; [|discriminate]. change (to_end (fst (fst (T, K, U)))); eapply W; [|exact E1]; assumption.
    + cbn [cz] in E. change (mem (-1) c_symbol_end) with false in E. change (ends Eof) with true in E. cbn [orb] in E.
      apply bind_ok in E as (ev & _ & E). injection E as <- _ _. exact Logic.I.
Qed.
