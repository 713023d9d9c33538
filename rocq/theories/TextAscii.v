(** Everything the text writer writes is ASCII. *)
From Verif Require Import Base BaseFacts CoreModel BinWriterModel SymbolsModel ManagedModel TextNumbers TextWriterModel.
Local Open Scope Z_scope.

Definition ascii_char (c : Z) : Prop := 0 <= c <= 127.
Definition ascii (l : list Z) : Prop := Forall ascii_char l.
Lemma ascii_app l1 l2 : ascii l1 -> ascii l2 -> ascii (l1 ++ l2).
Proof. intros A B. apply Forall_app. auto. Qed.
Lemma ascii_cons c l : ascii_char c -> ascii l -> ascii (c :: l).
Proof. intros A B. constructor; auto. Qed.
Lemma ascii_nil : ascii [].
Proof. constructor. Qed.
Lemma ascii_take n l : ascii l -> ascii (ztake n l).
Proof. intros A. unfold ztake. apply Forall_forall. intros x I. rewrite <- (firstn_skipn (Z.to_nat n) l) in A. apply Forall_app in A as [A _]. unfold ascii in A. rewrite Forall_forall in A. auto. Qed.
Lemma ascii_drop n l : ascii l -> ascii (zdrop n l).
Proof. intros A. unfold zdrop. apply Forall_forall. intros x I. rewrite <- (firstn_skipn (Z.to_nat n) l) in A. apply Forall_app in A as [_ A]. rewrite Forall_forall in A. auto. Qed.
Lemma ascii_zeros n : ascii (repeat 48 n).
Proof. apply Forall_forall. intros x I. apply repeat_spec in I. subst x. unfold ascii_char. lia. Qed.
Ltac asc := unfold ascii_char; lia.
Ltac ascii_all := repeat (first [assumption | lazymatch goal with
  | |- ascii [] => apply ascii_nil
  | |- ascii (repeat 48 _) => apply ascii_zeros
  | |- ascii (_ ++ _) => apply ascii_app
  | |- ascii (_ :: _) => apply ascii_cons; [asc|]
  | |- ascii (ztake _ _) => apply ascii_take
  | |- ascii (zdrop _ _) => apply ascii_drop
  end]).

Lemma digits_bound b : 2 <= b -> forall fuel n acc, Forall (fun d => 0 <= d < b) acc -> Forall (fun d => 0 <= d < b) (base_digits_aux fuel b n acc).
Proof.
  intros B. induction fuel as [|f IH]; intros n acc F; cbn [base_digits_aux]; [exact F|]. pose proof (Z.mod_pos_bound n b ltac:(lia)).
  destruct (n <? b); [|apply IH]; (constructor; [lia|exact F]).
Qed.
Lemma chars_ascii b n : 2 <= b <= 16 -> ascii (map digit_char (base_digits b n)).
Proof.
  intros B. pose proof (digits_bound b ltac:(lia) (S (Z.to_nat (Z.log2 n))) n [] (Forall_nil _)) as F. unfold base_digits. induction F as [|d l D F IH]; cbn [map]; [constructor|].
  apply ascii_cons; [unfold ascii_char, digit_char; destruct (d <? 10) eqn:E; lia|exact IH].
Qed.
Lemma nat_ascii n : ascii (nat_str n).
Proof. apply chars_ascii. lia. Qed.
Lemma pad_ascii w l : ascii l -> ascii (pad w l).
Proof. intros A. unfold pad. ascii_all. Qed.
Lemma two_ascii n : ascii (two n).
Proof. apply pad_ascii, nat_ascii. Qed.
Lemma int_ascii n : ascii (int_str n).
Proof. unfold int_str. destruct (n <? 0); ascii_all; apply nat_ascii. Qed.
Lemma signed_ascii n : ascii (signed_str n).
Proof. unfold signed_str. apply ascii_cons; [destruct (n <? 0); asc|apply nat_ascii]. Qed.
Lemma repr_ascii b : ascii (float_repr b).
Proof.
  unfold float_repr. destruct (float_digits b) as [c e]. pose proof (nat_ascii c). apply ascii_app; [destruct (float_neg b); ascii_all|].
  destruct (c =? 0); [ascii_all|]. destruct ((zlen (nat_str c) + e <=? -4) || (16 <? zlen (nat_str c) + e)).
  - ascii_all. destruct (zlen (nat_str c) =? 1); ascii_all. destruct (zlen (nat_str c) + e - 1 <? 0); ascii_all; apply two_ascii.
  - destruct (zlen (nat_str c) + e <=? 0); [ascii_all|]. destruct (zlen (nat_str c) <=? zlen (nat_str c) + e); ascii_all.
Qed.
Lemma float_ascii b : ascii (float_str b).
Proof.
  unfold float_str, t_nan, t_ninf, t_pinf. destruct (float_is_nan b); [ascii_all|]. destruct (float_is_inf b); [destruct (float_neg b); ascii_all|].
  pose proof (repr_ascii b). destruct (has_exponent (float_repr b)); ascii_all.
Qed.
Lemma decimal_ascii d : ascii (decimal_text d).
Proof.
  assert (A : ascii (decimal_str d)).
  { unfold decimal_str, dec_digits. pose proof (nat_ascii (d_coef d)). set (ds := nat_str (d_coef d)) in *. clearbody ds.
    set (dp := if (d_exp d <=? 0) && (-6 <? d_exp d + zlen ds) then d_exp d + zlen ds else 1). clearbody dp.
    destruct (dp <=? 0); [|destruct (zlen ds <=? dp)]; (apply ascii_app; [destruct (d_neg d); ascii_all|]); ascii_all; destruct (d_exp d + zlen ds =? dp); ascii_all; apply signed_ascii. }
  unfold decimal_text. set (f := fun c => if (c =? 101) || (c =? 69) then 100 else c). assert (B : ascii (map f (decimal_str d))).
  { apply Forall_forall. intros x I. apply in_map_iff in I as (y & <- & I). unfold ascii in A. rewrite Forall_forall in A. specialize (A y I). unfold f. destruct ((y =? 101) || (y =? 69)); [asc|exact A]. }
  destruct (zlist_eqb (decimal_str d) (map f (decimal_str d)) && negb (existsb (fun c => c =? 46) (decimal_str d))); ascii_all.
Qed.
Lemma offset_ascii o : ascii (offset_text o).
Proof.
  unfold offset_text. destruct o as [o|]; [|ascii_all]. destruct (o =? 0); [ascii_all|]. apply ascii_cons; [destruct (o <? 0); asc|]. apply ascii_app; [apply two_ascii|]. apply ascii_cons; [asc|].
  apply ascii_app; [apply two_ascii|]. destruct (Z.abs o mod 60 =? 0); [ascii_all|apply two_ascii].
Qed.
Lemma datetime_ascii x w : datetime_text x = Ok w -> ascii w.
Proof.
  unfold datetime_text. destruct (match x with TsStamp t => (ts_dt t, ts_prec t, Some (ts_frac t)) | TsPlain d => (d, Some PSecond, None) end) as [[d p] f]. destruct p as [p|]; [|discriminate].
  assert (Y : ascii (year_text (dt_year d))) by apply pad_ascii, nat_ascii.
  pose proof (two_ascii (dt_month d)). pose proof (two_ascii (dt_day d)). pose proof (two_ascii (dt_hour d)). pose proof (two_ascii (dt_minute d)). pose proof (two_ascii (dt_second d)). pose proof (offset_ascii (dt_off d)).
  destruct (negb (includes p PMonth)); [intros [= <-]; ascii_all|]. destruct (negb (includes p PDay)); [intros [= <-]; ascii_all|].
  destruct (negb (includes p PMinute)); [intros [= <-]; ascii_all|]. destruct (negb (includes p PSecond)); [intros [= <-]; ascii_all|]. intros [= <-]. ascii_all.
  destruct f as [f|].
  - unfold fraction_text. destruct ((d_coef f =? 0) && (0 <=? d_exp f)); ascii_all. apply nat_ascii.
  - ascii_all. apply pad_ascii, nat_ascii.
Qed.

(** * Quoted text and symbols *)
Definition quote_ok (q : option Z) : Prop := match q with Some c => ascii_char c | None => True end.
Lemma octets_ascii q c : quote_ok q -> ascii (text_octets q c).
Proof.
  intros Q. unfold text_octets. destruct (opt_eqb Z.eqb (Some c) q) eqn:E.
  { destruct q as [x|]; [|discriminate]. cbn [opt_eqb] in E. apply Z.eqb_eq in E as ->. ascii_all. apply ascii_cons; [exact Q|constructor]. }
  destruct (c =? 92); [ascii_all|]. unfold is_printable_ascii. destruct ((32 <=? c) && (c <=? 126)) eqn:P; [apply ascii_cons; [asc|constructor]|].
  unfold escape, hex_str. destruct (c =? 10); [ascii_all|]. destruct (c =? 13); [ascii_all|]. destruct (c =? 9); [ascii_all|].
  destruct (c <=? 255); [|destruct (c <=? 65535)]; ascii_all; apply pad_ascii, chars_ascii; lia.
Qed.
Lemma text_ascii cps q prefix suffix : quote_ok q -> ascii prefix -> ascii suffix -> ascii (bytes_text cps q prefix suffix).
Proof.
  intros Q P S. unfold bytes_text. assert (A : ascii (quote_octets q)) by (destruct q; [apply ascii_cons; [exact Q|constructor]|constructor]). ascii_all.
  induction cps as [|c l IH]; cbn [flat_map]; [constructor|]. apply ascii_app; [apply octets_ascii; exact Q|exact IH].
Qed.
Lemma symbol_ascii a suffix w : ascii suffix -> symbol_octets a suffix = Ok w -> ascii w.
Proof.
  intros S. assert (T : forall t, symbol_text t suffix = Ok w -> ascii w).
  { intros t. unfold symbol_text. destruct (unicode_iter t) as [cps|]; cbn [bind]; [|discriminate]. intros [= <-]. apply text_ascii; [destruct (symbol_needs_quotes t); cbn; [asc|exact I]|constructor|exact S]. }
  unfold symbol_octets. destruct a as [k|t]; [|apply T]. destruct (tk_text k) as [t|]; [apply T|]. destruct (tk_sid k) as [n|]; [|discriminate]. intros [= <-]. ascii_all. apply int_ascii.
Qed.
Lemma b64_char_ascii n : 0 <= n < 64 -> ascii_char (b64_char n).
Proof. intros H. unfold b64_char, ascii_char. destruct (n <? 26) eqn:A; [lia|]. destruct (n <? 52) eqn:B; [lia|]. destruct (n <? 62) eqn:C; [lia|]. destruct (n =? 62); lia. Qed.
Lemma b64_ascii : forall n b, (length b <= n)%nat -> octets b -> ascii (b64_encode b).
Proof.
  induction n as [|n IH]; intros b L O; [destruct b; [constructor|cbn in L; lia]|].
  destruct b as [|x [|y [|z r]]]; cbn [b64_encode]; [constructor|..]; unfold octets in O;
    repeat match goal with H : Forall is_octet (_ :: _) |- _ => let A := fresh in let B := fresh in inversion H as [|? ? A B]; subst; clear H; unfold is_octet in A end.
  all: repeat (apply ascii_cons; [try (apply b64_char_ascii; Z.to_euclidean_division_equations; lia); asc|]); try constructor.
  apply IH; [cbn in L; lia|assumption].
Qed.
(** The octets of a blob. *)
Definition real_octets (v : option scalar) : Prop := match v with Some (VBytes b) => octets b | _ => True end.
Lemma scalar_ascii t v w : real_octets v -> text_scalar t v = Ok w -> ascii w.
Proof.
  intros R. unfold text_scalar. destruct v as [v|].
  2: { destruct t as [t|]; [|discriminate]. intros [= <-]. destruct t; cbv [null_text null_names iontype_num Z.to_nat Pos.to_nat Pos.iter_op nth Nat.add]; ascii_all. }
  destruct t as [t|]; [|discriminate]. destruct t; try discriminate; unfold t_true, t_false, t_True, t_False.
  - destruct (truthy v); intros [= <-]; ascii_all.
  - destruct v as [b|n| | | | | |]; try discriminate; intros [= <-]; [destruct b; ascii_all|apply int_ascii].
  - destruct v; try discriminate; intros [= <-]. apply float_ascii.
  - destruct v; try discriminate; intros [= <-]. apply decimal_ascii.
  - destruct v; try discriminate. apply datetime_ascii.
  - destruct v; try discriminate; apply symbol_ascii; constructor.
  - destruct v as [| | | | | |s|]; try discriminate. destruct (unicode_iter s); cbn [bind]; [|discriminate]. intros [= <-]. apply text_ascii; [cbn; asc|constructor|constructor].
  - destruct v as [| | | | | |s|b]; try discriminate; [destruct s; [|discriminate]|]; intros [= <-]; apply text_ascii; try (cbn; asc); ascii_all.
  - destruct v as [| | | | | | |b]; try discriminate. intros [= <-]. cbn in R. pose proof (b64_ascii _ b (le_n _) R). ascii_all.
Qed.

(** * The writer *)
Definition ascii_indent (indent : option (list Z)) : Prop := match indent with Some i => ascii i | None => True end.
Definition ascii_chunks (cs : list (list Z)) : Prop := Forall ascii cs.
Lemma ascii_concat cs : ascii_chunks cs -> ascii (concat cs).
Proof. induction 1; cbn [concat]; [constructor|apply ascii_app; assumption]. Qed.
Lemma times_ascii n l : ascii l -> ascii (times n l).
Proof. intros A. induction n; cbn [times]; ascii_all. Qed.
Lemma separators_ascii indent k f et : ascii_indent indent -> ascii_chunks (separators indent k f et).
Proof.
  intros I. unfold separators. apply Forall_app. split.
  - destruct (tf_has f && negb _); [|constructor]. match goal with |- Forall _ (nonempty_chunk ?x) => set (c := x) end.
    assert (A : ascii c). { unfold c. destruct (tf_type f) as [[]|], indent; cbn [container_delimiter]; ascii_all. } destruct c; [constructor|]. constructor; [exact A|constructor].
  - destruct indent as [i|]; [|constructor]. destruct (_ && _); [|constructor]. constructor; [ascii_all|]. destruct (k - _)%nat; [constructor|]. constructor; [apply times_ascii; exact I|constructor].
Qed.
Lemma field_ascii indent f e cs r : field_chunks indent f e = (cs, r) -> ascii_chunks cs.
Proof.
  unfold field_chunks. destruct (tf_type f) as [[]|]; try (intros [= <- _]; constructor). destruct (begins_value (ue_type e)); [|intros [= <- _]; constructor].
  destruct (ue_field e) as [a|]; [|intros [= <- _]; constructor]. destruct (symbol_octets a [58]) as [b|] eqn:S; [|intros [= <- _]; constructor]. intros [= <- _].
  constructor; [eapply symbol_ascii; [|exact S]; ascii_all|]. destruct indent; [constructor; [ascii_all|constructor]|constructor].
Qed.
Lemma annotations_ascii : forall l cs r, annotation_chunks l = (cs, r) -> ascii_chunks cs.
Proof.
  induction l as [|a l IH]; cbn [annotation_chunks]; intros cs r; [intros [= <- _]; constructor|]. destruct (symbol_octets a [58; 58]) as [b|] eqn:S; [|intros [= <- _]; constructor].
  destruct (annotation_chunks l) as [cs' r'] eqn:E. intros [= <- _]. constructor; [eapply symbol_ascii; [|exact S]; ascii_all|eapply IH; reflexivity].
Qed.
Definition event_octets (e : uevent) : Prop := ue_type e = EScalar -> forall v, ev_force (ue_value e) = Ok v -> real_octets v.
Lemma core_ascii fs e fs' w : event_octets e -> text_core fs e = Ok (fs', w) -> ascii (wdata w).
Proof.
  intros R. unfold text_core. destruct fs as [|f below]; [discriminate|]. unfold event_octets in R. destruct (ue_type e).
  - discriminate.
  - destruct below; [|discriminate]. intros [= _ <-]. constructor.
  - destruct below; [|discriminate]. intros [= _ <-]. cbn [wdata]. unfold TEXT_ION_1_0. ascii_all.
  - destruct (ev_force (ue_value e)) as [v|] eqn:F; cbn [bind]; [|discriminate]. destruct (text_scalar (ue_ion_type e) v) as [d|] eqn:T; cbn [bind]; [|discriminate].
    pose proof (scalar_ascii _ _ _ (R eq_refl v eq_refl) T). destruct below; intros [= _ <-]; cbn [wdata]; assumption.
  - destruct (ue_ion_type e) as [t|]; [|discriminate]. destruct (is_container t); [|discriminate]. intros [= _ <-]. cbn [wdata]. destruct t; cbn [container_open]; ascii_all.
  - destruct below as [|g rest]; [discriminate|]. destruct (tf_type f) as [t|]; [|discriminate]. intros [= _ <-]. destruct rest, t; cbn [wdata container_close]; ascii_all.
Qed.
Lemma write_ascii indent fs e cs r : ascii_indent indent -> event_octets e -> text_write indent fs e = (cs, r) -> ascii_chunks cs /\ forall fs' w, r = Ok (fs', w) -> ascii (wdata w).
Proof.
  intros I R. unfold text_write. destruct fs as [|f below]; [intros [= <- <-]; split; [constructor|discriminate]|].
  pose proof (separators_ascii indent (length below) f (ue_type e) I) as SA. destruct (field_chunks indent f e) as [names r1] eqn:F. pose proof (field_ascii _ _ _ _ _ F) as FA.
  destruct r1 as [u|x]; [|intros [= <- <-]; split; [apply Forall_app; auto|discriminate]].
  destruct (if begins_value (ue_type e) then annotation_chunks (ue_annot e) else ([], Ok tt)) as [ans r2] eqn:A.
  assert (AA : ascii_chunks ans) by (destruct (begins_value (ue_type e)); [eapply annotations_ascii; exact A|injection A as <- _; constructor]).
  destruct r2 as [u2|x]; intros [= <- <-]; (split; [apply Forall_app; split; [exact SA|apply Forall_app; split; assumption]|]); [|discriminate]. intros fs' w E. exact (core_ascii (f :: below) e fs' w R E).
Qed.
Theorem all_ascii indent : ascii_indent indent -> forall es fs fs' out, Forall event_octets es -> text_write_all indent fs es = Ok (fs', out) -> ascii out.
Proof.
  intros I. induction es as [|e es IH]; intros fs fs' out R; cbn [text_write_all]; [intros [= _ <-]; constructor|]. inversion R as [|? ? R1 R2]; subst.
  destruct (text_write indent fs e) as [cs r] eqn:T. destruct (write_ascii _ _ _ _ _ I R1 T) as (A & B). destruct r as [[fs1 w]|]; cbn [bind]; [|discriminate].
  destruct (text_write_all indent fs1 es) as [[fs2 o]|] eqn:E; cbn [bind]; [|discriminate]. intros [= _ <-]. pose proof (IH _ _ _ R2 E). pose proof (B _ _ eq_refl). pose proof (ascii_concat _ A). ascii_all.
Qed.

(** ASCII octets are their own UTF-8. *)
Lemma ascii_decode l : ascii l -> utf8_decode l = Ok l.
Proof.
  intros A. unfold utf8_decode. assert (G : forall n, (length l <= n)%nat -> utf8_decode_aux n l = Ok l); [|apply G; lia].
  induction A as [|c l C A IH]; intros n L; [destruct n; reflexivity|]. destruct n as [|n]; [cbn in L; lia|]. cbn [utf8_decode_aux]. unfold utf8_decode_cp. unfold ascii_char in C.
  replace (c <? 128) with true by lia. cbn [bind]. rewrite IH by (cbn in L; lia). reflexivity.
Qed.
