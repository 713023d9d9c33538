(** The characters in the events of the text reader: whatever it is sent, every text it reports consists of Unicode scalar values, every
    symbol identifier is not negative, every lob holds octets and every float has 64 bits. *)
From Coq Require Import String.
From Verif Require Import Base BaseFacts CoreModel ScalarFacts BinReaderModel SymbolsModel TextNumbers TextNumbersFacts TextWriterModel TextReaderModel TextReaderFacts TextFloats TextNearest LoadedTables.
Local Open Scope Z_scope.
Local Open Scope list_scope.

(** * What is kept *)
Notation tok_ok := (speaks text_ok).
Definition scalar_kept (s : scalar) : Prop :=
  match s with
  | VFloat b => 0 <= b < 2 ^ 64
  | VBytes b => octets b
  | VString x => text_ok x
  | VSymbol k => tok_ok k
  | _ => True
  end.
Definition ev_ok (e : event) : Prop :=
  Forall tok_ok (ev_annot e) /\ match ev_field e with Some f => tok_ok f | None => True end /\
  match ev_value e with EvVal s => scalar_kept s | EvLazy (Ok s) => scalar_kept s | EvThunk _ _ => False | _ => True end.

(** * Characters *)
Notation good := (fun z => is_scalar z = true).
Lemma ascii z : 0 <= z < 128 -> is_scalar z = true.
Proof. unfold is_scalar. lia. Qed.
Lemma mem_good z l : forallb is_scalar l = true -> mem z l = true -> is_scalar z = true.
Proof. intros F M. apply existsb_exists in M. destruct M as (x & I & E). apply Z.eqb_eq in E. subst x. rewrite forallb_forall in F. auto. Qed.
Lemma digit_good z : is_digit z = true -> is_scalar z = true. Proof. unfold is_digit, is_scalar. lia. Qed.
Lemma letter_good z : is_letter z = true -> is_scalar z = true. Proof. unfold is_letter, is_scalar. lia. Qed.
Lemma ident_good z : ident_char z = true -> is_scalar z = true.
Proof. unfold ident_char, ident_start, is_letter, is_digit, is_scalar. lia. Qed.
Lemma start_good z : ident_start z = true -> is_scalar z = true.
Proof. unfold ident_start, is_letter, is_scalar. lia. Qed.
Lemma op_good z : is_op z = true -> is_scalar z = true. Proof. apply mem_good. reflexivity. Qed.
Lemma base64_good z : is_base64 z = true -> is_scalar z = true. Proof. unfold is_base64, is_letter, is_digit, is_scalar. lia. Qed.
Lemma charset_good n z : charset n z = true -> is_scalar z = true.
Proof. destruct n; cbn [charset]; unfold is_hex, is_digit, is_scalar; lia. Qed.
Lemma sign_good z : is_sign z = true -> is_scalar z = true. Proof. unfold is_sign, is_scalar. lia. Qed.
(** A code point, as delivered to the handlers of quoted text. *)
Definition cp_ok (c : ch) : Prop := match c with Ch z e _ => ~ (0xD800 <= z <= 0xDFFF) /\ (e = true -> 0 <= z <= 0x10FFFF) | Eof => True end.
Lemma quoted_good allowed b c : forallb is_scalar allowed = true -> cp_ok c -> valid_quoted allowed b c = true -> is_scalar (cz c) = true.
Proof.
  intros A C V. unfold valid_quoted in V. destruct (mem (cz c) allowed) eqn:M; [exact (mem_good _ _ A M)|]. destruct c as [z e g|]; [|cbn in V; discriminate]. cbn [cz escaped cp_ok] in *. destruct C as (C & D). unfold is_scalar. destruct e; [specialize (D eq_refl); lia|]. destruct b; cbn [orb] in V; lia.
Qed.

(** * Numbers *)
Lemma digit_range c : 0 <= digit_of c < 16.
Proof. unfold digit_of. repeat match goal with |- context [if ?b then _ else _] => destruct b eqn:? end; lia. Qed.
Lemma fold_nonneg b l : 0 <= b -> forall a, 0 <= a -> 0 <= fold_left (fun a d => a * b + d) (map digit_of l) a.
Proof. intros B. induction l as [|c l IH]; intros a A; cbn [map fold_left]; [exact A|]. apply IH. pose proof (digit_range c). nia. Qed.
Lemma digits_nonneg b l : 0 <= b -> 0 <= digits_value b l.
Proof. intros B. apply fold_nonneg; lia. Qed.
Lemma hex_bound l : 0 <= hex_value l < 16 ^ zlen l.
Proof.
  unfold hex_value, digits_value. pose proof (base_value_bound 16 (map digit_of l)) as H. assert (Z : zlen (map digit_of l) = zlen l) by (unfold zlen; now rewrite map_length). rewrite Z in H. apply H; [lia|]. apply Forall_map. apply Forall_forall. intros c _. apply digit_range.
Qed.
Lemma bits_range n c e : 0 <= c -> 0 <= decimal_bits n c e < 2 ^ 64.
Proof.
  intros C. unfold decimal_bits. assert (P : 0 <= nearest_bits (c * 10 ^ Z.max 0 e) (10 ^ Z.max 0 (- e)) < 2 ^ 63).
  { unfold nearest_bits. destruct (_ =? 0); [lia|]. cbv zeta. set (q := Z.max (-1074) _). set (m := round_div _ _). assert (M : 0 <= m).
    { unfold m, round_div. cbv zeta. assert (D : 0 <= c * 10 ^ Z.max 0 e * 2 ^ Z.max 0 (- q) / (10 ^ Z.max 0 (- e) * 2 ^ Z.max 0 q)).
      { apply Z.div_pos; [|apply Z.mul_pos_pos; apply Z.pow_pos_nonneg; lia]. apply Z.mul_nonneg_nonneg; [apply Z.mul_nonneg_nonneg; [exact C|]|]; apply Z.pow_nonneg; lia. }
      destruct (_ || _); lia. }
    assert (Q : -1074 <= q) by (unfold q; lia). unfold inf_bits. lia. }
  destruct n; lia.
Qed.
Lemma float_range l : 0 <= float_of_text l < 2 ^ 64.
Proof. unfold float_of_text, parse_parts. destruct (strip_minus l) as [n r]. destruct (span _ r) as [mant ex]. destruct (span _ mant) as [ip fp]. apply bits_range. apply digits_nonneg. lia. Qed.
Lemma b64_range c : 0 <= b64_value c < 64.
Proof. unfold b64_value, is_digit. repeat match goal with |- context [if ?b then _ else _] => destruct b eqn:? end; lia. Qed.
Lemma b64_octets l : forall pos left pads o, (pos =? 0) = true \/ ((pos =? 1) = true /\ 0 <= left < 64) \/ ((pos =? 2) = true /\ 0 <= left < 16) \/ 0 <= left < 4 ->
  b64_decode_from l pos left pads = Ok o -> octets o.
Proof.
  induction l as [|c l IH]; intros pos left pads o P H; cbn [b64_decode_from] in H.
  - destruct (pos =? 0); [injection H as <-; constructor|discriminate].
  - destruct (c =? 61).
    { destruct (_ && _); [injection H as <-; constructor|]. exact (IH _ _ _ _ P H). }
    cbv zeta in H. pose proof (b64_range c) as V. set (v := b64_value c) in *. clearbody v.
    destruct (pos =? 0) eqn:P0; [apply (IH _ _ _ _) in H; [exact H|right; left; split; [reflexivity|exact V]]|].
    destruct (pos =? 1) eqn:P1.
    { apply bind_ok in H. destruct H as (o' & E & H). injection H as <-. constructor; [unfold is_octet; Z.to_euclidean_division_equations; lia|]. apply (IH _ _ _ _) in E; [exact E|right; right; left; split; [reflexivity|Z.to_euclidean_division_equations; lia]]. }
    destruct (pos =? 2) eqn:P2.
    { apply bind_ok in H. destruct H as (o' & E & H). injection H as <-. constructor; [unfold is_octet; Z.to_euclidean_division_equations; lia|]. apply (IH _ _ _ _) in E; [exact E|right; right; right; Z.to_euclidean_division_equations; lia]. }
    apply bind_ok in H. destruct H as (o' & E & H). injection H as <-. constructor; [unfold is_octet; lia|]. apply (IH _ _ _ _) in E; [exact E|left; reflexivity].
Qed.

(** * Code points *)
Definition second (l : text) : Z := nth 1 l 0.
Definition cps_ok (s : cps) : Prop :=
  match s with
  | CStart esc _ => esc = [] \/ (2 <= List.length esc)%nat /\ second esc <> 120
  | CHigh h => is_high h = true
  | CEsc esc _ num => second esc = 120 -> num = 4 /\ last esc 0 <> 92
  | CReturn _ => True
  end.
Lemma escape_kept esc low r : (second esc = 120 -> zlen esc <= 4) -> (forall c, esc = [c] -> 0 <= c < 128) -> (forall b c, esc = [b; c] -> 0 <= c < 128) -> escape_done esc low = Ok r ->
  match r with CMore s _ => cps_ok s | CDone c _ => cp_ok c end.
Proof.
  intros X1 X2 X3 H. unfold escape_done in H. apply bind_ok in H. destruct H as (cs & D & H).
  assert (R : match cs with h :: _ => 0 <= h <= 0x10FFFF | [] => True end /\ (second esc = 120 -> match cs with h :: _ => h < 0xD800 | [] => True end) /\ ((List.length esc < 2)%nat -> match cs with h :: _ => h < 0xD800 | [] => True end)).
  { unfold decode_escape in D. destruct esc as [|a [|b [|c ds]]]; [discriminate| | |].
    - injection D as <-. specialize (X2 a eq_refl). cbn. split; [lia|split; lia].
    - assert (D' : Ok [simple_escape b] = Ok cs) by (rewrite <- D; destruct b as [|p|p]; try reflexivity; do 7 (destruct p as [p|p|]; try reflexivity)). clear D. injection D' as <-. specialize (X3 a b eq_refl). unfold simple_escape. split; [|split; [|cbn; lia]]; repeat match goal with |- context [?x =? ?y] => destruct (x =? y) eqn:? end; lia.
    - cbn [second nth] in X1. destruct (Z.eq_dec b 120) as [->|N120].
      { injection D as <-. specialize (X1 eq_refl). pose proof (hex_bound (c :: ds)) as HB. rewrite !zlen_cons in *. assert (zlen ds <= 1) by lia. pose proof (zlen_nonneg ds). assert (16 ^ (1 + zlen ds) <= 16 ^ 2) by (apply Z.pow_le_mono_r; lia). change (16 ^ 2) with 256 in *. split; [lia|split; [lia|cbn; lia]]. }
      destruct (Z.eq_dec b 85) as [->|N85].
      { destruct (hex_value (c :: ds) <=? 1114111) eqn:L; [|discriminate]. injection D as <-. pose proof (hex_bound (c :: ds)). split; [lia|split; [cbn; lia|cbn; lia]]. }
      assert (E : (if zlen (a :: b :: c :: ds) =? 6 then Ok [hex_value (c :: ds)] else Ok [hex_value (firstn 4 (c :: ds)); hex_value (skipn 6 (c :: ds))]) = Ok cs).
      { rewrite <- D. destruct b as [|p|p]; try reflexivity. do 7 (destruct p as [p|p|]; try reflexivity); lia. }
      clear D. split; [|split; [cbn; lia|cbn; lia]]. destruct (zlen (a :: b :: c :: ds) =? 6) eqn:L.
      + injection E as <-. pose proof (hex_bound (c :: ds)) as HB. rewrite !zlen_cons in *. assert (zlen ds = 3) by lia. replace (1 + zlen ds) with 4 in * by lia. change (16 ^ 4) with 65536 in *. lia.
      + match type of E with Ok ?l = _ => assert (CS : cs = l) by congruence end. subst cs. clear E. pose proof (hex_bound (firstn 4 (c :: ds))) as HB. assert (zlen (firstn 4 (c :: ds)) <= 4) by (unfold zlen; rewrite firstn_length; lia). assert (16 ^ zlen (firstn 4 (c :: ds)) <= 16 ^ 4) by (apply Z.pow_le_mono_r; lia). change (16 ^ 4) with 65536 in *. lia. }
  destruct cs as [|h rest]; [discriminate|]. destruct R as (R & RX & RL). destruct (is_low h) eqn:LO; [discriminate|]. destruct (is_high h) eqn:HI.
  - destruct rest as [|l rest].
    + injection H as <-. cbn [cps_ok]. right. unfold is_high in HI. split; [|intros E; specialize (RX E); lia]. destruct (Nat.lt_ge_cases (List.length esc) 2) as [Q|Q]; [specialize (RL Q); lia|exact Q].
    + destruct (is_low l) eqn:LL; [|discriminate]. injection H as <-. cbn [cp_ok]. unfold combine_surrogates. rewrite Z.shiftl_mul_pow2 by lia. change (2 ^ 10) with 1024. unfold is_high, is_low in *. lia.
  - injection H as <-. cbn [cp_ok]. unfold is_high, is_low in *. lia.
Qed.
Lemma second_app l x : (2 <= List.length l)%nat -> second (l ++ x) = second l.
Proof. intros L. unfold second. apply app_nth1. lia. Qed.
Theorem cp_kept uni s z r : cps_ok s -> cp_step uni s z = Ok r -> match r with CMore s' _ => cps_ok s' | CDone c _ => cp_ok c end.
Proof.
  intros C H. unfold cp_step in H. destruct s as [esc low|h|esc low num|e].
  - destruct (is_low z) eqn:LO; [discriminate|]. destruct (is_high z) eqn:HI; [destruct low; [discriminate|injection H as <-; exact HI]|]. destruct (z =? 92).
    { injection H as <-. cbn [cps_ok] in *. intros S. destruct C as [->|(L & N)]; [cbn in S; lia|]. rewrite second_app in S by exact L. contradiction. }
    destruct low; [discriminate|]. destruct (z =? 13); injection H as <-; [exact Logic.I|]. cbn [cp_ok plain]. unfold is_low, is_high in *. split; [lia|discriminate].
  - destruct (is_low z) eqn:LO; [|discriminate]. injection H as <-. cbn [cps_ok cp_ok plain] in *. unfold combine_surrogates. rewrite Z.shiftl_mul_pow2 by lia. change (2 ^ 10) with 1024. unfold is_high, is_low in *. split; [lia|discriminate].
  - cbn [cps_ok] in C. destruct (last esc 0 =? 92) eqn:LA.
    + assert (S2 : forall x, x <> 120 -> second (esc ++ [x]) = 120 -> second esc = 120).
      { intros x NX. unfold second. destruct esc as [|a [|b esc]]; cbn; try lia; auto. }
      destruct ((z =? 117) && uni) eqn:Z1; [injection H as <-; cbn [cps_ok]; intros S|].
      { apply S2 in S; [|lia]. destruct (C S) as (_ & N). lia. }
      destruct low; [discriminate|].
      destruct (z =? 120) eqn:Z2; [injection H as <-; cbn [cps_ok]; intros S; split; [reflexivity|rewrite last_last; lia]|].
      destruct ((z =? 85) && uni) eqn:Z3; [injection H as <-; cbn [cps_ok]; intros S; apply S2 in S; [|lia]; destruct (C S) as (_ & N); lia|].
      destruct (mem z c_escapes) eqn:M.
      { assert (AZ : 0 <= z < 128) by (apply existsb_exists in M; destruct M as (x & I & E); apply Z.eqb_eq in E; subst x; cbn in I; lia).
        apply (escape_kept _ _ _) in H; [exact H| | |].
        - intros S. destruct (_ || _); cbn [app] in *; [cbn in S; lia|]. apply S2 in S; [|lia]. destruct (C S) as (_ & N). lia.
        - intros c E. destruct (_ || _); cbn [app] in E; [injection E as <-; exact AZ|]. destruct esc as [|a [|b esc]]; [injection E as <-; exact AZ|discriminate|discriminate].
        - intros b c E. destruct (_ || _); cbn [app] in E; [discriminate|]. destruct esc as [|a [|b' [|c' esc]]]; try discriminate. injection E as <- <-. exact AZ. }
      destruct (z =? 13); [injection H as <-; exact Logic.I|]. destruct (z =? 10); [|discriminate]. injection H as <-. cbn [cp_ok]. lia.
    + destruct (negb (is_hex z)) eqn:HX; [discriminate|]. assert (NZ : z <> 120 /\ z <> 92 /\ 0 <= z < 128) by (unfold is_hex, is_digit in HX; lia).
      assert (S2 : second (esc ++ [z]) = 120 -> second esc = 120) by (unfold second; destruct esc as [|a [|b esc]]; cbn; try lia; auto).
      destruct (zlen (esc ++ [z]) =? num) eqn:L.
      * apply (escape_kept _ _ _) in H; [exact H| | |].
        -- intros S. destruct (C (S2 S)) as (-> & _). lia.
        -- intros c E. destruct esc as [|a [|b esc]]; [injection E as <-; lia|discriminate|discriminate].
        -- intros b c E. destruct esc as [|a [|b' [|c' esc]]]; try discriminate. injection E as <- <-. lia.
      * injection H as <-. cbn [cps_ok]. intros S. destruct (C (S2 S)) as (-> & _). split; [reflexivity|rewrite last_last; lia].
  - injection H as <-. cbn [cp_ok]. lia.
Qed.

(** * Contexts and handlers *)
Definition sym_ok (s : symv) : Prop := match s with SCodes l | SIvm l => text_ok l | STok t => tok_ok t end.
Definition k_ok (k : tctx) : Prop :=
  text_ok (k_val k) /\ match k_pend k with Some s => sym_ok s | None => True end /\
  match k_field k with Some f => tok_ok f | None => True end /\ Forall tok_ok (k_annot k).
(** [q]: the next character comes as a code point. *)
Fixpoint hs_ok (q : bool) (h : hs) (k : tctx) : Prop :=
  match h with
  | HSlash ev => ev_ok ev
  | HLongQuote ev => ev_ok ev /\ k_quoted k = true
  | HComm0 w | HLine w | HBlock w _ => match w with Some h' => hs_ok false h' k | None => True end
  | HSexpSlash w ev =>
    match w with Some h' => hs_ok false h' k | None => True end /\ match ev with Some e => ev_ok e | None => True end
  | HLong _ d _ _ => d = true -> k_quoted k = true
  | HStr _ _ | HSym _ => k_quoted k = true
  | HSq1 _ => q = true
  | HKw null nan tru fls mi _ => (null = true \/ nan = true -> tru = false /\ fls = false) /\ (tru = true -> fls = false) /\ (null = true -> nan = true -> mi = O)
  | _ => True
  end.
Definition ans_ok (q : bool) (a : answer) : Prop :=
  let '(t, k, _) := a in
  k_ok k /\
  match t with
  | TEv ev comp => ev_ok ev /\ match comp with Some (h, k') => k_ok k' /\ match h with Some h => hs_ok false h k' | None => True end | None => True end
  | TGo h => hs_ok q h k
  | TBack => True
  end.
(** The handlers of quoted text: they get code points. *)
Definition quoting (h : hs) : bool := match h with HLong _ d _ _ => d | HStr _ _ | HSym _ | HSq1 _ | HLongQuote _ => true | _ => false end.

Lemma text_app a b : text_ok a -> text_ok b -> text_ok (a ++ b). Proof. intros; apply Forall_app; auto. Qed.
Lemma text_one c : is_scalar c = true -> text_ok [c]. Proof. intros; constructor; [assumption|constructor]. Qed.
Lemma text_push1 a c : text_ok a -> is_scalar c = true -> text_ok (a ++ [c]). Proof. intros; apply text_app; [assumption|now apply text_one]. Qed.
Lemma k_new : k_ok child_new. Proof. repeat split; constructor. Qed.
Lemma k_push k c : k_ok k -> is_scalar c = true -> k_ok (push k c).
Proof. intros (A & B & C & D) G. split; [now apply text_push1|auto]. Qed.
Lemma k_self_ok b k : k_ok k -> k_ok (set_self b k). Proof. auto. Qed.
Lemma k_quoted_ok b k : k_ok k -> k_ok (set_quoted b k). Proof. auto. Qed.
Lemma k_line_ok b k : k_ok k -> k_ok (set_line b k). Proof. auto. Qed.
Lemma k_comp_ok k : k_ok k -> k_ok (set_comp k). Proof. auto. Qed.
Lemma k_type_ok t k : k_ok k -> k_ok (set_type t k). Proof. intros K. unfold set_type. destruct (opt_eqb _ _ _); exact K. Qed.
Lemma k_unicode q k k' : k_ok k -> set_unicode q k = Ok k' -> k_ok k' /\ k_quoted k' = q.
Proof.
  intros K. unfold set_unicode. destruct (k_codes k); [destruct (Bool.eqb (k_quoted k) q) eqn:E; [|discriminate]|]; intros [= <-]; (split; [exact K|]); [now apply Bool.eqb_prop|reflexivity].
Qed.
Lemma k_pending s k : k_ok k -> sym_ok s -> k_ok (set_pending s k).
Proof. intros (A & B & C & D) S. split; [constructor|]. split; [exact S|]. auto. Qed.
Lemma k_empty k : k_ok k -> k_ok (set_empty_symbol k).
Proof. intros _. split; [constructor|]. split; [constructor|]. split; [exact Logic.I|constructor]. Qed.
Lemma as_token_ok s : sym_ok s -> tok_ok (as_token s).
Proof. destruct s as [l|t|l]; cbn; auto; intros T; (split; [exact T|exact Logic.I]). Qed.
Lemma k_annotation k k' : k_ok k -> set_annotation k = Ok k' -> k_ok k'.
Proof.
  intros (A & B & C & D). unfold set_annotation. destruct (k_pend k) as [s|]; [|discriminate]. destruct (k_val k); [|discriminate]. intros [= <-]. split; [constructor|]. split; [exact Logic.I|]. split; [exact C|]. cbn [k_annot]. apply Forall_app. split; [exact D|]. constructor; [now apply as_token_ok|constructor].
Qed.
Lemma k_fieldname k k' : k_ok k -> set_field_name k = Ok k' -> k_ok k'.
Proof.
  intros (A & B & C & D). unfold set_field_name. destruct (k_pend k) as [s|]; [|discriminate]. destruct (k_val k); [|discriminate]. intros [= <-]. split; [constructor|]. split; [exact Logic.I|]. split; [now apply as_token_ok|exact D].
Qed.
Lemma k_text_push f k l : k_ok k -> text_ok l -> k_ok (text_push f k l).
Proof.
  intros K T. pose proof K as (A & B & C & D). unfold text_push. destruct f.
  - destruct (k_pend k) as [[x|x|x]|]; try exact K. split; [exact A|]. split; [cbn; now apply text_app|auto].
  - split; [now apply text_app|auto].
Qed.
Lemma quoted_text_push f k l : k_quoted (text_push f k l) = k_quoted k.
Proof. unfold text_push. destruct f; auto. destruct (k_pend k) as [[]|]; auto. Qed.
Lemma quoted_set_type t k : k_quoted (set_type t k) = k_quoted k. Proof. unfold set_type. destruct (opt_eqb _ _ _); auto. Qed.
Lemma quotes_text n : text_ok (repeat 39 n).
Proof. apply Forall_forall. intros x I. apply repeat_spec in I. now subst x. Qed.
Lemma ev_value_ok v k et t s : k_ok k -> scalar_kept s -> ev_ok (value_event v k et t (EvVal s)).
Proof. intros (A & B & C & D) S. split; [exact D|]. split; [exact C|exact S]. Qed.
Lemma ev_none_ok v k et t : k_ok k -> ev_ok (value_event v k et t EvNone).
Proof. intros (A & B & C & D). split; [exact D|]. split; [exact C|exact Logic.I]. Qed.
Definition lazy_ok (r : res scalar) : Prop := match r with Ok s => scalar_kept s | Err _ => True end.
Lemma ev_lazy_ok v k et t r : k_ok k -> lazy_ok r -> ev_ok (value_event v k et t (EvLazy r)).
Proof. intros (A & B & C & D) S. split; [exact D|]. split; [exact C|]. destruct r; exact S. Qed.
Lemma symbol_ok v k s ev : k_ok k -> sym_ok s -> symbol_event v k s = Ok ev -> ev_ok ev.
Proof.
  intros K S. unfold symbol_event. destruct s as [l|t|l]; try (intros [= <-]; apply ev_value_ok; [exact K|exact (as_token_ok _ S)]).
  destruct (k_annot k); [|discriminate]. destruct (e_depth v =? 0); [|discriminate]. destruct (zlist_eqb l TEXT_ION_1_0); [|discriminate]. intros [= <-]. split; [constructor|]. split; exact Logic.I.
Qed.
Lemma lazy_component n l : lazy_ok (parse_component n l).
Proof. destruct n; cbn [parse_component]; try exact Logic.I; try (destruct (decimal_of_text l); exact Logic.I). exact (float_range l). Qed.
Lemma lazy_ts l : lazy_ok (parse_ts l).
Proof.
  destruct (parse_ts l) as [s|] eqn:E; [|exact Logic.I]. unfold parse_ts in E. cbv zeta in E.
  apply bind_ok in E. destruct E as ([oh om] & _ & E). apply bind_ok in E. destruct E as (y & _ & E).
  destruct (match tok_get l 1 with None => _ | Some _ => _ end) as [mo p]. destruct (match tok_get l 2 with None => _ | Some _ => _ end) as [d p'].
  apply bind_ok in E. destruct E as ([[h mi] p2] & _ & E). apply bind_ok in E. destruct E as ([[s' f] p3] & _ & E). apply bind_ok in E. destruct E as (t & _ & E). injection E as <-. exact Logic.I.
Qed.
Lemma lazy_blob k : lazy_ok (parse_blob k).
Proof. unfold parse_blob. destruct (k_codes k); [exact Logic.I|]. destruct (b64_decode (k_val k)) as [b|] eqn:E; [|exact Logic.I]. refine (b64_octets (k_val k) 0 0 0 b _ E). left. reflexivity. Qed.
Lemma lazy_clob k : k_ok k -> lazy_ok (parse_clob k).
Proof.
  intros (A & _). unfold parse_clob. destruct (forallb _ _) eqn:F; [|exact Logic.I]. cbn. rewrite forallb_forall in F. apply Forall_forall. intros x I. unfold text_ok in A. rewrite Forall_forall in A. specialize (A x I). specialize (F x I). unfold is_scalar in A. unfold is_octet. lia.
Qed.

Section Handlers.
Variable v : tenv.
Definition sends (q : bool) (r : res answer) : Prop := match r with Ok a => ans_ok q a | Err _ => True end.
Lemma sends_bind {A} q (x : res A) f : (forall a, x = Ok a -> sends q (f a)) -> sends q (let* a := x in f a).
Proof. intros H. destruct x; cbn [bind]; [now apply H|exact Logic.I]. Qed.
Lemma sends_if q (b : bool) x y : (b = true -> sends q x) -> (b = false -> sends q y) -> sends q (if b then x else y).
Proof. destruct b; auto. Qed.
Lemma sends_go q k h : k_ok k -> hs_ok q h k -> sends q (go k h). Proof. cbn. auto. Qed.
Lemma sends_back q k : k_ok k -> sends q (back k). Proof. cbn. auto. Qed.
Lemma sends_emits q k ev : k_ok k -> ev_ok ev -> sends q (emits k ev). Proof. cbn. auto. Qed.
Lemma sends_then q k ev h k' : k_ok k -> ev_ok ev -> k_ok k' -> match h with Some h' => hs_ok false h' k' | None => True end -> sends q (emits_then k ev h k').
Proof. cbn. auto. Qed.
Lemma sends_putting_back q c r : sends q r -> sends q (putting_back v c r).
Proof. intros K. unfold putting_back. destruct (unread v c); [|exact Logic.I]. cbn [bind]. destruct r as [[[t k] u]|]; [exact K|exact Logic.I]. Qed.
Lemma sends_weaken r : forall q, sends false r -> sends q r.
Proof.
  intros [] H; [|exact H]. destruct r as [[[t k] u]|]; [|exact Logic.I]. cbn in *. destruct H as (K & H). split; [exact K|]. destruct t as [| h |]; auto. destruct h; cbn in *; auto.
Qed.
Ltac chars_good := first
  [ assumption
  | match goal with H : ?b = true |- is_scalar _ = true => first
      [ exact (digit_good _ H) | exact (ident_good _ H) | exact (start_good _ H) | exact (op_good _ H) | exact (base64_good _ H) | exact (charset_good _ _ H) | exact (sign_good _ H) ] end
  | unfold is_scalar, is_exp_d, is_exp_e, radix_char in *; lia ].
Ltac k_good := lazymatch goal with
  | |- k_ok child_new => exact k_new
  | |- k_ok (push _ _) => apply k_push; [k_good|chars_good]
  | |- k_ok (set_self _ _) => apply k_self_ok; k_good
  | |- k_ok (set_quoted _ _) => apply k_quoted_ok; k_good
  | |- k_ok (set_line _ _) => apply k_line_ok; k_good
  | |- k_ok (set_comp _) => apply k_comp_ok; k_good
  | |- k_ok (set_type _ _) => apply k_type_ok; k_good
  | |- k_ok (set_empty_symbol _) => apply k_empty; k_good
  | |- k_ok (if ?b then _ else _) => destruct b eqn:?; k_good
  | |- k_ok _ => assumption
  end.
Ltac sd :=
  cbv zeta;
  repeat match goal with
  | |- sends _ (Err _) => exact Logic.I
  | |- sends _ illegal => exact Logic.I
  | |- sends _ (if _ then _ else _) => apply sends_if; intros ?
  | |- sends _ (bind _ _) => apply sends_bind; let a := fresh "a" in let E := fresh "E" in intros a E
  | |- sends _ (putting_back _ _ _) => apply sends_putting_back
  | |- sends _ (emits _ _) => apply sends_emits
  | |- sends _ (go _ _) => apply sends_go
  | |- sends _ (back _) => apply sends_back
  | |- sends _ (match ?x with _ => _ end) => destruct x eqn:?
  | |- True => exact Logic.I
  | |- hs_ok _ _ _ => exact Logic.I
  end.
Lemma send_start_numeric q n c k : k_ok k -> is_scalar c = true -> sends q (start_numeric n c k).
Proof. intros K G. unfold start_numeric. destruct n; sd; k_good. Qed.
Lemma send_start_ts q c k : k_ok k -> sends q (start_ts c k).
Proof. intros K. unfold start_ts. sd; k_good. Qed.
Lemma send_number_end q c k r : k_ok k -> lazy_ok r -> sends q (number_end v c k r).
Proof. intros K L. unfold number_end. sd; try k_good; apply ev_lazy_ok; assumption. Qed.
Lemma whole_good z n : after_whole z = Some n -> is_scalar z = true.
Proof. unfold after_whole, is_exp_d, is_exp_e, is_scalar. repeat match goal with |- context [if ?b then _ else _] => destruct b eqn:? end; intros; try discriminate; lia. Qed.
Lemma frac_good z n : after_frac z = Some n -> is_scalar z = true.
Proof. unfold after_frac, is_exp_d, is_exp_e, is_scalar. repeat match goal with |- context [if ?b then _ else _] => destruct b eqn:? end; intros; try discriminate; lia. Qed.
Lemma send_numeric_ok n p c k : k_ok k -> sends false (send_numeric v n p c k).
Proof.
  intros K. unfold send_numeric. sd; try k_good; try (apply send_number_end; [exact K|apply lazy_component]).
  - apply andb_true_iff in H2. destruct H2. k_good.
  - apply andb_true_iff in H2. destruct H2. k_good.
  - apply send_start_numeric; [exact K|eapply frac_good; eassumption].
  - apply send_start_numeric; [exact K|eapply whole_good; eassumption].
Qed.
Lemma send_num_ok c k : k_ok k -> sends false (send_num v c k).
Proof.
  intros K. unfold send_num. sd; try k_good; try (apply send_number_end; [exact K|exact Logic.I]); try (apply send_start_ts; exact K); apply send_start_numeric; try exact K; try chars_good. eapply whole_good; eassumption.
Qed.
Lemma send_start_zero q c k : k_ok k -> c = 48 -> sends q (start_zero c k).
Proof. intros K ->. unfold start_zero. sd; k_good. Qed.
Lemma send_zero_ok c k : k_ok k -> sends false (send_zero v c k).
Proof.
  intros K. unfold send_zero. sd; try k_good; try (apply send_number_end; [exact K|exact Logic.I]); apply send_start_numeric; try exact K; try chars_good. eapply whole_good; eassumption.
Qed.
Lemma send_ts_zero_ok c k : k_ok k -> sends false (send_ts_zero c k).
Proof. intros K. unfold send_ts_zero. sd; try k_good; apply send_start_ts; exact K. Qed.
Lemma send_ts_ok p s n t b c k : k_ok k -> sends false (send_ts v p s n t b c k).
Proof. intros K. unfold send_ts. sd; try k_good. apply send_number_end; [exact K|apply lazy_ts]. Qed.
Lemma oper_ok c k h k' : k_ok k -> start_oper c k = Ok (h, k') -> k_ok k' /\ hs_ok false h k'.
Proof. intros K. unfold start_oper. destruct (is_op c) eqn:O; [|discriminate]. destruct (set_unicode false k) as [k1|] eqn:U; [|discriminate]. cbn [bind]. intros [= <- <-]. destruct (k_unicode _ _ _ K U). split; [k_good|exact Logic.I]. Qed.
Lemma send_go_oper c k : k_ok k -> sends false (go_oper c k).
Proof. intros K. unfold go_oper. apply sends_bind. intros [h k'] E. destruct (oper_ok _ _ _ _ K E). now apply sends_go. Qed.
Lemma send_symbol_end c k f s : k_ok k -> sym_ok s -> sends false (symbol_end v c k f s).
Proof. intros K S. unfold symbol_end. sd; try k_good; [apply k_quoted_ok, k_pending; [k_good|exact S]|]. exact (symbol_ok _ _ _ _ K S E). Qed.
Lemma unquoted_ok c k f h k' : k_ok k -> start_unquoted v c k f = Ok (h, k') -> k_ok k' /\ hs_ok false h k'.
Proof.
  intros K. unfold start_unquoted. destruct (set_unicode false k) as [k1|] eqn:U; [|discriminate]. destruct (k_unicode _ _ _ K U). cbn [bind]. cbv zeta. destruct (ident_char (cz c)) eqn:I; cbn [negb]; [|destruct (_ && _); [|discriminate]]; intros [= <- <-]; (split; [k_good|exact Logic.I]).
Qed.
Lemma send_go_unquoted c k f : k_ok k -> sends false (go_unquoted v c k f).
Proof. intros K. unfold go_unquoted. apply sends_bind. intros [h k'] E. destruct (unquoted_ok _ _ _ _ _ K E). now apply sends_go. Qed.
Lemma send_unquoted_ok p f c k : k_ok k -> sends false (send_unquoted v p f c k).
Proof. intros K. unfold send_unquoted. sd; try k_good; [apply send_symbol_end; [exact K|exact (proj1 K)]|]. apply k_push; [exact K|]. apply ident_good. now apply negb_false_iff. Qed.
Lemma dollar_ok k f h k' : k_ok k -> start_dollar v k f = Ok (h, k') -> k_ok k' /\ forall q, hs_ok q h k'.
Proof. intros K. unfold start_dollar. destruct (set_unicode false k) as [k1|] eqn:U; [|discriminate]. destruct (k_unicode _ _ _ K U). cbn [bind]. intros [= <- <-]. split; [k_good|intros; exact Logic.I]. Qed.
Lemma prefix_good i : is_scalar (nth i t_ivm_prefix 0) = true.
Proof. do 5 (destruct i as [|i]; [reflexivity|]). destruct i; reflexivity. Qed.
Lemma send_dollar_ok p i co s m po f c k : k_ok k -> sends false (send_dollar v p i co s m po f c k).
Proof.
  intros K. unfold send_dollar. cbv zeta. apply sends_if; intros _; [apply sends_go; [exact K|exact Logic.I]|]. apply sends_if; intros _.
  - assert (A : sends false (symbol_end v c k f (SCodes (k_val k)))) by (apply send_symbol_end; [exact K|exact (proj1 K)]).
    assert (B : sends false (symbol_end v c k f (SIvm (k_val k)))) by (apply send_symbol_end; [exact K|exact (proj1 K)]).
    assert (C : sends false (symbol_end v c k f (STok (sid_token (digits_value 10 (tl (k_val k))))))) by (apply send_symbol_end; [exact K|split; [exact Logic.I|cbn; apply digits_nonneg; lia]]).
    destruct (k_val k) as [|x [|y l]]; [| exact A|]; (destruct s; [destruct i; [exact Logic.I|exact C]|destruct co; [exact B|exact A]]).
  - assert (G : forall i' co' po', (if i then if (m =? 5)%nat then if is_digit (cz c) then (true, co || po, po) else if (cz c =? 95) && negb po then (true, co, true) else (false, false, po) else (cz c =? nth m t_ivm_prefix 0, co, po) else (false, co, po)) = (i', co', po') -> i' = true -> is_scalar (cz c) = true).
    { intros i' co' po' H ->. destruct i; [|discriminate]. destruct (m =? 5)%nat.
      - destruct (is_digit (cz c)) eqn:D; [exact (digit_good _ D)|]. destruct ((cz c =? 95) && negb po) eqn:N; [|discriminate]. apply andb_true_iff in N. destruct N as (N & _). chars_good.
      - injection H as H _ _. apply Z.eqb_eq in H. rewrite H. apply prefix_good. }
    destruct (if i then _ else _) as [[i' co'] po'] eqn:E. specialize (G i' co' po' eq_refl). destruct i'.
    + apply sends_go; [apply k_push; [exact K|exact (G eq_refl)]|exact Logic.I].
    + apply sends_if; intros S; [now apply send_go_unquoted|]. apply sends_go; [|exact Logic.I]. apply k_push; [exact K|]. apply negb_false_iff in S. apply andb_true_iff in S. exact (digit_good _ (proj2 S)).
Qed.
Lemma send_null_ok s c k : k_ok k -> sends false (send_null v s c k).
Proof. intros K. unfold send_null. sd; try k_good. now apply ev_none_ok. Qed.
Lemma send_start_kw q c k f : k_ok k -> sends q (start_kw v c k f).
Proof.
  intros K. unfold start_kw. sd; try k_good; destruct (k_unicode _ _ _ K E).
  - apply k_push; [k_good|]. apply start_good. now apply negb_false_iff.
  - cbn [hs_ok]. split; [intros [X|X]; lia|split; [lia|reflexivity]].
Qed.
Lemma seq_good seq i z : forallb is_scalar seq = true -> (z =? nth i seq 0) = true -> is_scalar z = true.
Proof. intros F E. apply Z.eqb_eq in E. subst z. destruct (nth_in_or_default i seq 0) as [I|D]; [|rewrite D; reflexivity]. rewrite forallb_forall in F. now apply F. Qed.
Lemma keyword_ok s t x d m f c k b o : k_ok k -> (x = EvNone \/ exists y, x = EvVal y /\ scalar_kept y) -> forallb is_scalar s = true -> check_keyword v s t x d m f c k = Ok (b, o) ->
  match o with Some a => ans_ok false a | None => b = true -> is_scalar (cz c) = true /\ cz c = nth m s 0 /\ (m < List.length s)%nat end /\ (m = O -> s <> [] -> o = None).
Proof.
  intros K X G H. unfold check_keyword in H.
  assert (SV : ev_ok (value_event v k EScalar (Some t) x)) by (destruct X as [-> | (y & -> & C)]; [now apply ev_none_ok|now apply ev_value_ok]).
  destruct (m <? List.length s)%nat eqn:L.
  { injection H as <- <-. split; [|reflexivity]. intros E. split; [exact (seq_good s m _ G E)|]. apply Z.eqb_eq in E. apply Nat.ltb_lt in L. auto. }
  assert (Z0 : m = O -> s <> [] -> o = None) by (intros -> NE; destruct s; [congruence|cbn in L; discriminate]). split; [|exact Z0]. clear Z0.
  repeat match type of H with
  | Ok _ = Ok _ => injection H; clear H; intros; subst; cbn; auto; try discriminate
  | (if ?x then _ else _) = _ => destruct x
  | _ => discriminate
  end.
Qed.
Lemma send_kw_ok a b t f m i c k : k_ok k -> hs_ok false (HKw a b t f m i) k -> sends false (send_kw v a b t f m i c k).
Proof.
  intros K (I1 & I2 & I3). unfold send_kw. apply sends_bind. intros [n1 t1] E1. apply sends_bind. intros [[[n2 tr] fl] t2] E2.
  assert (C1 : match t1 with Some x => ans_ok false x | None => n1 = true -> is_scalar (cz c) = true /\ cz c = nth m t_ull 0 end /\ (t1 <> None -> m <> O) /\ (n1 = true -> a = true)).
  { destruct a; [|injection E1 as <- <-; split; [discriminate|split; [congruence|discriminate]]]. apply keyword_ok in E1; [|exact K|left; reflexivity|reflexivity]. destruct E1 as (E1 & EZ). split; [destruct t1; [exact E1|]|split; [intros N M; apply N, EZ; [exact M|discriminate]|reflexivity]]. intros N. destruct (E1 N) as (X1 & X2 & _). auto. }
  destruct C1 as (C1 & C1' & C1'').
  assert (C2 : match t2 with Some x => ans_ok false x | None => n1 || n2 || tr || fl = true -> is_scalar (cz c) = true end /\ (t2 = None -> hs_ok false (HKw n1 n2 tr fl (Datatypes.S m) i) k)).
  { cbn [hs_ok]. destruct b; [|destruct t; [|destruct f]].
    - destruct (I1 (or_intror eq_refl)) as (-> & ->). apply bind_ok in E2. destruct E2 as ([b2 t2'] & E2 & E3). injection E3 as <- <- <- <-. apply keyword_ok in E2; [|exact K|right; eexists; (split; [reflexivity|cbn; unfold nan_bits; lia])|reflexivity]. destruct E2 as (E2 & EZ).
      assert (A : n1 = true -> m = O /\ t1 = None).
      { intros N. pose proof (I3 (C1'' N) eq_refl) as M. split; [exact M|]. destruct t1; [|reflexivity]. exfalso. apply C1'; [discriminate|exact M]. }
      split.
      + destruct t2' as [y|]; [exact E2|]. intros N. destruct n1; [destruct (A eq_refl) as (_ & ->); exact (proj1 (C1 eq_refl))|]. destruct b2; [exact (proj1 (E2 eq_refl))|discriminate].
      + intros ->. split; [auto|]. split; [auto|]. intros -> ->. destruct (A eq_refl) as (-> & ->). destruct (C1 eq_refl) as (_ & X). destruct (E2 eq_refl) as (_ & Y & _). rewrite X in Y. discriminate Y.
    - destruct a; [destruct (I1 (or_introl eq_refl)); discriminate|]. injection E1 as <- <-. rewrite (I2 eq_refl) in *. apply bind_ok in E2. destruct E2 as ([b2 t2'] & E2 & E3). injection E3 as <- <- <- <-. apply keyword_ok in E2; [|exact K|right; eexists; (split; [reflexivity|exact Logic.I])|reflexivity]. destruct E2 as (E2 & EZ). split.
      + destruct t2' as [y|]; [exact E2|]. intros N. destruct b2; [exact (proj1 (E2 eq_refl))|discriminate].
      + intros _. split; [intros [X|X]; discriminate|]. split; [auto|discriminate].
    - destruct a; [destruct (I1 (or_introl eq_refl)); discriminate|]. injection E1 as <- <-. apply bind_ok in E2. destruct E2 as ([b2 t2'] & E2 & E3). injection E3 as <- <- <- <-. apply keyword_ok in E2; [|exact K|right; eexists; (split; [reflexivity|exact Logic.I])|reflexivity]. destruct E2 as (E2 & EZ). split.
      + destruct t2' as [y|]; [exact E2|]. intros N. destruct b2; [exact (proj1 (E2 eq_refl))|discriminate].
      + intros _. split; [intros [X|X]; discriminate|]. split; discriminate.
    - injection E2 as <- <- <- <-. split.
      + destruct t1 as [y|]; [exact C1|]. intros N. destruct n1; [exact (proj1 (C1 eq_refl))|discriminate].
      + intros _. split; [auto|]. split; [auto|discriminate]. }
  destruct C2 as (C2 & C3). apply sends_if; intros N.
  - destruct t2 as [y|]; [exact C2|]. apply sends_go; [apply k_push; [exact K|exact (C2 N)]|exact (C3 eq_refl)].
  - apply sends_if; intros _; [apply sends_back, k_pending; [exact K|exact (proj1 K)]|]. apply sends_if; intros _; [|now apply send_go_unquoted].
    apply sends_bind. intros ev E. apply sends_emits; [exact K|]. exact (symbol_ok _ _ (SCodes (k_val k)) _ K (proj1 K) E).
Qed.
Lemma send_inf_ok n m c k : k_ok k -> sends false (send_inf v n m c k).
Proof.
  intros K0. unfold send_inf. cbv zeta. assert (K : k_ok (set_type (Some TFloat) k)) by k_good. set (k1 := set_type _ k) in *. clearbody k1. clear K0.
  apply sends_if; intros _; [apply sends_emits; [exact K|apply ev_value_ok; [exact K|destruct n; cbn; unfold ninf_bits, inf_bits; lia]]|]. apply sends_if; intros _; [apply sends_go; [exact K|exact Logic.I]|].
  apply sends_bind. intros k2 E1. destruct (k_unicode _ _ _ K E1) as (K2 & _). apply sends_if; intros _; [exact Logic.I|]. apply sends_bind. intros ev E. pose proof (symbol_ok _ _ (SCodes (k_val k2)) _ K2 (proj1 K2) E) as EV. destruct m.
  - apply sends_if; intros _; [now apply send_go_oper|now apply sends_emits].
  - apply sends_bind. intros [h k'] E2. assert (KN : k_ok (with_val child_new (firstn (Datatypes.S m) t_inf))).
    { split; [|repeat split; constructor]. cbn [k_val with_val]. apply Forall_forall. intros x I. assert (J : In x t_inf) by (rewrite <- (firstn_skipn (Datatypes.S m) t_inf); apply in_or_app; left; exact I). cbn in J. unfold is_scalar. lia. }
    destruct (unquoted_ok _ _ _ _ _ KN E2). now apply sends_then.
Qed.
Lemma send_start_long q k f : k_ok k -> sends q (start_long k f).
Proof.
  intros K. unfold start_long. cbv zeta. apply sends_if; intros _; [exact Logic.I|]. match goal with |- context [k_val ?x] => set (k2 := x) end. assert (K2 : k_ok k2) by (unfold k2; k_good). clearbody k2.
  destruct (k_val k2); [|exact Logic.I]. apply sends_bind. intros k1 E1. destruct (k_unicode _ _ _ K2 E1) as (K1 & Q). apply sends_go; [destruct f; [apply k_pending; [exact K1|constructor]|exact K1]|]. cbn [hs_ok]. intros _. destruct f; exact Q.
Qed.
Lemma send_start_string q k f : k_ok k -> sends q (start_string k f).
Proof.
  intros K. unfold start_string. cbv zeta. apply sends_bind. intros k1 E1. destruct (k_unicode _ _ _ K E1) as (K1 & Q). apply sends_if; intros _; [exact Logic.I|]. match goal with |- context [k_val ?x] => set (k2 := x) end.
  assert (K2 : k_ok k2 /\ k_quoted k2 = true) by (unfold k2; split; [k_good|destruct (_ && _); [rewrite quoted_set_type|]; exact Q]). clearbody k2. destruct K2 as (K2 & Q2).
  assert (G : sends q (go (if f then set_pending (SCodes []) k2 else k2) (HStr (is_clob k) f))).
  { apply sends_go; [destruct f; [apply k_pending; [exact K2|constructor]|exact K2]|]. cbn [hs_ok]. destruct f; exact Q2. }
  destruct f; [destruct (k_val k2); [exact G|exact Logic.I]|exact G].
Qed.
Lemma quoted_ok c k f h k' : k_ok k -> cp_ok c -> start_quoted_symbol c k f = Ok (h, k') -> k_ok k' /\ hs_ok false h k'.
Proof.
  intros K C. unfold start_quoted_symbol. destruct (_ && _); [discriminate|]. cbv zeta. destruct (set_unicode true k) as [k1|] eqn:U; [|discriminate]. destruct (k_unicode _ _ _ K U) as (K1 & Q). cbn [bind]. destruct (is_clob k); [discriminate|]. destruct (valid_quoted c_ws_not_nl false c) eqn:VQ; cbn [negb]; [|discriminate]. intros [= <- <-].
  split; [destruct (gone c); [exact K1|apply k_push; [exact K1|eapply quoted_good; [|exact C|exact VQ]; reflexivity]]|]. cbn [hs_ok]. destruct (gone c); exact Q.
Qed.
Lemma send_start_blob q c k : k_ok k -> sends q (start_blob c k).
Proof. intros K. unfold start_blob. sd; k_good. Qed.
Lemma send_clob_end q c k : k_ok k -> sends q (start_clob_end c k).
Proof. intros K. unfold start_clob_end. sd; k_good. Qed.
Lemma send_string_ok b f c k : k_ok k -> k_quoted k = true -> cp_ok c -> sends false (send_string v b f c k).
Proof.
  intros K Q C. unfold send_string. cbv zeta. apply sends_if; intros _.
  - apply sends_if; intros _.
    + apply sends_emits; [k_good|]. apply ev_value_ok; [k_good|exact (proj1 K)].
    + apply sends_if; intros _; [apply sends_back; k_good|apply send_clob_end; k_good].
  - destruct (valid_quoted c_ws_not_nl b c) eqn:VQ; cbn [negb]; [|exact Logic.I]. apply sends_go.
    + destruct (gone c); [exact K|]. apply k_text_push; [exact K|]. apply text_one. eapply quoted_good; [|exact C|exact VQ]; reflexivity.
    + cbn [hs_ok]. destruct (gone c); [exact Q|rewrite quoted_text_push; exact Q].
Qed.
Lemma send_quoted_ok f c k : k_ok k -> k_quoted k = true -> cp_ok c -> sends false (send_quoted_symbol v f c k).
Proof.
  intros K Q C. unfold send_quoted_symbol. cbv zeta. apply sends_if; intros _; [apply send_symbol_end; [exact K|exact (proj1 K)]|]. destruct (valid_quoted c_ws_not_nl (is_clob k) c) eqn:VQ; cbn [negb]; [|exact Logic.I]. apply sends_go.
  - destruct (gone c); [exact K|apply k_push; [exact K|eapply quoted_good; [|exact C|exact VQ]; reflexivity]].
  - cbn [hs_ok]. destruct (gone c); exact Q.
Qed.
Lemma send_quote1_ok f c k : k_ok k -> cp_ok c -> sends false (send_quote1 f c k).
Proof.
  intros K C. unfold send_quote1. apply sends_if; intros _; [apply sends_go; [k_good|exact Logic.I]|]. apply sends_bind. intros k1 E1. destruct (k_unicode _ _ _ K E1) as (K1 & Q). apply sends_bind. intros [h k2] E. destruct (quoted_ok _ _ _ _ _ K1 C E). now apply sends_go.
Qed.
Lemma send_quote2_ok f c k : k_ok k -> sends false (send_quote2 f c k).
Proof.
  intros K. unfold send_quote2. apply sends_bind. intros k1 E1. destruct (k_unicode _ _ _ K E1) as (K1 & Q). apply sends_if; intros _; [now apply send_start_long|]. apply sends_back. apply k_pending; [k_good|constructor].
Qed.
Lemma send_lob0_ok n c k : k_ok k -> sends false (send_lob0 n c k).
Proof.
  intros K. assert (KT : k_ok (set_type (Some TClob) k)) by k_good. unfold send_lob0. sd; try k_good.
  - apply send_start_string. exact (proj1 (k_unicode _ _ _ KT E)).
  - apply send_start_long. destruct (n =? 0); [exact (proj1 (k_unicode _ _ _ KT E))|injection E as <-; exact K].
  - destruct (n =? 0); [exact (proj1 (k_unicode _ _ _ KT E))|injection E as <-; exact K].
  - now apply send_start_blob.
Qed.
Lemma send_blob_ok p d n c k : k_ok k -> sends false (send_blob v p d n c k).
Proof. intros K. unfold send_blob. sd; try k_good. apply ev_lazy_ok; [k_good|apply lazy_blob]. Qed.
Lemma send_clob_ok p c k : k_ok k -> sends false (send_clob v p c k).
Proof. intros K. unfold send_clob. sd; try k_good. apply ev_lazy_ok; [k_good|apply lazy_clob; k_good]. Qed.
Lemma send_long_ok q i b f c k : k_ok k -> hs_ok false (HLong q i b f) k -> (i = true -> cp_ok c) -> sends false (send_long v q i b f c k).
Proof.
  intros K0 Q C. unfold send_long. cbv zeta. assert (K : k_ok (set_self false k)) by k_good. cbn [hs_ok] in Q. change (i = true -> k_quoted (set_self false k) = true) in Q. set (k1 := set_self false k) in *. clearbody k1. clear K0.
  assert (EV : ev_ok (value_event v k1 EScalar (k_type k1) (text_value k1))) by (apply ev_value_ok; [exact K|exact (proj1 K)]).
  apply sends_if; intros _.
  { apply sends_if; intros _; (apply sends_go; [k_good|]); cbn [hs_ok]; [intros X; exact X|exact Q]. }
  destruct i.
  { specialize (C eq_refl). specialize (Q eq_refl). destruct (valid_quoted c_ws b c) eqn:VQ; cbn [negb]; [|exact Logic.I]. apply sends_go.
    - assert (K2 : k_ok (text_push f k1 (repeat 39 (Z.to_nat q)))) by (apply k_text_push; [exact K|apply quotes_text]). destruct (gone c); [exact K2|]. apply k_text_push; [exact K2|]. apply text_one. eapply quoted_good; [|exact C|exact VQ]; reflexivity.
    - cbn [hs_ok]. intros _. destruct (gone c); rewrite ?quoted_text_push; exact Q. }
  apply sends_if; intros _.
  { apply sends_if; intros _; [exact Logic.I|]. apply sends_if; intros _; [exact Logic.I|]. apply sends_if; intros _.
    - apply sends_if; intros _; [exact Logic.I|]. apply sends_putting_back. apply sends_go; [k_good|]. split; [exact EV|reflexivity].
    - apply sends_then; [k_good|exact EV|k_good|exact Logic.I]. }
  apply sends_if; intros _; [apply sends_go; [exact K|cbn; discriminate]|].
  destruct b; [now apply send_clob_end|].
  apply sends_if; intros _.
  { apply sends_if; intros _; (apply sends_go; [exact K|]); cbn [hs_ok]; [split; [discriminate|exact EV]|discriminate]. }
  destruct f; [apply sends_if; intros _; [now apply sends_back|exact Logic.I]|]. now apply sends_emits.
Qed.
Lemma hs_ext : forall h q k k', k_quoted k = k_quoted k' -> hs_ok q h k -> hs_ok q h k'.
Proof.
  fix IH 1. intros h q k k' E H. destruct h; cbn [hs_ok] in *; try rewrite <- E; auto.
  - destruct w as [w|]; [exact (IH w _ k k' E H)|exact H].
  - destruct w as [w|]; [exact (IH w _ k k' E H)|exact H].
  - destruct w as [w|]; [exact (IH w _ k k' E H)|exact H].
  - destruct H as (H1 & H2). split; [|exact H2]. destruct w as [w|]; [exact (IH w _ k k' E H1)|exact H1].
Qed.
Lemma comment_ok c w k h k' : k_ok k -> match w with Some w' => hs_ok false w' k | None => True end -> start_comment c w k = Ok (h, k') -> k_ok k' /\ hs_ok false h k'.
Proof.
  intros K H E. unfold start_comment in E. destruct (cz c =? 47).
  { injection E as <- <-. split; [k_good|]. cbn [hs_ok]. destruct w as [w|]; [|exact H]. now apply (hs_ext w false k). }
  destruct (cz c =? 42); [|destruct c; discriminate]. injection E as <- <-. split; [destruct (k_line k); k_good|]. cbn [hs_ok]. destruct w as [w|]; [|exact H]. apply (hs_ext w false k); [|exact H]. now destruct (k_line k).
Qed.
Lemma comment_done_ok w k : k_ok k -> match w with Some w' => hs_ok false w' k | None => True end -> sends false (comment_done w k).
Proof. intros K H. unfold comment_done. destruct w as [w|]; [|apply sends_back; k_good]. apply sends_go; [k_good|]. now apply (hs_ext w false k). Qed.
Theorem send_ok q h c k : k_ok k -> hs_ok q h k -> (quoting h = true -> cp_ok c) -> sends false (send v h c k).
Proof.
  intros K H C. destruct h; cbn [send hs_ok quoting] in *; cbv zeta.
  - apply sends_if; intros Z0; [apply send_start_zero; [exact K|lia]|]. apply sends_if; intros D; [apply send_start_numeric; [exact K|exact (digit_good _ D)]|]. apply sends_putting_back. apply sends_go; [exact K|exact Logic.I].
  - now apply send_zero_ok.
  - now apply send_num_ok.
  - apply sends_bind. intros [h' k'] E. destruct (comment_ok c None child_new h' k' k_new Logic.I E). now apply sends_then.
  - now apply send_numeric_ok.
  - now apply send_ts_zero_ok.
  - now apply send_ts_ok.
  - apply sends_bind. intros [h' k'] E. destruct (comment_ok _ _ _ _ _ K H E). now apply sends_go.
  - apply sends_if; intros _; [now apply comment_done_ok|apply sends_go; [exact K|exact H]].
  - apply sends_if; intros _; [now apply comment_done_ok|apply sends_go; [exact K|exact H]].
  - destruct H as (H1 & H2). apply sends_putting_back. apply sends_if; intros _; [apply sends_go; [exact K|exact H1]|].
    destruct ev as [ev|]; [|now apply send_go_oper]. apply sends_bind. intros [h' k'] E. destruct (oper_ok _ _ _ _ k_new E). now apply sends_then.
  - now apply send_long_ok.
  - apply sends_bind. intros [h' k'] E. destruct (quoted_ok _ _ _ _ _ k_new (C eq_refl) E). destruct H. now apply sends_then.
  - now apply send_null_ok.
  - apply sends_putting_back. now apply send_go_oper.
  - now apply send_kw_ok.
  - now apply send_inf_ok.
  - apply sends_if; intros O; [apply sends_go; [k_good|exact Logic.I]|]. apply sends_bind. intros ev E. apply sends_emits; [exact K|]. exact (symbol_ok _ _ (SCodes (k_val k)) _ K (proj1 K) E).
  - apply sends_putting_back. destruct (k_val k) eqn:KV; [exact Logic.I|]. rewrite <- KV. apply sends_bind. intros ev E. apply sends_bind. intros [h' k'] E2. destruct (oper_ok _ _ _ _ k_new E2). apply sends_then; auto. exact (symbol_ok _ _ (SCodes (k_val k)) _ K (proj1 K) E).
  - now apply send_unquoted_ok.
  - now apply send_dollar_ok.
  - apply send_string_ok; auto.
  - apply send_quoted_ok; auto.
  - apply send_quote1_ok; auto.
  - now apply send_quote2_ok.
  - apply sends_if; intros _; [apply sends_go; [exact K|exact Logic.I]|]. apply sends_putting_back. apply sends_go; [exact K|exact Logic.I].
  - now apply send_lob0_ok.
  - now apply send_blob_ok.
  - now apply send_clob_ok.
  - apply sends_emits; [exact K|now apply ev_none_ok].
Qed.
Lemma start_field_ok c k : k_ok k -> sends ((c =? 34) || (c =? 39)) (start_field v c k).
Proof.
  intros K. unfold start_field. destruct (c =? 39) eqn:C9; [apply sends_go; [exact K|cbn; apply orb_true_r]|]. apply sends_if; intros _; [now apply send_start_string|]. apply sends_if; intros _.
  - apply sends_bind. intros [h k'] E. destruct (dollar_ok _ _ _ _ K E). now apply sends_go.
  - apply sends_if; intros _; [now apply send_start_kw|exact Logic.I].
Qed.
Lemma start_value_ok c k : k_ok k -> sends ((c =? 34) || (c =? 39)) (start_value v c k).
Proof.
  intros K. unfold start_value. sd; try k_good; try (apply send_start_zero; [exact K|lia]); try (now apply send_start_string); try (now apply send_start_kw).
  - cbn [hs_ok]. lia.
  - exact (proj1 (dollar_ok _ _ _ _ K E)).
  - exact (proj2 (dollar_ok _ _ _ _ K E) _).
Qed.
End Handlers.

(** * The reader *)
Definition child_ok (o : option tctx) : Prop := match o with Some k => k_ok k | None => True end.
Definition kont_ok (s : tcore) (k : kont) : Prop :=
  match k with
  | KTok h => quoting h = false /\ match t_child s with Some x => hs_ok true h x | None => True end
  | KCode cs h => cps_ok cs /\ match t_child s with Some x => hs_ok true h x | None => True end
  | _ => True
  end.
Definition pc_ok (s : tcore) : Prop := match t_pc s with PTop _ => True | PRead k _ _ | PWait k _ _ => kont_ok s k end.
Definition core_ok (s : tcore) : Prop := child_ok (t_child s) /\ pc_ok s.
Definition told_ok (ev : option event) : Prop := match ev with Some e => ev_ok e | None => True end.

Lemma hs_any q h k : hs_ok q h k -> hs_ok true h k.
Proof. destruct q; [auto|]. destruct h; cbn; auto. Qed.
Lemma token_ok s h q k : t_child s = Some k -> k_ok k -> hs_ok q h k -> core_ok (with_pc s (token_pc s h q k)).
Proof.
  intros C K H. unfold core_ok, child_ok. cbn [with_pc t_child]. rewrite C. split; [exact K|]. unfold pc_ok, token_pc. destruct (k_quoted k || q) eqn:Q; cbn; rewrite C.
  - split; [left; reflexivity|exact (hs_any _ _ _ H)].
  - apply orb_false_elim in Q. destruct Q as (Q & ->). split; [|exact (hs_any _ _ _ H)]. destruct h; cbn in *; try reflexivity; try congruence; try (destruct H; congruence). destruct in_data; [|reflexivity]. rewrite Q in H. discriminate (H eq_refl).
Qed.
Lemma plain_ok s p : child_ok (t_child s) -> match p with PTop _ => True | PRead k _ _ | PWait k _ _ => match k with KTop | KColon => True | _ => False end end -> core_ok (with_pc s p).
Proof. intros C P. split; [exact C|]. unfold pc_ok. cbn. destruct p as [|k ? ?|k ? ?]; auto; destruct k; try contradiction; exact Logic.I. Qed.
Lemma after_event_ok s k ev comp c s' : (match comp with Some (h, k') => k_ok k' /\ match h with Some h => hs_ok false h k' | None => True end | None => True end) -> after_event s k ev comp c = Ok s' -> core_ok s'.
Proof.
  intros C H. unfold after_event in H. apply bind_ok in H. destruct H as ([[next child] self] & E & H).
  assert (N : child_ok child /\ match next, child with Some h, Some k' => hs_ok false h k' | _, _ => True end).
  { destruct (k_comp k); [|injection E as <- <- _; split; exact Logic.I]. destruct comp as [[h k']|]; [|discriminate]. injection E as <- <- _. destruct C as (C1 & C2). split; [exact C1|]. destruct h; [exact C2|exact Logic.I]. }
  destruct N as (N1 & N2). destruct (is_container_start ev).
  - destruct next; [discriminate|]. destruct (ev_ion_type ev) as [t|]; [|discriminate]. injection H as <-. split; exact Logic.I.
  - destruct self; [injection H as <-; apply plain_ok; [exact N1|exact Logic.I]|].
    destruct next as [h|]; [destruct child as [k'|]|]; injection H as <-; try (apply plain_ok; [exact N1|exact Logic.I]). apply token_ok; [reflexivity|exact N1|exact N2].
Qed.
Lemma after_back_ok s k c : k_ok k -> core_ok (after_back s k c).
Proof.
  intros K. unfold after_back. cbv zeta. assert (KT : k_ok (set_type None k)) by (now apply k_type_ok). set (k1 := set_type None k) in *. clearbody k1.
  repeat match goal with |- core_ok (if ?b then _ else _) => destruct b | |- core_ok (match ?b with _ => _ end) => destruct b end; (apply plain_ok; [exact KT|exact Logic.I]).
Qed.
Lemma handled_ok s c a s' ev u : ans_ok false a -> handled s c a = Ok (s', ev, u) -> core_ok s' /\ told_ok ev.
Proof.
  intros A H. destruct a as [[t k] u0]. unfold handled in H. destruct A as (K & A). destruct t as [ev0 comp|h|].
  - destruct A as (A & B). apply bind_ok in H. destruct H as (s1 & E & H). injection H as <- <- _. split; [eapply after_event_ok; [exact B|exact E]|exact A].
  - injection H as <- <- _. split; [|exact Logic.I]. apply token_ok; [reflexivity|exact K|exact A].
  - injection H as <- <- _. split; [now apply after_back_ok|exact Logic.I].
Qed.
Lemma pending_ok v s ev : child_ok (t_child s) -> pending_value v s = Ok ev -> told_ok ev.
Proof.
  intros C. unfold pending_value. destruct (t_child s) as [k|]; [|intros [= <-]; exact Logic.I]. cbn in C. destruct (k_pend k) as [p|] eqn:P; [|intros [= <-]; exact Logic.I]. destruct (k_val k) eqn:V; [|discriminate].
  assert (SP : sym_ok p) by (destruct C as (_ & C & _); rewrite P in C; exact C).
  assert (G : forall r, (let* ev0 := symbol_event v k p in Ok (Some ev0)) = Ok r -> told_ok r) by (intros r H; apply bind_ok in H; destruct H as (e & E & H); injection H as <-; exact (symbol_ok _ _ _ _ C SP E)).
  destruct (t_type s) as [t|]; [|apply G]. destruct t; try apply G. destruct (k_field k); [apply G|discriminate].
Qed.
Lemma answers_ok q r a : sends q r -> r = Ok a -> ans_ok q a.
Proof. intros K ->. exact K. Qed.
Lemma top_ok uni s oc s' ev : core_ok s -> top uni s oc = Ok (s', ev) -> core_ok s' /\ told_ok ev.
Proof.
  intros (C & _) H. unfold top in H. cbv zeta in H.
  destruct oc as [c|]; [|injection H as <- <-; split; [now apply plain_ok|exact Logic.I]].
  destruct (_ || _ || _).
  { apply bind_ok in H. destruct H as (p & E & H). apply pending_ok in E; [|exact C]. destruct p as [e|].
    { injection H as <- <-. split; [apply plain_ok; exact Logic.I|exact E]. }
    destruct (is_end _ _).
    { destruct (_ && _); [discriminate|]. destruct (t_stack s) as [|[pt pf] below] eqn:ST; [discriminate|]. injection H as <- <-. split; [split; exact Logic.I|]. split; [constructor|]. split; exact Logic.I. }
    destruct (is_delim _ _).
    { destruct (negb _); [discriminate|]. injection H as <- <-. split; [|exact Logic.I]. split; [exact C|exact Logic.I]. }
    injection H as <- <-. split; [now apply plain_ok|exact Logic.I]. }
  destruct (is_ws _); [injection H as <- <-; split; [now apply plain_ok|exact Logic.I]|].
  assert (CK : k_ok match t_child s with Some k => k | None => child_new end) by (destruct (t_child s); [exact C|exact k_new]).
  destruct (_ =? 47).
  { apply bind_ok in H. destruct H as (h & E & H). injection H as <- <-. split; [|exact Logic.I]. apply token_ok; [reflexivity|exact CK|].
    assert (G : forall x, x = h -> match x with HComm0 None => True | _ => False end -> forall b k, hs_ok b h k) by (intros x <-; destruct x; try contradiction; destruct w; [contradiction|intros; exact Logic.I]).
    destruct (t_type s) as [[]|] eqn:TY; cbn [t_type with_flags] in E; rewrite TY in E; try (injection E as E; exact (G _ E Logic.I _ _)).
    apply bind_ok in E. destruct E as (p & E & E1). apply pending_ok in E; [|exact C]. injection E1 as <-. cbn [hs_ok]. split; [exact Logic.I|]. destruct p; exact E. }
  destruct (t_delim _); [discriminate|].
  set (s1 := with_flags s (t_complete s) false) in *.
  assert (START : forall k, k_ok k -> (let* (t, k0, _) := if t_field s1 then start_field (env_of uni s) (cz c) k else start_value (env_of uni s) (cz c) k in
     match t with
     | TGo h => let s2 := with_flags (with_child s1 (Some k0)) (t_complete s1) (negb (t_field s1)) in
        if (cz c =? 91) || (cz c =? 40) then
          let* (t1, k1, _) := send (env_of uni s) h Eof k0 in
          match t1 with TEv ev0 comp => let* s3 := after_event s2 k1 ev0 comp None in Ok (s3, Some ev0) | _ => Err TypeError end
        else Ok (with_pc s2 (token_pc s2 h ((cz c =? 34) || (cz c =? 39)) k0), None)
     | _ => Err TypeError end) = Ok (s', ev) -> core_ok s' /\ told_ok ev).
  { clear H. intros k K H. apply bind_ok in H. destruct H as ([[t k0] u] & E & H).
    assert (A : ans_ok ((cz c =? 34) || (cz c =? 39)) (t, k0, u)).
    { destruct (t_field s1); (eapply answers_ok; [|exact E]); [now apply start_field_ok|now apply start_value_ok]. }
    destruct A as (K0 & A). destruct t as [|h|]; [discriminate| |discriminate]. cbv zeta in H. destruct (_ || _) eqn:OPEN in H.
    - apply bind_ok in H. destruct H as ([[t1 k1] u1] & E1 & H). pose proof (answers_ok _ _ _ (send_ok (env_of uni s) _ h Eof k0 K0 A (fun _ => Logic.I)) E1) as B.
      destruct t1 as [e comp|h1|]; [|discriminate|discriminate]. apply bind_ok in H. destruct H as (s3 & E2 & H). injection H as <- <-. destruct B as (_ & B1 & B2). split; [|exact B1]. eapply after_event_ok; [exact B2|exact E2].
    - injection H as <- <-. split; [|exact Logic.I]. apply token_ok; [reflexivity|exact K0|exact A]. }
  assert (CD : k_ok (if decorated (t_child s1) then match t_child s1 with Some k => k | None => child_new end else child_new)) by (destruct (decorated _); [exact CK|exact k_new]).
  destruct (pending (t_child s1)) as [p|] eqn:PE; [|exact (START _ CD H)]. destruct (t_child s1) as [k|] eqn:CE; [|exact (START _ k_new H)].
  assert (KK : k_ok k) by (change (t_child s1) with (t_child s) in CE; rewrite CE in C; exact C).
  destruct (_ =? 58).
  { destruct (t_field s1).
    - apply bind_ok in H. destruct H as (k1 & E & H). injection H as <- <-. split; [|exact Logic.I]. split; [exact (k_fieldname _ _ KK E)|exact Logic.I].
    - injection H as <- <-. split; [|exact Logic.I]. apply plain_ok; [rewrite CE; exact KK|exact Logic.I]. }
  destruct (t_field s1); [destruct p; discriminate|].
  apply bind_ok in H. destruct H as (e & E & H). injection H as <- <-. split; [apply plain_ok; exact Logic.I|]. refine (symbol_ok _ _ _ _ KK _ E). destruct KK as (_ & KP & _). cbn [pending] in PE. rewrite PE in KP. exact KP.
Qed.
Lemma take_ok uni s k c s' ev u : child_ok (t_child s) -> kont_ok s k -> take uni s k c = Ok (s', ev, u) -> core_ok s' /\ told_ok ev.
Proof.
  intros C G H. destruct k as [| |h|cs h]; cbn [take kont_ok] in *.
  - injection H as <- <- _. split; [now apply plain_ok|exact Logic.I].
  - destruct (_ =? 58); [|discriminate]. destruct (t_child s) as [x|]; [|discriminate]. apply bind_ok in H. destruct H as (x1 & E & H). injection H as <- <- _. split; [|exact Logic.I]. apply plain_ok; [exact (k_annotation _ _ C E)|exact Logic.I].
  - destruct (t_child s) as [x|]; [|discriminate]. destruct G as (Q & G). apply bind_ok in H. destruct H as (a & E & H). apply (handled_ok s c a s' ev u); [|exact H]. refine (answers_ok _ _ _ (send_ok (env_of uni s) true h c x C G _) E). congruence.
  - destruct (t_child s) as [x|] eqn:CE; [|discriminate]. destruct G as (Q & G). apply bind_ok in H. destruct H as (r & E & H). pose proof (cp_kept _ _ _ _ Q E) as Q'. destruct r as [cs' u1|c' u1].
    + injection H as <- <- _. split; [|exact Logic.I]. split; [cbn; rewrite CE; exact C|]. unfold pc_ok. cbn. rewrite CE. auto.
    + apply bind_ok in H. destruct H as (a & E1 & H). apply bind_ok in H. destruct H as ([[s1 e1] u2] & E2 & H). injection H as <- <- _. apply (handled_ok s c' a s1 e1 u2); [|exact E2]. exact (answers_ok _ _ _ (send_ok (env_of uni s) true h c' x C G (fun _ => Q')) E1).
Qed.
Lemma signal_ok b : ev_ok (signal b).
Proof. destruct b; (split; [constructor|split; exact Logic.I]). Qed.
Lemma delegate_ok uni s q d s' q' ev : core_ok s -> delegate uni s q d = Ok (s', q', ev) -> core_ok s' /\ told_ok ev.
Proof.
  intros C H. pose proof C as (K & P). unfold delegate in H. unfold pc_ok in P. destruct (t_pc s) as [c|k a b|k a b].
  - apply bind_ok in H. destruct H as ([s1 e1] & E & H). injection H as <- _ <-. exact (top_ok _ _ _ _ _ C E).
  - destruct q as [|z q0].
    + injection H as <- _ <-. split; [split; [exact K|exact P]|apply signal_ok].
    + apply bind_ok in H. destruct H as ([[s1 e1] u] & E & H). injection H as <- _ <-. exact (take_ok _ _ _ _ _ _ _ K P E).
  - assert (ST : Ok (s, q, Some (signal a)) = Ok (s', q', ev) -> core_ok s' /\ told_ok ev) by (intros [= <- _ <-]; split; [exact C|apply signal_ok]).
    destruct d as [[| |l]|]; try (exact (ST H)).
    + destruct b; [|discriminate]. apply bind_ok in H. destruct H as ([[s1 e1] u] & E & H). injection H as <- _ <-. exact (take_ok _ _ _ _ _ _ _ K P E).
    + destruct l as [|x l]; [exact (ST H)|]. injection H as <- _ <-. split; [split; [exact K|exact P]|exact Logic.I].
Qed.
Lemma skip_step_ok uni r d r' ev : core_ok (tr_core r) -> skip_step uni r d = Ok (r', ev) -> core_ok (tr_core r') /\ told_ok ev.
Proof.
  intros C H. unfold skip_step in H. cbv zeta in H. apply bind_ok in H. destruct H as ([[s q] e] & E & H). destruct (delegate_ok _ _ _ _ _ _ _ C E) as (C' & R).
  repeat match type of H with
  | (if ?b then _ else _) = _ => destruct b
  | (match ?b with _ => _ end) = _ => destruct b
  | Err _ = _ => discriminate
  | Ok _ = Ok _ => injection H as <- <-
  end; (split; [exact C'|first [exact R|exact Logic.I]]).
Qed.
Lemma run_ok uni : forall n r d r' e, core_ok (tr_core r) -> run n uni r d = Ok (r', e) -> core_ok (tr_core r') /\ ev_ok e.
Proof.
  induction n as [|n IH]; intros r d r' e C H; [discriminate|]. cbn [run] in H. destruct (skip_step uni r d) as [[r1 [ev|]]|] eqn:E; [| |discriminate].
  - injection H as <- <-. exact (skip_step_ok _ _ _ _ _ C E).
  - apply (IH _ _ _ _ (proj1 (skip_step_ok _ _ _ _ _ C E)) H).
Qed.
Definition reader_ok (t : treader) : Prop := match t with TFresh r | TAt r _ => core_ok (tr_core r) | TDead => True end.
Lemma reader_ok_new : reader_ok text_reader_new. Proof. split; exact Logic.I. Qed.
(** Every event the reader reports is [ev_ok]. *)
Theorem reader_ok_send uni t d x t' : reader_ok t -> text_send uni t d = (x, t') -> reader_ok t' /\ match x with Ok e => ev_ok e | Err _ => True end.
Proof.
  intros K H. unfold text_send in H. cbv zeta in H.
  assert (GO : forall r, core_ok (tr_core r) -> match run (steps_fuel r (Some d)) uni r (Some d) with Ok (r', ev) => (Ok ev, TAt r' ev) | Err e => (Err e, TDead) end = (x, t') -> reader_ok t' /\ match x with Ok e => ev_ok e | Err _ => True end).
  { intros r C G. destruct (run _ _ _ _) as [[r' ev]|e] eqn:E; injection G as <- <-; [exact (run_ok _ _ _ _ _ _ C E)|split; exact Logic.I]. }
  destruct t as [r|r la|]; [destruct d|destruct (text_protocol_check la d)|]; try (exact (GO r K H)); injection H as <- <-; split; exact Logic.I.
Qed.
