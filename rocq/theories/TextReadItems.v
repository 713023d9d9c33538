(** The text reader on quoted text of the grammar: code points, escapes, line ends. *)
From Coq Require Import String.
From Verif Require Import Base BaseFacts CoreModel BinReaderModel SymbolsModel TextNumbers TextNumbersFacts TextWriterModel TextReaderModel TextReaderFacts TextWalk TextTokens TextNumberTokens TextFloats TextKeywords TextQuoted TextSymbols.
From Verif Require Import TextRoundTripSpec TextGrammar TextGaps TextReads.
Local Open Scope Z_scope.

(** * Hexadecimal digits *)
Definition hexish (c : Z) : Prop := is_hex c = true.
Lemma hex_value_of h v : hex_number h v -> Forall hexish h /\ hex_value h = v /\ 0 <= v < 16 ^ zlen h.
Proof.
  induction 1 as [|l n c v H (F & V & B) D]; [split; [constructor|split; [reflexivity|cbn; lia]]|].
  assert (HD : is_hex c = true /\ digit_of c = v /\ 0 <= v < 16).
  { unfold hex_digit in D. unfold is_hex, is_digit, digit_of. split; [lia|]. split; [|lia]. destruct D as [(D & ->)|[(D & ->)|(D & ->)]].
    - replace ((48 <=? c) && (c <=? 57)) with true by lia. reflexivity.
    - replace ((48 <=? c) && (c <=? 57)) with false by lia. replace ((97 <=? c) && (c <=? 102)) with true by lia. reflexivity.
    - replace ((48 <=? c) && (c <=? 57)) with false by lia. replace ((97 <=? c) && (c <=? 102)) with false by lia. replace ((65 <=? c) && (c <=? 70)) with true by lia. reflexivity. }
  destruct HD as (H1 & H2 & H3). split; [apply Forall_app; split; [exact F|constructor; [exact H1|constructor]]|]. split.
  - unfold hex_value, digits_value, base_value in *. rewrite map_app, fold_left_app, V. cbn [map fold_left]. rewrite H2. lia.
  - unfold zlen in *. rewrite app_length. cbn [List.length]. rewrite Nat2Z.inj_add, Z.pow_add_r by lia. change (16 ^ Z.of_nat 1) with 16. lia.
Qed.
(** The digits of an escape sequence, all but the last step. *)
Inductive cp_goes (uni : bool) : cps -> list Z -> cps -> Prop :=
| cg_nil s : cp_goes uni s [] s
| cg_cons s z s' r s2 : cp_step uni s z = Ok (CMore s' []) -> cp_goes uni s' r s2 -> cp_goes uni s (z :: r) s2.
Lemma cp_goes_app uni s l s1 r s2 : cp_goes uni s l s1 -> cp_goes uni s1 r s2 -> cp_goes uni s (l ++ r) s2.
Proof. induction 1; intros R; [exact R|]. cbn [app]. econstructor; eauto. Qed.
Lemma cp_goes_runs uni s l s1 r c : cp_goes uni s l s1 -> cp_runs uni s1 r c -> cp_runs uni s (l ++ r) c.
Proof. induction 1; intros R; [exact R|]. cbn [app]. eapply cp_more; eauto. Qed.
Lemma hexish_not c : hexish c -> c <> 92.
Proof. unfold hexish, is_hex, is_digit. lia. Qed.
Lemma hexes uni low num ds : forall esc x, Forall hexish ds -> hexish x -> last esc 0 <> 92 -> zlen esc + zlen ds + 1 = num ->
  exists s, cp_goes uni (CEsc esc low num) ds s /\ cp_step uni s x = escape_done (esc ++ ds ++ [x]) low.
Proof.
  induction ds as [|d ds IH]; intros esc x F HX L N.
  - exists (CEsc esc low num). split; [constructor|]. cbn [cp_step]. replace (last esc 0 =? 92) with false by lia. rewrite HX. cbn [negb app].
    replace (zlen (esc ++ [x]) =? num) with true; [reflexivity|]. unfold zlen in *. rewrite app_length. cbn [List.length] in *. lia.
  - pose proof (Forall_inv F) as Hd. pose proof (Forall_inv_tail F) as F'.
    destruct (IH (esc ++ [d]) x F' HX) as (s & R & E).
    + rewrite last_last. now apply hexish_not.
    + unfold zlen in *. rewrite app_length. cbn [List.length] in *. lia.
    + exists s. split.
      * econstructor; [|exact R]. cbn [cp_step]. replace (last esc 0 =? 92) with false by lia. rewrite Hd. cbn [negb]. replace (zlen (esc ++ [d]) =? num) with false; [reflexivity|]. unfold zlen in *. rewrite app_length. cbn [List.length] in *. lia.
      * rewrite E. rewrite <- app_assoc. reflexivity.
Qed.

(** * Items *)
Definition taken (uni : bool) (w : text) (c : ch) : Prop :=
  cp_runs uni (CStart [] false) w c \/ last w 0 = 13 /\ exists e, cp_goes uni (CStart [] false) w (CReturn e) /\ c = Ch 10 e e.
Lemma escape_read esc low v : decode_escape esc = Ok [v] -> ~ 0xD800 <= v <= 0xDFFF -> escape_done esc low = Ok (CDone (Ch v true false) []).
Proof. intros D NS. unfold escape_done. rewrite D. cbn [bind]. unfold is_low, is_high. replace (_ && _) with false by lia. replace (_ && _) with false by lia. reflexivity. Qed.
Lemma hex_item uni x num h v : last [92; x] 0 <> 92 -> cp_step uni (CEsc [92] false 0) x = Ok (CMore (CEsc [92; x] false num) []) -> Forall hexish h -> h <> [] -> 2 + zlen h = num ->
  decode_escape (92 :: x :: h) = Ok [v] -> ~ 0xD800 <= v <= 0xDFFF -> cp_runs uni (CStart [] false) (92 :: x :: h) (Ch v true false).
Proof.
  intros L ST F NE N D NS. destruct (@exists_last _ h NE) as (ds & y & ->). apply Forall_app in F as (F1 & F2). pose proof (Forall_inv F2) as HY.
  destruct (hexes uni false num ds [92; x] y F1 HY L) as (s & R & E).
  { unfold zlen in *. rewrite app_length in N. cbn [List.length] in *. lia. }
  eapply cp_more; [reflexivity|]. eapply cp_more; [exact ST|]. eapply cp_goes_runs; [exact R|]. cbn [cp_runs]. rewrite E. now apply escape_read.
Qed.
Definition clean (quote : Z) (allowed : list Z) (clob : bool) (c : ch) : Prop :=
  (cz c =? quote) && negb (escaped c) = false /\ valid_quoted allowed clob c = true.
Definition kept (c : ch) : text := if gone c then [] else [cz c].
Lemma escaped_clean quote allowed clob v g : clean quote allowed clob (Ch v true g).
Proof. split; [cbn; apply andb_false_r|]. unfold valid_quoted. cbn [cz escaped]. rewrite orb_true_r. reflexivity. Qed.
Lemma surrogates v1 v2 : combine_surrogates v1 v2 = 0x10000 + (v1 - 0xD800) * 0x400 + (v2 - 0xDC00).
Proof. unfold combine_surrogates. rewrite Z.shiftl_mul_pow2 by lia. lia. Qed.
Lemma four {A} (l : list A) : List.length l = 4%nat -> exists a b c d, l = [a; b; c; d].
Proof. do 5 (destruct l as [|? l]; try discriminate). eauto 6. Qed.
Lemma two' {A} (l : list A) : List.length l = 2%nat -> exists a b, l = [a; b].
Proof. do 3 (destruct l as [|? l]; try discriminate). eauto. Qed.
Lemma eight {A} (l : list A) : List.length l = 8%nat -> exists a b c d e f g h, l = [a; b; c; d; e; f; g; h].
Proof. do 9 (destruct l as [|? l]; try discriminate). eauto 12. Qed.
Theorem item_taken quote allowed (raw : Z -> Prop) wide w s :
  (forall c, raw c -> c <> quote /\ (mem c allowed = true \/ 32 <= c) /\ (wide = false -> c <= 127)) -> (raw 13 -> mem 10 allowed = true) -> quote = 34 \/ quote = 39 ->
  item raw wide w s -> exists c, taken wide w c /\ clean quote allowed (negb wide) c /\ s = kept c /\ w <> [] /\ (last w 0 = 13 \/ cp_runs wide (CStart [] false) w c).
Proof.
  intros RAW RET QU I.
  assert (CR : raw 13 -> forall g, clean quote allowed (negb wide) (Ch 10 false g)).
  { intros R g. split; [cbn [cz escaped]; destruct QU as [->| ->]; reflexivity|]. unfold valid_quoted. cbn [cz]. rewrite (RET R). reflexivity. }
  destruct I as [c R SV N92 N13|R|R|c v EV| | | |h v L H|h v W L H SV|h v W L H SV|h1 v1 h2 v2 W L1 H1 R1 L2 H2 R2].
  - exists (plain c). assert (CP : cp_runs wide (CStart [] false) [c] (plain c)).
    { cbn [cp_runs cp_step]. unfold scalar_value in SV. unfold is_low, is_high. replace (_ && _) with false by lia. replace (_ && _) with false by lia.
      replace (c =? 92) with false by lia. replace (c =? 13) with false by lia. reflexivity. }
    destruct (RAW c R) as (NQ & A & WI). split; [left; exact CP|]. split; [|split; [|split; [discriminate|right; exact CP]]].
    + split; [cbn [cz plain]; replace (c =? quote) with false by lia; reflexivity|]. unfold valid_quoted. cbn [cz plain escaped]. destruct A as [-> |A]; [reflexivity|]. unfold scalar_value in SV.
      destruct wide; cbn [negb]; [|specialize (WI eq_refl)]; lia.
    + unfold kept, gone. cbn [plain cz]. rewrite andb_false_r. reflexivity.
  - exists (Ch 10 false false). split; [right; split; [reflexivity|]; exists false; split; [econstructor; [reflexivity|constructor]|reflexivity]|]. split; [now apply CR|]. split; [reflexivity|]. split; [discriminate|now left].
  - exists (Ch 10 false false). assert (CP : cp_runs wide (CStart [] false) [13; 10] (Ch 10 false false)) by (eapply cp_more; [reflexivity|]; reflexivity). split; [left; exact CP|]. split; [now apply CR|]. split; [reflexivity|]. split; [discriminate|now right].
  - exists (Ch v true false).
    assert (CP : cp_runs wide (CStart [] false) [92; c] (Ch v true false)).
    { eapply cp_more; [reflexivity|]. cbn [cp_runs]. unfold escape_value in EV. cbn [In] in EV.
      repeat (destruct EV as [EV|EV]; [injection EV as <- <-; destruct wide; reflexivity|]). destruct EV. }
    split; [left; exact CP|]. split; [apply escaped_clean|]. split; [|split; [discriminate|right; exact CP]]. unfold kept, gone. rewrite andb_false_r. reflexivity.
  - exists (Ch 10 true true). assert (CP : cp_runs wide (CStart [] false) [92; 10] (Ch 10 true true)) by (eapply cp_more; [reflexivity|]; destruct wide; reflexivity). split; [left; exact CP|]. split; [apply escaped_clean|]. split; [reflexivity|]. split; [discriminate|now right].
  - exists (Ch 10 true true). split; [right; split; [reflexivity|]; exists true; split; [|reflexivity]|].
    + econstructor; [reflexivity|]. econstructor; [destruct wide; reflexivity|constructor].
    + split; [apply escaped_clean|]. split; [reflexivity|]. split; [discriminate|now left].
  - exists (Ch 10 true true). assert (CP : cp_runs wide (CStart [] false) [92; 13; 10] (Ch 10 true true)) by (eapply cp_more; [reflexivity|]; eapply cp_more; [destruct wide; reflexivity|]; reflexivity). split; [left; exact CP|]. split; [apply escaped_clean|]. split; [reflexivity|]. split; [discriminate|now right].
  - exists (Ch v true false). destruct (hex_value_of h v H) as (F & V & B).
    assert (CP : cp_runs wide (CStart [] false) (92 :: 120 :: h) (Ch v true false)).
    { apply hex_item with (num := 4); [cbn; lia|destruct wide; reflexivity|exact F|intros ->; discriminate|unfold zlen; rewrite L; reflexivity| |].
      - destruct (two' h L) as (a & b & ->). cbn [decode_escape]. now rewrite V.
      - unfold zlen in B. rewrite L in B. change (16 ^ Z.of_nat 2) with 256 in B. lia. }
    split; [left; exact CP|]. split; [apply escaped_clean|]. split; [|split; [discriminate|right; exact CP]]. unfold kept, gone. rewrite andb_false_r. reflexivity.
  - exists (Ch v true false). destruct (hex_value_of h v H) as (F & V & B). subst wide.
    assert (CP : cp_runs true (CStart [] false) (92 :: 117 :: h) (Ch v true false)).
    { apply hex_item with (num := 6); [cbn; lia|reflexivity|exact F|intros ->; discriminate|unfold zlen; rewrite L; reflexivity| |apply SV].
      destruct (four h L) as (a & b & c & d & ->). cbn [decode_escape]. change (zlen [92; 117; a; b; c; d] =? 6) with true. now rewrite V. }
    split; [left; exact CP|]. split; [apply escaped_clean|]. split; [|split; [discriminate|right; exact CP]]. unfold kept, gone. rewrite andb_false_r. reflexivity.
  - exists (Ch v true false). destruct (hex_value_of h v H) as (F & V & B). subst wide.
    assert (CP : cp_runs true (CStart [] false) (92 :: 85 :: h) (Ch v true false)).
    { apply hex_item with (num := 10); [cbn; lia|reflexivity|exact F|intros ->; discriminate|unfold zlen; rewrite L; reflexivity| |apply SV].
      destruct (eight h L) as (a & b & c & d & e & f & g & i & ->). cbn [decode_escape]. rewrite V. unfold scalar_value in SV. replace (v <=? 0x10FFFF) with true by lia. reflexivity. }
    split; [left; exact CP|]. split; [apply escaped_clean|]. split; [|split; [discriminate|right; exact CP]]. unfold kept, gone. rewrite andb_false_r. reflexivity.
  - set (v := 0x10000 + (v1 - 0xD800) * 0x400 + (v2 - 0xDC00)). exists (Ch v true false). destruct (hex_value_of h1 v1 H1) as (F1 & V1 & B1). destruct (hex_value_of h2 v2 H2) as (F2 & V2 & B2). subst wide.
    assert (CP : cp_runs true (CStart [] false) (92 :: 117 :: h1 ++ 92 :: 117 :: h2) (Ch v true false)).
    { destruct (four h1 L1) as (a & b & c & d & ->). destruct (four h2 L2) as (a2 & b2 & c2 & d2 & ->).
      assert (X : forall e1 e2 e3 e4, Forall hexish [e1; e2; e3; e4] -> Forall hexish [e1; e2; e3] /\ hexish e4).
      { intros. inversion H as [|? ? X1 Y1]; subst. inversion Y1 as [|? ? X2 Y2]; subst. inversion Y2 as [|? ? X3 Y3]; subst. inversion Y3; subst. auto. }
      destruct (X _ _ _ _ F1) as (Fa & Hd). destruct (X _ _ _ _ F2) as (Fb & Hd2).
      destruct (hexes true false 6 [a; b; c] [92; 117] d Fa Hd ltac:(cbn; lia) eq_refl) as (s1 & G1 & E1).
      destruct (hexes true false 12 [a2; b2; c2] [92; 117; a; b; c; d; 92; 117] d2 Fb Hd2 ltac:(cbn; lia) eq_refl) as (s2 & G2 & E2).
      eapply cp_more; [reflexivity|]. eapply cp_more; [reflexivity|].
      change ([a; b; c; d] ++ 92 :: 117 :: [a2; b2; c2; d2]) with ([a; b; c] ++ d :: 92 :: 117 :: [a2; b2; c2] ++ [d2]).
      eapply cp_goes_runs; [exact G1|]. eapply cp_more with (s' := CStart [92; 117; a; b; c; d] true).
      { rewrite E1. unfold escape_done. cbn [app decode_escape]. change (zlen [92; 117; a; b; c; d] =? 6) with true. cbn [bind]. rewrite V1. unfold is_low, is_high. replace (_ && _) with false by lia. replace (_ && _) with true by lia. reflexivity. }
      eapply cp_more; [reflexivity|]. eapply cp_more; [reflexivity|]. cbn [app]. eapply (cp_goes_runs true _ [a2; b2; c2] s2 [d2]); [exact G2|].
      cbn [cp_runs]. rewrite E2. unfold escape_done. cbn [app decode_escape]. change (zlen [92; 117; a; b; c; d; 92; 117; a2; b2; c2; d2] =? 6) with false. cbn [bind firstn skipn]. rewrite V1, V2.
      unfold is_low, is_high. replace ((56320 <=? v1) && _) with false by lia. replace ((55296 <=? v1) && _) with true by lia. replace (_ && _) with true by lia. rewrite surrogates. reflexivity. }
    split; [left; exact CP|]. split; [apply escaped_clean|]. split; [|split; [discriminate|right; exact CP]]. unfold kept, gone. rewrite andb_false_r. reflexivity.
Qed.
