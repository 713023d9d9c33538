(** The text reader on the clobs and blobs of the grammar. *)
From Coq Require Import String.
From Verif Require Import Base BaseFacts CoreModel BinReaderModel SymbolsModel TextNumbers TextNumbersFacts TextWriterModel TextReaderModel TextReaderFacts TextWalk TextTokens TextNumberTokens TextFloats TextKeywords TextQuoted TextBlobs TextSymbols.
From Verif Require Import TextRoundTripSpec Props_TextRoundTrip TextGrammar TextGaps TextReads TextReadNumbers TextReadNames TextReadItems TextReadQuoted TextReadLong.
Local Open Scope Z_scope.

(** * Base 64 *)
Lemma sextet_value c v : sextet c v -> b64_value c = v /\ is_base64 c = true /\ c <> 61 /\ 0 <= v < 64.
Proof.
  intros [(H & ->)|[(H & ->)|[(H & ->)|[(-> & ->)|(-> & ->)]]]]; [| | |split; [reflexivity|split; [reflexivity|lia]]|split; [reflexivity|split; [reflexivity|lia]]]; unfold b64_value, is_base64, is_letter, is_digit.
  - replace ((65 <=? c) && (c <=? 90)) with true by lia. lia.
  - replace ((65 <=? c) && (c <=? 90)) with false by lia. replace ((97 <=? c) && (c <=? 122)) with true by lia. lia.
  - replace ((65 <=? c) && (c <=? 90)) with false by lia. replace ((97 <=? c) && (c <=? 122)) with false by lia. replace ((48 <=? c) && (c <=? 57)) with true by lia. lia.
Qed.
Lemma base64_decodes e b : base64 e b -> b64_decode e = Ok b.
Proof.
  unfold b64_decode. induction 1 as [|c1 c2 v1 v2 a S1 S2 O1 E|c1 c2 c3 v1 v2 v3 a b S1 S2 S3 O1 O2 E|c1 c2 c3 c4 v1 v2 v3 v4 a b c l r S1 S2 S3 S4 O1 O2 O3 E B IH].
  - reflexivity.
  - destruct (sextet_value _ _ S1) as (V1 & _ & N1 & R1). destruct (sextet_value _ _ S2) as (V2 & _ & N2 & R2). unfold octet in *.
    rewrite (decode_char _ _ _ _ _ N1), V1. cbv zeta. change (0 =? 0) with true. cbv iota.
    rewrite (decode_char _ _ _ _ _ N2), V2. cbv zeta. change (1 =? 0) with false. change (1 =? 1) with true. cbv iota.
    cbn [b64_decode_from bind]. change ((2 <=? 2) && (4 <=? 2 + (0 + 1))) with false. cbn. f_equal. f_equal. Z.to_euclidean_division_equations; lia.
  - destruct (sextet_value _ _ S1) as (V1 & _ & N1 & R1). destruct (sextet_value _ _ S2) as (V2 & _ & N2 & R2). destruct (sextet_value _ _ S3) as (V3 & _ & N3 & R3). unfold octet in *.
    rewrite (decode_char _ _ _ _ _ N1), V1. cbv zeta. change (0 =? 0) with true. cbv iota.
    rewrite (decode_char _ _ _ _ _ N2), V2. cbv zeta. change (1 =? 0) with false. change (1 =? 1) with true. cbv iota.
    rewrite (decode_char _ _ _ _ _ N3), V3. cbv zeta. change (2 =? 0) with false. change (2 =? 1) with false. change (2 =? 2) with true. cbv iota.
    cbn [b64_decode_from bind]. change ((2 <=? 3) && (4 <=? 3 + (0 + 1))) with true. cbn. f_equal. f_equal; [|f_equal]; Z.to_euclidean_division_equations; lia.
  - destruct (sextet_value _ _ S1) as (V1 & _ & N1 & R1). destruct (sextet_value _ _ S2) as (V2 & _ & N2 & R2). destruct (sextet_value _ _ S3) as (V3 & _ & N3 & R3). destruct (sextet_value _ _ S4) as (V4 & _ & N4 & R4). unfold octet in *.
    rewrite (decode_char _ _ _ _ _ N1), V1. cbv zeta. change (0 =? 0) with true. cbv iota.
    rewrite (decode_char _ _ _ _ _ N2), V2. cbv zeta. change (1 =? 0) with false. change (1 =? 1) with true. cbv iota.
    rewrite (decode_char _ _ _ _ _ N3), V3. cbv zeta. change (2 =? 0) with false. change (2 =? 1) with false. change (2 =? 2) with true. cbv iota.
    rewrite (decode_char _ _ _ _ _ N4), V4. cbv zeta. change (3 =? 0) with false. change (3 =? 1) with false. change (3 =? 2) with false. cbv iota.
    rewrite IH. cbn [bind]. f_equal. f_equal; [|f_equal; [|f_equal]]; Z.to_euclidean_division_equations; lia.
Qed.
Lemma base64_shape e b : base64 e b -> exists ds n, e = ds ++ repeat 61 n /\ Forall (fun c => is_base64 c = true) ds /\ (n <= 2)%nat /\ (zlen ds + Z.of_nat n) mod 4 = 0.
Proof.
  induction 1 as [|c1 c2 v1 v2 a S1 S2 O1 E|c1 c2 c3 v1 v2 v3 a b S1 S2 S3 O1 O2 E|c1 c2 c3 c4 v1 v2 v3 v4 a b c l r S1 S2 S3 S4 O1 O2 O3 E B (ds & n & -> & F & LN & M)].
  - exists [], O. split; [reflexivity|]. split; [constructor|]. split; [lia|reflexivity].
  - exists [c1; c2], 2%nat. split; [reflexivity|]. split; [|split; [lia|reflexivity]]. constructor; [apply (sextet_value _ _ S1)|constructor; [apply (sextet_value _ _ S2)|constructor]].
  - exists [c1; c2; c3], 1%nat. split; [reflexivity|]. split; [|split; [lia|reflexivity]]. constructor; [apply (sextet_value _ _ S1)|constructor; [apply (sextet_value _ _ S2)|constructor; [apply (sextet_value _ _ S3)|constructor]]].
  - exists (c1 :: c2 :: c3 :: c4 :: ds), n. split; [reflexivity|]. split; [|split; [exact LN|]].
    + constructor; [apply (sextet_value _ _ S1)|constructor; [apply (sextet_value _ _ S2)|constructor; [apply (sextet_value _ _ S3)|constructor; [apply (sextet_value _ _ S4)|exact F]]]].
    + rewrite !zlen_cons. replace (1 + (1 + (1 + (1 + zlen ds))) + Z.of_nat n) with (zlen ds + Z.of_nat n + 1 * 4) by lia. rewrite Z.mod_add by lia. exact M.
Qed.

(** * Blobs *)
Lemma ws_blob v f an l ws : Forall (fun c => is_ws c = true) ws -> forall prev n pd, prev <> 125 -> exists prev', hrun0 v (HBlob prev n pd) (blob_ctx f an l) ws (HBlob prev' n pd) (blob_ctx f an l) /\ prev' <> 125 /\ (prev <> 61 -> prev' <> 61).
Proof.
  induction 1 as [|w ws W F IH]; intros prev n pd N; [exists prev; split; [constructor|auto]|]. pose proof (is_ws_cases w W) as C.
  destruct (IH w n pd ltac:(lia)) as (prev' & R & N' & N''). exists prev'. split; [|split; [exact N'|intros _; apply N''; lia]].
  eapply h0_cons with (h1 := HBlob w n pd) (k1 := blob_ctx f an l); [|reflexivity|exact R]. unfold send, send_blob. cbn [cz plain]. rewrite W. replace (prev =? 125) with false by lia. reflexivity.
Qed.
Lemma base64_not d : is_base64 d = true -> is_ws d = false /\ d <> 125 /\ d <> 61 /\ d <> 34 /\ d <> 39.
Proof. unfold is_base64, is_letter, is_digit, is_ws, mem, c_ws. cbn [existsb]. lia. Qed.
(** One character of the text. *)
Lemma char_blob v f an l c ds m e prev n pd : c :: e = ds ++ repeat 61 m -> Forall (fun c => is_base64 c = true) ds -> prev <> 125 -> (ds <> [] -> prev <> 61) ->
  exists ds' m' n' pd', e = ds' ++ repeat 61 m' /\ Forall (fun c => is_base64 c = true) ds' /\ n' + zlen ds' = n + zlen ds /\ pd' + Z.of_nat m' = pd + Z.of_nat m /\ c <> 125 /\ (ds' <> [] -> c <> 61) /\
    send v (HBlob prev n pd) (plain c) (blob_ctx f an l) = Ok (TGo (HBlob c n' pd'), blob_ctx f an (l ++ [c]), []) /\
    (is_ws c = false /\ c <> 34 /\ c <> 39) /\ (n = 0 -> pd = 0 -> start_blob (plain c) (blob_ctx f an l) = Ok (TGo (HBlob c n' pd'), blob_ctx f an (l ++ [c]), [])).
Proof.
  intros E F N1 N2. destruct ds as [|d ds].
  - destruct m as [|m]; [discriminate|]. cbn [app repeat] in E. injection E as -> ->. exists [], m, n, (pd + 1). split; [reflexivity|]. split; [constructor|]. split; [reflexivity|]. split; [lia|]. split; [lia|]. split; [congruence|].
    split; [|split; [split; [reflexivity|lia]|intros -> ->; reflexivity]].
    unfold send, send_blob. cbn [cz plain]. change (is_ws 61) with false. change (is_base64 61) with false. change (61 =? 125) with false. change (61 =? 61) with true. replace (prev =? 125) with false by lia. reflexivity.
  - cbn [app] in E. injection E as -> ->. pose proof (Forall_inv F) as Hd. cbn beta in Hd. pose proof (Forall_inv_tail F) as F'. destruct (base64_not d Hd) as (D1 & D2 & D3 & D4 & D5). specialize (N2 ltac:(discriminate)).
    exists ds, m, (n + 1), pd. split; [reflexivity|]. split; [exact F'|]. split; [rewrite zlen_cons; lia|]. split; [reflexivity|]. split; [exact D2|]. split; [auto|].
    split; [|split; [auto|]].
    + unfold send, send_blob. cbn [cz plain]. rewrite D1. replace (d =? 125) with false by lia. rewrite Hd. replace ((prev =? 125) || (prev =? 61)) with false by lia. reflexivity.
    + intros -> ->. unfold start_blob. cbn [cz plain]. rewrite D1. replace ((d =? 125) || false) with false by lia. rewrite Hd. reflexivity.
Qed.
Lemma loose_blob v f an w e : loose w e -> forall ds m prev n pd l, e = ds ++ repeat 61 m -> Forall (fun c => is_base64 c = true) ds -> prev <> 125 -> (ds <> [] -> prev <> 61) ->
  hrun0 v (HBlob prev n pd) (blob_ctx f an l) (w ++ [125]) (HBlob 125 (n + zlen ds) (pd + Z.of_nat m)) (blob_ctx f an (l ++ e)).
Proof.
  induction 1 as [ws W|ws c w e W L IH]; intros ds m prev n pd l E F N1 N2.
  - symmetry in E. apply app_eq_nil in E as (-> & E). destruct m; [|discriminate]. cbn [repeat app Z.of_nat]. change (zlen (@nil Z)) with 0. rewrite !Z.add_0_r, app_nil_r.
    destruct (ws_blob v f an l ws (blanks_ws _ W) prev n pd N1) as (prev' & R & N' & _). eapply hrun0_app; [exact R|].
    eapply h0_cons with (h1 := HBlob 125 n pd) (k1 := blob_ctx f an l); [|reflexivity|constructor]. unfold send, send_blob. cbn [cz plain]. change (is_ws 125) with false. change (125 =? 125) with true. replace (prev' =? 125) with false by lia. reflexivity.
  - destruct (ws_blob v f an l ws (blanks_ws _ W) prev n pd N1) as (p1 & R & P1 & P2).
    destruct (char_blob v f an l c ds m e p1 n pd E F P1 (fun X => P2 (N2 X))) as (ds' & m' & n' & pd' & E' & F' & A1 & A2 & C1 & C2 & SE & _).
    rewrite <- app_assoc. eapply hrun0_app; [exact R|]. cbn [app]. eapply h0_cons; [exact SE|reflexivity|].
    rewrite <- A1, <- A2. replace (l ++ c :: e) with ((l ++ [c]) ++ e) by (rewrite <- app_assoc; reflexivity). eapply IH; eauto.
Qed.
Lemma lob_blanks v f an ws : Forall (fun c => is_ws c = true) ws -> hrun0 v (HLob0 0) (kid f an) ws (HLob0 0) (kid f an).
Proof.
  induction 1 as [|w ws W F IH]; [constructor|]. eapply h0_cons with (h1 := HLob0 0) (k1 := kid f an); [|reflexivity|exact IH]. unfold send, send_lob0. cbn [cz plain]. rewrite W. reflexivity.
Qed.
(** From the first brace to after the second. *)
Lemma lob_start uni p f an child s q : p_field p = false -> At p child false (plain 123) s -> child_of child f an -> goes uni s (plain 123 :: q) [] (Tok0 p (kid f an) (HLob0 0)) q.
Proof.
  intros PF HA HC. eapply goes_quiet.
  { eapply (begin_tok0 uni p child f an 123 s _ HBrace (kid f an)); [exact HA|exact HC|reflexivity|reflexivity|reflexivity| |reflexivity]. rewrite PF. reflexivity. }
  intros s1 T1. change (plain 123 :: q) with (map plain [123] ++ q). eapply hrun0_goes; [|exact T1]. eapply h0_cons; [reflexivity|reflexivity|constructor].
Qed.
Lemma lob_done uni at_ p k h s ev k' g rest : sits at_ p -> deep p rest -> trailing at_ False rest g -> Tok0 p k h s -> send (penv uni p) h (plain 125) k = Ok (TEv ev None, k', []) -> k_comp k' = false -> k_self k' = true -> is_container_start ev = false ->
  to uni s (all (125 :: g ++ rest)) [ev] (Done p rest).
Proof.
  intros SI DP TR T SE C SF N. rewrite all_cons. eapply (goes_to _ _ _ [ev] _ _ []); [eapply tok0_emits_self; eassumption|]. intros s1 I1.
  eapply to_quiet; [apply idle_here; exact I1|]. intros s2 q2 H2. eapply done_here; eauto. exact bare_none.
Qed.
Theorem blob_text_reads at_ w e b : base64 e b -> loose w e -> scalar_reads at_ (txt "{{" ++ w ++ txt "}}") TBlob (Some (VBytes b)) free.
Proof.
  intros B L. destruct (base64_shape e b B) as (ds & m & E & F & LM & M). change (txt "{{" ++ w ++ txt "}}") with (123 :: 123 :: w ++ [125; 125]).
  exists 123, (123 :: w ++ [125; 125]). split; [reflexivity|]. split; [reflexivity|]. intros uni p f an child s g rest SI FS FO HA HC MF TR DP NC NI.
  exists (scalar_event p f an TBlob (EvLazy (Ok (VBytes b)))). split; [right; exists (VBytes b); split; reflexivity|].
  cbn [app]. rewrite all_cons. eapply goes_to0; [eapply lob_start; eauto; apply SI|]. intros s1 T1.
  assert (R : hrun0 (penv uni p) (HLob0 0) (kid f an) (w ++ [125]) (HBlob 125 (zlen ds) (Z.of_nat m)) (blob_ctx f an e)).
  { change (kid f an) with (blob_ctx f an []). destruct L as [ws W|ws c w e W L].
    - symmetry in E. apply app_eq_nil in E as (-> & E). destruct m; [|discriminate].
      eapply hrun0_app; [apply lob_blanks; now apply blanks_ws|]. eapply h0_cons; [reflexivity|reflexivity|constructor].
    - destruct (char_blob (penv uni p) f an [] c ds m e 0 0 0 E F ltac:(lia) ltac:(lia)) as (ds' & m' & n' & pd' & E' & F' & A1 & A2 & C1 & C2 & _ & (W1 & W2 & W3) & SB).
      rewrite <- app_assoc. eapply hrun0_app; [apply lob_blanks; now apply blanks_ws|]. cbn [app].
      eapply h0_cons with (h1 := HBlob c n' pd') (k1 := blob_ctx f an [c]); [|reflexivity|].
      + unfold send, send_lob0. cbn [cz plain]. rewrite W1. replace (c =? 34) with false by lia. replace (c =? 39) with false by lia. exact (SB eq_refl eq_refl).
      + change (zlen ds) with (0 + zlen ds). change (Z.of_nat m) with (0 + Z.of_nat m). rewrite <- A1, <- A2. change (c :: e) with ([c] ++ e). now apply loose_blob. }
  replace ((w ++ [125; 125]) ++ g ++ rest) with ((w ++ [125]) ++ 125 :: g ++ rest) by (rewrite <- !app_assoc; reflexivity). rewrite all_app.
  eapply goes_to0; [eapply hrun0_goes; [exact R|exact T1]|]. intros s2 T2.
  eapply (lob_done uni at_ p _ _ s2 _ (set_self true (blob_ctx f an e))); eauto.
  unfold send, send_blob, parse_blob. cbn [cz plain]. change (is_ws 125) with false. change (125 =? 125) with true. replace (3 <? Z.of_nat m) with false by lia. rewrite M. change (0 =? 0) with true. cbn [orb negb].
  cbn [set_self blob_ctx k_codes k_val]. rewrite (base64_decodes e b B). reflexivity.
Qed.

(** * Clobs *)
Lemma narrow_item (raw : Z -> Prop) w s : (forall c, raw c -> c <= 127) -> item raw false w s -> Forall (fun c => c < 256) s.
Proof.
  intros RW I. inversion I as [c R SV|R|R|c v EV| | | |h v L H|? ? X|? ? X|? ? ? ? X]; subst; try discriminate; try (constructor; fail).
  - specialize (RW c R). constructor; [lia|constructor].
  - constructor; [lia|constructor].
  - constructor; [lia|constructor].
  - constructor; [|constructor]. unfold escape_value in EV. cbn [In] in EV. repeat (destruct EV as [EV|EV]; [injection EV as <- <-; lia|]). destruct EV.
  - destruct (hex_value_of h v H) as (_ & _ & B). unfold zlen in B. rewrite L in B. change (16 ^ Z.of_nat 2) with 256 in B. constructor; [lia|constructor].
Qed.
Lemma narrow_body long (raw : Z -> Prop) w s : (forall c, raw c -> c <= 127) -> body long raw false w s -> Forall (fun c => c < 256) s.
Proof.
  intros RW B. induction B as [|q w s l t Q I LST B IH]; [constructor|]. apply Forall_app. split; [|apply Forall_app; split; [eapply narrow_item; eassumption|exact IH]].
  destruct Q as [->|(_ & [->| ->])]; [constructor|constructor; [lia|constructor]|constructor; [lia|constructor; [lia|constructor]]].
Qed.
Lemma narrow_segments (raw : Z -> Prop) w s : (forall c, raw c -> c <= 127) -> segments (body true raw false) blanks w s -> Forall (fun c => c < 256) s.
Proof. intros RW B. induction B as [w s B|w s g l t B G SG IH]; [eapply narrow_body; eassumption|]. apply Forall_app. split; [eapply narrow_body; eassumption|exact IH]. Qed.
Lemma parse_ok k : Forall (fun c => c < 256) (k_val k) -> parse_clob k = Ok (VBytes (k_val k)).
Proof. intros F. unfold parse_clob. replace (forallb _ _) with true; [reflexivity|]. symmetry. apply forallb_forall. intros x IN. rewrite Forall_forall in F. specialize (F x IN). cbn beta in F. lia. Qed.
(** The end of a clob. *)
Lemma clob_blanks v k ws : k_quoted k = false -> Forall (fun c => is_ws c = true) ws -> forall prev, prev <> 125 -> exists prev', hrun0 v (HClob prev) k ws (HClob prev') k /\ prev' <> 125.
Proof.
  intros KQ. induction 1 as [|w ws W F IH]; intros prev N; [exists prev; split; [constructor|exact N]|]. pose proof (is_ws_cases w W) as C.
  destruct (IH w ltac:(lia)) as (prev' & R & N'). exists prev'. split; [|exact N'].
  eapply h0_cons with (h1 := HClob w) (k1 := k); [|exact KQ|exact R]. unfold send, send_clob. cbn [cz plain]. rewrite W. replace (prev =? 125) with false by lia. reflexivity.
Qed.
Definition clobk (f : option token) (an : list token) (l : text) (qt sf : bool) : tctx := mkk f an true l (Some TClob) None qt false sf false.
Lemma clob_close uni at_ p f an ln sf t s g rest : sits at_ p -> deep p rest -> trailing at_ False rest g -> Forall (fun c => c < 256) t -> Tok0 p (mkk f an true t (Some TClob) None false ln sf false) (HClob 125) s ->
  to uni s (all (125 :: g ++ rest)) [scalar_event p f an TClob (EvLazy (Ok (VBytes t)))] (Done p rest).
Proof.
  intros SI DP TR NT T. eapply (lob_done uni at_ p _ _ s _ (mkk f an true t (Some TClob) None false ln true false)); eauto.
  unfold send, send_clob. cbn [cz plain]. change (is_ws 125) with false. change (125 =? 125) with true. cbv iota zeta. cbn [set_self k_field k_annot k_codes k_val k_type k_pend k_quoted k_line k_comp]. rewrite parse_ok by exact NT. reflexivity.
Qed.
Lemma clob_end_brace v k prev : k_quoted k = false -> prev <> 125 -> hrun0 v (HClob prev) k [125] (HClob 125) k.
Proof.
  intros KQ N. eapply h0_cons with (h1 := HClob 125) (k1 := k); [|exact KQ|constructor]. unfold send, send_clob. cbn [cz plain]. change (is_ws 125) with false. change (125 =? 125) with true. replace (prev =? 125) with false by lia. reflexivity.
Qed.
Theorem clob_text_reads at_ g1 w t g2 : blanks g1 -> clob_body w t -> blanks g2 -> scalar_reads at_ (txt "{{" ++ g1 ++ 34 :: w ++ 34 :: g2 ++ txt "}}") TClob (Some (VBytes t)) free.
Proof.
  intros B1 B B2. assert (NT : Forall (fun c => c < 256) t) by (eapply narrow_body; [|exact B]; intros c (_ & H); exact H).
  change (txt "{{" ++ g1 ++ 34 :: w ++ 34 :: g2 ++ txt "}}") with (123 :: 123 :: g1 ++ 34 :: w ++ 34 :: g2 ++ [125; 125]).
  exists 123, (123 :: g1 ++ 34 :: w ++ 34 :: g2 ++ [125; 125]). split; [reflexivity|]. split; [reflexivity|]. intros uni p f an child s g rest SI FS FO HA HC MF TR DP NC NI.
  exists (scalar_event p f an TClob (EvLazy (Ok (VBytes t)))). split; [right; exists (VBytes t); split; reflexivity|].
  replace ((123 :: g1 ++ 34 :: w ++ 34 :: g2 ++ [125; 125]) ++ g ++ rest) with (123 :: g1 ++ 34 :: w ++ 34 :: (g2 ++ [125]) ++ 125 :: g ++ rest) by (cbn [app]; repeat (rewrite <- app_assoc; cbn [app]); reflexivity).
  rewrite all_cons. eapply goes_to0; [eapply lob_start; eauto; apply SI|]. intros s1 T1. rewrite all_app.
  eapply goes_to0; [eapply hrun0_goes; [apply lob_blanks; now apply blanks_ws|exact T1]|]. intros s2 T2. rewrite all_cons.
  eapply goes_to0; [eapply (tok0_code _ _ _ _ _ _ _ (HStr true false) (clobk f an [] true false)); [exact T2|reflexivity|reflexivity]|]. intros s3 C3. rewrite all_app, all_cons.
  eapply goes_to0.
  { eapply (body_goes uni false false (fun c => short_raw 34 c /\ c <= 127) p 34 c_ws_not_nl (fun _ => HStr true false) (fun l => clobk f an l true false)) with (l := []); [auto|reflexivity|reflexivity| | |discriminate| |exact B|lia|exact C3].
    - intros c (R & L). destruct (short_allowed 34 c R) as (X & Y & _). auto.
    - intros (R & _). exact (short_13 34 R).
    - intros n l c LN LL (C1' & C2'). rewrite (LL eq_refl). unfold send, send_string. rewrite C1'. cbn [negb] in C2'. rewrite C2'. cbn [negb repeat app]. unfold go, kept.
      destruct (gone c); cbn [app]; rewrite ?app_nil_r; reflexivity. }
  intros s4 C4. cbn [app] in C4.
  eapply goes_to0; [eapply (code_out uni p _ _ s4 34 (HClob 34) (clobk f an t false true)); [exact C4|reflexivity|reflexivity|reflexivity]|]. intros s5 T5. rewrite all_app.
  destruct (clob_blanks (penv uni p) (clobk f an t false true) g2 eq_refl (blanks_ws _ B2) 34 ltac:(lia)) as (prev & R & N).
  eapply goes_to0; [eapply hrun0_goes; [|apply in0_tok0; exact T5]; eapply hrun0_app; [exact R|apply clob_end_brace; [reflexivity|exact N]]|]. intros s6 T6.
  eapply clob_close; eauto.
Qed.
Theorem long_clob_text_reads at_ g1 w t g2 : blanks g1 -> segments long_clob_body blanks w t -> blanks g2 -> scalar_reads at_ (txt "{{" ++ g1 ++ w ++ g2 ++ txt "}}") TClob (Some (VBytes t)) free.
Proof.
  intros B1 B B2. assert (NT : Forall (fun c => c < 256) t) by (eapply narrow_segments; [|exact B]; intros c (_ & H); exact H).
  change (txt "{{" ++ g1 ++ w ++ g2 ++ txt "}}") with (123 :: 123 :: g1 ++ w ++ g2 ++ [125; 125]).
  exists 123, (123 :: g1 ++ w ++ g2 ++ [125; 125]). split; [reflexivity|]. split; [reflexivity|]. intros uni p f an child s g rest SI FS FO HA HC MF TR DP NC NI.
  exists (scalar_event p f an TClob (EvLazy (Ok (VBytes t)))). split; [right; exists (VBytes t); split; reflexivity|].
  destruct (segments_go uni p f an TClob true false (fun c => long_raw c /\ c <= 127) blanks (or_intror (conj eq_refl (conj eq_refl eq_refl)))) with (w := w) (t := t) as (w' & -> & G).
  { intros c (R & L). destruct (long_allowed c R) as (X & Y & _). auto. }
  { intros g0 l s0 q BG T. apply between_blanks; [now apply blanks_ws|exact T]. }
  { exact B. }
  replace ((123 :: g1 ++ (39 :: 39 :: 39 :: w') ++ g2 ++ [125; 125]) ++ g ++ rest) with (123 :: g1 ++ 39 :: 39 :: 39 :: w' ++ g2 ++ 125 :: 125 :: g ++ rest) by (cbn [app]; repeat (rewrite <- app_assoc; cbn [app]); reflexivity).
  rewrite all_cons. eapply goes_to0; [eapply lob_start; eauto; apply SI|]. intros s1 T1. rewrite all_app.
  eapply goes_to0; [eapply hrun0_goes; [apply lob_blanks; now apply blanks_ws|exact T1]|]. intros s2 T2. rewrite !all_cons.
  eapply goes_to0; [eapply (tok0_code _ _ _ _ _ _ _ (HLob0 1) (clobk f an [] true false)); [exact T2|reflexivity|reflexivity]|]. intros s3 C3.
  eapply goes_to0; [change (plain 39 :: plain 39 :: all (w' ++ g2 ++ 125 :: 125 :: g ++ rest)) with (map plain [39] ++ plain 39 :: all (w' ++ g2 ++ 125 :: 125 :: g ++ rest)); eapply (code_go uni p _ _ s3 [39] (plain 39) (HLob0 2) (clobk f an [] true false)); [exact C3|reflexivity|reflexivity|reflexivity]|]. intros s4 C4.
  eapply goes_to0; [change (plain 39 :: all (w' ++ g2 ++ 125 :: 125 :: g ++ rest)) with (map plain [39] ++ all (w' ++ g2 ++ 125 :: 125 :: g ++ rest)); eapply (code_go uni p _ _ s4 [39] (plain 39) (HLong 0 true true false) (clobk f an [] true false)); [exact C4|reflexivity|reflexivity|reflexivity]|]. intros s5 C5.
  rewrite all_app. eapply goes_to0; [exact (G [] s5 _ C5)|]. intros s6 T6. cbn [app] in T6. rewrite all_app.
  eapply goes_to0; [apply between_blanks; [now apply blanks_ws|exact T6]|]. intros s7 (ln & sf & T7). rewrite all_cons.
  eapply goes_to0; [eapply (in0_next uni p _ _ s7 125 _ (HClob 125) (lk f an TClob false t false ln false)); [exact T7|reflexivity|reflexivity]|]. intros s8 T8.
  eapply (clob_close uni at_ p f an ln false); eauto. apply in0_tok0. exact T8.
Qed.
