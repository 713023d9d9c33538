(** Base 64: what the writer encodes, the reader decodes. *)
From Verif Require Import Base BaseFacts CoreModel ScalarFacts BinReaderModel TextNumbers TextNumbersFacts TextWriterModel TextReaderModel TextReaderFacts TextWalk TextTokens TextNumberTokens TextQuoted.
Local Open Scope Z_scope.

Lemma b64_char_value n : 0 <= n < 64 -> b64_value (b64_char n) = n /\ is_base64 (b64_char n) = true /\ b64_char n <> 61.
Proof.
  intros H. unfold b64_char. destruct (n <? 26) eqn:A; [unfold b64_value, is_base64, is_letter, is_digit; replace ((65 <=? 65 + n) && (65 + n <=? 90)) with true by lia; repeat split; lia|].
  destruct (n <? 52) eqn:B.
  { unfold b64_value, is_base64, is_letter, is_digit. replace ((65 <=? 71 + n) && (71 + n <=? 90)) with false by lia. replace ((97 <=? 71 + n) && (71 + n <=? 122)) with true by lia. repeat split; lia. }
  destruct (n <? 62) eqn:C.
  { unfold b64_value, is_base64, is_letter, is_digit. replace ((65 <=? n - 4) && (n - 4 <=? 90)) with false by lia. replace ((97 <=? n - 4) && (n - 4 <=? 122)) with false by lia. replace ((48 <=? n - 4) && (n - 4 <=? 57)) with true by lia. repeat split; lia. }
  destruct (n =? 62) eqn:D; (assert (n = 62 \/ n = 63) as [-> | ->] by lia); try discriminate; (split; [reflexivity|split; [reflexivity|lia]]).
Qed.

(** Induction by groups of three. *)
Lemma by_three {A} (P : list A -> Prop) : P [] -> (forall a, P [a]) -> (forall a b, P [a; b]) -> (forall a b c l, P l -> P (a :: b :: c :: l)) -> forall l, P l.
Proof.
  intros H0 H1 H2 H3. assert (G : forall n l, (length l <= n)%nat -> P l).
  { induction n as [|n IH]; intros l HL; [destruct l; [exact H0|cbn in HL; lia]|].
    destruct l as [|a [|b [|c l]]]; auto. apply H3. apply IH. cbn in HL. lia. }
  intros l. exact (G _ l (le_n _)).
Qed.
Ltac euclid := unfold is_octet in *; Z.to_euclidean_division_equations; lia.

Lemma decode_char c r pos left pads : c <> 61 -> b64_decode_from (c :: r) pos left pads =
  let v := b64_value c in
      if pos =? 0 then b64_decode_from r 1 v 0
      else if pos =? 1 then let* o := b64_decode_from r 2 (v mod 16) 0 in Ok (left * 4 + v / 16 :: o)
      else if pos =? 2 then let* o := b64_decode_from r 3 (v mod 4) 0 in Ok (left * 16 + v / 4 :: o)
      else let* o := b64_decode_from r 0 0 0 in Ok (left * 64 + v :: o).
Proof. intros H. cbn [b64_decode_from]. replace (c =? 61) with false by lia. reflexivity. Qed.

Lemma b64_decodes b : octets b -> b64_decode (b64_encode b) = Ok b.
Proof.
  unfold b64_decode. pattern b. apply by_three; clear b.
  - reflexivity.
  - intros a H. inversion H as [|? ? Ha _]; subst. cbn [b64_encode].
    destruct (b64_char_value (a / 4)) as (V1 & _ & N1); [euclid|]. destruct (b64_char_value (a mod 4 * 16)) as (V2 & _ & N2); [euclid|].
    rewrite (decode_char _ _ _ _ _ N1), V1. cbv zeta. change (0 =? 0) with true. cbv iota.
    rewrite (decode_char _ _ _ _ _ N2), V2. cbv zeta. change (1 =? 0) with false. change (1 =? 1) with true. cbv iota.
    cbn [b64_decode_from bind]. change ((2 <=? 2) && (4 <=? 2 + (0 + 1))) with false. cbn. f_equal. f_equal. euclid.
  - intros a b H. inversion H as [|? ? Ha H']; subst. inversion H' as [|? ? Hb _]; subst. cbn [b64_encode].
    destruct (b64_char_value (a / 4)) as (V1 & _ & N1); [euclid|]. destruct (b64_char_value (a mod 4 * 16 + b / 16)) as (V2 & _ & N2); [euclid|].
    destruct (b64_char_value (b mod 16 * 4)) as (V3 & _ & N3); [euclid|].
    rewrite (decode_char _ _ _ _ _ N1), V1. cbv zeta. change (0 =? 0) with true. cbv iota.
    rewrite (decode_char _ _ _ _ _ N2), V2. cbv zeta. change (1 =? 0) with false. change (1 =? 1) with true. cbv iota.
    rewrite (decode_char _ _ _ _ _ N3), V3. cbv zeta. change (2 =? 0) with false. change (2 =? 1) with false. change (2 =? 2) with true. cbv iota.
    cbn [b64_decode_from bind]. change ((2 <=? 3) && (4 <=? 3 + (0 + 1))) with true. cbn. f_equal. f_equal; [|f_equal]; euclid.
  - intros a b c l IH H. inversion H as [|? ? Ha H']; subst. inversion H' as [|? ? Hb H'']; subst. inversion H'' as [|? ? Hc Hl]; subst. cbn [b64_encode].
    destruct (b64_char_value (a / 4)) as (V1 & _ & N1); [euclid|]. destruct (b64_char_value (a mod 4 * 16 + b / 16)) as (V2 & _ & N2); [euclid|].
    destruct (b64_char_value (b mod 16 * 4 + c / 64)) as (V3 & _ & N3); [euclid|]. destruct (b64_char_value (c mod 64)) as (V4 & _ & N4); [euclid|].
    rewrite (decode_char _ _ _ _ _ N1), V1. cbv zeta. change (0 =? 0) with true. cbv iota.
    rewrite (decode_char _ _ _ _ _ N2), V2. cbv zeta. change (1 =? 0) with false. change (1 =? 1) with true. cbv iota.
    rewrite (decode_char _ _ _ _ _ N3), V3. cbv zeta. change (2 =? 0) with false. change (2 =? 1) with false. change (2 =? 2) with true. cbv iota.
    rewrite (decode_char _ _ _ _ _ N4), V4. cbv zeta. change (3 =? 0) with false. change (3 =? 1) with false. change (3 =? 2) with false. cbv iota.
    rewrite (IH Hl). cbn [bind]. f_equal. f_equal; [|f_equal; [|f_equal]]; euclid.
Qed.

Lemma b64_shape b : octets b -> exists ds n, b64_encode b = ds ++ repeat 61 n /\ Forall (fun c => is_base64 c = true) ds /\ (n <= 2)%nat /\
  (zlen ds + Z.of_nat n) mod 4 = 0 /\ (ds = [] -> n = 0%nat).
Proof.
  pattern b. apply by_three; clear b.
  - intros _. exists [], 0%nat. split; [reflexivity|]. split; [constructor|]. split; [lia|]. split; [reflexivity|]. reflexivity.
  - intros a H. inversion H as [|? ? Ha _]; subst. exists [b64_char (a / 4); b64_char (a mod 4 * 16)], 2%nat. split; [reflexivity|].
    split; [constructor; [apply b64_char_value; euclid|constructor; [apply b64_char_value; euclid|constructor]]|]. split; [lia|]. split; [reflexivity|discriminate].
  - intros a b H. inversion H as [|? ? Ha H']; subst. inversion H' as [|? ? Hb _]; subst. exists [b64_char (a / 4); b64_char (a mod 4 * 16 + b / 16); b64_char (b mod 16 * 4)], 1%nat. split; [reflexivity|].
    split; [constructor; [apply b64_char_value; euclid|constructor; [apply b64_char_value; euclid|constructor; [apply b64_char_value; euclid|constructor]]]|]. split; [lia|]. split; [reflexivity|discriminate].
  - intros a b c l IH H. inversion H as [|? ? Ha H']; subst. inversion H' as [|? ? Hb H'']; subst. inversion H'' as [|? ? Hc Hl]; subst.
    destruct (IH Hl) as (ds & n & E & F & N & M & _). cbn [b64_encode]. rewrite E.
    exists (b64_char (a / 4) :: b64_char (a mod 4 * 16 + b / 16) :: b64_char (b mod 16 * 4 + c / 64) :: b64_char (c mod 64) :: ds), n. split; [reflexivity|].
    split; [do 4 (constructor; [apply b64_char_value; euclid|]); exact F|]. split; [exact N|]. split; [|discriminate].
    unfold zlen in *. cbn [length]. rewrite <- M. replace (Z.of_nat (S (S (S (S (length ds))))) + Z.of_nat n) with (Z.of_nat (length ds) + Z.of_nat n + 1 * 4) by lia. apply Z.mod_add. lia.
Qed.

Definition blob_ctx (f : option token) (an : list token) (l : list Z) : tctx := mkk f an false l None None false false false false.
Lemma blob_digits v f an ds : Forall (fun c => is_base64 c = true) ds -> forall prev n l, prev <> 125 -> prev <> 61 ->
  exists prev', hrun0 v (HBlob prev n 0) (blob_ctx f an l) ds (HBlob prev' (n + zlen ds) 0) (blob_ctx f an (l ++ ds)) /\ prev' <> 125.
Proof.
  induction 1 as [|d ds Hd F IH]; intros prev n l N1 N2.
  - exists prev. rewrite app_nil_r. change (zlen (@nil Z)) with 0. rewrite Z.add_0_r. split; [constructor|exact N1].
  - assert (D : is_ws d = false /\ d <> 125 /\ d <> 61). { unfold is_base64, is_letter, is_digit in Hd. unfold is_ws, mem, c_ws. cbn [existsb]. lia. }
    destruct D as (D1 & D2 & D3). destruct (IH d (n + 1) (l ++ [d]) D2 D3) as (prev' & R & N). exists prev'. split; [|exact N].
    eapply h0_cons with (h1 := HBlob d (n + 1) 0) (k1 := blob_ctx f an (l ++ [d])); [|reflexivity|].
    + unfold send, send_blob. cbn [cz plain]. rewrite D1. replace (d =? 125) with false by lia. rewrite Hd. replace ((prev =? 125) || (prev =? 61)) with false by lia. reflexivity.
    + replace (n + zlen (d :: ds)) with (n + 1 + zlen ds) by (rewrite zlen_cons; lia). replace (l ++ d :: ds) with ((l ++ [d]) ++ ds) by (rewrite <- app_assoc; reflexivity). exact R.
Qed.
Lemma blob_pads v f an m n : forall prev p l, prev <> 125 ->
  exists prev', hrun0 v (HBlob prev n p) (blob_ctx f an l) (repeat 61 m) (HBlob prev' n (p + Z.of_nat m)) (blob_ctx f an (l ++ repeat 61 m)) /\ prev' <> 125.
Proof.
  induction m as [|m IH]; intros prev p l N1.
  - exists prev. cbn [repeat]. rewrite app_nil_r, Z.add_0_r. split; [constructor|exact N1].
  - destruct (IH 61 (p + 1) (l ++ [61]) ltac:(lia)) as (prev' & R & N). exists prev'. split; [|exact N].
    eapply h0_cons with (h1 := HBlob 61 n (p + 1)) (k1 := blob_ctx f an (l ++ [61])); [|reflexivity|].
    + unfold send, send_blob. cbn [cz plain]. change (is_ws 61) with false. change (is_base64 61) with false. change (61 =? 125) with false. change (61 =? 61) with true. replace (prev =? 125) with false by lia. reflexivity.
    + replace (p + Z.of_nat (S m)) with (p + 1 + Z.of_nat m) by lia. replace (l ++ repeat 61 (S m)) with ((l ++ [61]) ++ repeat 61 m) by (rewrite <- app_assoc; reflexivity). exact R.
Qed.
Lemma hrun0_app v h k l1 h1 k1 l2 h2 k2 : hrun0 v h k l1 h1 k1 -> hrun0 v h1 k1 l2 h2 k2 -> hrun0 v h k (l1 ++ l2) h2 k2.
Proof. induction 1; intros R; [exact R|]. cbn [app]. eapply h0_cons; eauto. Qed.

Theorem blob_reads b : octets b -> reads ([123; 123] ++ b64_encode b ++ [125; 125]) TBlob (EvLazy (Ok (VBytes b))).
Proof.
  intros F. destruct (b64_shape b F) as (ds & n & E & FD & NP & M & NE).
  exists 123, (123 :: b64_encode b ++ [125; 125]). split; [reflexivity|]. split; [reflexivity|].
  intros uni p child f an s ws stop q PO PF HA HC FL.
  eapply goes_quiet.
  { eapply (begin_tok0 uni p child f an 123 s _ HBrace (kid f an)); [exact HA|exact HC|reflexivity|reflexivity|reflexivity| |reflexivity]. rewrite PF. reflexivity. }
  intros s1 T1.
  assert (R : exists dg pd, hrun0 (penv uni p) HBrace (kid f an) (123 :: b64_encode b ++ [125]) (HBlob 125 dg pd) (blob_ctx f an (b64_encode b)) /\ pd <= 2 /\ (dg + pd) mod 4 = 0).
  { rewrite E. destruct ds as [|d ds].
    - rewrite (NE eq_refl). exists 0, 0. split; [|split; [lia|reflexivity]]. eapply h0_cons; [reflexivity|reflexivity|]. eapply h0_cons; [reflexivity|reflexivity|constructor].
    - inversion FD as [|? ? Hd FD']; subst.
      assert (D : is_ws d = false /\ d <> 125 /\ d <> 61 /\ d <> 34 /\ d <> 39). { unfold is_base64, is_letter, is_digit in Hd. unfold is_ws, mem, c_ws. cbn [existsb]. lia. }
      destruct D as (D1 & D2 & D3 & D4 & D5).
      destruct (blob_digits (penv uni p) f an ds FD' d 1 [d] D2 D3) as (p1 & R1 & N1).
      destruct (blob_pads (penv uni p) f an n (1 + zlen ds) p1 0 ([d] ++ ds) N1) as (p2 & R2 & N2).
      exists (1 + zlen ds), (0 + Z.of_nat n). split; [|split; [lia|rewrite zlen_cons in M; replace (1 + zlen ds + (0 + Z.of_nat n)) with (zlen ds + 1 + Z.of_nat n) by lia; replace (zlen ds + 1) with (1 + zlen ds) in * by lia; exact M]].
      eapply h0_cons; [reflexivity|reflexivity|]. cbn [app].
      eapply h0_cons with (h1 := HBlob d 1 0) (k1 := blob_ctx f an [d]); [|reflexivity|].
      + unfold send, send_lob0, start_blob. cbn [cz plain]. rewrite D1. replace (d =? 34) with false by lia. replace (d =? 39) with false by lia. replace ((d =? 125) || false) with false by lia. rewrite Hd. reflexivity.
      + replace ((ds ++ repeat 61 n) ++ [125]) with (ds ++ repeat 61 n ++ [125]) by (rewrite <- app_assoc; reflexivity). eapply hrun0_app; [exact R1|]. eapply hrun0_app; [exact R2|]. change (d :: ds ++ repeat 61 n) with (([d] ++ ds) ++ repeat 61 n).
        eapply h0_cons with (h1 := HBlob 125 (1 + zlen ds) (0 + Z.of_nat n)) (k1 := blob_ctx f an (([d] ++ ds) ++ repeat 61 n)); [|reflexivity|constructor]. unfold send, send_blob. cbn [cz plain]. change (is_ws 125) with false. change (125 =? 125) with true. replace (p2 =? 125) with false by lia. reflexivity. }
  destruct R as (dg & pd & R & PD & MM).
  destruct FL as (W & NW & N1 & N2 & ST & EN).
  eapply goes_quiet.
  { replace (123 :: b64_encode b ++ [125; 125]) with ((123 :: b64_encode b ++ [125]) ++ [125]) by (cbn [app]; rewrite <- app_assoc; reflexivity). rewrite map_app, <- app_assoc.
    eapply hrun0_goes; [exact R|exact T1]. }
  intros s2 T2. cbn [map app]. eapply (goes_then _ _ _ [_] _ _ _ []).
  { eapply (tok0_emits_self uni p (blob_ctx f an (b64_encode b)) (HBlob 125 dg pd) s2 125 _ (scalar_event p f an TBlob (EvLazy (Ok (VBytes b)))) (set_self true (blob_ctx f an (b64_encode b)))); [exact T2| |reflexivity|reflexivity|reflexivity].
    unfold send, send_blob, parse_blob. cbn [cz plain]. change (is_ws 125) with false. change (125 =? 125) with true. replace (3 <? pd) with false by lia. rewrite MM. change (0 =? 0) with true. cbn [orb negb].
    cbn [set_self blob_ctx k_codes k_val]. rewrite (b64_decodes b F). reflexivity. }
  intros s3 I3. apply idle_ws; assumption.
Qed.
