(** Quoted text: what the writer escapes, the reader reads back. *)
From Verif Require Import Base BaseFacts CoreModel ScalarFacts BinReaderModel TextNumbers TextNumbersFacts TextWriterModel TextReaderModel TextReaderFacts TextWalk TextTokens TextNumberTokens.
Local Open Scope Z_scope.

(** A code point that is not a surrogate. *)
Definition code_point (c : Z) : Prop := 0 <= c <= 0x10FFFF /\ ~ 0xD800 <= c <= 0xDFFF.

(** * One code point *)
Fixpoint cp_runs (uni : bool) (s : cps) (l : list Z) (c : ch) : Prop :=
  match l with
  | [] => False
  | z :: r =>
    match r with
    | [] => cp_step uni s z = Ok (CDone c [])
    | _ => exists s', cp_step uni s z = Ok (CMore s' []) /\ cp_runs uni s' r c
    end
  end.
Lemma cp_more uni s z s' r c : cp_step uni s z = Ok (CMore s' []) -> cp_runs uni s' r c -> cp_runs uni s (z :: r) c.
Proof. intros H R. destruct r as [|y r]; [destruct R|]. exists s'. auto. Qed.
Lemma hex_char_hex c : hex_lower c -> is_hex c = true.
Proof. unfold hex_lower, is_hex, is_digit. lia. Qed.
Lemma hex_steps uni low num ds : forall esc c, Forall hex_lower ds -> ds <> [] -> last esc 0 <> 92 -> zlen esc + zlen ds = num ->
  escape_done (esc ++ ds) low = Ok (CDone c []) -> cp_runs uni (CEsc esc low num) ds c.
Proof.
  induction ds as [|d ds IH]; intros esc c H NE L N E; [congruence|]. inversion H as [|? ? Hd Hds]; subst. cbn [cp_runs].
  assert (S : cp_step uni (CEsc esc low (zlen esc + zlen (d :: ds))) d = if zlen (esc ++ [d]) =? zlen esc + zlen (d :: ds) then escape_done (esc ++ [d]) low else Ok (CMore (CEsc (esc ++ [d]) low (zlen esc + zlen (d :: ds))) [])).
  { cbn [cp_step]. replace (last esc 0 =? 92) with false by lia. rewrite (hex_char_hex d Hd). reflexivity. }
  destruct ds as [|d' ds].
  - rewrite S. unfold zlen at 1 2 3. rewrite app_length. cbn [length]. replace (_ =? _) with true by lia. exact E.
  - eexists. split.
    + rewrite S. unfold zlen at 1 2 3. rewrite app_length. cbn [length]. replace (_ =? _) with false by lia. reflexivity.
    + apply IH; [exact Hds|discriminate|rewrite last_last; chars; unfold hex_lower in Hd; lia|unfold zlen; rewrite app_length; cbn [length]; lia|rewrite <- app_assoc; exact E].
Qed.
Definition escapes (c : Z) : bool := negb (is_printable_ascii c) || (c =? 92).
Lemma octets_cp (uni : bool) q c : q = 34 \/ q = 39 -> code_point c -> (uni = false -> c <= 255) ->
  cp_runs uni (CStart [] false) (text_octets (Some q) c) (Ch c (escapes c || (c =? q)) false).
Proof.
  intros Q (R & NS) U. unfold text_octets. cbn [opt_eqb].
  assert (BS : cp_step uni (CStart [] false) 92 = Ok (CMore (CEsc [92] false 0) [])) by reflexivity.
  destruct (c =? q) eqn:EQ.
  { rewrite orb_true_r. assert (c = q) by lia. subst c. eapply cp_more; [exact BS|]. destruct Q as [->| ->]; destruct uni; reflexivity. }
  rewrite orb_false_r. destruct (c =? 92) eqn:E92.
  { assert (c = 92) by lia. subst c. eapply cp_more; [exact BS|]. destruct uni; reflexivity. }
  unfold escapes. rewrite E92, orb_false_r. destruct (is_printable_ascii c) eqn:PA; cbn [negb].
  { unfold is_printable_ascii in PA. cbn [cp_runs cp_step]. unfold is_low, is_high. replace (_ && _) with false by lia. replace (_ && _) with false by lia.
    replace (c =? 92) with false by lia. replace (c =? 13) with false by lia. reflexivity. }
  unfold escape. destruct (c =? 10) eqn:E10; [assert (c = 10) by lia; subst c; eapply cp_more; [exact BS|]; destruct uni; reflexivity|].
  destruct (c =? 13) eqn:E13; [assert (c = 13) by lia; subst c; eapply cp_more; [exact BS|]; destruct uni; reflexivity|].
  destruct (c =? 9) eqn:E9; [assert (c = 9) by lia; subst c; eapply cp_more; [exact BS|]; destruct uni; reflexivity|].
  assert (FIN : forall esc, decode_escape esc = Ok [c] -> escape_done esc false = Ok (CDone (Ch c true false) [])).
  { intros esc D. unfold escape_done. rewrite D. cbn [bind]. unfold is_low, is_high. replace (_ && _) with false by lia. replace (_ && _) with false by lia. reflexivity. }
  destruct (c <=? 0xFF) eqn:B1; [|destruct (c <=? 0xFFFF) eqn:B2].
  - destruct (hex_digits 2 c ltac:(cbn; lia) ltac:(lia)) as (L & F & V).
    eapply cp_more; [exact BS|]. eapply cp_more with (s' := CEsc [92; 120] false 4); [destruct uni; reflexivity|].
    change (hex_str 2 c) with (pad 2 (map digit_char (base_digits 16 c))) in *. set (ds := pad 2 (map digit_char (base_digits 16 c))) in *. clearbody ds.
    apply hex_steps; [exact F|intros ->; discriminate|cbn; lia|unfold zlen; rewrite L; reflexivity|].
    apply FIN. do 2 (destruct ds as [|? ds]; [discriminate|]). destruct ds; [|discriminate]. cbn [app decode_escape]. unfold hex_value. rewrite V. reflexivity.
  - destruct uni; [|specialize (U eq_refl); lia].
    destruct (hex_digits 4 c ltac:(cbn; lia) ltac:(lia)) as (L & F & V).
    eapply cp_more; [exact BS|]. eapply cp_more with (s' := CEsc [92; 117] false 6); [reflexivity|].
    change (hex_str 4 c) with (pad 4 (map digit_char (base_digits 16 c))) in *. set (ds := pad 4 (map digit_char (base_digits 16 c))) in *. clearbody ds.
    apply hex_steps; [exact F|intros ->; discriminate|cbn; lia|unfold zlen; rewrite L; reflexivity|].
    apply FIN. do 4 (destruct ds as [|? ds]; [discriminate|]). destruct ds; [|discriminate]. cbn [app decode_escape]. unfold hex_value. change (zlen [92; 117; z; z0; z1; z2] =? 6) with true. rewrite V. reflexivity.
  - destruct uni; [|specialize (U eq_refl); lia].
    destruct (hex_digits 8 c ltac:(cbn; lia) ltac:(lia)) as (L & F & V).
    eapply cp_more; [exact BS|]. eapply cp_more with (s' := CEsc [92; 85] false 10); [reflexivity|].
    change (hex_str 8 c) with (pad 8 (map digit_char (base_digits 16 c))) in *. set (ds := pad 8 (map digit_char (base_digits 16 c))) in *. clearbody ds.
    apply hex_steps; [exact F|intros ->; discriminate|cbn; lia|unfold zlen; rewrite L; reflexivity|].
    apply FIN. do 8 (destruct ds as [|? ds]; [discriminate|]). destruct ds; [|discriminate]. cbn [app decode_escape]. unfold hex_value. rewrite V. replace (c <=? 0x10FFFF) with true by lia. reflexivity.
Qed.

(** * In the machine *)
Lemma code_take uni p k h cs cm fl z a : (exists c, cp_step (negb (is_clob k)) cs z = Ok (CDone c []) /\ send (penv uni p) h c k = Ok a /\ snd a = [] ) -> exists c, cp_step (negb (is_clob k)) cs z = Ok (CDone c []) /\
  take uni (core p (Some k) false cm fl (PRead (KCode cs h) false false)) (KCode cs h) (plain z) =
  handled (core p (Some k) false cm fl (PRead (KCode cs h) false false)) c a.
Proof.
  intros (c & CP & SE & NB). exists c. split; [exact CP|]. unfold take. cbn [core t_child cz plain]. rewrite CP. cbn [bind].
  change (env_of uni _) with (penv uni p). rewrite SE. cbn [bind]. destruct a as [[t k'] u]. cbn in NB. subst u. fold (core p (Some k) false cm fl (PRead (KCode cs h) false false)).
  destruct (handled (core p (Some k) false cm fl (PRead (KCode cs h) false false)) c (t, k', [])) as [[[s' ev] u']|e]; cbn [bind]; [rewrite app_nil_r|]; reflexivity.
Qed.
Lemma code_step uni p k h s l : forall cs c, Code p k h cs s -> cp_runs (negb (is_clob k)) cs l c -> forall q (P : tcore -> Prop) e q2,
  (forall s' cs' z, Code p k h cs' s' -> cp_step (negb (is_clob k)) cs' z = Ok (CDone c []) -> goes uni s' (plain z :: q) e P q2) ->
  goes uni s (map plain l ++ q) e P q2.
Proof.
  revert s. induction l as [|z l IH]; intros s cs c HC R q P e q2 K; [destruct R|]. cbn [cp_runs] in R. destruct l as [|y l].
  - apply (K s cs z HC R).
  - destruct R as (cs' & S & R). destruct HC as (cm & fl & ->).
    change (map plain (z :: y :: l) ++ q) with (plain z :: (map plain (y :: l) ++ q)). eapply goes_via.
    + eapply m_read0 with (s' := core p (Some k) false cm fl (PRead (KCode cs' h) false false)); [reflexivity|]. unfold take. cbn [core t_child cz plain]. rewrite S. reflexivity.
    + eapply (IH _ cs' c); [exists cm, fl; reflexivity|exact R|exact K].
Qed.
(** Another code point of the text. *)
Lemma code_go uni p k h s l c h' k' q : Code p k h (CStart [] false) s -> cp_runs (negb (is_clob k)) (CStart [] false) l c ->
  send (penv uni p) h c k = Ok (TGo h', k', []) -> k_quoted k' = true -> goes uni s (map plain l ++ q) [] (Code p k' h' (CStart [] false)) q.
Proof.
  intros HC R SE KQ. eapply code_step; [exact HC|exact R|]. intros s' cs' z (cm & fl & ->) CP.
  destruct (code_take uni p k h cs' cm fl z (TGo h', k', [])) as (c' & CP' & T); [exists c; auto|]. rewrite CP in CP'. injection CP' as <-.
  eapply (goes_move _ _ _ None); [eapply m_read0; [reflexivity|]; rewrite T; cbn [handled]; unfold token_pc; rewrite KQ; reflexivity|].
  eexists _, _. reflexivity.
Qed.
(** The text goes on without quotes. *)
Definition Tok0 (p : place) (k : tctx) (h : hs) (s : tcore) : Prop := exists cm fl, s = core p (Some k) false cm fl (PRead (KTok h) false fl).
Lemma code_tok uni p k h s z h' k' q : place_ok p -> Code p k h (CStart [] false) s -> cp_step (negb (is_clob k)) (CStart [] false) z = Ok (CDone (plain z) []) ->
  send (penv uni p) h (plain z) k = Ok (TGo h', k', []) -> k_quoted k' = false -> goes uni s (plain z :: q) [] (fun s => Tok0 p k' h' s /\ (flushy k' = true -> Tok p k' h' s)) q.
Proof.
  intros PO (cm & fl & ->) CP SE KQ. destruct (code_take uni p k h (CStart [] false) cm fl z (TGo h', k', [])) as (c' & CP' & T); [eauto|]. rewrite CP in CP'. injection CP' as <-.
  eapply (goes_move _ _ _ None); [eapply m_read0; [reflexivity|]; rewrite T; cbn [handled]; unfold token_pc; rewrite KQ; reflexivity|].
  split; [eexists _, _; reflexivity|]. intros F. eexists _, _. split; [reflexivity|]. intros SP. now apply flushy_flush.
Qed.
(** The text ends with an event. *)
Lemma code_emits uni p k h s z ev k' q : Code p k h (CStart [] false) s -> cp_step (negb (is_clob k)) (CStart [] false) z = Ok (CDone (plain z) []) ->
  send (penv uni p) h (plain z) k = Ok (TEv ev None, k', []) -> k_comp k' = false -> k_self k' = true -> is_container_start ev = false ->
  goes uni s (plain z :: q) [ev] (Idle p None (is_delimited (p_type p))) q.
Proof.
  intros (cm & fl & ->) CP SE C SF N. destruct (code_take uni p k h (CStart [] false) cm fl z (TEv ev None, k', [])) as (c' & CP' & T); [eauto|]. rewrite CP in CP'. injection CP' as <-.
  eapply (goes_move _ _ _ (Some ev)); [eapply m_read0; [reflexivity|]; rewrite T; cbn [handled]; unfold after_event; rewrite C; cbn [bind]; rewrite N, SF; reflexivity|].
  exists (match p_stack p with [] => true | _ => false end), false. split; [intros ->; left; auto|right; left; reflexivity].
Qed.

(** The code points of a text. *)
Lemma code_text uni p h q (K : list Z -> tctx) (OKC : Z -> Prop) : q = 34 \/ q = 39 -> (forall l, k_quoted (K l) = true) ->
  (forall l, is_clob (K l) = is_clob (K [])) ->
  (forall c, OKC c -> code_point c /\ (is_clob (K []) = true -> c <= 255)) ->
  (forall l c, OKC c -> send (penv uni p) h (Ch c (escapes c || (c =? q)) false) (K l) = Ok (TGo h, K (l ++ [c]), [])) ->
  forall cps, Forall OKC cps -> forall l s rest, Code p (K l) h (CStart [] false) s ->
  goes uni s (map plain (flat_map (text_octets (Some q)) cps) ++ rest) [] (Code p (K (l ++ cps)) h (CStart [] false)) rest.
Proof.
  intros Q KQ KC OKP SE cps F. induction F as [|c cps Hc F IH]; intros l s rest HC.
  - rewrite app_nil_r. now apply goes_here.
  - cbn [flat_map]. rewrite map_app, <- app_assoc. destruct (OKP c Hc) as (CP & CL).
    eapply goes_quiet.
    + eapply code_go; [exact HC| |apply SE; exact Hc|apply KQ]. rewrite KC. apply octets_cp; [exact Q|exact CP|]. intros U. apply CL. destruct (is_clob (K [])); [reflexivity|discriminate].
    + intros s1 HC1. replace (l ++ c :: cps) with ((l ++ [c]) ++ cps) by (rewrite <- app_assoc; reflexivity). now apply IH.
Qed.

(** A code point may stand in quotes. *)
Lemma quoted_valid allowed clob q c : code_point c -> (clob = true -> c <= 0x7f \/ escapes c = true) -> q = 34 \/ q = 39 -> valid_quoted allowed clob (Ch c (escapes c || (c =? q)) false) = true.
Proof.
  intros (R & _) CL Q. unfold valid_quoted. cbn [cz escaped]. unfold escapes, is_printable_ascii in *. destruct clob; [specialize (CL eq_refl)|]; lia.
Qed.

(** * Strings *)
Theorem string_reads cps : Forall code_point cps -> reads (bytes_text cps (Some 34) [] []) TString (EvVal (VString cps)).
Proof.
  intros F. unfold bytes_text. cbn [quote_octets app]. exists 34, (flat_map (text_octets (Some 34)) cps ++ [34]). split; [reflexivity|]. split; [reflexivity|].
  intros uni p child f an s ws stop q PO PF HA HC FL. set (K := fun l => mkk f an true l (Some TString) None true false false false).
  eapply goes_quiet.
  { eapply (begin_code uni p child f an 34 s _ (HStr false false) (K [])); [exact PO|exact HA|exact HC|reflexivity|reflexivity|reflexivity|]. rewrite PF. reflexivity. }
  intros s1 C1. rewrite map_app, <- app_assoc. eapply goes_quiet.
  { eapply (code_text uni p (HStr false false) 34 K code_point); [auto|reflexivity|reflexivity|intros c Hc; split; [exact Hc|discriminate]| |exact F|exact C1].
    intros l c Hc. unfold send, send_string. cbn [cz escaped]. replace ((c =? 34) && negb (escapes c || (c =? 34))) with false by (destruct (escapes c); lia).
    rewrite quoted_valid; [|exact Hc|discriminate|auto]. cbn [negb]. unfold gone. rewrite andb_false_r. reflexivity. }
  intros s2 C2. cbn [app map]. destruct FL as (W & NW & N1 & N2 & ST & EN).
  eapply (goes_then _ _ _ [_] _ _ _ []).
  { eapply code_emits; [exact C2|reflexivity|reflexivity|reflexivity|reflexivity|reflexivity]. }
  intros s3 I3. apply idle_ws; assumption.
Qed.

(** * Lobs *)
Inductive hrun0 (v : tenv) : hs -> tctx -> list Z -> hs -> tctx -> Prop :=
| h0_nil h k : hrun0 v h k [] h k
| h0_cons h k z l h1 k1 h2 k2 : send v h (plain z) k = Ok (TGo h1, k1, []) -> k_quoted k1 = false -> hrun0 v h1 k1 l h2 k2 -> hrun0 v h k (z :: l) h2 k2.
Lemma hrun0_goes uni p h k l h' k' : hrun0 (penv uni p) h k l h' k' -> forall s q, Tok0 p k h s -> goes uni s (map plain l ++ q) [] (Tok0 p k' h') q.
Proof.
  intros R. induction R as [h k|h k z l h1 k1 h2 k2 S Q R IH]; intros s q T; cbn [map app].
  - now apply goes_here.
  - destruct T as (cm & fl & ->). eapply goes_via; [eapply m_read0; [reflexivity|exact (take_go uni p k h cm fl fl (plain z) h1 k1 [] S Q)]|].
    apply IH. eexists _, _. reflexivity.
Qed.
Lemma begin_tok0 uni p child f an z s q h k : At p child false (plain z) s -> child_of child f an -> starts z = true ->
  (z =? 91) || (z =? 40) = false -> (z =? 34) || (z =? 39) = false ->
  (if p_field p then start_field (penv uni p) z (kid f an) else start_value (penv uni p) z (kid f an)) = Ok (TGo h, k, []) -> k_quoted k = false ->
  goes uni s q [] (Tok0 p k h) q.
Proof.
  intros (cm & fl & ->) HC HS HB HQ HV KQ. pose proof (top_value uni p child f an z cm fl h k [] HC HS HB HV) as T.
  rewrite KQ, HQ in T. cbn [orb] in T.
  eapply (goes_move _ _ _ None); [eapply m_top; [reflexivity|exact T]|]. exists cm, (negb (p_field p)). reflexivity.
Qed.
Lemma tok0_emits_self uni p k h s z q ev k' : Tok0 p k h s -> send (penv uni p) h (plain z) k = Ok (TEv ev None, k', []) -> k_comp k' = false ->
  k_self k' = true -> is_container_start ev = false ->
  goes uni s (plain z :: q) [ev] (Idle p None (is_delimited (p_type p))) q.
Proof.
  intros (cm & fl & ->) S C SF N. pose proof (take_emits uni p k h cm fl fl (plain z) ev k' S C N) as T. rewrite SF in T.
  eapply (goes_move _ _ _ (Some ev)); [eapply m_read0; [reflexivity|exact T]|].
  eexists _, _. split; [|right; left; reflexivity]. intros ->. left. auto.
Qed.
Lemma tok0_code uni p k h s z q h' k' : Tok0 p k h s -> send (penv uni p) h (plain z) k = Ok (TGo h', k', []) -> k_quoted k' = true ->
  goes uni s (plain z :: q) [] (Code p k' h' (CStart [] false)) q.
Proof.
  intros (cm & fl & ->) SE KQ.
  eapply (goes_move _ _ _ None); [eapply m_read0; [reflexivity|]; unfold take; cbn [core t_child]; change (env_of uni _) with (penv uni p); rewrite SE; cbn [bind handled]; unfold token_pc; rewrite KQ; reflexivity|].
  eexists _, _. reflexivity.
Qed.

Theorem clob_reads b : octets b -> reads (bytes_text b (Some 34) [123; 123] [125; 125]) TClob (EvLazy (Ok (VBytes b))).
Proof.
  intros F. unfold bytes_text. cbn [quote_octets app]. exists 123, (123 :: 34 :: flat_map (text_octets (Some 34)) b ++ [34; 125; 125]). split; [reflexivity|]. split; [reflexivity|].
  intros uni p child f an s ws stop q PO PF HA HC FL. set (K := fun l => mkk f an true l (Some TClob) None true false false false).
  eapply goes_quiet.
  { eapply (begin_tok0 uni p child f an 123 s _ HBrace (kid f an)); [exact HA|exact HC|reflexivity|reflexivity|reflexivity| |reflexivity]. rewrite PF. reflexivity. }
  intros s1 T1. eapply goes_quiet.
  { change (map plain (123 :: 34 :: flat_map (text_octets (Some 34)) b ++ [34; 125; 125]) ++ map plain ws ++ stop :: q) with (map plain [123] ++ (plain 34 :: map plain (flat_map (text_octets (Some 34)) b ++ [34; 125; 125]) ++ map plain ws ++ stop :: q)).
    eapply hrun0_goes; [|exact T1]. eapply h0_cons; [reflexivity|reflexivity|constructor]. }
  intros s2 T2. eapply goes_quiet.
  { eapply (tok0_code _ _ _ _ _ _ _ (HStr true false) (K [])); [exact T2|reflexivity|reflexivity]. }
  intros s3 C3. rewrite map_app, <- app_assoc. eapply goes_quiet.
  { eapply (code_text uni p (HStr true false) 34 K is_octet); [auto|reflexivity|reflexivity| | |exact F|exact C3].
    - intros c Hc. unfold is_octet in Hc. unfold code_point. lia.
    - intros l c Hc. unfold is_octet in Hc. unfold send, send_string. cbn [cz escaped]. replace ((c =? 34) && negb (escapes c || (c =? 34))) with false by (destruct (escapes c); lia).
      rewrite quoted_valid; [|unfold code_point; lia|unfold escapes, is_printable_ascii; lia|auto]. cbn [negb]. unfold gone. rewrite andb_false_r. reflexivity. }
  intros s4 C4. cbn [app map]. destruct FL as (W & NW & N1 & N2 & ST & EN). set (k2 := mkk f an true b (Some TClob) None false false true false).
  eapply goes_quiet.
  { eapply (code_tok uni p (K b) (HStr true false) s4 34 (HClob 34) k2); [exact PO|exact C4|reflexivity|reflexivity|reflexivity]. }
  intros s5 (T5 & _). eapply goes_quiet.
  { change (plain 125 :: plain 125 :: map plain ws ++ stop :: q) with (map plain [125] ++ plain 125 :: map plain ws ++ stop :: q).
    eapply hrun0_goes; [|exact T5]. eapply h0_cons; [reflexivity|reflexivity|constructor]. }
  intros s6 T6. eapply (goes_then _ _ _ [_] _ _ _ []).
  { eapply (tok0_emits_self uni p k2 (HClob 125) s6 125 _ (scalar_event p f an TClob (EvLazy (Ok (VBytes b)))) k2); [exact T6| |reflexivity|reflexivity|reflexivity].
    unfold send, send_clob, parse_clob, k2, set_self. cbn [cz plain k_val].
    replace (forallb (fun c => c <? 256) b) with true; [reflexivity|]. symmetry. apply forallb_forall. intros x IN. unfold octets in F. rewrite Forall_forall in F. specialize (F x IN). unfold is_octet in F. lia. }
  intros s7 I7. apply idle_ws; assumption.
Qed.
