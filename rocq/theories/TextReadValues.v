(** The text reader on the values, containers and streams of the grammar. *)
From Coq Require Import String.
From Verif Require Import Base BaseFacts CoreModel BinReaderModel SymbolsModel TextNumbers TextNumbersFacts TextWriterModel TextReaderModel TextReaderFacts TextReaderChunks TextWalk TextTokens TextNumberTokens TextFloats TextKeywords TextQuoted TextBlobs TextSymbols TextStream.
From Verif Require Import TextRoundTripSpec Props_TextRoundTrip TextGrammar TextGaps TextReads TextReadNumbers TextReadStamps TextReadWords TextReadNames TextReadItems TextReadQuoted TextReadLong TextReadLobs TextReadOps.
Local Open Scope Z_scope.

Theorem scalar_text_reads at_ w t v e : scalar_text at_ w t v e -> TextReads.scalar_reads at_ w t v e.
Proof.
  intros H. destruct H.
  - apply null_text_reads.
  - now apply typed_null_reads.
  - apply true_reads.
  - apply false_reads.
  - apply nan_text_reads.
  - apply inf_text_reads.
  - apply ninf_text_reads.
  - now apply numeral_reads, int_numeral.
  - now apply numeral_reads, dec_numeral.
  - now apply numeral_reads, float_numeral.
  - now apply numeral_reads, stamp_numeral.
  - now apply plain_name_reads.
  - now apply quoted_name_reads.
  - now apply operator_reads.
  - now apply string_text_reads.
  - now apply long_text_reads.
  - now apply clob_text_reads.
  - now apply long_clob_text_reads.
  - now eapply blob_text_reads; eauto.
Qed.

(** * Annotations and field names *)
Lemma name_first w k : name_text w k -> hd 0 w <> 123.
Proof.
  intros [w0 k0 [t ((c & r & -> & NS & _) & _) _|ds _ _]|w0 s _]; cbn [hd]; [|lia|cbn; lia]. unfold name_start in NS. lia.
Qed.
Lemma annots_start a an tail c r : annots a an -> tail = c :: r -> starts c = true -> exists c0 r0, a ++ tail = c0 :: r0 /\ starts c0 = true.
Proof.
  intros [|w k g b l an' N G B A] -> S; [exists c, r; auto|]. destruct (name_colon w k N) as (c0 & w0 & -> & S0 & _). cbn [app]. eauto.
Qed.
Lemma annots_read uni p f a an : place_ok p -> p_field p = false -> annots a an -> forall c r an0 child s c0 r0, starts c = true -> a ++ c :: r = c0 :: r0 ->
  child_of child f an0 -> At p child false (plain c0) s ->
  to uni s (all r0) [] (fun s' q' => exists child', child_of child' f (an0 ++ an) /\ At p child' false (plain c) s' /\ q' = all r).
Proof.
  intros PO PF A. induction A as [|w k g b l an N G B A IH]; intros c r an0 child s c0 r0 S E HC HA.
  - cbn [app] in E. injection E as <- <-. apply to_here. exists child. rewrite app_nil_r. auto.
  - destruct (name_colon w k N) as (c1 & w0 & -> & S1 & R). rewrite <- !app_assoc in E. cbn [app] in E. injection E as <- <-.
    change (txt "::") with [58; 58]. cbn [app]. eapply to_quiet; [exact (R uni p f an0 child s g (58 :: b ++ l ++ c :: r) PO HA HC G)|].
    intros s1 q1 (k1 & sv & PK & TK & A1 & ->). rewrite all_cons.
    eapply goes_to0; [exact (pend_annotation uni p k1 f an0 sv _ s1 PF PK A1)|]. intros s2 RD. rewrite TK in RD.
    destruct (annots_start l an (c :: r) c r A eq_refl S) as (c2 & r2 & E2 & S2). rewrite E2. rewrite all_app, all_cons.
    eapply goes_to0; [exact (ready_ws uni p _ false s2 b c2 (all r2) RD (blanks_ws b B))|]. intros s3 A3.
    eapply to_weaken; [eapply (IH c r (an0 ++ [k])); [exact S|exact E2|left; reflexivity|exact A3]|].
    intros s' q' (child' & HC' & X). exists child'. rewrite <- app_assoc in HC'. auto.
Qed.
Lemma field_start n k : field_text n k -> exists c0 r0, n = c0 :: r0 /\ starts c0 = true /\ c0 <> 123.
Proof.
  intros [w k0 g b N G B|w s g b BD G B|w s g b SG G B].
  - pose proof (name_first w k0 N) as NF. destruct (name_colon w k0 N) as (c0 & w0 & -> & S0 & _). cbn [app hd] in *. eauto.
  - eexists _, _. split; [reflexivity|]. split; [reflexivity|lia].
  - destruct SG; (eexists _, _; split; [reflexivity|]; split; [reflexivity|discriminate]).
Qed.
Lemma field_read uni p n k : place_ok p -> p_field p = true -> field_text n k -> forall c r child s c0 r0, starts c = true -> n ++ c :: r = c0 :: r0 ->
  bare child -> At p child false (plain c0) s ->
  to uni s (all r0) [] (fun s' q' => exists child', child_of child' (Some k) [] /\ At (value_place p) child' false (plain c) s' /\ q' = all r).
Proof.
  intros PO PF F c r child s c0 r0 S E HB HA. assert (HC : child_of child None []) by (right; auto).
  assert (FIN : forall k b s1 q1, blanks b -> Colon p None [] k (b ++ c :: r) s1 q1 -> to uni s1 q1 [] (fun s' q' => exists child', child_of child' (Some k) [] /\ At (value_place p) child' false (plain c) s' /\ q' = all r)).
  { intros k' b s1 q1 B (k1 & sv & PK & TK & A1 & ->). eapply goes_to0; [exact (pend_field uni p k1 None [] sv _ s1 PF PK A1)|]. intros s2 RD. rewrite TK in RD.
    rewrite all_app, all_cons. eapply goes_to0; [exact (ready_ws uni _ _ false s2 b c (all r) RD (blanks_ws b B))|]. intros s3 A3. apply to_here.
    exists (Some (kid (Some k') [])). split; [left; reflexivity|auto]. }
  destruct F as [w k0 g b N G B|w t g b BD G B|w t g b SG G B].
  - destruct (name_colon w k0 N) as (c1 & w0 & -> & S1 & R). rewrite <- !app_assoc in E. cbn [app] in E. injection E as <- <-.
    eapply to_quiet; [exact (R uni p None [] child s g (b ++ c :: r) PO HA HC G)|]. intros s1 q1. now apply FIN.
  - cbn [app] in E. injection E as <- <-. replace ((w ++ 34 :: g ++ 58 :: b) ++ c :: r) with (w ++ 34 :: g ++ 58 :: b ++ c :: r) by (rewrite <- !app_assoc; cbn [app]; rewrite <- !app_assoc; reflexivity).
    eapply to_quiet; [exact (string_colon uni p None [] child s w t g (b ++ c :: r) PO PF HA HC BD G)|]. intros s1 q1. now apply FIN.
  - assert (C39 : c0 = 39) by (destruct SG; injection E as <- _; reflexivity). subst c0.
    destruct (long_colon uni p None [] child s w t g (b ++ c :: r) PO PF HA HC SG G) as (w' & -> & R). rewrite <- !app_assoc in E. cbn [app] in E. injection E as <-.
    eapply to_quiet; [exact R|]. intros s1 q1. now apply FIN.
Qed.

(** * Containers *)
Lemma bare_pending v s : bare (t_child s) -> pending_value v s = Ok None.
Proof. intros [E|(ln & sf & E)]; unfold pending_value; rewrite E; reflexivity. Qed.
Lemma here_end uni t pt below pf child dlm c rest s q : closes (Some t) c -> bare child -> Here (mkp (Some t) ((pt, false) :: below) pf) child dlm (c :: rest) s q ->
  to uni s q [end_ev t (zlen below)] (Here (mkp pt below false) None (is_delimited pt) rest).
Proof.
  intros CL B H. eapply goes_to0; [eapply here_char; exact H|]. intros s1 (cm & fl & ->).
  set (outer := match below with [] => true | _ => false end).
  eapply (to_move _ _ _ (Some _)).
  - eapply m_top; [reflexivity|]. unfold top. cbn [core t_type t_child t_field t_delim t_stack p_type p_stack p_field].
    replace (is_end (Some t) (plain c)) with true by (unfold is_end, closes in *; rewrite CL; cbn [cz plain]; lia). cbn [orb].
    rewrite bare_pending by exact B. cbn [bind].
    assert (DC : decorated child = false) by (destruct B as [->|(ln & sf & ->)]; reflexivity). rewrite DC, andb_false_r.
    unfold t_depth. cbn [t_stack core p_stack]. replace (zlen ((pt, false) :: below) - 1) with (zlen below) by (unfold zlen; cbn [length]; lia). fold outer. reflexivity.
  - apply (here_read (mkp pt below false) None (is_delimited pt) rest outer false). cbn [p_stack]. unfold flags. cbn [p_stack]. unfold outer. intros ->. left. auto.
Qed.
Lemma here_comma uni p child rest s q : is_delimited (p_type p) = true -> p_stack p <> [] -> bare child -> Here p child true (44 :: rest) s q ->
  to uni s q [] (Here (mkp (p_type p) (p_stack p) (match p_type p with Some TStruct => true | _ => false end)) child false rest).
Proof.
  intros D NS B H. eapply goes_to0; [eapply here_char; exact H|]. intros s1 (cm & fl & ->).
  eapply (to_move _ _ _ None).
  - eapply m_top; [reflexivity|]. unfold top. cbn [core t_type t_child t_field t_delim t_stack].
    assert (IE : is_end (p_type p) (plain 44) = false) by (destruct (p_type p) as [[]|]; reflexivity).
    assert (ID : is_delim (p_type p) (plain 44) = true) by (unfold is_delim; rewrite D; reflexivity).
    rewrite IE, ID. cbn [orb].
    rewrite bare_pending by exact B. cbn [bind negb]. reflexivity.
  - apply (here_none (mkp (p_type p) (p_stack p) (match p_type p with Some TStruct => true | _ => false end)) child false rest cm fl). intros E. contradiction.
Qed.
Lemma over_gap uni p g l child dlm s q : place_ok p -> deep p l -> gap g -> bare child -> Here p child dlm (g ++ l) s q ->
  to uni s q [] (fun s' q' => exists child', bare child' /\ Here p child' dlm l s' q').
Proof.
  intros PO DP G B H. eapply to_weaken; [eapply (gap_here uni p None g l PO Logic.I DP G child dlm s q); [now apply shaped_bare|exact H]|].
  intros s' q' (child' & SH & HH). exists child'. split; [now apply shaped_bare|exact HH].
Qed.
Lemma ready_here p child dlm l s : p_stack p <> [] -> Ready p child dlm s -> Here p child dlm l s (all l).
Proof. intros NS (cm & fl & [->| ->]); [apply here_none|apply here_read]; intros E; contradiction. Qed.

(** * What the texts start with *)
Scheme value_ind' := Minimality for read_value Sort Prop
  with items_ind' := Minimality for read_items Sort Prop
  with terms_ind' := Minimality for read_terms Sort Prop
  with fields_ind' := Minimality for read_fields Sort Prop.
Combined Scheme reads_ind from value_ind', items_ind', terms_ind', fields_ind'.
Lemma value_start at_ d f l evs rest : read_value at_ d f l evs rest -> exists c r, l = c :: r /\ starts c = true.
Proof.
  intros [at' d' f' a an w t v e g rest' A S _ _ _|at' d' f' a an g1 l' evs' g rest' A _ _ _|at' d' f' a an g1 l' evs' g rest' A _ _ _|at' d' f' a an g1 l' evs' g rest' A _ _ _].
  - destruct (scalar_text_reads _ _ _ _ _ S) as (c0 & w0 & -> & S0 & _). eapply annots_start; [exact A|cbn [app]; reflexivity|exact S0].
  - eapply annots_start; [exact A|reflexivity|reflexivity].
  - eapply annots_start; [exact A|reflexivity|reflexivity].
  - eapply annots_start; [exact A|reflexivity|reflexivity].
Qed.
Lemma terms_start d l evs rest : read_terms d l evs rest -> l <> [] /\ hd 0 l <> 58.
Proof.
  intros [d' rest'|d' l0 evs0 l' evs' rest' V _]; [split; [discriminate|cbn; lia]|]. destruct (value_start _ _ _ _ _ _ V) as (c & r & -> & S). split; [discriminate|]. cbn. apply starts_not, S.
Qed.
Lemma fields_start d l evs rest : read_fields d l evs rest -> l <> [] /\ hd 0 l <> 123.
Proof.
  intros [d' rest'|d' n k l0 evs0 rest' F _|d' n k l0 evs0 g l' evs' rest' F _ _ _]; [split; [discriminate|cbn; lia]| |];
    destruct (field_start n k F) as (c & r & -> & _ & N); (split; [discriminate|exact N]).
Qed.
Lemma items_start d l evs rest : read_items d l evs rest -> l <> [].
Proof.
  intros [d' rest'|d' l0 evs0 rest' V|d' l0 evs0 g l' evs' rest' V _ _]; [discriminate| |]; destruct (value_start _ _ _ _ _ _ V) as (c & r & -> & _); discriminate.
Qed.
Lemma stream_start l evs : read_stream l evs -> hd 0 l <> 58.
Proof.
  intros [|l0 evs0 rest evs' V _|g rest evs0 _ _ _]; [cbn; lia| |cbn; lia]. destruct (value_start _ _ _ _ _ _ V) as (c & r & -> & S). cbn. apply starts_not, S.
Qed.

(** * Values *)
Definition ValueReads (at_ : where_) (d : Z) (f : option token) (l : text) (evs : list event) (rest : text) : Prop :=
  forall uni p child s c r, l = c :: r -> sits at_ p -> zlen (p_stack p) = d -> (at_ = InStruct -> f <> None) -> (at_ = Outside -> f = None) -> deep p rest -> hd 0 rest <> 58 ->
    child_of child f [] -> At p child false (plain c) s -> exists evs', Forall2 answers evs evs' /\ to uni s (all r) evs' (Done p rest).
Definition InsideReads (t : iontype) (d : Z) (l : text) (evs : list event) (rest : text) : Prop :=
  forall uni pt below child s q, zlen below + 1 = d -> bare child -> Here (mkp (Some t) ((pt, false) :: below) (iontype_eqb t TStruct)) child false l s q ->
    exists evs', Forall2 answers (evs ++ [end_ev t (zlen below)]) evs' /\ to uni s q evs' (Here (mkp pt below false) None (is_delimited pt) rest).
Lemma answers_refl e : answers e e.
Proof. now left. Qed.
Lemma place_eq p : p_field p = false -> mkp (p_type p) (p_stack p) false = p.
Proof. destruct p; cbn; intros ->; reflexivity. Qed.
Lemma deep_app p a b : deep p b -> deep p (a ++ b).
Proof. intros D E. apply app_eq_nil in E. apply D, E. Qed.
Lemma inside_ok t pt below pf : place_ok (mkp (Some t) ((pt, false) :: below) pf).
Proof. intros E. discriminate E. Qed.
Lemma inside_deep t pt below pf l : l <> [] -> deep (mkp (Some t) ((pt, false) :: below) pf) l.
Proof. intros N E. contradiction. Qed.

Lemma walk_to uni s q e1 s1 q1 e2 (Y : tcore -> list ch -> Prop) : walk uni s q e1 s1 q1 -> to uni s1 q1 e2 Y -> to uni s q (e1 ++ e2) Y.
Proof. intros W (s' & q' & W' & H). exists s', q'. split; [eapply walk_app; eassumption|exact H]. Qed.
Lemma walk_to0 uni s q s1 q1 e (Y : tcore -> list ch -> Prop) : walk uni s q [] s1 q1 -> to uni s1 q1 e Y -> to uni s q e Y.
Proof. exact (walk_to uni s q [] s1 q1 e Y). Qed.

Lemma container_value t z at_ d f a an g1 l evs g rest : z = 91 /\ t = TList \/ z = 40 /\ t = TSexp \/ z = 123 /\ t = TStruct -> annots a an -> gap g1 -> l <> [] -> (t = TStruct -> hd 0 l <> 123) ->
  InsideReads t (d + 1) l evs (g ++ rest) -> trailing at_ False rest g -> ValueReads at_ d f (a ++ z :: g1 ++ l) (start_ev t f an d :: evs ++ [end_ev t d]) rest.
Proof.
  intros Z A G1 NL N123 IR TR uni p child s c r E SI D FS FO DP NC HC HA.
  assert (PO := sits_ok _ _ SI). assert (PF : p_field p = false) by apply SI. assert (SZ : starts z = true) by (destruct Z as [(-> & _)|[(-> & _)|(-> & _)]]; reflexivity).
  pose proof (annots_read uni p f a an PO PF A z (g1 ++ l) [] child s c r SZ E HC HA) as R. cbn [app] in R.
  assert (OP : forall s1 child1, child_of child1 f an -> At p child1 false (plain z) s1 ->
    to uni s1 (all (g1 ++ l)) [start_ev t f an d] (fun s' q' => exists child', bare child' /\ Here (inner p t) child' false l s' q')).
  { intros s1 child1 HC1 A1. assert (DI : deep (inner p t) l) by (intros X; contradiction).
    assert (PI : place_ok (inner p t)) by apply inside_ok.
    assert (H0 : to uni s1 (all (g1 ++ l)) [start_ev t f an d] (Here (inner p t) None false (g1 ++ l))).
    { subst d. destruct Z as [Z|[Z|(-> & ->)]].
      - eapply to_goes; [exact (open_bracket uni p child1 f an s1 z t (all (g1 ++ l)) (or_introl Z) PF A1 HC1)|]. intros s2 RD. apply ready_here; [discriminate|exact RD].
      - eapply to_goes; [exact (open_bracket uni p child1 f an s1 z t (all (g1 ++ l)) (or_intror Z) PF A1 HC1)|]. intros s2 RD. apply ready_here; [discriminate|exact RD].
      - assert (X : exists y yq, g1 ++ l = y :: yq /\ y <> 123).
        { destruct g1 as [|y g1]; cbn [app].
          - destruct l as [|y l]; [contradiction|]. exists y, l. split; [reflexivity|]. exact (N123 eq_refl).
          - exists y, (g1 ++ l). split; [reflexivity|]. destruct (gap_first _ _ G1) as [(B & _)| ->]; [|lia]. unfold blank in B. cbn [In] in B. lia. }
        destruct X as (y & yq & -> & NY). rewrite all_cons. eapply to_goes; [exact (open_struct uni p child1 f an s1 y (all yq) PF A1 HC1 NY)|].
        intros s2 (cm & fl & ->). apply (here_at (inner p TStruct) None false (y :: yq)). intros _ X. discriminate X. }
    eapply to_after; [exact H0|]. intros s2 q2 H2. eapply over_gap; eauto. exact bare_none. }
  destruct R as (s1 & q1 & W1 & (child1 & HC1 & A1 & ->)).
  destruct (OP s1 child1 HC1 A1) as (s2 & q2 & W2 & (child2 & B2 & H2)).
  destruct (IR uni (p_type p) (p_stack p) child2 s2 q2 ltac:(lia) B2 H2) as (evs' & FA & T3).
  rewrite (place_eq p PF) in T3. subst d.
  exists (start_ev t f an (zlen (p_stack p)) :: evs'). split; [constructor; [apply answers_refl|exact FA]|].
  change (start_ev t f an (zlen (p_stack p)) :: evs') with ([] ++ [start_ev t f an (zlen (p_stack p))] ++ evs').
  eapply walk_to; [exact W1|]. eapply walk_to; [exact W2|]. eapply to_after; [exact T3|]. intros s4 q4 H4. exact (done_here uni at_ False p g rest None s4 q4 SI DP TR bare_none H4).
Qed.

Theorem grammar_reads :
  (forall at_ d f l evs rest, read_value at_ d f l evs rest -> ValueReads at_ d f l evs rest) /\
  (forall d l evs rest, read_items d l evs rest -> InsideReads TList d l evs rest) /\
  (forall d l evs rest, read_terms d l evs rest -> InsideReads TSexp d l evs rest) /\
  (forall d l evs rest, read_fields d l evs rest -> InsideReads TStruct d l evs rest).
Proof.
  apply reads_ind.
  - (* scalar *)
    intros at_ d f a an w t v e g rest A ST MF TR NI uni p child s c r E SI D FS FO DP NC HC HA.
    assert (PO := sits_ok _ _ SI). assert (PF : p_field p = false) by apply SI.
    destruct (scalar_text_reads _ _ _ _ _ ST) as (c0 & w0 & -> & S0 & R). cbn [app] in E.
    destruct (annots_read uni p f a an PO PF A c0 (w0 ++ g ++ rest) [] child s c r S0 E HC HA) as (s1 & q1 & W1 & (child1 & HC1 & A1 & ->)). cbn [app] in HC1.
    destruct (R uni p f an child1 s1 g rest SI FS FO A1 HC1 MF TR DP NC NI) as (ev & AN & T). subst d. exists [ev]. split; [constructor; [exact AN|constructor]|].
    eapply walk_to0; [exact W1|]. exact T.
  - intros at_ d f a an g1 l evs g rest A G1 RI IR TR. eapply container_value; eauto; [eapply items_start; eauto|discriminate].
  - intros at_ d f a an g1 l evs g rest A G1 RI IR TR. eapply container_value; eauto; [eapply terms_start; eauto|discriminate].
  - intros at_ d f a an g1 l evs g rest A G1 RI IR TR. eapply container_value; eauto; [eapply fields_start; eauto|intros _; eapply fields_start; eauto].
  - (* ] *)
    intros d rest uni pt below child s q D B H. exists [end_ev TList (zlen below)]. split; [repeat constructor|]. eapply here_end; [reflexivity|exact B|exact H].
  - intros d l evs rest V VR uni pt below child s q D B H.
    destruct (value_start _ _ _ _ _ _ V) as (c & r & -> & S). set (p := mkp (Some TList) ((pt, false) :: below) (iontype_eqb TList TStruct)) in *.
    destruct (here_char uni p child false c r s q H) as (s1 & W1 & A1).
    destruct (VR uni p child s1 c r eq_refl) as (evs' & FA & T); [split; [reflexivity|split; [reflexivity|discriminate]]|unfold zlen in *; cbn in *; lia|discriminate|discriminate|apply inside_deep; discriminate|cbn; lia|right; auto|exact A1|].
    exists (evs' ++ [end_ev TList (zlen below)]). split; [apply Forall2_app; [exact FA|repeat constructor]|].
    eapply walk_to0; [exact W1|].
    eapply to_then; [exact T|]. intros s2 q2 (child2 & B2 & H2). eapply here_end; [reflexivity|exact B2|exact H2].
  - intros d l evs g l' evs' rest V VR G RI IR uni pt below child s q D B H.
    destruct (value_start _ _ _ _ _ _ V) as (c & r & -> & S). set (p := mkp (Some TList) ((pt, false) :: below) (iontype_eqb TList TStruct)) in *.
    destruct (here_char uni p child false c r s q H) as (s1 & W1 & A1).
    destruct (VR uni p child s1 c r eq_refl) as (evs1 & FA & T); [split; [reflexivity|split; [reflexivity|discriminate]]|unfold zlen in *; cbn in *; lia|discriminate|discriminate|apply inside_deep; discriminate|cbn; lia|right; auto|exact A1|].
    assert (T2 : to uni s q evs1 (fun s' q' => exists child', bare child' /\ Here p child' false l' s' q')).
    { eapply walk_to0; [exact W1|].
      eapply to_after; [exact T|]. intros s2 q2 (child2 & B2 & H2).
      eapply to_quiet; [exact (here_comma uni p child2 (g ++ l') s2 q2 eq_refl ltac:(discriminate) B2 H2)|]. intros s3 q3 H3.
      eapply over_gap; [apply inside_ok|apply inside_deep; eapply items_start; eauto|exact G|exact B2|exact H3]. }
    destruct T2 as (s2 & q2 & W2 & (child2 & B2 & H2)). destruct (IR uni pt below child2 s2 q2 D B2 H2) as (evs2 & FA2 & T3).
    exists (evs1 ++ evs2). split; [rewrite <- app_assoc; now apply Forall2_app|].
    eapply walk_to; [exact W2|]. exact T3.
  - (* ) *)
    intros d rest uni pt below child s q D B H. exists [end_ev TSexp (zlen below)]. split; [repeat constructor|]. eapply here_end; [reflexivity|exact B|exact H].
  - intros d l evs l' evs' rest V VR RT IR uni pt below child s q D B H.
    destruct (value_start _ _ _ _ _ _ V) as (c & r & -> & S). set (p := mkp (Some TSexp) ((pt, false) :: below) (iontype_eqb TSexp TStruct)) in *.
    destruct (here_char uni p child false c r s q H) as (s1 & W1 & A1). destruct (terms_start _ _ _ _ RT) as (NL & NC).
    destruct (VR uni p child s1 c r eq_refl) as (evs1 & FA & T); [split; [reflexivity|split; [reflexivity|discriminate]]|unfold zlen in *; cbn in *; lia|discriminate|discriminate|apply inside_deep; exact NL|exact NC|right; auto|exact A1|].
    destruct T as (s2 & q2 & W2 & (child2 & B2 & H2)). destruct (IR uni pt below child2 s2 q2 D B2 H2) as (evs2 & FA2 & T3).
    exists (evs1 ++ evs2). split; [rewrite <- app_assoc; now apply Forall2_app|].
    eapply walk_to0; [exact W1|].
    eapply walk_to; [exact W2|]. exact T3.
  - (* } *)
    intros d rest uni pt below child s q D B H. exists [end_ev TStruct (zlen below)]. split; [repeat constructor|]. eapply here_end; [reflexivity|exact B|exact H].
  - intros d n k l evs rest F V VR uni pt below child s q D B H.
    destruct (value_start _ _ _ _ _ _ V) as (c & r & -> & S). set (p := mkp (Some TStruct) ((pt, false) :: below) (iontype_eqb TStruct TStruct)) in *.
    destruct (field_start n k F) as (c0 & r0 & E0 & S0 & N0). assert (EN : n ++ c :: r = c0 :: (r0 ++ c :: r)) by (rewrite E0; reflexivity). rewrite EN in H.
    destruct (here_char uni p child false c0 _ s q H) as (s1 & W1 & A1).
    destruct (field_read uni p n k (inside_ok _ _ _ _) eq_refl F c r child s1 c0 _ S EN B A1) as (s2 & q2 & W2 & (child2 & HC2 & A2 & ->)).
    destruct (VR uni (value_place p) child2 s2 c r eq_refl) as (evs' & FA & T); [split; [reflexivity|split; [reflexivity|discriminate]]|unfold zlen in *; cbn in *; lia|discriminate|discriminate|apply inside_deep; discriminate|cbn; lia|exact HC2|exact A2|].
    exists (evs' ++ [end_ev TStruct (zlen below)]). split; [apply Forall2_app; [exact FA|repeat constructor]|].
    eapply walk_to0; [exact W1|].
    eapply walk_to0; [exact W2|].
    eapply to_then; [exact T|]. intros s3 q3 (child3 & B3 & H3). eapply here_end; [reflexivity|exact B3|exact H3].
  - intros d n k l evs g l' evs' rest F V VR G RF IR uni pt below child s q D B H.
    destruct (value_start _ _ _ _ _ _ V) as (c & r & -> & S). set (p := mkp (Some TStruct) ((pt, false) :: below) (iontype_eqb TStruct TStruct)) in *.
    destruct (field_start n k F) as (c0 & r0 & E0 & S0 & N0). assert (EN : n ++ c :: r = c0 :: (r0 ++ c :: r)) by (rewrite E0; reflexivity). rewrite EN in H.
    destruct (here_char uni p child false c0 _ s q H) as (s1 & W1 & A1).
    destruct (field_read uni p n k (inside_ok _ _ _ _) eq_refl F c r child s1 c0 _ S EN B A1) as (s2 & q2 & W2 & (child2 & HC2 & A2 & ->)).
    destruct (VR uni (value_place p) child2 s2 c r eq_refl) as (evs1 & FA & T); [split; [reflexivity|split; [reflexivity|discriminate]]|unfold zlen in *; cbn in *; lia|discriminate|discriminate|apply inside_deep; discriminate|cbn; lia|exact HC2|exact A2|].
    assert (T2 : to uni s q evs1 (fun s' q' => exists child', bare child' /\ Here p child' false l' s' q')).
    { eapply walk_to0; [exact W1|].
      eapply walk_to0; [exact W2|].
      eapply to_after; [exact T|]. intros s3 q3 (child3 & B3 & H3).
      eapply to_quiet; [exact (here_comma uni (value_place p) child3 (g ++ l') s3 q3 eq_refl ltac:(discriminate) B3 H3)|]. intros s4 q4 H4.
      eapply over_gap; [apply inside_ok|apply inside_deep; eapply fields_start; eauto|exact G|exact B3|exact H4]. }
    destruct T2 as (s3 & q3 & W3 & (child3 & B3 & H3)). destruct (IR uni pt below child3 s3 q3 D B3 H3) as (evs2 & FA2 & T3).
    exists (evs1 ++ evs2). split; [rewrite <- app_assoc; now apply Forall2_app|].
    eapply walk_to; [exact W3|]. exact T3.
Qed.

(** * Whole texts *)
Definition outside : place := mkp None [] false.
Lemma outside_ok : place_ok outside.
Proof. intros _. split; reflexivity. Qed.
Lemma outside_deep l : deep outside l.
Proof. intros _. reflexivity. Qed.
Lemma marker_read uni child s g rest : bare child -> At outside child false (plain 36) s -> may_follow Outside after_name g rest -> trailing Outside False rest g -> hd 0 rest <> 58 ->
  to uni s (all (tl (txt "$ion_1_0") ++ g ++ rest)) [marker_ev] (Done outside rest).
Proof.
  intros B HA MF TR NC. set (w := txt "$ion_1_0").
  rewrite all_app. eapply goes_to0.
  { eapply goes_quiet; [eapply (begin_tok uni outside child None [] 36 s _ (HDollar 36 true false true 1 false false) (symk None [] [36])); [exact outside_ok|exact HA|right; auto|reflexivity|reflexivity|reflexivity|reflexivity|reflexivity]|].
    intros s1 T1. eapply (hrun_goes uni outside _ _ (tl w) (HDollar 48 true true false 5 true false) (symk None [] w)); [exact outside_ok| |exact T1]. kw_run. }
  intros s1 T1. eapply (unq_done uni Outside False outside None [] w _ (SIvm w)); [split; [reflexivity|split; reflexivity]|discriminate|reflexivity|reflexivity|reflexivity|apply outside_deep|exact NC|exact TR|exact MF|exact T1| |reflexivity|reflexivity].
  right. exact (dollar_fin (penv uni outside) None [] 48 true true false 5 true false w eq_refl (fun H => False_ind _ (Bool.diff_false_true H))).
Qed.
Lemma stream_reads l evs : read_stream l evs -> forall uni child s q, bare child -> Here outside child false l s q ->
  exists evs', Forall2 answers evs evs' /\ to uni s q evs' (fun s' q' => exists child', bare child' /\ Here outside child' false [] s' q').
Proof.
  induction 1 as [|l evs rest evs' V S IH|g rest evs MF TR S IH]; intros uni child s q B H.
  - exists []. split; [constructor|]. apply to_here. eauto.
  - destruct (value_start _ _ _ _ _ _ V) as (c & r & -> & S0). destruct (here_char uni outside child false c r s q H) as (s1 & W1 & A1).
    destruct (proj1 grammar_reads _ _ _ _ _ _ V uni outside child s1 c r eq_refl) as (evs1 & FA & T);
      [split; [reflexivity|split; reflexivity]|reflexivity|discriminate|reflexivity|apply outside_deep|exact (stream_start _ _ S)|right; auto|exact A1|].
    destruct T as (s2 & q2 & W2 & (child2 & B2 & H2)). destruct (IH uni child2 s2 q2 B2 H2) as (evs2 & FA2 & T2).
    exists (evs1 ++ evs2). split; [now apply Forall2_app|]. eapply walk_to0; [exact W1|]. eapply walk_to; [exact W2|]. exact T2.
  - destruct (here_char uni outside child false 36 _ s q H) as (s1 & W1 & A1).
    destruct (marker_read uni child s1 g rest B A1 MF TR (stream_start _ _ S)) as (s2 & q2 & W2 & (child2 & B2 & H2)). destruct (IH uni child2 s2 q2 B2 H2) as (evs2 & FA2 & T2).
    exists ([marker_ev] ++ evs2). split; [constructor; [apply answers_refl|exact FA2]|]. eapply walk_to0; [exact W1|]. eapply walk_to; [exact W2|]. exact T2.
Qed.
Lemma here_finish uni child s q : bare child -> Here outside child false [] s q -> to uni s q [] (fun s' q' => finished s' /\ q' = []).
Proof.
  intros B. assert (PN : pending child = None) by (destruct B as [->|(ln & sf & ->)]; reflexivity).
  assert (EN : forall cm fl, finished (core outside child false cm fl (PTop (Some Eof)))) by (intros cm fl; left; split; [reflexivity|]; split; [reflexivity|exact PN]).
  assert (R : forall cm fl, flags outside child cm fl -> to uni (core outside child false cm fl (PRead KTop cm fl)) [Eof] [] (fun s' q' => finished s' /\ q' = [])).
  { intros cm fl F. destruct (F eq_refl) as [(-> & _)|(-> & ->)].
    - eapply (to_move _ _ _ None); [eapply m_done; [reflexivity|reflexivity|exact PN]|]. split; [apply (EN true fl)|reflexivity].
    - eapply (to_move _ _ _ None); [eapply m_flush; reflexivity|]. split; [apply (EN false true)|reflexivity]. }
  intros [cm fl F|cm fl F|cm fl F|fl E X].
  - apply to_here. split; [apply EN|reflexivity].
  - eapply to_via; [eapply m_top; reflexivity|]. now apply R.
  - now apply R.
  - apply to_here. split; [right; exists fl; reflexivity|reflexivity].
Qed.
Lemma document_reads l evs uni : document l evs -> exists evs' sf, Forall2 answers evs evs' /\ walk uni reader_start (all l) evs' sf [] /\ finished sf.
Proof.
  assert (H0 : forall l, Here outside None false l reader_start (all l)). { intros l0. apply (here_read outside None false l0 true false). intros _. left. auto. }
  intros [g l0 evs0 G S|g o G O].
  - destruct (over_gap uni outside g l0 None false reader_start (all (g ++ l0)) outside_ok (outside_deep _) G bare_none (H0 _)) as (s1 & q1 & W1 & (child1 & B1 & H1)).
    destruct (stream_reads l0 evs0 S uni child1 s1 q1 B1 H1) as (evs' & FA & (s2 & q2 & W2 & (child2 & B2 & H2))).
    destruct (here_finish uni child2 s2 q2 B2 H2) as (s3 & q3 & W3 & (F3 & ->)). exists evs', s3. split; [exact FA|]. split; [|exact F3].
    eapply walk_quiet; [exact W1|]. eapply walk_quiet_r; [exact W2|exact W3].
  - destruct (over_gap uni outside g o None false reader_start (all (g ++ o)) outside_ok (outside_deep _) G bare_none (H0 _)) as (s1 & q1 & W1 & (child1 & B1 & H1)).
    destruct (open_here uni outside None o child1 false s1 q1 outside_ok eq_refl Logic.I O (proj2 (shaped_bare child1) B1) H1) as (s2 & q2 & W2 & (child2 & SH & H2)). apply shaped_bare in SH.
    destruct (here_finish uni child2 s2 q2 SH H2) as (s3 & q3 & W3 & (F3 & ->)). exists [], s3. split; [constructor|]. split; [|exact F3].
    eapply walk_quiet; [exact W1|]. eapply walk_quiet; [exact W2|exact W3].
Qed.
Definition said (e : event) : Prop := is_stream_signal (ev_type e) = false /\ match ev_value e with EvNone | EvVal _ | EvVersion _ _ => True | _ => False end.
Lemma scalar_said t v f an d : said (scalar_ev t v f an d).
Proof. split; [reflexivity|]. destruct v; exact Logic.I. Qed.
Lemma grammar_said :
  (forall at_ d f l evs rest, read_value at_ d f l evs rest -> Forall said evs) /\
  (forall d l evs rest, read_items d l evs rest -> Forall said evs) /\
  (forall d l evs rest, read_terms d l evs rest -> Forall said evs) /\
  (forall d l evs rest, read_fields d l evs rest -> Forall said evs).
Proof.
  apply reads_ind; intros; try (apply Forall_app; split); try (constructor; [first [apply scalar_said|split; [reflexivity|exact Logic.I]]|]); try (apply Forall_app; split); auto; repeat constructor.
Qed.
Lemma stream_said l evs : read_stream l evs -> Forall said evs.
Proof.
  induction 1 as [|l evs rest evs' V S IH|g rest evs MF TR S IH]; [constructor| |constructor; [split; [reflexivity|exact Logic.I]|exact IH]]. apply Forall_app. split; [exact (proj1 grammar_said _ _ _ _ _ _ V)|exact IH].
Qed.
Theorem document_session uni l evs : document l evs -> exists evs', Forall2 answers evs evs' /\
  forall cs n, pieces cs -> concat cs = l -> (List.length evs < n)%nat -> text_session uni text_reader_new cs (repeat DNext n) = (evs', SEnd).
Proof.
  intros D. destruct (document_reads l evs uni D) as (evs' & sf & FA & W & F). exists evs'. split; [exact FA|]. intros cs n PC CC L.
  assert (LE : List.length evs' = List.length evs) by (clear -FA; induction FA; cbn; lia).
  eapply walk_whole; [exact W|exact F| |lia|exact PC|exact CC].
  assert (SA : Forall said evs) by (destruct D as [g l0 evs0 G S|]; [now apply stream_said in S|constructor]).
  clear -FA SA. induction FA as [|e e' evs evs' A FA IH]; [constructor|]. inversion SA as [|x y (SE & _) SA']; subst. constructor; [|auto].
  destruct A as [->|(v & _ & ->)]; assumption.
Qed.
Lemma answers_inv e1 e2 e : said e1 -> said e2 -> answers e1 e -> answers e2 e -> e1 = e2.
Proof.
  intros (_ & S1) (_ & S2) [E1|(v & V & E1)] [E2|(v2 & V2 & E2)]; [congruence| | |].
  - rewrite <- E1, E2 in S1. destruct S1.
  - rewrite <- E2, E1 in S2. destruct S2.
  - rewrite E1 in E2. injection E2 as X1 X2 X3 X4 X5 X6. destruct e1, e2. cbn in *. congruence.
Qed.
Lemma document_said l evs : document l evs -> Forall said evs.
Proof. intros [g l0 evs0 G S|]; [now apply stream_said in S|constructor]. Qed.
Theorem document_unique l evs1 evs2 : document l evs1 -> document l evs2 -> evs1 = evs2.
Proof.
  intros D1 D2. destruct (document_session true l evs1 D1) as (e1 & F1 & R1). destruct (document_session true l evs2 D2) as (e2 & F2 & R2).
  assert (PL : exists cs, pieces cs /\ concat cs = l). { destruct l as [|c l]; [exists []; split; [constructor|reflexivity]|]. exists [c :: l]. split; [constructor; [discriminate|constructor]|cbn; now rewrite app_nil_r]. }
  destruct PL as (cs & PC & CC). set (n := Datatypes.S (List.length evs1 + List.length evs2)).
  pose proof (R1 cs n PC CC ltac:(unfold n; lia)) as E1. rewrite (R2 cs n PC CC ltac:(unfold n; lia)) in E1. injection E1 as ->.
  apply document_said in D1. apply document_said in D2. clear -F1 F2 D1 D2. revert evs2 F2 D2. induction F1 as [|a b evs1 e1 A F1 IH]; intros evs2 F2 D2; inversion F2; subst; [reflexivity|].
  inversion D1; inversion D2; subst. f_equal; [eapply answers_inv; eauto|]. apply IH; auto.
Qed.
