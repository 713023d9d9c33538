(** [dump] then [load], for text. *)
From Coq Require Import String.
From Verif Require Import Base BaseFacts CoreModel BinWriterModel BinReaderModel SymbolsModel ManagedModel ManagedSpec MultimapModel TextReaderChunks TextStream SimpleionModel SimpleionSpec SimpleionProofs SimpleionDump
  TextWriterModel Props_TextWriter TextReaderModel TextRoundTripSpec Props_TextRoundTrip TextValueModel TextValueSpec TextManaged TextValueProofs TextAscii.
Local Open Scope Z_scope.

Definition no_mark (e : uevent) : Prop := ue_type e <> EVersionMarker.
Lemma flat_no_mark {A} (f : A -> list uevent) l : Forall (fun x => Forall no_mark (f x)) l -> Forall no_mark (flat_map f l).
Proof. induction 1; cbn [flat_map]; [constructor|apply Forall_app; auto]. Qed.
Lemma wrap_no_mark e es : ue_type e = EContainerStart -> Forall no_mark es -> Forall no_mark (e :: es ++ [container_end_event]).
Proof. intros T F. constructor; [unfold no_mark; rewrite T; discriminate|]. apply Forall_app. split; [exact F|]. constructor; [discriminate|constructor]. Qed.
Lemma dump_no_mark tas v : forall field ins depth, Forall no_mark (dump_value tas v field ins depth).
Proof.
  induction v as [ |s|l IH|l IH|l IH|t an|t an s|sexp an l IH|an m IH] using pyval_induction; intros field ins depth; cbn [dump_value];
    try (constructor; [discriminate|constructor]);
    try (apply wrap_no_mark; [reflexivity|]; apply flat_no_mark; eapply Forall_impl; [|exact IH]; intros x Q; apply Q).
  apply wrap_no_mark; [reflexivity|]. apply flat_no_mark. eapply Forall_impl; [|exact IH]. intros p Q. apply flat_no_mark. eapply Forall_impl; [|exact Q]. intros x R. apply R.
Qed.
Lemma all_values open es evs : same_events open es evs -> Forall no_mark es -> Forall (fun e => is_value e = true) evs.
Proof. induction 1; intros N; try (inversion N as [|? ? N1 N2]; subst); try (constructor; [reflexivity|auto]); auto; try constructor. Qed.
Lemma filter_all {A} (p : A -> bool) l : Forall (fun x => p x = true) l -> filter p l = l.
Proof. induction 1 as [|x l P F IH]; cbn [filter]; [reflexivity|]. rewrite P, IH. reflexivity. Qed.

Lemma marked es evs : same_events [] (version_event :: es) evs -> exists evs0, evs = mkev EVersionMarker None (EvVersion 1 0) None [] (Some 0) :: evs0 /\ same_events [] es evs0.
Proof. intros H. inversion H; subst; try discriminate. eauto. Qed.

(** What the managed reader serves: the values, without the version marker. *)
Lemma carried_octets es : forall open, carried open es -> Forall event_octets es.
Proof.
  induction es as [|e es IH]; intros open C; [constructor|]. cbn [carried] in C. destruct C as (EF & C). constructor.
  - intros T v E. unfold event_fits in EF. rewrite T in EF. destruct (EF eq_refl) as (_ & _ & V). destruct (V eq_refl) as (t & v' & _ & E' & F & _). assert (v' = v) as -> by congruence.
    destruct v as [v|]; [|exact Logic.I]. destruct v; try exact Logic.I. cbn. destruct t; try contradiction; exact F.
  - destruct (nests open e) as [o|]; [|contradiction]. eapply IH; exact C.
Qed.
Lemma blank_ascii indent : blank_indent indent -> ascii_indent indent.
Proof. destruct indent as [i|]; [|auto]. intros B. cbn in *. eapply Forall_impl; [|exact B]. intros c I. unfold blank in I. cbn [In] in I. unfold ascii_char. intuition lia. Qed.
Lemma blank_accepted indent : blank_indent indent -> text_indent indent = Ok indent.
Proof.
  destruct indent as [i|]; [|reflexivity]. intros B. cbn [text_indent].
  assert (P : forallb python_space i = true /\ forallb (fun c => c <? 256) i = true).
  { split; apply forallb_forall; intros c I; cbn in B; rewrite Forall_forall in B; specialize (B c I); unfold blank in B; cbn [In] in B; intuition (subst; reflexivity). }
  rewrite (proj1 P), (proj2 P). reflexivity.
Qed.
Lemma not_reserved v : ~ text_reserved v -> ~ reserved_value v.
Proof.
  intros N R. apply N. destruct v as [ |s|l|l|l|t an|t an s|sexp an l|an m]; try contradiction.
  - destruct s; try contradiction. exists TEXT_ION_1_0. split; [exact R|apply ivm_like].
  - destruct t; try contradiction. destruct an; try contradiction. cbn in R |- *. destruct (symbol_arg s) as [a|]; [|contradiction]. exists a, TEXT_ION_1_0. repeat split; try assumption. apply ivm_like.
Qed.

Theorem text_dump_load cat indent omit tas seq v : blank_indent indent ->
  Forall text_storable (top_level seq v) -> Forall (fun x => ~ text_reserved x) (top_level seq v) ->
  exists out, dump_text indent omit tas seq v = Ok out /\ dumps_text indent omit tas seq v = Ok out /\ ascii out /\
  exists l', (map (text_meaning tas) l' = map (text_meaning tas) (top_level seq v) /\ Forall text_loaded l') /\
  exists enough, forall src chunks fuel, pieces chunks -> concat chunks = out -> (enough <= fuel)%nat -> load_from fuel src cat chunks = Ok l'.
Proof.
  intros BI ST NR. set (es := flat_map (fun x => dump_value tas x None false 0) (top_level seq v)).
  destruct (values_carried tas _ ST NR) as [CA NA]. fold es in CA, NA.
  set (all := (if omit then [] else [version_event]) ++ es ++ [end_event]).
  assert (CE : carried_to [] (es ++ [end_event]) []) by (eapply carried_app; [exact CA|]; cbn [carried_to]; split; [intros E; discriminate E|reflexivity]).
  assert (C : carried [] all) by (apply carried_end; unfold all; destruct omit; [exact CE|]; cbn [app carried_to]; split; [intros E; discriminate E|exact CE]).
  assert (END : named end_event) by (split; [exact Logic.I|]; split; [constructor|]; intros _ s E; discriminate E).
  assert (N : Forall named all).
  { unfold all. destruct omit; cbn [app]; [|constructor; [split; [exact Logic.I|]; split; [constructor|]; intros E; discriminate E|]]; (apply Forall_app; split; [exact NA|constructor; [exact END|constructor]]). }
  assert (U : unreserved 0 (es ++ [end_event])).
  { apply unreserved_app; [apply stream_unreserved; eapply Forall_impl; [|exact NR]; intros x H; apply not_reserved, H|]. split; [intros _ R; exact R|exact Logic.I]. }
  assert (UA : unreserved 0 all) by (unfold all; destruct omit; [exact U|split; [intros _ R; exact R|exact U]]).
  assert (NM : Forall no_mark (es ++ [end_event])).
  { apply Forall_app. split; [apply flat_no_mark, Forall_forall; intros x _; apply dump_no_mark|constructor; [discriminate|constructor]]. }
  destruct (carried_written indent all t_init [] eq_refl (ok_top false) C) as (fs & out & TW & SO & SE).
  assert (AS : ascii out) by (exact (all_ascii indent (blank_ascii _ BI) all t_init fs out (carried_octets _ _ C) TW)).
  assert (D : dump_text indent omit tas seq v = Ok out) by (unfold dump_text; rewrite (blank_accepted _ BI); cbn [bind]; unfold dump_events; fold es; fold all; rewrite TW; reflexivity).
  exists out. split; [exact D|]. split; [unfold dumps_text; rewrite D; cbn [bind]; apply ascii_decode, AS|]. split; [exact AS|].
  set (evs := stream_read indent t_init all) in *.
  pose proof (same_mirrors _ _ _ SE N) as MI. pose proof (same_handed cat _ _ _ SE C N UA) as HA.
  assert (MV : mirrors_by text_shows [] es (map tagged (filter is_value evs))).
  { clear -MI. assert (G : forall es' o us, mirrors_by text_shows o (es' ++ [end_event]) us -> mirrors_by text_shows o es' us).
    { induction es' as [|e es' IH]; intros o us M; cbn [app] in M.
      - inversion M as [|? ? ? ? M'| | |]; subst; try discriminate. inversion M'; subst. constructor.
      - inversion M; subst; [apply mi_mark; auto|apply mi_scalar; auto|eapply mi_start; eauto|apply mi_end; auto]. }
    apply G. unfold all in MI. destruct omit; [exact MI|]. cbn [app] in MI. inversion MI; subst; try discriminate. assumption. }
  destruct (text_loads tas (top_level seq v) _ ST MV) as (l' & Nn & E & L). exists l'. split; [exact E|]. exists (Nn + 9)%nat. intros src chunks fuel P CC LE.
  assert (SS : forall uni, text_session uni text_reader_new chunks (repeat DNext (length evs + 1)) = (evs, SEnd)) by (intros uni; exact (stream_session uni indent all fs out chunks (length evs + 1) (blank_ok _ BI) SO TW P CC ltac:(fold evs; lia))).
  clearbody evs. assert (SV : forall uni, serves (text_feeder_next fuel uni cat) (tmreader_new, chunks) (map tagged (filter is_value evs))).
  { intros uni. destruct fuel as [|f]; [lia|]. specialize (SS uni).
    unfold all in SE. destruct omit; cbn [app] in SE.
    - rewrite (filter_all _ _ (all_values _ _ _ SE NM)). apply session_on; [lia|exact sane_new|exact SS|]. pose proof (all_values _ _ _ SE NM) as AV.
      apply Forall_forall. intros x I. rewrite Forall_forall in HA, AV. exact (HA x I (AV x I)).
    - destruct (marked _ _ SE) as (evs0 & -> & S1). assert (AV : Forall (fun e => is_value e = true) evs0) by (eapply all_values; [exact S1|exact NM]).
      cbn [filter is_value ev_type]. rewrite (filter_all _ _ AV). inversion HA as [|? ? _ HA']; subst.
      apply (session_mark uni cat mstate_new mstate_new f (mkev EVersionMarker None (EvVersion 1 0) None [] (Some 0)) evs0); [lia|reflexivity|reflexivity|exact sane_new| |].
      + exact SS.
      + apply Forall_forall. intros x I. rewrite Forall_forall in HA', AV. exact (HA' x I (AV x I)). }
  assert (LT : forall uni, load_text fuel uni cat chunks = Ok l').
  { intros uni. destruct (L _ _ _ (SV uni)) as (s' & LI). unfold load_text. rewrite LI by lia. reflexivity. }
  destruct src; cbn [load_from]; [apply LT|]. rewrite CC. replace (zlist_eqb (firstn 4 out) [224; 1; 0; 234]) with false; [apply LT|].
  symmetry. destruct out as [|c r]; [reflexivity|]. inversion AS as [|? ? A1 A2]; subst. unfold ascii_char in A1. cbn [firstn zlist_eqb]. replace (c =? 224) with false by lia. reflexivity.
Qed.
