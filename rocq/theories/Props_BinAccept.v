(** Property theorems C67: whatever is read to its end without an exception is well formed. *)
From Verif Require Import Base BaseFacts FieldsModel BufferModel CoreModel BinReaderModel BinReaderSession BinFormat BinFormatFacts BinAccepts BinAcceptProofs.
Local Open Scope Z_scope.
Local Open Scope list_scope.

(** [accepted], with neither leniency, is the format: trees where [p] says, their octets and their events. *)
Theorem C67_strict_is_the_format : forall p d l es,
  (p = Top -> d = 0) ->
  (accepted false none_unread false p d l es <-> exists ns, Forall (node_ok p) ns /\ flat_map code ns = l /\ flat_map (events d) ns = es).
Proof.
  intros p d l es P0. split.
  - intros A. clear P0. remember false as u eqn:U0 in A at 2. induction A as [u p d|u p d f w bs l es F Z U B A IH|u p d f w t v bs l es F W S A IH|u p d f w t hd body inner l es start F W C ES A1 IH1 A2 IH2|u w l es U A IH|p d l X]; try discriminate.
    + exists []. auto.
    + destruct (IH U0) as (ns & H & <- & <-). destruct w as [w|]; [destruct U; discriminate|]. exists (NPad f bs :: ns). split; [constructor; [cbn; auto|exact H]|]. cbn [flat_map code events]. unfold lead. cbn [opt_octets app]. rewrite app_nil_r, <- app_assoc. auto.
    + destruct (IH U0) as (ns & H & <- & <-). exists (NScalar f w t v bs :: ns). split; [constructor; [cbn; auto|exact H]|]. cbn [flat_map code events]. unfold lead. rewrite <- !app_assoc. auto.
    + destruct IH1 as (kids & HK & <- & <-); [rewrite U0; destruct p; reflexivity|]. destruct (IH2 U0) as (ns & H & <- & <-). exists (NCont f w t hd kids :: ns). split; [constructor; [cbn [node_ok]; rewrite fold_and_Forall; auto|exact H]|]. cbn [flat_map code events]. unfold lead. rewrite ES, <- !app_assoc. cbn [app]. rewrite <- app_assoc. auto.
    + destruct (IH U0) as (ns & H & <- & <-). destruct w as [w|]; [destruct U; discriminate|]. exists (NIvm :: ns). split; [constructor; [reflexivity|exact H]|]. cbn [flat_map code events opt_octets app]. auto.
  - intros (ns & H & <- & <-).
    assert (G : forall n, forall p d, (p = Top -> d = 0) -> node_ok p n -> forall l es, accepted false none_unread false p d l es -> accepted false none_unread false p d (code n ++ l) (events d n ++ es)).
    { clear. induction n as [f bs|f w t v bs|f w t hd kids IH|] using node_induction; intros p d P0 N l es A; cbn [node_ok code events] in *.
      - destruct N as (F & Z & B). rewrite <- app_assoc. replace (opt_octets fst f ++ bs ++ l) with (lead f None ++ bs ++ l) by (unfold lead; cbn [opt_octets]; rewrite app_nil_r; reflexivity). apply ac_pad; auto. exact Logic.I.
      - destruct N as (F & W & S). rewrite <- !app_assoc. rewrite (app_assoc (opt_octets fst f)). apply (ac_scalar false none_unread false p d f w t v bs); assumption.
      - destruct N as (F & W & C & K). rewrite fold_and_Forall in K. cbn [app]. rewrite <- !app_assoc. rewrite (app_assoc (opt_octets fst f)). cbn [app].
        apply (ac_container false none_unread false p d f w t hd); auto. replace (unread_inside _ _ _ _) with false by (destruct p; reflexivity). clear - K IH. assert (T : inside t = Top -> d + 1 = 0) by (destruct t; discriminate).
        induction K as [|k kids K KS IHK]; cbn [flat_map]; [constructor|]. apply (Forall_inv IH); auto. apply IHK. exact (Forall_inv_tail IH).
      - subst p. rewrite P0 in * by reflexivity. apply (ac_marker false none_unread false None); [exact Logic.I|exact A]. }
    induction H as [|n ns N NS IH]; cbn [flat_map]; [constructor|]. apply G; assumption.
Qed.
Print Assumptions C67_strict_is_the_format.

(** The two things outside the format: somewhere, a wrapper around padding or around a version marker. *)
Definition wraps_nothing (l : list Z) : Prop :=
  exists before w what after, l = before ++ wrapper_octets w ++ what ++ after /\ wrapper_unfilled w /\ (pad_code what \/ what = ivm).
Lemma lenient_or skips u p d l es : accepted true skips u p d l es -> accepted false skips u p d l es \/ wraps_nothing l.
Proof.
  assert (FRONT : forall a l, wraps_nothing l -> wraps_nothing (a ++ l)).
  { intros a l0 (b & w & x & c & -> & H). exists (a ++ b), w, x, c. rewrite <- app_assoc. auto. }
  assert (BACK : forall l c, wraps_nothing l -> wraps_nothing (l ++ c)).
  { intros l0 c (b & w & x & c' & -> & H). exists b, w, x, (c' ++ c). rewrite <- !app_assoc. auto. }
  induction 1 as [u p d|u p d f w bs l es F Z U B A [IH|IH]|u p d f w t v bs l es F W S A [IH|IH]|u p d f w t hd body inner l es start F W C ES A1 IH1 A2 IH2|u w l es U A [IH|IH]|p d l X].
  - left. constructor.
  - destruct w as [w|]; [|left; apply ac_pad; auto]. right. destruct U as (_ & U). exists (opt_octets fst f), w, bs, l. split; [|auto]. unfold lead. cbn [opt_octets]. rewrite <- !app_assoc. reflexivity.
  - right. apply FRONT, FRONT. exact IH.
  - left. apply ac_scalar; assumption.
  - right. apply FRONT, FRONT. exact IH.
  - destruct IH1 as [IH1|IH1]; [|right; apply FRONT, FRONT, BACK; exact IH1]. destruct IH2 as [IH2|IH2]; [|right; apply FRONT, FRONT, FRONT; exact IH2]. left. apply ac_container; assumption.
  - destruct w as [w|]; [|left; apply ac_marker; auto]. right. destruct U as (_ & U). exists [], w, ivm, l. auto.
  - right. apply FRONT, FRONT. exact IH.
  - left. apply ac_unread; assumption.
Qed.

(** C67.  Octets in any pieces, read with NEXT until the end of the stream is reported: there were none at all, or
    they are a version marker and then what [accepted] says, with exactly the events reported. *)
Theorem C67_read_to_the_end : forall chunks n evs,
  chunks_ok chunks -> session reader_new chunks (repeat DNext n) = (evs, SEnd) ->
  (concat chunks = [] /\ evs = []) \/
  exists l es, concat chunks = ivm ++ l /\ evs = version_marker_event :: es /\ accepted_stream true none_unread l es.
Proof.
  intros chunks n evs CO H. apply (session_accepted none_unread chunks (repeat DNext n) evs CO); [|exact H]. clear H. generalize (@None event), (@nil event). revert evs. induction n as [|n IH]; intros evs last before; cbn [repeat asks]; [exact Logic.I|]. split; [exact Logic.I|]. destruct evs; [exact Logic.I|apply IH].
Qed.
Print Assumptions C67_read_to_the_end.

(** So it is a stream of the format with just its events, unless a wrapper holds padding or a version marker. *)
Theorem C67_well_formed : forall chunks n evs,
  chunks_ok chunks -> session reader_new chunks (repeat DNext n) = (evs, SEnd) ->
  (concat chunks = [] /\ evs = []) \/
  (exists ns, stream_ok ns /\ concat chunks = stream ns /\ evs = stream_events ns) \/
  (exists l, concat chunks = ivm ++ l /\ wraps_nothing l).
Proof.
  intros chunks n evs CO H. destruct (C67_read_to_the_end chunks n evs CO H) as [E|(l & es & -> & -> & A)]; [auto|]. right. destruct (lenient_or _ _ _ _ _ _ A) as [S|W]; [left|right; eauto].
  apply C67_strict_is_the_format in S; [|reflexivity]. destruct S as (ns & N & <- & <-). exists ns. auto.
Qed.
Print Assumptions C67_well_formed.

(** An application that skips containers, each just after it was opened: what it skipped was not looked at, the rest is
    as before. *)
Definition starts_container (e : event) : Prop := ev_type e = EContainerStart.
Fixpoint skips_opened (last : option event) (reqs : list devent) (evs : list event) : Prop :=
  match reqs with
  | [] => True
  | q :: qs => (q = DNext \/ q = DSkip /\ exists e, last = Some e /\ starts_container e) /\ match evs with [] => True | e :: es => skips_opened (Some e) qs es end
  end.
Theorem C67_skipping : forall chunks reqs evs,
  chunks_ok chunks -> session reader_new chunks reqs = (evs, SEnd) -> skips_opened None reqs evs ->
  (concat chunks = [] /\ evs = []) \/
  exists l es, concat chunks = ivm ++ l /\ evs = version_marker_event :: es /\ accepted_stream true any_unread l es.
Proof.
  intros chunks reqs evs CO H S. apply (session_accepted any_unread chunks reqs evs CO); [|exact H]. clear H. revert S. generalize (@None event), (@nil event). revert evs. induction reqs as [|q qs IH]; intros evs last before; cbn [skips_opened asks]; [auto|]. intros (Q & S). split.
  - destruct Q as [->|(-> & e & -> & T)]; cbn [asked_well]; [exact Logic.I|]. split; [right; reflexivity|]. exists e. auto.
  - destruct evs as [|e es]; [exact Logic.I|apply IH; exact S].
Qed.
Print Assumptions C67_skipping.

(** Cases.  A list of an annotated integer, read to the end and skipped. *)
Definition sample : list Z := ivm ++ [0xB5; 0xE4; 0x81; 0x84; 0x21; 0x07; 0x0F].
Example C67_case : exists evs, session reader_new [sample] (repeat DNext 6) = (evs, SEnd) /\ zlen evs = 5.
Proof. eexists. split; vm_compute; reflexivity. Qed.
Example C67_skipping_case : exists evs, session reader_new [sample] [DNext; DNext; DSkip; DNext; DNext] = (evs, SEnd) /\ zlen evs = 4 /\ skips_opened None [DNext; DNext; DSkip; DNext; DNext] evs.
Proof. eexists. split; [vm_compute; reflexivity|]. split; [vm_compute; reflexivity|]. cbn. unfold starts_container. repeat split; auto. right. split; [reflexivity|]. eexists. split; reflexivity. Qed.
(** What was skipped can be anything: here the list holds a reserved type code. *)
Example C67_unread_case : snd (session reader_new [ivm ++ [0xB1; 0xF0]] [DNext; DNext; DSkip; DNext]) = SEnd /\ snd (session reader_new [ivm ++ [0xB1; 0xF0]] (repeat DNext 4)) = SExc IonException.
Proof. split; vm_compute; reflexivity. Qed.

(** Both leniencies are real (also C17_annotated_marker_refuted, C18_wrapped_padding_refuted): streams outside the format
    that are read to their end. *)
Example C67_lenient_case : map (fun bs => snd (session reader_new [ivm ++ bs] (repeat DNext 4))) [[0xE9; 0x81; 0x84; 0x00; 0x0F]; [0xE5; 0x81; 0x84; 0xE0; 0x01; 0x00; 0xEA]] = [SEnd; SEnd].
Proof. vm_compute. reflexivity. Qed.
(** Whether such a stream is read to its end can depend on how it is cut into pieces: a list of five octets, in it a wrapper
    that says it is three octets long, in it padding whose length octet is the fourth. *)
Theorem C67_pieces_matter_refuted :
  let bs := ivm ++ [0xB5; 0xE3; 0x81; 0x84; 0x0E; 0x80] in
  snd (session reader_new [bs] (repeat DNext 5)) = SEnd /\ snd (session reader_new (map (fun b => [b]) bs) (repeat DNext 5)) = SExc IonException.
Proof. split; vm_compute; reflexivity. Qed.
(** SKIP elsewhere in a container can take the reader out of step: the list [0xB1] holds a list whose length octet lies beyond
    the outer one's end.  NEXT after the inner list is refused; SKIP is answered with the end of the outer list, and an
    IndexError ends the session one value later. *)
Theorem C67_late_skip_refuted :
  let bs := ivm ++ [0xB1; 0xBE; 0x80; 0x11] in
  map ev_type (fst (session reader_new [bs] (repeat DNext 4 ++ [DSkip; DNext; DNext]))) = [EVersionMarker; EContainerStart; EContainerStart; EContainerEnd; EContainerEnd; EScalar] /\
  snd (session reader_new [bs] (repeat DNext 4 ++ [DSkip; DNext; DNext])) = SExc IndexError /\
  snd (session reader_new [bs] (repeat DNext 7)) = SExc IonException.
Proof. repeat split; vm_compute; reflexivity. Qed.
