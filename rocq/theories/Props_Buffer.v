(** Property theorems C03, C04, C21: the write buffer and the read buffer. *)
From Verif Require Import Base BaseFacts BufferModel BufferFacts HistoryFacts BufferProofs.

(** C03.  A call sequence is [OStart], [OAdd bytes] and [OEnd h], where [h] computes the header
    from the length the buffer reports at that moment.  It is well nested when it ends at depth 0
    and never closes a container that is not open ([nesting 0 os = Some 0]).  Its meaning is a
    forest of leaves and groups; the bytes of a group are its header, computed from the exact
    length of its content, followed by that content. *)
Theorem C03_headers_before_content : forall os, nesting 0 os = Some 0%nat ->
  exists items t bufs,
    os = flat_map calls items /\
    bt_run bt_init os = Ok t /\ bt_drain t = Ok (bufs, bt_init) /\
    concat bufs = flat_map content items.
Proof. exact headers_before_content. Qed.
Print Assumptions C03_headers_before_content.

(** The length reported while a container is open, at any depth and after any history. *)
Theorem C03_reported_length : forall before t items,
  bt_run bt_init before = Ok t ->
  exists t', bt_run t (OStart :: flat_map calls items) = Ok t' /\
             bt_len t' = zlen (flat_map content items).
Proof. exact reported_length. Qed.
Print Assumptions C03_reported_length.

Definition hdr (n : Z) : list Z := [0xBE; 128 + n].
Example C03_case :
  let os := [OAdd [1]; OStart; OStart; OAdd [2; 3]; OEnd hdr; OAdd [4]; OEnd hdr; OAdd [5]] in
  nesting 0 os = Some 0%nat /\
  (let* t := bt_run bt_init os in let* (b, _) := bt_drain t in Ok (concat b))
    = Ok [1; 0xBE; 133; 0xBE; 130; 2; 3; 4; 5].
Proof. split; vm_compute; reflexivity. Qed.

(** C04.  A history succeeds exactly when it never closes more than it opened, the failure is
    ValueError; draining succeeds exactly at depth 0 and gives back the initial buffer. *)
Theorem C04_unbalanced_rejected : forall os,
  match nesting 0 os with
  | None => bt_run bt_init os = Err ValueError
  | Some d => exists t, bt_run bt_init os = Ok t /\
              match d with
              | O => (exists bufs, bt_drain t = Ok (bufs, bt_init)) /\
                     (forall h, bt_end t h = Err ValueError)
              | S _ => bt_drain t = Err ValueError /\ (forall h, exists t', bt_end t h = Ok t')
              end
  end.
Proof. exact unbalanced_rejected. Qed.
Print Assumptions C04_unbalanced_rejected.

Example C04_case :
  nesting 0 [OStart; OAdd [1]] = Some 1%nat /\ nesting 0 [OAdd [1]; OEnd hdr] = None.
Proof. split; reflexivity. Qed.

(** C21.  [fifo_history] is the specification: octets consumed so far, octets waiting. Every legal
    history gives the same answers (data, remaining skip count, exceptions) on the segmented
    queue, whose length and position are the number of waiting and consumed octets. *)
Theorem C21_queue_is_fifo : forall os, q_legal_history (mkfifo [] []) os ->
  let '(outs, q) := bq_history bq_init os in
  let '(outs', f) := fifo_history (mkfifo [] []) os in
  outs = outs' /\ bq_size q = zlen (waiting f) /\ bq_pos q = zlen (consumed f).
Proof. exact queue_is_fifo. Qed.
Print Assumptions C21_queue_is_fifo.

(** Nothing is lost or reordered: without unread, consumed ++ waiting is all that was added. *)
Theorem C21_fifo_conserves : forall os f, 
  Forall (fun o => match o with QUnread _ => False | QRead n | QSkip n => 0 <= n | _ => True end) os ->
  let f' := snd (fifo_history f os) in
  consumed f' ++ waiting f' = (consumed f ++ waiting f) ++
    flat_map (fun o => match o with QExtend d => d | _ => [] end) os.
Proof. exact fifo_conserves. Qed.
Print Assumptions C21_fifo_conserves.

Example C21_case :
  let os := [QExtend [1; 2]; QReadByte; QExtend [3; 4; 5]; QUnread 1; QRead 3; QUnread 3; QSkip 2;
             QRead 5; QReadByte; QReadByte] in
  q_legal_history (mkfifo [] []) os /\
  fst (bq_history bq_init os) =
    [QDone; QUnit 1; QDone; QDone; QData [1; 2; 3]; QDone; QRem 0; QExc IndexError; QUnit 5;
     QExc IndexError].
Proof.
  split; [|vm_compute; reflexivity].
  cbn. repeat split; try discriminate; try lia; [exists []|exists [1; 2]]; reflexivity.
Qed.

(** The data-segmentation desynchronises only for negative counts, which the readers can issue
    after an over-run (see C14): the position then moves backwards and the length is wrong. *)
Theorem C21_negative_skip_refuted :
  (let q := bq_extend bq_init [1; 2] in
   match bq_skip q (-1) with Ok (_, q') => (bq_size q', bq_pos q') | Err _ => (0, 0) end) = (3, -1).
Proof. vm_compute. reflexivity. Qed.
