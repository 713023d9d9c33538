(** Models of the write buffer (/repo/amazon/ion/writer_buffer.py) and of the read buffer
    (/repo/amazon/ion/reader.py:117-280). *)
From Verif Require Import Base.

(** * BufferTree *)

(** writer_buffer.py:23-42 [_Node]: an optional value and ordered children.  Parent pointers are
    written but never read, so they are left out. *)
Inductive node : Type := Node (value : option (list Z)) (children : list node).

(** writer_buffer.py:24-27, the attribute [children]. *)
Definition node_children (n : node) : list node := match n with Node _ c => c end.
(** writer_buffer.py:24-27, the attribute [value]. *)
Definition node_value (n : node) : option (list Z) := match n with Node v _ => v end.

(** writer_buffer.py:29-33 [add_child]. *)
Definition add_child (n c : node) : node := match n with Node v cs => Node v (cs ++ [c]) end.

(** writer_buffer.py:35-42 [add_leaf]: walk down the first children to a childless node, and give
    it the new node as its only child. *)
Fixpoint add_leaf (n leaf : node) : node :=
  match n with
  | Node v [] => Node v [leaf]
  | Node v (c :: cs) => Node v (add_leaf c leaf :: cs)
  end.

(** writer_buffer.py:84-89 [__depth_traverse]: children first, then the node's own value. *)
Fixpoint depth_traverse (n : node) : list (option (list Z)) :=
  match n with Node v cs => flat_map depth_traverse cs ++ [v] end.

(** writer_buffer.py:69-82: the mutable tree, as a zipper.  [bt_cur] is [__container_node],
    [bt_open] the stack [__container_nodes] (innermost first; each holds the children it has
    besides the open one, which is always its last child), [bt_lens] is [__container_lengths]
    and [bt_len] is [current_container_length]. *)
Record btree := mkbt {
  bt_cur : node;
  bt_open : list node;
  bt_lens : list Z;
  bt_len : Z
}.

(** writer_buffer.py:77-82 [__reset]. *)
Definition bt_init : btree := mkbt (Node None []) [] [] 0.

(** writer_buffer.py:91-102 [start_container]. *)
Definition bt_start (t : btree) : btree :=
  mkbt (Node None []) (bt_cur t :: bt_open t) (bt_len t :: bt_lens t) 0.

(** writer_buffer.py:104-120 [end_container]. *)
Definition bt_end (t : btree) (header : list Z) : res btree :=
  match bt_open t, bt_lens t with
  | [], _ => Err ValueError
  | _ :: _, [] => Err IndexError
  | p :: ps, l :: ls =>
    Ok (mkbt (add_child p (add_leaf (bt_cur t) (Node (Some header) []))) ps ls
             (l + bt_len t + zlen header))
  end.

(** writer_buffer.py:122-129 [add_scalar_value]. *)
Definition bt_add (t : btree) (value : list Z) : btree :=
  mkbt (add_child (bt_cur t) (Node (Some value) [])) (bt_open t) (bt_lens t)
       (bt_len t + zlen value).

(** writer_buffer.py:131-142 [drain], run to exhaustion: the yielded buffers and the reset tree. *)
Definition somes {A} (l : list (option A)) : list A :=
  flat_map (fun o => match o with Some a => [a] | None => [] end) l.
(** writer_buffer.py:131-142 [drain]: refused inside a container. *)
Definition bt_drain (t : btree) : res (list (list Z) * btree) :=
  match bt_open t with
  | _ :: _ => Err ValueError
  | [] => Ok (somes (depth_traverse (bt_cur t)), bt_init)
  end.

(** * BufferQueue *)

(** reader.py:117-150.  A segment is a piece of data or the EOF marker (a unique one-element
    object recognised by identity, reader.py:114, 134-136). *)
Inductive seg : Type := SData (d : list Z) | SEof.
(** reader.py:150-151: the EOF marker is the object [_EOF] (114). *)
Definition seg_data (s : seg) : list Z := match s with SData d => d | SEof => [4] end.
(** reader.py:168. *)
Definition seg_len (s : seg) : Z := zlen (seg_data s).

(** reader.py:119-132, the attributes of a [BufferQueue]. *)
Record bq := mkbq {
  bq_segs : list seg;
  bq_off : Z;
  bq_size : Z;
  bq_pos : Z
}.
(** reader.py:119-132 [__init__]. *)
Definition bq_init : bq := mkbq [] 0 0 0.

(** reader.py:142-148 [extend] (the element type check is not modelled: data is of the right
    class by construction) and 150-152 [mark_eof]. *)
Definition bq_extend (q : bq) (d : list Z) : bq :=
  mkbq (bq_segs q ++ [SData d]) (bq_off q) (bq_size q + zlen d) (bq_pos q).
(** reader.py:150-152 [mark_eof]. *)
Definition bq_mark_eof (q : bq) : bq :=
  mkbq (bq_segs q ++ [SEof]) (bq_off q) (bq_size q + 1) (bq_pos q).

(** reader.py:164-195, the [while length > 0] loop of [read]; structural on the segment deque
    ([offset] is the local of that name, [acc] is [data]); an empty deque is [segments[0]] on an
    empty deque.  Returns the data, the remaining deque and the new [__offset]. *)
Fixpoint bq_read_loop (segs : list seg) (offset length : Z) (acc : list Z) (skip : bool)
  : res (list Z * list seg * Z) :=
  match segs with
  | [] => Err IndexError
  | s :: rest =>
    let segment_rem := seg_len s - offset in
    let n := Z.min segment_rem length in
    let whole := (offset =? 0) && (n =? segment_rem) in
    let slice := if skip then []
                 else if whole then seg_data s
                 else zslice (seg_data s) offset (offset + n) in
    let new_off := offset + n in
    let consumed := new_off =? seg_len s in
    let segs' := if consumed then rest else s :: rest in
    let off' := if consumed then 0 else new_off in
    if (length <=? segment_rem) && (zlen acc =? 0)
    then Ok (slice, segs', off')
    else if 0 <? length - n
         then if consumed
              then bq_read_loop rest 0 (length - n) (acc ++ slice) skip
              else Err IndexError (* not reachable: a partial read leaves nothing to read *)
         else Ok (acc ++ slice, segs', off')
  end.

(** reader.py:154-199 [read]. *)
Definition bq_read (q : bq) (length : Z) (skip : bool) : res (list Z * bq) :=
  if bq_size q <? length then Err IndexError
  else if length <=? 0
  then Ok ([], mkbq (bq_segs q) (bq_off q) (bq_size q - length) (bq_pos q + length))
  else
    let* (d, segs, off) := bq_read_loop (bq_segs q) (bq_off q) length [] skip in
    Ok (d, mkbq segs off (bq_size q - length) (bq_pos q + length)).

(** What [read_byte] returns: a code unit or the EOF object. (reader.py:208-211.) *)
Inductive unit_or_eof := Unit_ (z : Z) | Eof.

(** reader.py:201-219 [read_byte]. *)
Definition bq_read_byte (q : bq) : res (unit_or_eof * bq) :=
  if bq_size q <? 1 then Err IndexError
  else match bq_segs q with
  | [] => Err IndexError
  | s :: rest =>
    let* octet := match s with
                  | SEof => Ok Eof
                  | SData d => let* z := py_index d (bq_off q) in Ok (Unit_ z)
                  end in
    let off := bq_off q + 1 in
    let consumed := off =? seg_len s in
    Ok (octet, mkbq (if consumed then rest else s :: rest) (if consumed then 0 else off)
                    (bq_size q - 1) (bq_pos q + 1))
  end.

(** reader.py:221-259 [unread], Python 3 (one code unit per character). *)
Definition bq_unread (q : bq) (c : Z) : res bq :=
  if bq_pos q <? 1 then Err IndexError
  else if bq_off q =? 0
  then Ok (mkbq (SData [c] :: bq_segs q) 0 (bq_size q + 1) (bq_pos q - 1))
  else match bq_segs q with
  | [] => Err IndexError
  | s :: _ =>
    let* existing := py_index (seg_data s) (bq_off q - 1) in
    if existing =? c
    then Ok (mkbq (bq_segs q) (bq_off q - 1) (bq_size q + 1) (bq_pos q - 1))
    else Err ValueError
  end.

(** reader.py:261-273 [skip]; returns the amount still to be skipped. *)
Definition bq_skip (q : bq) (length : Z) : res (Z * bq) :=
  if bq_size q <=? length
  then Ok (length - bq_size q, mkbq [] 0 0 (bq_pos q + bq_size q))
  else let* (_, q') := bq_read q length true in Ok (0, q').

(** * The abstract queue used by the reader models

    The same object with the segmentation forgotten: the unread units, the [__size] counter (which
    a negative [read] desynchronises) and the public [position].  [BufferFacts.v] proves that
    [bq] refines it operation by operation. *)
(** reader.py:119-132. *)
Record aq := mkaq { aq_data : list Z; aq_size : Z; aq_pos : Z }.
(** reader.py:119-132. *)
Definition aq_init : aq := mkaq [] 0 0.
(** reader.py:142-148 on [aq]. *)
Definition aq_extend (q : aq) (d : list Z) : aq :=
  mkaq (aq_data q ++ d) (aq_size q + zlen d) (aq_pos q).
(** reader.py:154-199 on [aq]. *)
Definition aq_read (q : aq) (length : Z) : res (list Z * aq) :=
  if aq_size q <? length then Err IndexError
  else if zlen (aq_data q) <? length then Err IndexError
  else Ok (ztake length (aq_data q),
           mkaq (zdrop length (aq_data q)) (aq_size q - length) (aq_pos q + length)).
(** reader.py:201-219 on [aq]. *)
Definition aq_read_byte (q : aq) : res (Z * aq) :=
  if aq_size q <? 1 then Err IndexError
  else match aq_data q with
  | [] => Err IndexError
  | b :: rest => Ok (b, mkaq rest (aq_size q - 1) (aq_pos q + 1))
  end.
(** reader.py:221-259 on [aq]. *)
Definition aq_unread (q : aq) (c : Z) : res aq :=
  if aq_pos q <? 1 then Err IndexError
  else Ok (mkaq (c :: aq_data q) (aq_size q + 1) (aq_pos q - 1)).
(** reader.py:261-273 on [aq]. *)
Definition aq_skip (q : aq) (length : Z) : res (Z * aq) :=
  if aq_size q <=? length
  then Ok (length - aq_size q, mkaq [] 0 (aq_pos q + aq_size q))
  else let* (_, q') := aq_read q length in Ok (0, q').
