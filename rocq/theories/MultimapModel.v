(** Model of [Multimap] and [MultimapValue] (core.py:598-679). *)
From Verif Require Import Base SymbolsModel.
Local Open Scope Z_scope.

(** Python [list.insert(i, x)]: a negative index counts from the end; both ends clamp. (core.py:671-672) *)
Definition py_insert {A} (l : list A) (i : Z) (x : A) : list A :=
  let n := zlen l in
  let i := if i <? 0 then Z.max 0 (i + n) else Z.min i n in
  firstn (Z.to_nat i) l ++ x :: skipn (Z.to_nat i) l.
(** Python [l[i]]. (core.py:668-669) *)
Definition py_index {A} (l : list A) (i : Z) : res A :=
  let n := zlen l in
  let j := if i <? 0 then i + n else i in
  if (j <? 0) || (n <=? j) then Err IndexError
  else match nth_error l (Z.to_nat j) with Some x => Ok x | None => Err IndexError end.

(** core.py:654-679 [MultimapValue]: [__setitem__] is [list.insert]; [append] is the mixin method
    [self.insert(len(self), x)] of MutableSequence. *)
Definition mv_new {A} (x : A) : list A := [x].
(** core.py:671-672. *)
Definition mv_setitem {A} (l : list A) (i : Z) (x : A) : list A := py_insert l i x.
(** core.py:662-663. *)
Definition mv_insert {A} (l : list A) (i : Z) (x : A) : list A := mv_setitem l i x.
(** core.py:635, 662-663. *)
Definition mv_append {A} (l : list A) (x : A) : list A := mv_insert l (zlen l) x.

Section MULTIMAP.
Context {K V : Type}.
Variable eqb : K -> K -> bool.

(** The [OrderedDict] of [MultimapValue]s: assignment keeps the position of a key that is there.
    (core.py:598-615) *)
Definition multimap : Type := dict K (list V).
(** core.py:621: of an OrderedDict. *)
Fixpoint dict_del {A} (d : dict K A) (k : K) : dict K A :=
  match d with [] => [] | (k', v) :: r => if eqb k k' then r else (k', v) :: dict_del r k end.

(** core.py:610-612. *)
Definition mm_new : multimap := [].
(** core.py:623-624 *)
Definition mm_setitem (m : multimap) (k : K) (v : V) : multimap := dict_set eqb m k (mv_new v).
(** core.py:617-618: the newest value. *)
Definition mm_getitem (m : multimap) (k : K) : res V :=
  match dict_get eqb m k with None => Err KeyError | Some vs => py_index vs (zlen vs - 1) end.
(** core.py:620-621 *)
Definition mm_delitem (m : multimap) (k : K) : res multimap :=
  match dict_get eqb m k with None => Err KeyError | Some _ => Ok (dict_del m k) end.
(** core.py:626-627 *)
Definition mm_len (m : multimap) : Z := fold_right (fun p n => zlen (snd p) + n) 0 m.
(** core.py:629-631 *)
Definition mm_keys (m : multimap) : list K := map fst m.
(** core.py:633-637 *)
Definition mm_add_item (m : multimap) (k : K) (v : V) : multimap :=
  match dict_get eqb m k with
  | Some vs => dict_set eqb m k (mv_append vs v)
  | None => mm_setitem m k v
  end.
(** core.py:639-640 *)
Definition mm_get_all (m : multimap) (k : K) : res (list V) :=
  match dict_get eqb m k with None => Err KeyError | Some vs => Ok vs end.
(** core.py:642-651 *)
Definition mm_items (m : multimap) : list (K * V) := flat_map (fun p => map (pair (fst p)) (snd p)) m.
(** core.py:610-615: from the items of a mapping. *)
Definition mm_of_items (items : list (K * V)) : multimap := fold_left (fun m p => mm_setitem m (fst p) (snd p)) items mm_new.

(** Histories of operations; a failed one (KeyError) leaves the map as it is. (core.py:620-624, 633-637) *)
Inductive mm_op := MSet (k : K) (v : V) | MAdd (k : K) (v : V) | MDel (k : K).
(** core.py:620-624, 633-637. *)
Definition mm_apply (m : multimap) (o : mm_op) : multimap :=
  match o with
  | MSet k v => mm_setitem m k v
  | MAdd k v => mm_add_item m k v
  | MDel k => match mm_delitem m k with Ok m' => m' | Err _ => m end
  end.
(** core.py:610-624, 633-637. *)
Definition mm_run (h : list mm_op) : multimap := fold_left mm_apply h mm_new.
End MULTIMAP.
Arguments multimap : clear implicits.
Arguments mm_op : clear implicits.
