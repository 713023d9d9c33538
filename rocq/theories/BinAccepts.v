(** What a stream read to its end must look like: octets against the events reported for them, written from the Ion
    binary format (BinFormat).  [lenient]: two things outside the format are also let in, an annotation wrapper around
    padding, and around a version marker, its declared length unused.  [skips]: in which containers the rest may be anything
    (an application that skips a container does not look at what is in it). *)
From Verif Require Import Base CoreModel BinFormat.
Local Open Scope Z_scope.
Local Open Scope list_scope.

(** A wrapper with any declared length. *)
Definition wrapper_unfilled (w : wrapper) : Prop := 
  wr_sids w <> [] /\ Forall (fun p => varuint_code (fst p) (snd p)) (wr_sids w) /\ varuint_code (wr_len w) (zlen (wr_sid_octets w)) /\ exists n, header 14 3 n (wr_head w).
Definition unfilled (lenient : bool) (w : option wrapper) : Prop :=
  match w with Some w => lenient = true /\ wrapper_unfilled w | None => True end.
Definition lead (f : option fieldname) (w : option wrapper) : list Z := opt_octets fst f ++ opt_octets wrapper_octets w.

(** [accepted lenient skips u p d l es]: where [p] says, at depth [d], the octets [l] are reported as the events [es].
    [u]: what is left of the container we are in may be unread; for a top-level container [skips] decides, by its
    start event, whether that is so in it. *)
Definition unread_inside (skips : event -> bool) (u : bool) (p : place) (start : event) : bool := match p with Top => skips start | _ => u end.
Inductive accepted (lenient : bool) (skips : event -> bool) : bool -> place -> Z -> list Z -> list event -> Prop :=
| ac_end u p d : accepted lenient skips u p d [] []
| ac_pad u p d f w bs l es : field_code p f -> match f with Some (_, sid) => sid = 0 | None => True end -> unfilled lenient w -> pad_code bs ->
    accepted lenient skips u p d l es -> accepted lenient skips u p d (lead f w ++ bs ++ l) es
| ac_scalar u p d f w t v bs l es : field_code p f -> wrapper_opt w (zlen bs) -> scalar_code t v bs ->
    accepted lenient skips u p d l es -> accepted lenient skips u p d (lead f w ++ bs ++ l) (mkev EScalar (Some t) v (field_of f) (annotations_of w) (Some d) :: es)
| ac_container u p d f w t hd body inner l es start : field_code p f -> wrapper_opt w (zlen (hd ++ body)) -> container_code t (zlen body) hd ->
    start = mkev EContainerStart (Some t) EvNone (field_of f) (annotations_of w) (Some d) ->
    accepted lenient skips (unread_inside skips u p start) (inside t) (d + 1) body inner -> accepted lenient skips u p d l es ->
    accepted lenient skips u p d (lead f w ++ hd ++ body ++ l) (start :: inner ++ mkev EContainerEnd (Some t) EvNone None [] (Some d) :: es)
| ac_marker u w l es : unfilled lenient w -> accepted lenient skips u Top 0 l es ->
    accepted lenient skips u Top 0 (opt_octets wrapper_octets w ++ ivm ++ l) (mkev EVersionMarker None (EvVersion 1 0) None [] (Some 0) :: es)
| ac_unread p d l : p <> Top -> accepted lenient skips true p d l [].

(** A stream after its first version marker; which containers may hold unread parts: none, any, those that can be symbol tables
    (annotated structs). *)
Definition accepted_stream (lenient : bool) (skips : event -> bool) : list Z -> list event -> Prop := accepted lenient skips false Top 0.
Definition none_unread (_ : event) : bool := false.
Definition any_unread (_ : event) : bool := true.
Definition tables_unread (start : event) : bool :=
  match ev_ion_type start, ev_annot start with Some TStruct, _ :: _ => true | _, _ => false end.
