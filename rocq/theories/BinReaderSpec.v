(** Specification of reading Ion binary from a whole byte string, with no buffer, no pieces, no
    co-routines: a parser for one item (a scalar, a container start or end, a version marker, a
    NOP pad) at a position of the stream, and the session it induces.

    It uses from the reader model only the type-octet table [dispatch], the scalar thunks and the
    record types.  Unlike the code, it checks every octet it takes against the end of the enclosing
    container. *)
From Verif Require Import Base FieldsModel BufferModel CoreModel BinReaderModel.

(** What an item is: an event (or [None] for a NOP pad) with the open containers, position and
    octets after it; a failure; or the signal given when the octets run out. *)
Inductive outcome :=
| ODone (oe : option event) (fs : list frame) (pos : Z) (bs : list Z)
| OFail (e : exc)
| OMore (sig : event).

(** Take [n] octets, which must lie inside the enclosing container. *)
Definition p_read (c : rctx) (n : Z) (sig : event) (k : list Z -> Z -> list Z -> outcome)
  (pos : Z) (bs : list Z) : outcome :=
  match (if c_depth c =? 0 then Ok tt
         else match c_limit c with
              | None => Err TypeError
              | Some lim => if lim - pos <? n then Err IonException else Ok tt
              end) with
  | Err e => OFail e
  | Ok _ => if zlen bs <? n then OMore (match bs with [] => sig | _ => incomplete_event end)
            else k (ztake n bs) (pos + n) (zdrop n bs)
  end.

(** A VarUInt, each octet inside the enclosing container. *)
Fixpoint p_var (c : rctx) (value : Z) (k : Z -> Z -> list Z -> outcome) (pos : Z) (bs : list Z)
  : outcome :=
  match (if c_depth c =? 0 then Ok tt
         else match c_limit c with
              | None => Err TypeError
              | Some lim => if lim - pos <? 1 then Err IonException else Ok tt
              end) with
  | Err e => OFail e
  | Ok _ =>
    match bs with
    | [] => OMore incomplete_event
    | b :: r => if varuint_last b then k (varuint_step value b) (pos + 1) r
                else p_var c (varuint_step value b) k (pos + 1) r
    end
  end.

(** Report an event; an annotated scalar must end exactly where its wrapper ends. *)
Definition p_emit (fs : list frame) (c : rctx) (et : evtype) (t : iontype) (v : evalue)
  (pos : Z) (bs : list Z) : outcome :=
  let annots := match c_annot c with None => [] | Some a => a end in
  match match et, annots with
        | EContainerStart, _ => Ok tt
        | _, [] => Ok tt
        | _, _ => match c_limit c with
                  | None => Err TypeError
                  | Some lim => if lim - pos =? 0 then Ok tt else Err IonException
                  end
        end with
  | Err e => OFail e
  | Ok _ => ODone (Some (mkev et (Some t) v (c_field c) (map sid_token annots) (Some (c_depth c))))
                  fs pos bs
  end.

Definition scalar_evalue (k : option thunk_kind) (data : list Z) : evalue :=
  match k with Some k => EvThunk k data | None => EvVal (VBytes data) end.

Section TYPED.
  (** What an annotation wrapper of a given content length does. *)
  Variable annot : rctx -> Z -> Z -> list Z -> outcome.
  Variable fs : list frame.

  Definition p_user (u : uhandler) (length : Z) (c : rctx) (pos : Z) (bs : list Z) : outcome :=
    match u with
    | UScalar k t =>
      if length =? 0 then p_emit fs c EScalar t (scalar_evalue k []) pos bs
      else p_read c length incomplete_event
             (fun data pos bs => p_emit fs c EScalar t (scalar_evalue k data) pos bs) pos bs
    | UContainer t =>
      match c_annot c with
      | Some (_ :: _) =>
        if opt_eqb Z.eqb (c_limit c) (Some (pos + length))
        then p_emit (mkframe (Some t) (Some (pos + length)) (c_depth c + 1) true :: fs) c
                    EContainerStart t EvNone pos bs
        else OFail IonException
      | _ => p_emit (mkframe (Some t) (Some (pos + length)) (c_depth c + 1) true :: fs) c
                    EContainerStart t EvNone pos bs
      end
    | UAnnot => annot c length pos bs
    | UNop =>
      match c_field c with
      | Some f => if token_eqb f symbol_zero
                  then (if 0 <? length
                        then p_read c length incomplete_event (fun _ pos bs => ODone None fs pos bs) pos bs
                        else ODone None fs pos bs)
                  else OFail TypeError
      | None => if 0 <? length
                then p_read c length incomplete_event (fun _ pos bs => ODone None fs pos bs) pos bs
                else ODone None fs pos bs
      end
    end.

  Definition p_handler (h : handler) (c : rctx) (pos : Z) (bs : list Z) : outcome :=
    match h with
    | HInvalid => OFail IonException
    | HIvm =>
      if negb (c_depth c =? 0) then OFail IonException
      else p_read c 3 incomplete_event
             (fun tail pos bs => if zlist_eqb tail [0x01; 0x00; 0xEA]
                                 then ODone (Some version_marker_event) fs pos bs
                                 else OFail IonException) pos bs
    | HStatic t v => p_emit fs c EScalar t v pos bs
    | HLen u ln => p_user u ln c pos bs
    | HVarLen u => p_var c 0 (fun v pos bs => p_user u v c pos bs) pos bs
    | HOrdered => p_var c 0 (fun v pos bs => if v <? 2 then OFail IonException
                                             else p_user (UContainer TStruct) v c pos bs) pos bs
    end.

  (** A value: type octet and the rest. *)
  Definition p_typed (c : rctx) (expects_ivm at_top : bool) (pos : Z) (bs : list Z) : outcome :=
    p_read c 1 (if at_top then stream_end_event else incomplete_event)
      (fun data pos bs =>
         match data with
         | o :: _ => if expects_ivm && negb (o =? 0xE0) then OFail IonException
                     else p_handler (dispatch o) c pos bs
         | [] => OFail OutOfFuel (* not reachable: one octet was read *)
         end) pos bs.
End TYPED.

(** Inside a wrapper another wrapper is refused. *)
Definition p_no_annot (c : rctx) (length pos : Z) (bs : list Z) : outcome :=
  match c_annot c with Some _ => OFail IonException | None => OFail OutOfFuel end.

Definition p_annot (fs : list frame) (c : rctx) (length pos : Z) (bs : list Z) : outcome :=
  match c_annot c with
  | Some _ => OFail IonException
  | None =>
    let c' := mkctx (Some (pos + length)) (c_depth c) (c_field c) None in
    p_var c' 0
      (fun v pos bs =>
         if v <? 1 then OFail IonException
         else p_read c' v incomplete_event
                (fun data pos bs =>
                   match parse_sids data with
                   | Err e => OFail e
                   | Ok sids =>
                     match c_limit c' with
                     | None => OFail TypeError
                     | Some lim =>
                       if lim - pos <? 1 then OFail IonException
                       else p_typed p_no_annot fs
                              (mkctx (c_limit c') (c_depth c') (c_field c') (Some sids))
                              false false pos bs
                     end
                   end) pos bs) pos bs
  end.

(** One item. *)
Definition p_item (fs : list frame) (pos : Z) (bs : list Z) : outcome :=
  match fs with
  | [] => OFail TypeError
  | f :: rest =>
    if opt_eqb Z.eqb (Some pos) (f_limit f)
    then ODone (Some (mkev EContainerEnd (f_type f) EvNone None [] (Some (f_depth f - 1)))) rest pos bs
    else
      let at_top := f_depth f =? 0 in
      let fs' := mkframe (f_type f) (f_limit f) (f_depth f) false :: rest in
      let c fld := mkctx (f_limit f) (f_depth f) fld None in
      match f_type f with
      | Some TStruct =>
        p_var (c None) 0
          (fun v pos bs => p_typed (p_annot fs') fs' (c (Some (sid_token v)))
                                   (f_first f && at_top) at_top pos bs) pos bs
      | _ => p_typed (p_annot fs') fs' (c None) (f_first f && at_top) at_top pos bs
      end
  end.

(** Skipping to the end of the innermost container (one must be open). *)
Definition p_skip (fs : list frame) (pos : Z) (bs : list Z) : outcome :=
  match fs with
  | [] => OFail TypeError
  | f :: rest =>
    match f_limit f with
    | None => OFail TypeError
    | Some lim =>
      if lim <? pos then OFail IonException
      else if zlen bs <? lim - pos then OMore incomplete_event
      else ODone (Some (mkev EContainerEnd (f_type f) EvNone None [] (Some (f_depth f - 1))))
                 rest lim (zdrop (lim - pos) bs)
    end
  end.

(** The next event: items until one is not a pad.  Each pad takes an octet at least, so
    [S (length bs)] rounds are enough. *)
Fixpoint p_next (fuel : nat) (fs : list frame) (pos : Z) (bs : list Z) : outcome :=
  match fuel with
  | O => OFail OutOfFuel
  | S n => match p_item fs pos bs with
           | ODone None fs' pos' bs' => p_next n fs' pos' bs'
           | o => o
           end
  end.

(** How a session over a whole input stops: the requests are used up; the input is (no value is
    cut); the input ends inside an item; or something is wrong with the input or the request. *)
Inductive sstop := PMore | PEnd | PCut | PBad (e : exc).

(** A session over the whole input: requests are answered one by one; SKIP is legal only inside a
    container, and not before the first event. *)
Fixpoint spec_session (started : bool) (fs : list frame) (pos : Z) (bs : list Z) (reqs : list devent)
  : list event * sstop :=
  match reqs with
  | [] => ([], PMore)
  | q :: qs =>
    let o := match q with
             | DNext => p_next (S (length bs)) fs pos bs
             | DSkip => match fs with
                        | _ :: _ :: _ => if started then p_skip fs pos bs else OFail TypeError
                        | _ => OFail TypeError
                        end
             | DData _ => OFail TypeError
             end in
    match o with
    | ODone (Some ev) fs' pos' bs' =>
      let '(evs, st) := spec_session true fs' pos' bs' qs in (ev :: evs, st)
    | ODone None _ _ _ => ([], PBad OutOfFuel)
    | OFail e => ([], PBad e)
    | OMore sig => match ev_type sig with
                   | EStreamEnd => ([], PEnd)
                   | _ => ([], PCut)
                   end
    end
  end.

Definition top_frame : frame := mkframe None None 0 true.
Definition spec_read (bs : list Z) (reqs : list devent) : list event * sstop :=
  spec_session false [top_frame] 0 bs reqs.
