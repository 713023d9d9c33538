(** Model of the raw binary reader: /repo/amazon/ion/reader_binary.py and the trampoline of
    /repo/amazon/ion/reader.py:282-398.

    The co-routines are defunctionalised: the state holds the stack of container handlers and a
    program point [pc] saying which co-routine is active and where it is suspended.  Straight-line
    sequences of immediate transitions (no event, no data consumed by the caller) are merged where
    nothing can be observed in between. *)
From Verif Require Import Base FieldsModel BufferModel CoreModel.

(** * Type octets *)

(** User handlers bound by [_bind_length_handlers] (reader_binary.py:772-829). [UScalar None]
    is the lob factory, which returns the data itself. *)
Inductive uhandler :=
| UScalar (k : option thunk_kind) (t : iontype)
| UContainer (t : iontype)
| UAnnot
| UNop.

(** reader_binary.py:753-802: the entries of [_HANDLER_DISPATCH_TABLE]. *)
Inductive handler :=
| HInvalid
| HIvm
| HStatic (t : iontype) (v : evalue)
| HLen (u : uhandler) (ln : Z)
| HVarLen (u : uhandler)
| HOrdered.

(** reader_binary.py:57-73 [_TID_VALUE_TYPE_TABLE] for type ids 0..13. *)
Definition tid_type (tid : Z) : iontype :=
  match tid with
  | 0 => TNull | 1 => TBool | 2 => TInt | 3 => TInt | 4 => TFloat | 5 => TDecimal
  | 6 => TTimestamp | 7 => TSymbol | 8 => TString | 9 => TClob | 10 => TBlob
  | 11 => TList | 12 => TSexp | _ => TStruct
  end.

(** reader_binary.py:786-797: direct length, length field, or the ordered struct special case. *)
Definition bind_len (u : uhandler) (ln : Z) : handler :=
  match u with
  | UContainer TStruct => if ln =? 1 then HOrdered else if ln <? 14 then HLen u ln else HVarLen u
  | _ => if ln <? 14 then HLen u ln else HVarLen u
  end.

(** reader_binary.py:101-116 [_STATIC_SCALARS]. *)
Definition static_scalar (o : Z) : option (iontype * scalar) :=
  match o with
  | 0x10 => Some (TBool, VBool false)
  | 0x11 => Some (TBool, VBool true)
  | 0x20 => Some (TInt, VInt 0)
  | 0x40 => Some (TFloat, VFloat 0)
  | 0x50 => Some (TDecimal, VDecimal dec_zero)
  | 0x70 => Some (TSymbol, VSymbol symbol_zero)
  | 0x80 => Some (TString, VString [])
  | 0x90 => Some (TClob, VBytes [])
  | 0xA0 => Some (TBlob, VBytes [])
  | _ => None
  end.

(** reader_binary.py:805-829: the dispatch table after all bindings. *)
Definition dispatch (o : Z) : handler :=
  let tid := o / 16 in
  let ln := o mod 16 in
  if o =? 0xE0 then HIvm
  else if (ln =? 15) then (if tid <=? 13 then HStatic (tid_type tid) EvNone else HInvalid)
  else match static_scalar o with
  | Some (t, v) => HStatic t (EvVal v)
  | None =>
    match tid with
    | 0 => bind_len UNop ln
    | 2 => if 1 <=? ln then bind_len (UScalar (Some (KInt 1)) TInt) ln else HInvalid
    | 3 => if 1 <=? ln then bind_len (UScalar (Some (KInt (-1))) TInt) ln else HInvalid
    | 4 => if (ln =? 4) || (ln =? 8) then bind_len (UScalar (Some KFloat) TFloat) ln else HInvalid
    | 5 => if 1 <=? ln then bind_len (UScalar (Some KDecimal) TDecimal) ln else HInvalid
    | 6 => if 1 <=? ln then bind_len (UScalar (Some KTimestamp) TTimestamp) ln else HInvalid
    | 7 => if 1 <=? ln then bind_len (UScalar (Some KSymbol) TSymbol) ln else HInvalid
    | 8 => if 1 <=? ln then bind_len (UScalar (Some KString) TString) ln else HInvalid
    | 9 => if 1 <=? ln then bind_len (UScalar None TClob) ln else HInvalid
    | 10 => if 1 <=? ln then bind_len (UScalar None TBlob) ln else HInvalid
    | 11 => bind_len (UContainer TList) ln
    | 12 => bind_len (UContainer TSexp) ln
    | 13 => bind_len (UContainer TStruct) ln
    | 14 => if 3 <=? ln then bind_len UAnnot ln else HInvalid
    | _ => HInvalid
    end
  end.

(** * Contexts, continuations, state *)

(** reader_binary.py:216-311 [_HandlerContext].  [whence] is always the innermost container
    handler, i.e. the top of the frame stack; [queue] is in the state; [position] is never read. *)
Record rctx := mkctx {
  c_limit : option Z;
  c_depth : Z;
  c_field : option token;
  c_annot : option (list Z)
}.

(** What the VarUInt handler passes its value to.
    (the [handler] argument of [_var_uint_field_handler], reader_binary.py:402-421.) *)
Inductive vkont :=
| VField                     (* _container_handler, reader_binary.py:596-600 *)
| VUser (u : uhandler)       (* length field of a value, 796 *)
| VOrdered                   (* _ordered_struct_start_handler, 543-545 *)
| VAnnLen.                   (* _annotation_handler, 512-514 *)

(** Where a satisfied [_read_data_handler] goes back to.
    (the [whence] argument of [_read_data_handler], reader_binary.py:339-387.) *)
Inductive kont :=
| KVar (value : Z) (vk : vkont) (c : rctx)
| KIvm
| KType (c : rctx) (expects_ivm : bool)     (* c has the field name and annotations to use *)
| KScalar (k : option thunk_kind) (t : iontype) (length : Z) (c : rctx)
| KAnn (length : Z) (c : rctx)
| KLoop                                     (* NOP pad: back to the container handler *)
| KSkipped.                                 (* SKIP: container handler after line 584 *)

(** reader_binary.py:319-608: where the active co-routine is suspended. *)
Inductive pc :=
| PLoop                                     (* container handler at line 582 *)
| PRead (length : Z) (skip : bool) (sev : event) (k : kont)
| PK (k : kont)                             (* resumed after the read *)
| PVar (value : Z) (vk : vkont) (c : rctx). (* VarUInt handler at line 412 *)

(** One container handler, reader_binary.py:571-608. *)
Record frame := mkframe {
  f_type : option iontype;
  f_limit : option Z;
  f_depth : Z;
  f_first : bool
}.

(** reader.py:311-369: the current delegate with what its closures refer to. *)
Record rstate := mkr { r_frames : list frame; r_pc : pc; r_q : aq }.

(** reader.py:282-305, core.py:295 [DataEvent]s sent to a reader. *)
Inductive devent := DNext | DSkip | DData (d : list Z).

(** One machine step yields a new state and possibly an event for the caller. (reader.py:303-308 [Transition].) *)
Definition sres := res (rstate * option event).

(** reader_binary.py:234-238 [remaining] and 351-369: creation of a [_read_data_handler]. *)
Definition begin_read (fs : list frame) (q : aq) (c : rctx) (length : Z) (skip : bool) (sev : event)
  (k : kont) : sres :=
  let* _ :=
    if c_depth c =? 0 then Ok tt
    else match c_limit c with
         | None => Err TypeError
         | Some lim => if lim - aq_pos q <? length then Err IonException else Ok tt
         end in
  let queue_len := aq_size q in
  let sev := if 0 <? queue_len then incomplete_event else sev in
  let length := length - queue_len in
  let* q :=
    if skip
    then let* (_, q) := aq_skip q (if 0 <=? length then queue_len else queue_len + length) in Ok q
    else Ok q in
  Ok (mkr fs (PRead length skip sev k) q, None).

(** reader_binary.py:250-278 [event_transition]. *)
Definition emit (fs : list frame) (q : aq) (c : rctx) (et : evtype) (t : iontype) (v : evalue) : sres :=
  let annots := match c_annot c with None => [] | Some a => a end in
  let* _ :=
    match et, annots with
    | EContainerStart, _ => Ok tt
    | _, [] => Ok tt
    | _, _ => match c_limit c with
              | None => Err TypeError
              | Some lim => if lim - aq_pos q =? 0 then Ok tt else Err IonException
              end
    end in
  Ok (mkr fs PLoop q, Some (mkev et (Some t) v (c_field c) (map sid_token annots) (Some (c_depth c)))).

(** reader_binary.py:468-475, the end of [_length_scalar_handler]. *)
Definition emit_scalar (fs : list frame) (q : aq) (k : option thunk_kind) (t : iontype)
  (data : list Z) (c : rctx) : sres :=
  emit fs q c EScalar t (match k with Some k => EvThunk k data | None => EvVal (VBytes data) end).

(** The body of a user handler once its length is known. (reader_binary.py:438-475, 500-567.) *)
Definition run_user (fs : list frame) (q : aq) (u : uhandler) (length : Z) (c : rctx) : sres :=
  match u with
  | UScalar k t =>
    (* 459-475 *)
    if length =? 0 then emit_scalar fs q k t [] c
    else begin_read fs q c length false incomplete_event (KScalar k t length c)
  | UContainer t =>
    (* 553-567 *)
    let lim := aq_pos q + length in
    let* _ := match c_annot c with
              | Some (_ :: _) =>
                if opt_eqb Z.eqb (c_limit c) (Some lim) then Ok tt else Err IonException
              | _ => Ok tt
              end in
    emit (mkframe (Some t) (Some lim) (c_depth c + 1) true :: fs) q c EContainerStart t EvNone
  | UAnnot =>
    (* 501-514 *)
    match c_annot c with
    | Some _ => Err IonException
    | None =>
      Ok (mkr fs (PVar 0 VAnnLen (mkctx (Some (aq_pos q + length)) (c_depth c) (c_field c) None)) q,
          None)
    end
  | UNop =>
    (* 437-450; formatting the error message at 441-442 with a tuple raises TypeError *)
    let bad := match c_field c with
               | Some f => negb (token_eqb f symbol_zero)
               | None => false end in
    if bad then Err TypeError
    else if 0 <? length then begin_read fs q c length true incomplete_event KLoop
    else Ok (mkr fs PLoop q, None)
  end.

(** reader_binary.py:491-497: from the type octet to the handler. *)
Definition run_handler (fs : list frame) (q : aq) (h : handler) (c : rctx) : sres :=
  match h with
  | HInvalid => Err IonException
  | HIvm =>
    (* 424-435 *)
    if negb (c_depth c =? 0) then Err IonException
    else begin_read fs q c 3 false incomplete_event KIvm
  | HStatic t v => emit fs q c EScalar t v
  | HLen u ln => run_user fs q u ln c
  | HVarLen u => Ok (mkr fs (PVar 0 (VUser u) c) q, None)
  | HOrdered => Ok (mkr fs (PVar 0 VOrdered c) q, None)
  end.

(** reader_binary.py:478-489: [_start_type_handler] up to its read. *)
Definition start_type (fs : list frame) (q : aq) (c : rctx) (expects_ivm at_top : bool) : sres :=
  begin_read fs q c 1 false (if at_top then stream_end_event else incomplete_event)
             (KType c expects_ivm).

(** A complete VarUInt value handed to its continuation.
    (reader_binary.py:421, with the callers of [_var_uint_field_handler].) *)
Definition var_done (fs : list frame) (q : aq) (v : Z) (vk : vkont) (c : rctx) : sres :=
  match vk with
  | VField =>
    match fs with
    | [] => Err TypeError
    | f :: rest =>
      (* 600-608 *)
      let at_top := f_depth f =? 0 in
      start_type (mkframe (f_type f) (f_limit f) (f_depth f) false :: rest) q
                 (mkctx (f_limit f) (f_depth f) (Some (sid_token v)) None)
                 (f_first f && at_top) at_top
    end
  | VUser u => run_user fs q u v c
  | VOrdered => if v <? 2 then Err IonException else run_user fs q (UContainer TStruct) v c
  | VAnnLen =>
    (* 516-520 *)
    if v <? 1 then Err IonException
    else begin_read fs q c v false incomplete_event (KAnn v c)
  end.

(** reader_binary.py:586-608: the container handler from the limit check on. *)
Definition container_body (fs : list frame) (q : aq) : sres :=
  match fs with
  | [] => Err TypeError
  | f :: rest =>
    if opt_eqb Z.eqb (Some (aq_pos q)) (f_limit f)
    then Ok (mkr rest PLoop q,
             Some (mkev EContainerEnd (f_type f) EvNone None [] (Some (f_depth f - 1))))
    else
      let c := mkctx (f_limit f) (f_depth f) None None in
      match f_type f with
      | Some TStruct => Ok (mkr fs (PVar 0 VField c) q, None)
      | _ =>
        let at_top := f_depth f =? 0 in
        start_type (mkframe (f_type f) (f_limit f) (f_depth f) false :: rest) q c
                   (f_first f && at_top) at_top
      end
  end.

(** One step of the machine: one resumption of the active co-routine with the caller's
    [DataEvent] ([None] on immediate transitions). (reader_binary.py:319-608.) *)
Definition step (s : rstate) (inp : option devent) : sres :=
  let fs := r_frames s in
  let q := r_q s in
  match r_pc s with
  | PLoop =>
    match inp with
    | Some DSkip =>
      (* 584-586 *)
      match fs with
      | [] => Err TypeError
      | f :: _ =>
        match f_limit f with
        | None => Err TypeError (* top level: the trampoline refuses SKIP there *)
        | Some lim =>
          begin_read fs q (mkctx (f_limit f) (f_depth f) None None) (lim - aq_pos q) true
                     incomplete_event KSkipped
        end
      end
    | _ => container_body fs q
    end
  | PRead length skip sev k =>
    (* 376-392 *)
    let '(length, sev, q) :=
      match inp with
      | Some (DData data) =>
        let n := zlen data in
        let length := length - n in
        (length, if 0 <? n then incomplete_event else sev,
         if skip
         then if length <? 0
              then mkaq (aq_data q ++ zdrop (n + length) data) (aq_size q - length)
                        (aq_pos q + n + length)
              else mkaq (aq_data q) (aq_size q) (aq_pos q + n)
         else aq_extend q data)
      | _ => (length, sev, q)
      end in
    if length <=? 0 then Ok (mkr fs (PK k) q, None)
    else Ok (mkr fs (PRead length skip sev k) q, Some sev)
  | PVar value vk c =>
    (* 406-420 *)
    if aq_size q =? 0
    then begin_read fs q c 1 false incomplete_event (KVar value vk c)
    else
      let* (octet, q) := aq_read_byte q in
      let value := varuint_step value octet in
      if varuint_last octet then var_done fs q value vk c
      else Ok (mkr fs (PVar value vk c) q, None)
  | PK k =>
    match k with
    | KVar value vk c =>
      let* (octet, q) := aq_read_byte q in
      let value := varuint_step value octet in
      if varuint_last octet then var_done fs q value vk c
      else Ok (mkr fs (PVar value vk c) q, None)
    | KIvm =>
      let* (tail, q) := aq_read q 3 in
      if zlist_eqb tail [0x01; 0x00; 0xEA]
      then Ok (mkr fs PLoop q, Some version_marker_event)
      else Err IonException
    | KType c expects_ivm =>
      let* (octet, q) := aq_read_byte q in
      if expects_ivm && negb (octet =? 0xE0) then Err IonException
      else run_handler fs q (dispatch octet) c
    | KScalar k t length c =>
      let* (data, q) := aq_read q length in emit_scalar fs q k t data c
    | KAnn length c =>
      (* 521-531 *)
      let* (data, q) := aq_read q length in
      let* sids := parse_sids data in
      match c_limit c with
      | None => Err TypeError
      | Some lim =>
        if lim - aq_pos q <? 1 then Err IonException
        else start_type fs q (mkctx (c_limit c) (c_depth c) (c_field c) (Some sids)) false false
      end
    | KLoop => container_body fs q
    | KSkipped => container_body fs q
    end
  end.

(** * The trampoline *)

(** reader.py:345-369: run immediate transitions until an event is produced.  [OutOfFuel] never
    happens with the fuel of [reader_send] (theorem C16). *)
Fixpoint run (fuel : nat) (s : rstate) (inp : option devent) : res (rstate * event) :=
  match fuel with
  | O => Err OutOfFuel
  | S f =>
    match step s inp with
    | Err e => Err e
    | Ok (s', Some ev) => Ok (s', ev)
    | Ok (s', None) => run f s' None
    end
  end.

(** artefact of the model: enough steps for the loop at reader.py:342-355. *)
Definition steps_fuel (s : rstate) (inp : option devent) : nat :=
  let n := match inp with Some (DData d) => length d | _ => O end in
  (6 * (length (aq_data (r_q s)) + n) + 12)%nat.

(** A reader object: before its first event, suspended on the last yielded event, or finished
    (an exception escaped: a Python generator raises StopIteration from then on). (reader.py:336-369.) *)
Inductive reader := RFresh (s : rstate) | RAt (s : rstate) (last : event) | RDead.

(** reader_binary.py:832-864 [raw_reader]. *)
Definition reader_init : rstate := mkr [mkframe None None 0 true] PLoop aq_init.
(** reader_binary.py:832-864. *)
Definition reader_new : reader := RFresh reader_init.

(** reader.py:311-369 [reader_trampoline] (allow_flush = False): the protocol checks. *)
Definition protocol_check (last : event) (d : devent) : res unit :=
  let* _ :=
    if is_stream_signal (ev_type last)
    then match d with DData _ => Ok tt | _ => Err TypeError end
    else match d with DData _ => Err TypeError | _ => Ok tt end in
  let* _ := match d with DData [] => Err ValueError | _ => Ok tt end in
  match ev_depth last, ev_type last, d with
  | Some 0, EContainerStart, _ => Ok tt
  | Some 0, _, DSkip => Err TypeError
  | _, _, _ => Ok tt
  end.

(** [reader.send(d)]: the event yielded or the exception raised, and the reader afterwards. (reader.py:336-369.) *)
Definition reader_send (r : reader) (d : devent) : res event * reader :=
  match r with
  | RDead => (Err StopIteration, RDead)
  | RFresh s =>
    match d with
    | DNext => match run (steps_fuel s (Some d)) s (Some d) with
               | Ok (s', ev) => (Ok ev, RAt s' ev)
               | Err e => (Err e, RDead)
               end
    | _ => (Err TypeError, RDead)
    end
  | RAt s last =>
    match protocol_check last d with
    | Err e => (Err e, RDead)
    | Ok _ => match run (steps_fuel s (Some d)) s (Some d) with
              | Ok (s', ev) => (Ok ev, RAt s' ev)
              | Err e => (Err e, RDead)
              end
    end
  end.

(** * Reading from a source in pieces

    reader.py:375-398 [blocking_reader]: data is pulled whenever the reader signals that it needs
    some.  At the end of the source the last signal decides: [STREAM_END] is reported, and
    [INCOMPLETE] makes it send NEXT, which the binary reader refuses (TypeError).  The source is
    the list of pieces [input.read(buffer_size)] returns (each non-empty). *)
Fixpoint feed (r : reader) (ev : event) (chunks : list (list Z))
  : res event * reader * list (list Z) :=
  if is_stream_signal (ev_type ev)
  then match chunks with
       | [] =>
         match ev_type ev with
         | EIncomplete => let '(x, r') := reader_send r DNext in (x, r', [])
         | _ => (Ok stream_end_event, r, [])
         end
       | c :: cs =>
         match reader_send r (DData c) with
         | (Ok ev', r') => feed r' ev' cs
         | (Err e, r') => (Err e, r', cs)
         end
       end
  else (Ok ev, r, chunks).

(** reader.py:375-398, one request. *)
Definition blocking_next (r : reader) (chunks : list (list Z)) (req : devent)
  : res event * reader * list (list Z) :=
  match reader_send r req with
  | (Ok ev, r') => feed r' ev chunks
  | (Err e, r') => (Err e, r', chunks)
  end.

(** A whole session: the requests NEXT/SKIP of an application, until the stream ends or an
    exception escapes.  The result lists the events and says how the session stopped.
    (how the loop of an application over reader.py:375-398 ended.) *)
Inductive stop := SMore | SEnd | SExc (e : exc).
(** reader.py:375-398, request after request. *)
Fixpoint session (r : reader) (chunks : list (list Z)) (reqs : list devent)
  : list event * stop :=
  match reqs with
  | [] => ([], SMore)
  | q :: qs =>
    match blocking_next r chunks q with
    | (Ok ev, r', cs) =>
      match ev_type ev with
      | EStreamEnd => ([], SEnd)
      | _ => let '(evs, st) := session r' cs qs in (ev :: evs, st)
      end
    | (Err e, _, _) => ([], SExc e)
    end
  end.
