(** Model of the symbol-managed binary writer (/repo/amazon/ion/writer_binary.py) and of the managed
    reader (/repo/amazon/ion/reader_managed.py). *)
From Coq Require Import String.
From Verif Require Import Base CoreModel BufferModel BinWriterModel BinReaderModel SymbolsModel.
Local Open Scope Z_scope.

(** * Events given by a user

    core.py:108-127: field names and annotations are tokens or plain text.  A symbol value given as
    plain text is a [VString] under the type SYMBOL (the same Python object). *)
(** core.py:107-126. *)
Inductive symarg := ATok (t : token) | AText (s : text).
(** core.py:107-126. *)
Record uevent := mkue {
  ue_type : evtype;
  ue_ion_type : option iontype;
  ue_value : evalue;
  ue_field : option symarg;
  ue_annot : list symarg;
  ue_depth : option Z
}.

(** * The symbol table writer *)

(** writer_binary.py:117-126: the state of [_symbol_table_coroutine]. *)
Record symw := mksw { sw_table : option symtab; sw_raw : wstate; sw_has : bool }.
(** writer_binary.py:126-130. *)
Definition symw_new : symw := mksw None w_init false.

(** [write(event)] for events that are not STREAM_END: the answer is discarded. (writer_binary.py:128) *)
Definition put (w : wstate) (e : event) : res wstate := let* (w', _) := raw_write w e in Ok w'.
(** writer_binary.py:94-102, 147-148: several calls of write. *)
Fixpoint puts (w : wstate) (es : list event) : res wstate :=
  match es with [] => Ok w | e :: es' => let* w' := put w e in puts w' es' end.

(** writer_binary.py:64-65 [_system_token] and the fixed events. *)
Definition sys_token (sid : Z) : token := system_token (nth (Z.to_nat (sid - 1)) [TEXT_ION; TEXT_ION_1_0; TEXT_ION_SYMBOL_TABLE;
  TEXT_NAME; TEXT_VERSION; TEXT_IMPORTS; TEXT_SYMBOLS; TEXT_MAX_ID; TEXT_ION_SHARED_SYMBOL_TABLE] []) sid.
(** writer_binary.py:70. *)
Definition ev_struct_start : event := mkev EContainerStart (Some TStruct) EvNone None [] None.
(** writer_binary.py:72. *)
Definition ev_container_end : event := mkev EContainerEnd None EvNone None [] None.
(** writer_binary.py:73-74. *)
Definition ev_lst_start : event := mkev EContainerStart (Some TStruct) EvNone None [sys_token 3] None.
(** writer_binary.py:75-76. *)
Definition ev_imports_start : event := mkev EContainerStart (Some TList) EvNone (Some (sys_token 6)) [] None.
(** writer_binary.py:77-78. *)
Definition ev_symbols_start : event := mkev EContainerStart (Some TList) EvNone (Some (sys_token 7)) [] None.
(** writer_binary.py:95-100. *)
Definition ev_field_value (t : iontype) (v : evalue) (sid : Z) : event := mkev EScalar (Some t) v (Some (sys_token sid)) [] None.

(** writer_binary.py:84-103 [start_lst].  A shared table always has a name and a version. *)
Definition import_events (t : symtab) : list event :=
  [ev_struct_start;
   ev_field_value TString (match st_name t with Some n => EvVal (VString n) | None => EvNone end) 4;
   ev_field_value TInt (match st_version t with Some v => EvVal (VInt v) | None => EvNone end) 5;
   ev_field_value TInt (EvVal (VInt (st_max t))) 8;
   ev_container_end].
(** writer_binary.py:88-101. *)
Fixpoint put_imports (w : wstate) (ts : list symtab) : res wstate :=
  match ts with
  | [] => Ok w
  | t :: ts' => match st_type t with
                | SharedTable => let* w' := puts w (import_events t) in put_imports w' ts'
                | _ => Err IonException
                end
  end.
(** writer_binary.py:86, 145. *)
Definition truthy_imports (imports : option (list symtab)) : list symtab := match imports with Some l => l | None => [] end.
(** writer_binary.py:84-103 and 133-135. *)
Definition sym_start (imports : option (list symtab)) (s : symw) : res symw :=
  let* w := put (sw_raw s) ev_lst_start in
  let* w := match truthy_imports imports with
            | [] => Ok w
            | ts => let* w := put w ev_imports_start in
                    let* w := put_imports w ts in
                    put w ev_container_end
            end in
  let* table := st_new LocalTable [] None None imports false in
  Ok (mksw (Some table) w (sw_has s)).

(** writer_binary.py:105-122 [write_symbol] and 136-142. *)
Definition sym_symbol (s : symw) (a : symarg) : res (token * symw) :=
  match sw_table s with
  | None => Err IonException
  | Some table =>
    let* w := if sw_has s then Ok (sw_raw s) else put (sw_raw s) ev_symbols_start in
    let known := match a with
                 | AText x => get_text table x None
                 | ATok t => match tk_text t, tk_sid t with
                             | Some x, _ => get_text table x None
                             | None, Some sid => get_sid table sid None
                             | None, None => None (* not constructible: symbols.py:79-84 *)
                             end
                 end in
    match known with
    | Some tok => Ok (tok, mksw (Some table) w true)
    | None =>
      match (match a with AText x => Some x | ATok t => tk_text t end) with
      | None => Err AssertionError
      | Some x =>
        let* (tok, table') := intern table x in
        let* w := put w (mkev EScalar (Some TString) (match tk_text tok with Some y => EvVal (VString y) | None => EvNone end) None [] None) in
        Ok (tok, mksw (Some table') w true)
      end
    end
  end.

(** writer_binary.py:143-151: FINISH.  The octets drained, each yielded as HAS_PENDING. *)
Definition sym_finish (imports : option (list symtab)) (s : symw) : res (list wevent) :=
  if sw_has s || (match truthy_imports imports with [] => false | _ => true end) then
    let* w := if sw_has s then put (sw_raw s) ev_container_end else Ok (sw_raw s) in
    let* w := put w ev_container_end in
    let* (_, ws) := raw_write w stream_end_event in
    Ok (map (fun w => HasPending (wdata w)) ws ++ [Complete []])
  else Ok [Complete []].

(** * The managed writer *)

(** writer_binary.py:158-184: the state of [_managed_binary_writer_coroutine]. *)
Record mwriter := mkmw { mw_value : wstate; mw_sym : symw; mw_written : bool; mw_ivm : bool }.
(** writer_binary.py:180-183. *)
Definition mwriter_new : mwriter := mkmw w_init symw_new false true.

(** writer_binary.py:168-178 [intern_symbols].  A field name that is empty text is falsy and stays as
    it is, plain text without [sid], which the raw writer treats as a missing name. *)
Fixpoint sym_annotations (s : symw) (l : list symarg) : res (list token * symw) :=
  match l with
  | [] => Ok ([], s)
  | a :: l' => let* (t, s1) := sym_symbol s a in
               let* (ts, s2) := sym_annotations s1 l' in
               Ok (t :: ts, s2)
  end.
(** writer_binary.py:168-178. *)
Definition intern_symbols (s : symw) (e : uevent) : res (event * symw) :=
  let* (field, s) := match ue_field e with
                     | None | Some (AText []) => Ok (None, s)
                     | Some a => let* (t, s') := sym_symbol s a in Ok (Some t, s')
                     end in
  let* (annots, s) := sym_annotations s (ue_annot e) in
  match ue_ion_type e with
  | Some TSymbol =>
    let* v := ev_force (ue_value e) in
    match v with
    | None => Ok (mkev (ue_type e) (ue_ion_type e) EvNone field annots (ue_depth e), s)
    | Some v =>
      match (match v with VSymbol t => Some (ATok t) | VString x => Some (AText x) | _ => None end) with
      | None => Err AssertionError
      | Some a => let* (t, s) := sym_symbol s a in
                  Ok (mkev (ue_type e) (ue_ion_type e) (EvVal (VSymbol t)) field annots (ue_depth e), s)
      end
    end
  | _ => Ok (mkev (ue_type e) (ue_ion_type e) (ue_value e) field annots (ue_depth e), s)
  end.

(** writer_binary.py:183-217: the effect of one event, and the events yielded.  Simplification: if an
    exception is raised, what was yielded before it (the version marker) is not reported. *)
Definition IVM_BYTES : list Z := [0xE0; 0x01; 0x00; 0xEA].
(** writer_binary.py:184-215. *)
Definition managed_write (imports : option (list symtab)) (m : mwriter) (e : uevent) : res (mwriter * list wevent) :=
  match ue_type e with
  | EVersionMarker =>
    if mw_written m then Err IonException
    else Ok (mkmw (mw_value m) (mw_sym m) (mw_written m) false,
             (if mw_ivm m then [HasPending IVM_BYTES] else []) ++ [NeedsInput []])
  | EStreamEnd =>
    if mw_written m then
      let* sws := sym_finish imports (mw_sym m) in
      let* (_, vws) := raw_write (mw_value m) stream_end_event in
      Ok (mwriter_new, map (fun w => HasPending (wdata w)) (sws ++ vws) ++ [Complete []])
    else Ok (mkmw (mw_value m) (mw_sym m) false true, [Complete []])
  | _ =>
    let* (pre, m) :=
      if mw_written m then Ok ([], m)
      else let* s := sym_start imports (mw_sym m) in
           Ok (if mw_ivm m then [HasPending IVM_BYTES] else [], mkmw (mw_value m) s true false) in
    let* (e', s) := intern_symbols (mw_sym m) e in
    let* (w, ws) := raw_write (mw_value m) e' in
    Ok (mkmw w s (mw_written m) (mw_ivm m), pre ++ ws)
  end.
(** writer.py:139-152: every event through a blocking writer. *)
Fixpoint managed_write_all (imports : option (list symtab)) (m : mwriter) (es : list uevent) : res (mwriter * list Z) :=
  match es with
  | [] => Ok (m, [])
  | e :: es' =>
    let* (m', ws) := managed_write imports m e in
    let* (m'', out) := managed_write_all imports m' es' in
    Ok (m'', flat_map wdata ws ++ out)
  end.

(** * The managed reader *)

(** reader_managed.py:40-52 [_ManagedContext.resolve]. *)
Definition resolve_token (table : symtab) (t : token) : res token :=
  match tk_text t with
  | Some _ => Ok t
  | None => match (match tk_sid t with Some sid => get_sid table sid None | None => None end) with
            | Some r => Ok r
            | None => Err IonException
            end
  end.
(** reader_managed.py:59, 181-185, 231, 244-245, 313. *)
Definition is_text (t : option text) (x : text) : bool := opt_eqb zlist_eqb t (Some x).

(** reader_managed.py:148-154 [_ImportDesc]. *)
Record import_desc := mkdesc { desc_name : option text; desc_version : option Z; desc_max : option Z }.
(** reader_managed.py:151-154. *)
Definition desc_new : import_desc := mkdesc None (Some 1) None.

(** The symbol table co-routines (reader_managed.py:128-257): which one is running, and whether it
    waits for the end event of a container it skips. (reader_managed.py:128-257) *)
Inductive lmode := LTable | LSymbols | LImports | LDesc (d : import_desc).
(** reader_managed.py:128-257: the state of the co-routine that runs. *)
Record lproc := mklp { lp_mode : lmode; lp_skip : bool; lp_symbols : list (option text); lp_imports : option (list symtab) }.
(** reader_managed.py:214-215. *)
Definition lproc_new : lproc := mklp LTable false [] None.

(** Values read from events.  A value of another class than its Ion type says cannot come from the
    readers; the model makes it a TypeError. (reader_managed.py:143, 182) *)
Definition string_value (e : event) : res (option text) :=
  let* v := ev_force (ev_value e) in
  match v with None => Ok None | Some (VString s) => Ok (Some s) | Some _ => Err TypeError end.
(** reader_managed.py:184, 186. *)
Definition int_value (e : event) : res (option Z) :=
  let* v := ev_force (ev_value e) in
  match v with None => Ok None | Some (VInt z) => Ok (Some z) | Some _ => Err TypeError end.
(** reader_managed.py:245, 312-313. *)
Definition symbol_value (e : event) : res (option token) :=
  let* v := ev_force (ev_value e) in
  match v with None => Ok None | Some (VSymbol t) => Ok (Some t) | Some _ => Err AttributeError end.

(** reader_managed.py:169-172: at the end of an import description.  A null version makes the
    comparison [version <= 0] a TypeError. *)
Definition import_table (cat : catalog) (d : import_desc) : res (list symtab) :=
  match desc_name d with
  | None => Ok []
  | Some name => match desc_version d with
                 | None => Err TypeError
                 | Some v => let* t := resolve cat name v (desc_max d) in Ok [t]
                 end
  end.

(** reader_managed.py:224-227. *)
Definition field_text (table : symtab) (e : event) : res (option text) :=
  match ev_field e with None => Ok None | Some f => let* t := resolve_token table f in Ok (tk_text t) end.

(** reader_managed.py:179-186: a field of an import description; its name is required. *)
Definition desc_field (table : symtab) (d : import_desc) (e : event) : res import_desc :=
  match ev_field e with
  | None => Err AttributeError
  | Some f =>
    let* t := resolve_token table f in
    match ev_ion_type e with
    | Some TString => if is_text (tk_text t) TEXT_NAME
                      then let* s := string_value e in Ok (mkdesc s (desc_version d) (desc_max d)) else Ok d
    | Some TInt => if is_text (tk_text t) TEXT_VERSION
                   then let* v := int_value e in Ok (mkdesc (desc_name d) v (desc_max d))
                   else if is_text (tk_text t) TEXT_MAX_ID
                   then let* v := int_value e in Ok (mkdesc (desc_name d) (desc_version d) v) else Ok d
    | _ => Ok d
    end
  end.

(** One event sent to the running co-routine: the next request and state, or the finished table.
    (core.py:305-314; reader_managed.py:135, 188, 257) *)
Inductive lresult := LGo (d : devent) (p : lproc) | LDone (t : symtab).
(** reader_managed.py:128-257. *)
Definition lp_step (cat : catalog) (table : symtab) (p : lproc) (e : event) : res lresult :=
  let go m := Ok (LGo DNext (mklp m false (lp_symbols p) (lp_imports p))) in
  let skip := Ok (LGo DSkip (mklp (lp_mode p) true (lp_symbols p) (lp_imports p))) in
  if lp_skip p then go (lp_mode p)
  else match lp_mode p with
  | LSymbols => (* 128-144 *)
    match ev_type e with
    | EContainerEnd => go LTable
    | EContainerStart => skip
    | _ => match ev_ion_type e with
           | Some TString => let* s := string_value e in
                             Ok (LGo DNext (mklp LSymbols false (lp_symbols p ++ [s]) (lp_imports p)))
           | _ => go LSymbols
           end
    end
  | LDesc d => (* 160-189 *)
    match ev_type e with
    | EContainerEnd => let* ts := import_table cat d in
                       Ok (LGo DNext (mklp LImports false (lp_symbols p) (Some (match lp_imports p with Some l => l | None => [] end ++ ts))))
    | EContainerStart => skip
    | _ => let* d' := desc_field table d e in go (LDesc d')
    end
  | LImports => (* 192-210 *)
    match ev_type e with
    | EContainerEnd => go LTable
    | EContainerStart => match ev_ion_type e with Some TStruct => go (LDesc desc_new) | _ => skip end
    | _ => go LImports
    end
  | LTable => (* 213-257 *)
    match ev_type e with
    | EContainerEnd => let* t := st_new LocalTable (lp_symbols p) None None (lp_imports p) false in Ok (LDone t)
    | et =>
      let* name := field_text table e in
      match et with
      | EContainerStart =>
        match ev_ion_type e with
        | Some TList =>
          if is_text name TEXT_SYMBOLS then go LSymbols
          else if is_text name TEXT_IMPORTS then Ok (LGo DNext (mklp LImports false (lp_symbols p) (Some [])))
          else skip
        | _ => skip
        end
      | _ =>
        match ev_ion_type e with
        | Some TSymbol =>
          if is_text name TEXT_IMPORTS then
            let* v := symbol_value e in
            match v with
            | None => Err AttributeError
            | Some t =>
              let* r := resolve_token table t in
              if is_text (tk_text r) TEXT_ION_SYMBOL_TABLE
              then Ok (LGo DNext (mklp LTable false (lp_symbols p)
                          (if is_system (st_type table) then None else Some [table])))
              else go LTable
            end
          else go LTable
        | _ => go LTable
        end
      end
    end
  end.

(** An event handed to the user (reader_managed.py:98-124): the raw event with the table its thunks
    refer to; [MemoizingThunk] only caches. (reader_managed.py:62-124) *)
Record mevent := mkme { me_ev : event; me_table : symtab }.
(** reader_managed.py:102-106. *)
Definition me_field (m : mevent) : res (option token) :=
  match ev_field (me_ev m) with None => Ok None | Some f => let* t := resolve_token (me_table m) f in Ok (Some t) end.
(** reader_managed.py:108-109. *)
Definition me_annotations (m : mevent) : res (list token) := mapM (resolve_token (me_table m)) (ev_annot (me_ev m)).
(** reader_managed.py:111-115. *)
Definition me_value (m : mevent) : res (option scalar) :=
  let* v := ev_force (ev_value (me_ev m)) in
  match ev_ion_type (me_ev m), v with
  | Some TSymbol, Some (VSymbol t) => let* r := resolve_token (me_table m) t in Ok (Some (VSymbol r))
  | Some TSymbol, Some _ => Err AttributeError
  | _, _ => Ok v
  end.

(** The system symbol table (symbols.py:372-377). *)
Definition system_table : symtab := Eval compute in match system_symbol_table with Ok t => t | Err _ => mkst SystemTable None None None false 0 [] [] end.

(** reader_managed.py:278-335: one raw event; the answer is a further raw request or an event for
    the user.  [ion_event != ION_VERSION_MARKER_EVENT] compares all the fields. *)
Record mstate := mkms { ms_table : symtab; ms_proc : option lproc }.
(** reader_managed.py:275-276. *)
Definition mstate_new : mstate := mkms system_table None.
(** reader_managed.py:303; core.py:290-292. *)
Definition is_version_1_0 (e : event) : bool :=
  match ev_ion_type e, ev_value e, ev_field e, ev_annot e, ev_depth e with
  | None, EvVersion 1 0, None, [], Some 0 => true
  | _, _, _, _, _ => false
  end.
(** reader_managed.py:278-335. *)
Definition mr_step (cat : catalog) (m : mstate) (e : event) : res (mstate * option devent) :=
  match ms_proc m with
  | Some p =>
    if is_stream_signal (ev_type e) then Ok (m, None)
    else let* r := lp_step cat (ms_table m) p e in
         match r with
         | LGo d p' => Ok (mkms (ms_table m) (Some p'), Some d)
         | LDone t => Ok (mkms t None, Some DNext)
         end
  | None =>
    match ev_depth e with
    | Some 0 =>
      match ev_type e, ev_ion_type e, ev_annot e with
      | EVersionMarker, _, _ => if is_version_1_0 e then Ok (mkms system_table None, Some DNext) else Err IonException
      | _, Some TSymbol, [] =>
        let* v := symbol_value e in
        match v with
        | None => Ok (m, None)
        | Some t => let* r := resolve_token (ms_table m) t in
                    if is_text (tk_text r) TEXT_ION_1_0 then Ok (m, Some DNext) else Ok (m, None)
        end
      | EContainerStart, Some TStruct, a :: _ =>
        let* r := resolve_token (ms_table m) a in
        if is_text (tk_text r) TEXT_ION_SYMBOL_TABLE then Ok (mkms (ms_table m) (Some lproc_new), Some DNext) else Ok (m, None)
      | _, _, _ => Ok (m, None)
      end
    | _ => Ok (m, None)
    end
  end.

(** [managed_reader(raw_reader()).send(d)]: raw requests until there is an event for the user.
    (reader_managed.py:261-277) *)
Definition mreader : Type := mstate * reader.
(** reader_managed.py:272-277. *)
Definition mreader_new : mreader := (mstate_new, reader_new).
(** reader_managed.py:278-335. *)
Fixpoint mreader_send (fuel : nat) (cat : catalog) (mr : mreader) (d : devent) : res mevent * mreader :=
  match fuel with
  | O => (Err OutOfFuel, mr)
  | S f =>
    match reader_send (snd mr) d with
    | (Err e, r') => (Err e, (fst mr, r'))
    | (Ok ev, r') =>
      match mr_step cat (fst mr) ev with
      | Err e => (Err e, (fst mr, RDead))
      | Ok (m', Some d') => mreader_send f cat (m', r') d'
      | Ok (m', None) => (Ok (mkme ev (ms_table m')), (m', r'))
      end
    end
  end.

(** reader.py:385-398 [blocking_reader] over the managed reader, and sessions of requests: as
    [feed], [blocking_next] and [session] of BinReaderModel. *)
Fixpoint mfeed (fuel : nat) (cat : catalog) (mr : mreader) (ev : mevent) (chunks : list (list Z))
  : res mevent * mreader * list (list Z) :=
  if is_stream_signal (ev_type (me_ev ev))
  then match chunks with
       | [] =>
         match ev_type (me_ev ev) with
         | EIncomplete => let '(x, r') := mreader_send fuel cat mr DNext in (x, r', [])
         | _ => (Ok (mkme stream_end_event (me_table ev)), mr, [])
         end
       | c :: cs =>
         match mreader_send fuel cat mr (DData c) with
         | (Ok ev', r') => mfeed fuel cat r' ev' cs
         | (Err e, r') => (Err e, r', cs)
         end
       end
  else (Ok ev, mr, chunks).
(** reader.py:375-398. *)
Definition mblocking_next (fuel : nat) (cat : catalog) (mr : mreader) (chunks : list (list Z)) (req : devent)
  : res mevent * mreader * list (list Z) :=
  match mreader_send fuel cat mr req with
  | (Ok ev, r') => mfeed fuel cat r' ev chunks
  | (Err e, r') => (Err e, r', chunks)
  end.
(** reader.py:375-398. *)
Fixpoint msession (fuel : nat) (cat : catalog) (mr : mreader) (chunks : list (list Z)) (reqs : list devent)
  : list mevent * stop :=
  match reqs with
  | [] => ([], SMore)
  | q :: qs =>
    match mblocking_next fuel cat mr chunks q with
    | (Ok ev, r', cs) =>
      match ev_type (me_ev ev) with
      | EStreamEnd => ([], SEnd)
      | _ => let '(evs, st) := msession fuel cat r' cs qs in (ev :: evs, st)
      end
    | (Err e, _, _) => ([], SExc e)
    end
  end.
