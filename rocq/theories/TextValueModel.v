(** Model of [dump], [dumps], [load], [loads] of /repo/amazon/ion/simpleion.py for text Ion: the
    managed reader over the text reader, and which reader [load] chooses. *)
From Verif Require Import Base CoreModel BinWriterModel BinReaderModel SymbolsModel ManagedModel MultimapModel SimpleionModel TextWriterModel TextReaderModel.
Local Open Scope Z_scope.

(** * dump *)

(** simpleion.py:48-159 [dump] with [binary=False], and 281-295 [dumps], which decodes what was
    written.  An exception may leave some written. *)
Definition dump_text (indent : option text) (omit tas seq : bool) (v : pyval) : res (list Z) :=
  let* i := text_indent indent in
  let* (_, out) := text_write_all i t_init ((if omit then [] else [version_event]) ++ dump_events tas seq v ++ [end_event]) in Ok out.
(** simpleion.py:281-295. *)
Definition dumps_text (indent : option text) (omit tas seq : bool) (v : pyval) : res text :=
  let* out := dump_text indent omit tas seq v in utf8_decode out.

(** * load *)

(** reader_managed.py:261-335 over the text reader: as [mreader_send] of ManagedModel. *)
Definition tmreader : Type := mstate * treader.
(** reader_managed.py:272-277. *)
Definition tmreader_new : tmreader := (mstate_new, text_reader_new).
(** reader_managed.py:278-335. *)
Fixpoint tmreader_send (fuel : nat) (uni : bool) (cat : catalog) (mr : tmreader) (d : devent) : res mevent * tmreader :=
  match fuel with
  | O => (Err OutOfFuel, mr)
  | S f =>
    match text_send uni (snd mr) d with
    | (Err e, r') => (Err e, (fst mr, r'))
    | (Ok ev, r') =>
      match mr_step cat (fst mr) ev with
      | Err e => (Err e, (fst mr, TDead))
      | Ok (m', Some d') => tmreader_send f uni cat (m', r') d'
      | Ok (m', None) => (Ok (mkme ev (ms_table m')), (m', r'))
      end
    end
  end.
(** reader.py:375-398 [blocking_reader] over it: as [text_drain], [text_feed], [text_next] of
    TextReaderModel, with [fuel] for [flushes]. *)
Fixpoint tm_drain (flushes : nat) (fuel : nat) (uni : bool) (cat : catalog) (t : tmreader) (ev : mevent) : res mevent * tmreader :=
  if is_stream_signal (ev_type (me_ev ev))
  then match ev_type (me_ev ev) with
       | EIncomplete =>
         match flushes with
         | O => (Err OutOfFuel, t)
         | S n => match tmreader_send fuel uni cat t DNext with
                  | (Ok ev', t') => tm_drain n fuel uni cat t' ev'
                  | (Err e, t') => (Err e, t')
                  end
         end
       | _ => (Ok (mkme stream_end_event (me_table ev)), t)
       end
  else (Ok ev, t).
(** reader.py:375-398. *)
Fixpoint tm_feed (fuel : nat) (uni : bool) (cat : catalog) (t : tmreader) (ev : mevent) (chunks : list (list Z))
  : res mevent * tmreader * list (list Z) :=
  if is_stream_signal (ev_type (me_ev ev))
  then match chunks with
       | [] => let '(x, t') := tm_drain fuel fuel uni cat t ev in (x, t', [])
       | c :: cs =>
         match tmreader_send fuel uni cat t (DData c) with
         | (Ok ev', t') => tm_feed fuel uni cat t' ev' cs
         | (Err e, t') => (Err e, t', cs)
         end
       end
  else (Ok ev, t, chunks).
(** reader.py:375-398. *)
Definition tm_next (fuel : nat) (uni : bool) (cat : catalog) (t : tmreader) (chunks : list (list Z)) (req : devent)
  : res mevent * tmreader * list (list Z) :=
  match tmreader_send fuel uni cat t req with
  | (Ok ev, t') => tm_feed fuel uni cat t' ev chunks
  | (Err e, t') => (Err e, t', chunks)
  end.
(** simpleion.py:363-364. *)
Definition text_feeder : Type := tmreader * list (list Z).
(** simpleion.py:364, 399. *)
Definition text_feeder_next (fuel : nat) (uni : bool) (cat : catalog) (s : text_feeder) : res (mevent * text_feeder) :=
  match tm_next fuel uni cat (fst s) (snd s) DNext with
  | (Ok u, r, cs) => Ok (u, (r, cs))
  | (Err e, _, _) => Err e
  end.

(** simpleion.py:362-371 over the text reader; [uni]: the pieces are of text, not of octets. *)
Definition load_text (fuel : nat) (uni : bool) (cat : catalog) (chunks : list (list Z)) : res (list pyval) :=
  let* (o, _) := load_into fuel (text_feeder_next fuel uni cat) (tmreader_new, chunks) EStreamEnd (OnList []) in
  match o with OnList l => Ok l | OnMap _ => Err TypeError end.
(** simpleion.py:298-371 [load], [single_value=False]: a text file or string, or octets, which are
    binary Ion if the first four are the binary version marker. *)
Inductive source := OfText | OfOctets.
(** simpleion.py:298-371. *)
Definition load_from (fuel : nat) (src : source) (cat : catalog) (chunks : list (list Z)) : res (list pyval) :=
  match src with
  | OfText => load_text fuel true cat chunks
  | OfOctets => if zlist_eqb (firstn 4 (concat chunks)) [0xE0; 0x01; 0x00; 0xEA]
                then load_stream fuel cat chunks else load_text fuel false cat chunks
  end.
(** [single_value=True] (simpleion.py:298-371) *)
Definition load_one (fuel : nat) (src : source) (cat : catalog) (chunks : list (list Z)) : res pyval :=
  let* l := load_from fuel src cat chunks in
  match l with [v] => Ok v | _ => Err IonException end.
