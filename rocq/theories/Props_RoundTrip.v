(** C54: [ion_equals(loads(dumps(v)), v)] on binary Ion: the value API and the equality of the library
    together. *)
From Coq Require Import String.
From Verif Require Import Base BaseFacts FieldsModel BufferModel CoreModel BinWriterModel BinReaderModel BinReaderSpec BinReaderNest
  ScalarFacts TimestampFacts ScalarProofs SymbolsModel SymbolsProofs BinReaderSession BinFormat BinFormatFacts WriterFacts WriterProofs MultimapModel ManagedModel Cursor ManagedSpec
  ManagedRoundTrip ManagedAccept ManagedWriterRun Props_Managed SimpleionModel SimpleionSpec SimpleionProofs SimpleionDump Props_Simpleion EquivModel EquivSpec EquivRoundTrip.
Local Open Scope Z_scope.

(** [definite] (EquivRoundTrip): symbols and annotations of known text, timestamps of a definite
    precision. *)
Theorem C54_dumps_loads_equals : forall cat imports tas v inst teq,
  Forall (known_import cat) (truthy_imports imports) -> Forall shared_import (truthy_imports imports) ->
  storable v -> ~ reserved_value v -> definite v ->
  exists out, dumps_binary imports tas false v = Ok out /\
  exists v' enough, (forall chunks fuel, chunks_ok chunks -> concat chunks = out -> (enough <= fuel)%nat -> load_single fuel cat chunks = Ok v') /\
    ion_equals inst teq v' v = Ok true /\ ion_equals inst teq v v' = Ok true.
Proof.
  intros cat imports tas v inst teq K SI ST NR DE. destruct (C31_dumps_loads cat imports tas v K SI ST NR) as (out & D & _ & _ & v' & M & LO & enough & L).
  exists out. split; [exact D|]. exists v', enough. split; [exact L|]. exact (proj2 (binary_reload_equal inst teq tas v ST DE v' LO M)).
Qed.
Print Assumptions C54_dumps_loads_equals.

(** A timestamp of unspecified precision comes back with precision SECOND, and is not equal (under the
    data model; the instants are). *)
Theorem C54_unspecified_precision_refuted : forall teq,
  let v := PPlain (VTimestamp (TsStamp (mkts (mkdt 2020 1 1 0 0 0 0 (Some 0)) None 0 dec_zero))) in
  let out := match dumps_binary None false false v with Ok o => o | Err _ => [] end in
  let v' := match load_single 30 [] [out] with Ok x => x | Err _ => PNone end in
  dumps_binary None false false v = Ok out /\ load_single 30 [] [out] = Ok v' /\
  ion_equals false teq v' v = Ok false /\ ion_equals true teq v' v = Ok true.
Proof. intros teq. vm_compute. repeat split. Qed.
(** The sample of C31 is definite. *)
Example C54_sample : definite sample_value.
Proof. repeat (constructor; cbn); discriminate. Qed.
