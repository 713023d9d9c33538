# Formal model of amzn/ion-python in Rocq (Coq 8.16.1)

## Trusted base

* Coq's kernel (8.16.1) and the standard library. No axioms of our own; every property
  theorem is followed by `Print Assumptions`, expected answer `Closed under the global
  context` (see the section "Print Assumptions" for deviations, if any).
* The faithfulness of the reading: each model definition cites the file and lines it models.
  The code is not run.
* Python facts taken as given: unbounded `int` (`Z`), arithmetic shift/floor division,
  `bytes` as lists of integers 0..255, exceptions as values (`res A := Ok a | Err exc`),
  coroutine `send` as a step function of an explicit, defunctionalised state.
* `struct.pack('>d')`/`unpack` is modelled as a lossless map between a 64-bit pattern and 8 octets
  (a Python float *is* its bit pattern in the model; 4-octet floats are widened by an explicit
  function).

## Conventions

* `theories/*Model.v` files hold the executable model, no proofs.
* `theories/*Proofs.v` / `*Facts.v` hold lemmas.
* `theories/Props_*.v` hold the property theorems, each closed by `exact lemma`, followed by
  `Print Assumptions`, with Examples showing that the hypotheses are met.
* `_refuted` theorems exhibit a concrete input on which the code violates the property;
  `_partial` theorems prove part of a property (what is missing is said beside them).

## Plan per property

| id | modelled | how proved |
|----|----------|-----------|
| C01 | field writers and the reader's field parsers | induction on octet count, arithmetic on div/mod |
| C02 | field cache as a list of pre-rendered octets | membership of index in the table |
| C03 | BufferTree node structure, traversal | invariant relating tree to a spec list of open containers |
| C04 | BufferTree error branches, drain/re-init | case analysis on reachable states |
| C05 | raw binary writer, independent grammar of Ion binary values | by refinement writer -> functional encoder -> grammar |
| C06 | raw writer transition function | simulation with a nesting automaton |
| C07-C11 | scalar encoders and the scalar factories | arithmetic round-trip lemmas |
| C12 | raw writer + raw reader machine | composition: encoder spec, reader run over encoder output |
| C13 | reader machine with data arriving in pieces | simulation between chunked and unchunked runs |
| C14 | SKIP requests | comparison of run with and without skip on well-formed input |
| C15 | reader machine | invariant on the frame stack |
| C16 | reader machine with fuel | measure bounding immediate transitions |
| C17-C20 | reader machine | invariants, case analysis |
| C21 | BufferQueue segments/offset | refinement to a byte list; QueueEnd.v: one by one, with the end mark, against a tape of units |
| C22-C26 | SymbolTable, catalog, imports | invariants over operation sequences |
| C27-C30 | managed writer / managed reader | composition with symbol tables |
| C31-C33 | simpleion dump/load | composition of the above |
| C34 | Multimap | refinement to list of pairs |
| C35-C38 | ion_equals | structural induction / witnesses |
| C39-C41 | Timestamp constructor, datetime arithmetic | civil-day arithmetic |
| C42 | unicode_iter | induction on code unit list |
| C43-C48 | text writer, text reader | induction, machine runs |
| C49 | writer trampoline protocol | step invariants |
| C50 | thunks | state machine, history invariant |
| C51 | JSON encoder | structural induction; strings of timestamps against an ISO 8601 specification, blobs against base 64 as a change of base, decimals against nearest doubles |
| C52 | reader machine | exception classification for any octets in any pieces: invariant of `BinAcceptProofs` (NEXT, SKIP after a container start), invariant of `ReaderEvents` (any requests); witnesses of other exceptions |
| C53 | binary reader against an independent grammar (BinFormat.v) | composition of run lemmas over syntax trees; converse (also C18 and C17's octets) from an invariant of single steps that holds for any input and any requests (`ReaderEvents.Read`, `step_out`) |
| C54 | ion_equals composed with dumps/loads | C31 + meaning of equality |
| C55 | _timestamps_eq | case analysis against an instant specification |
| C56-C59 | text reader machine (TextReaderModel.v) | inductive step relation; invariant on containers; simulation between chunkings; ranking of put-backs |
| C60 | text reader machine | witnesses of other exceptions; classification of the positive part |
| C61 | simpleion dump/load over the text writer and reader (TextValueModel.v) | C46 + the generic loading theorem of C31 |
| C62 | text writer | every serializer writes only ASCII |
| C63 | text reader against `TextGrammar.v`, an independent relational grammar of Ion text | for every scalar form a lemma that the machine, at the first character, goes over the token and what trails it with the grammar's event; mutual induction over values, list items, s-expression terms and fields; then streams and documents; `walk_whole` turns the walk into sessions over all cuttings. Unambiguity follows from the reader's determinism |
| C64 | `load_from` (detection of the format, text reader, managed reader, `_load`) against `LoadSpec.means`, what a tree of events means as an Ion value (written without readers or Python objects) | C63's walk makes the text reader a server of its events (`TextServes`, also under SKIP); the managed reader over it feeds `_load` with the user's view of the trees (`TextManagedReads.text_view`); `LoadProofs.value_loads` loads a tree as what it means; `LoadRefuse` shows that an unknown symbol anywhere in it raises; thunks are settled in `TextTrees` |
| C65 | `eval_thunk` (the thunks of the binary reader) against `BinScalars.payload_denotes`, the binary encodings of the Ion specification: big-endian magnitudes, VarInt/VarUInt, signed Ints, IEEE data, decimals, moments in UTC, UTF-8 | inductive encodings parsed forwards and backwards (`BinScalarProofs`): VarUInt/VarInt/Int inversion, injectivity of the IEEE meaning of doubles, injectivity of day numbers so that the local fields are the only ones at the instant |
| C66 | `load_from` on octets (`load_stream`: blocking reader, managed reader, raw binary reader, `load_into`) against the format `BinFormat`, the payloads of `BinScalars` (`clarified`), the user's view of `ManagedSpec` and `LoadSpec.means` | the trees of a stream are its events' only trees and are `proper` (`BinLoads.stream_forest`); `managed_reads` feeds `load_into` the user's view (`binary_fed`); `stream_loads_as`/`stream_refused` of C64 finish |
| C67 | the raw reader of C13 (`session`) against `BinAccepts.accepted`: the format as octets and events, with two named leniencies and, for SKIP, unread containers | a forward invariant over the octets sent so far (`BinAcceptProofs.Inv`: the items behind are a chain of well-formed pieces, the octets taken since then fit the machine's state) kept by every step (`step_keeps`), hence by every session |
| C68 | `load_from`/`load_one` (simpleion load/loads over the managed reader over the raw reader) against `BinAccepts.accepted` with `tables_unread` | C67's invariant carried through the managed reader: it only sends SKIP right after a container start inside a symbol table (`lp_asks`, `mr_moves`), so every exchange is one C67 covers; `load_into` only returns at the stream end (`load_live`) |
| C69 | as C68; exceptions of every parser, symbol table and catalog function | error classification of each function (`within_*`); C68's invariant with the raw reader's exceptions (C52); events are at most twice the octets (`inv_count`), so the fuel never runs out |
| C70 | `IonEvent.__eq__` over None, scalars and version pairs, thunks evaluated on demand (EventModel); `!=` (inherited from tuple) | characterisation against an inductive sameness of values; calendar injectivity for timestamps; equivalence laws from it. `!=` is shown not to be the negation |
| C71 | `SymbolTable.__eq__` (SymbolsModel) | invariant `table_ok` of built tables: the mapping is a function of the token list |
| C72 | `from_value`, `_copy`, `from_event`, `to_event`, the constructors of the IonPy classes (NatureModel) | case analysis; induction on the items of a Multimap. Copying a struct that repeats names loses fields, so partial |
| C73 | managed binary writer over any events; `dump` of any value (specification: `stream_ok`/`stream` of BinFormat, the binary format) | invariant joining the symbol table writer's and the value writer's invariants (Props_BinDump) |
| C74 | the same, and the text writer, in their raising executions | the writers' depth invariant excludes the internal errors; case analysis of the rest (Props_DumpErrors); a case for each exception |
| C75 | the text reader under the managed reader and load, in their raising executions | an invariant of the text reader: pending values are of the class of their type (TextValuesKept); case analysis of the rest; monotonicity in the number of steps; two inputs that never return, proved for every number of steps (Props_TextLoadErrors) |
| C76 | both raw readers, any requests and data | specification in Props_EventValues.v: `fits` looks at what the attribute `value` of an event gives (`attribute_of`, which forces thunks) and at `python_class`, the Python class of each Ion type. Text: the invariant of TextValuesKept over `exchange`; binary: an invariant over every program point of the reader (each pending continuation pairs a parser with the type it may be used for), over `talked`, any sequence of answered requests. Cases with values, nulls, markers and values that raise are shown for both. |
| C77 | load of binary Ion, any catalog, then dump as binary or text and load again | an invariant of the symbol tables and of the managed reader (every text is encodable, every identifier not negative: LoadedTables), a description of everything load can build from events of which something is known (LoadedShape), the invariant carried through the binary reader (BinLoaded); then C31, C32, C54, C61. The limits of the two formats are stated on the scalars, the annotations and the keys of the loaded values (`limited`, `text_limited`, Props_LoadedValues.v). Text as the source (Props_LoadedText.v): the shape follows from the invariant of TextValuesKept; that floats have 64 bits, bytes are octets, identifiers are not negative and texts have no lone surrogates follows from the invariant of TextCharsKept (C78), given tables with encodable names and symbols in the catalog; that no top-level value is reserved (`reserved_value`, `text_reserved`) is a hypothesis on the loaded values there, because `'$ion_2_0'` in quotes loads. |
| C78 | text reader, any requests and data; load of text | specification in Props_TextUnicode.v and Props_LoadedText.v (`proper_event`, `proper`), over `answers_to`, all answers of a reader to any requests. An invariant over every handler and pending continuation of the text reader (TextCharsKept): the characters collected so far in a quoted token are scalar values, the ones in an unquoted token are ASCII or were accepted by the code point co-routine, and a pending high surrogate is never part of a text. |
| C79 | text reader with the blocking reader over a source that ends | a measure (16 per queued character, a rank for each place the reader can be in, 37 per character still to come) falls with every event; at the end of the data another (the tail) does: no handler goes on after an event there (TextEnds), so at most three more events come (TextFinish; TextRequests for SKIP and NEXT in any order). For the second part an invariant: no handler is inside a comment between slash and star, and the level of the pending handler (comment, token, container) falls with each request at the end of the data. For load (TextLoadEnds): until a symbol table is opened each request of the managed reader is a run of requests of the text reader with the same answer or the same exception (next_same, next_fails), so the number of requests the text reader still answers bounds it. |
| C80 | the metaclasses of util.py (UtilModel): the loop over the declarations, `__defaults__` as the defaults of the last parameters, Python's binding of arguments; `_enum_members` as a dict | the loop ends with the names in order and the defaults of the last of them; the binding is shown, slot by slot, to give every field its argument, keyword or own default (C80_record_built is an equivalence); for enumerations an invariant over the prefix of the class body that has been processed |
| C81 | binary reader with the blocking reader, and driven by hand | events come from octets that follow one another (C53) and each but the end of a container from one octet at least; sessions are nested, so a container ends at most once for each that was opened: at most two events for each octet. A session that goes on has an event for each request. C52 lists the exceptions. |
| C82 | classes of events and derive_*, thunks in a heap with what they have computed | refinement: a program sees what it would if events were their attributes, by an invariant that gives each thunk one result; a computed thunk keeps its value. A function gives the same result whenever it is called (a simplification; those of the readers do). |
| C83 | enumeration objects with identity, copying, tests of types by order and by identity | invariant over histories of copies: name, value and order are kept; identity is not, so the tests with `is` are refuted for every copy |

## Modelled and not modelled

Modelled (each definition cites its lines):

| file | modelled | not modelled |
|------|----------|--------------|
| writer_binary_raw_fields.py | all (VarInt/VarUInt/Int/UInt writers, cache) | - |
| writer_buffer.py | BufferTree | - |
| writer_binary_raw.py | all scalar serializers, container and annotation framing, raw writer | buffer-full paths do not exist |
| writer_binary.py | symbol-table interception, managed writer, flush/end | - |
| writer.py | writer_trampoline, _drain, blocking_writer, partial_transition | NOOP aliases |
| writer_text.py | all serializers, quoting, escaping, framing, indentation | Python 2 branches |
| reader.py | BufferQueue, reader_trampoline, blocking_reader, NextEvent/SkipEvent | file objects (an input is a list of chunks) |
| reader_binary.py | all | - |
| reader_text.py | all handlers, container co-routine, skip trampoline, code points | error-message text; Python 2 / narrow builds |
| reader_managed.py | all | - |
| symbols.py | SymbolTable, catalog, local/shared/substitute/placeholder tables | __repr__ |
| core.py | event types, comparison of events, Multimap, Timestamp constructor, precision, offsets, thunks, derivation of events | __repr__/__str__ |
| simpleion.py | dump/dumps/load/loads for binary and text | argument defaults of the json-like API that are ignored |
| simple_types.py | IonPy* wrappers as tagged values; from_value, _copy, from_event, to_event | pickling; subclass method resolution |
| equivalence.py | ion_equals and all helpers | - |
| util.py | unicode_iter, the metaclasses of record and Enum, copies of members; coroutine is used implicitly | `__repr__` of members; names that are not ASCII |
| json_encoder.py | IonToJSONEncoder.default | the json module and jsonconversion base class |

Python library behaviour that is modelled explicitly and thus belongs to the trusted base: `struct`
doubles as 64-bit patterns, `int`/`float`/`Decimal` text conversion (`repr(float)` as the shortest decimal
that rounds to the same bits), `Decimal` with the default context (28 digits, exponent limits),
proleptic Gregorian `datetime` arithmetic, UTF-8, base64, `unicode-escape`. Newer Pythons limit
`int(str)` to 4300 digits; this is not modelled. Recursion limits and memory are unbounded in the model.

## Print Assumptions

Every property theorem is followed by `Print Assumptions`, where it is proved or in Assumptions.v; the answer is
`Closed under the global context` for all of them. (`vcheck` lists seven axioms of
`Coq.ssr.ssrunder`: they are in a standard-library file which `lia`/`ssreflect` load; no theorem here uses them.)

## Findings (places where the code violates a natural property)

Where a theorem is named the violation is proved of the model; the others were noticed while modelling.

1. C09/C39: fractional seconds of more than 28 digits are rounded by the default decimal context
   when written (`C09_losses_refuted`); `Timestamp(...)` with thirty nines raises ValueError (`C39_many_digits_refuted`).
2. C09: binary timestamps of precision below MINUTE with a nonzero offset change date (2000T +01:00 reads as 1999);
   UTC adjustment overflows at years 1 and 9999 (`C40_edge_refuted`); a `Timestamp` of precision None reads back as SECOND.
3. C08: 1E1000000 is written but raises when read (`C08_beyond_limits_refuted`).
4. C52: malformed binary input raises TypeError in several places (`C52_*_refuted`).
5. C13: on malformed binary input the events depend on how it was cut (`C13_malformed_depends_on_pieces_refuted`).
6. C14/C21: SKIP after an overrun makes a negative skip and corrupts the queue (`C21_negative_skip_refuted`).
7. C17/C18: NOP padding and version markers inside an annotation wrapper are accepted (`C18_wrapped_padding_refuted`, `C17_annotated_marker_refuted`).
8. Lengths of nested containers are not compared with the enclosing one when they start.
9. C22: `SymbolTable.get(text, default)` ignores the default (`C22_text_default_refuted`).
10. C36: `ion_equals(SymbolToken('a',None,None), ['a',None,None])` depends on the order (`C36_list_token_refuted`).
11. C37: {a:1,a:1,a:2} equals {a:1,a:2,a:2} (`C37_repeated_refuted`).
12. C55: 0.1234567 and 0.12345670 seconds are equal (`C55_precision_beyond_micro`).
13. C33: `dumps({'': 1})` in binary raises AttributeError (`C33_empty_key_refuted`).
14. C27: a symbol token without text aliases the local symbol with its ID; out of range is an AssertionError.
15. Managed reader: `$ion_symbol_table::{imports: null.symbol}` AttributeError; version <= 0 ValueError; null version TypeError.
16. C31: top-level `$ion_1_0` symbols and structs annotated `$ion_symbol_table` vanish on load (`C31_reserved_refuted`).
17. C45: text timestamp of precision None: AttributeError; offsets dropped below MINUTE; offsets with seconds as `+01:0030` (`C45_timestamps_refuted`).
18. `_write_unsigned` of a negative value is silently wrong (`C02_negative_unsigned_refuted`).
19. `MultimapValue.__setitem__` inserts (`C34_value_assignment_refuted`).
20. Raw binary writer: annotations without IDs on a container fail only at its end (`C06_late_annotation_error_refuted`).
21. C26: a shared import named "$ion" is lost on append (`C26_ion_named_import_refuted`).
22. `writer_trampoline` does not reject INCOMPLETE as the very first event.
23. Copying a Multimap drops all but the newest value of repeated keys (`C34_copy_refuted`).
24. `IonPyInt(5)` built directly has ion_type None, and dumping it raises AttributeError.
25. C32: `dumps(SymbolToken, sequence_as_stream=True)` takes the token apart (`C32_token_refuted`).
26. `ion_equals(IonPyInt(1), 1.0)` is True (`C38_mixed_numbers`).
27. C54: a Timestamp of precision None is not equal to what is loaded back (`C54_unspecified_precision_refuted`).
28. Text: symbol text `$10` is written unquoted and reads as symbol ID 10; top-level `$ion_1_0` reads as a version marker (`C44_sid_refuted`, `C44_marker_refuted`).
29. Text: an INT event with value True is written `True`, a symbol (`C45_bool_as_int_refuted`).
30. Text reader: SKIP after a nested container's END stops at the next sibling's END.
31. Text reader over bytes takes each byte for a code point (UTF-8 is read as Latin-1).
32. Text reader: `-`, `{` at end of input, `1/` at end of input, `{$10 a:1}` raise TypeError; `\U00110000` UnicodeDecodeError.
33. Text reader: `{a}` emits a symbol without field name.
34. Text reader: `'''a''' ''::1` AttributeError (stale composite flag).
35. Text writer: `indent` accepts Python white space that Ion does not treat as such (`C47_indent_refuted`); a no-break space makes `dumps` raise UnicodeDecodeError (`C62_indent_refuted`).
36. `_IMMEDIATE_FLUSH_TABLE`'s default is truthy for every character.
37. Text reader: a comment between field name and value swallows the character after the value: `{a:/*c*/1}` fails.
38. Text reader: `[1` at end of input reports STREAM_END inside the list; skipping it loops for ever.
39. Text reader: `loads("'''a'''/*")` never returns.
40. Text reader: `2000T01T` is accepted as a timestamp.
41. Text reader: a comment after the empty quoted symbol is read as code points (`C63_comment_after_empty`: a backslash in it raises).
42. Text reader: VT and FF are Ion white space, but directly after a number they raise IonException, and directly after `null`, `true`, `false`, `nan` they silently turn the keyword into a symbol (`C63_form_feed_after_number`, `C63_form_feed_after_keyword`).
43. Text reader: `a::b //c` at the end of the input (also after a long string and after `''`) raises IonException although the value is complete; `b //c` works (`C63_open_comment_after_annotated`).
44. Binary reader: a decimal whose exponent is below what Python's decimal context holds (15d-1000003) is silently read as zero (`C65_tiny_decimals_lost`).
45. Binary reader: whether a (malformed) stream is read to its end can depend on the pieces it arrives in: VarUInt octets already in the buffer are not checked against the container's end (`C67_pieces_matter_refuted`).
46. Binary reader: SKIP in a container whose last child ran past the end rewinds the buffer's position and enlarges its size; the end of the container is reported and the session dies later with an IndexError (`C67_late_skip_refuted`).
47. `loads` of corrupt binary data raises, besides IonException, TypeError, ValueError, AttributeError, OverflowError, UnicodeDecodeError and decimal.InvalidOperation/Overflow, all reachable (`C69_cases`).
48. `event != event` is not the negation of `==`: IonEvent inherits `tuple.__ne__`, so NaN events and thunk events are both equal and unequal (`C70_not_equal_refuted`).
49. `event == event` does not tell 0.0 from -0.0, 1.0 from 1.00 (`C70_data_model_refuted`); with values whose class does not fit the type it is neither symmetric nor transitive.
50. Copying an IonPyDict (`_copy`, `from_value` of a Multimap) drops all but the newest value of each repeated name (`C72_copy_repeated_refuted`).
51. `loads("$ion_symbol_table::{foo:[1")` never returns: the managed reader skips the unknown field, and at the end of the data the skipping co-routine loops (`C75_open_table_hangs`).
52. `loads("{a:1,b}")` raises AttributeError, not IonException; `loads` of malformed text can also raise TypeError, ValueError, UnicodeDecodeError, struct.error, decimal.InvalidOperation (`C75_cases`).
53. A symbol of unknown text other than $0 can be loaded, but dumping it as binary raises AssertionError, and what it is dumped to as text cannot be loaded (`C77_unknown_text_refuted`).
54. A lone surrogate in text is refused, but in quoted text mostly by a ValueError (buffering of code points), not by an IonException (`C78_case_lone`).
55. At the end of the data a token of one character is accepted in any container (finding 36), and the reader then signals the end of the stream inside the container: `[1, x` is read as three events and STREAM_END (`C79_cases`); `loads` of it raises TypeError.
56. A type that went through pickle or copy.deepcopy is not the member but a new object, and the code tests types with `is`: a deep copy of a struct is dumped as a list of its field names, `is_text` and `is_lob` of a copy are false, and a deep copy of a value is not `ion_equals` to the value (`C83_identity_refuted`).
57. The JSON encoder writes a decimal beyond the doubles as an infinity (which JSON does not have), though it writes infinite floats as null (`C51_large_decimal`).
