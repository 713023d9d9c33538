{"id": "C01", "title": "Integer sub-field codecs are lossless", "statement": "Every integer written as a UInt, Int, VarUInt or VarInt field is decoded by the reader to the same integer (sign included), the returned count equals the number of octets appended, every appended octet is in 0..255, and the encoding has no superfluous leading octet beyond the one the sign bit forces.", "quantifier": "all integers (all non-negative integers for the unsigned fields), all buffers already holding data", "why_tests_cant": "integers are unbounded; off-by-one at any multiple of 7 or 8 bits corrupts only particular magnitudes", "anchors": ["amazon/ion/writer_binary_raw_fields.py:_write_base,_write_varint,_write_int,_write_varuint,_write_uint", "amazon/ion/reader_binary.py:_parse_var_int_components,_parse_signed_int_components,_int_factory"]}
{"id": "C02", "title": "Small-field cache is transparent", "statement": "For every value the cached path of a field writer appends exactly the octets of the uncached path.", "quantifier": "all integers accepted by the field writers", "why_tests_cant": "the cache boundary and the signed offset of the cache must agree for every value", "anchors": ["amazon/ion/writer_binary_raw_fields.py:_FieldCache,_write_signed,_write_unsigned"]}
{"id": "C03", "title": "Write buffer emits every header right before its content with exact lengths", "statement": "For every well-nested sequence of start/scalar/end calls, draining the buffer yields the concatenation in which each container is its header followed by its content in call order, and the length reported while a container is open is exactly the number of bytes its content will occupy in the output.", "quantifier": "all operation histories of the write buffer", "why_tests_cant": "nesting depth, fan-out and empty containers combine without bound", "anchors": ["amazon/ion/writer_buffer.py:BufferTree,_Node"]}
{"id": "C04", "title": "Write buffer rejects unbalanced use and is reusable", "statement": "Ending a container when none is open and draining with a container open raise ValueError and change nothing else; after a drain the buffer is as new.", "quantifier": "all operation histories", "why_tests_cant": "every history of mixed balanced and unbalanced calls", "anchors": ["amazon/ion/writer_buffer.py:BufferTree.end_container,drain"]}
{"id": "C05", "title": "Binary writer output is well-formed Ion binary", "statement": "For every well-nested event sequence the emitted bytes are a concatenation of well-formed Ion 1.0 binary values: each type descriptor length equals the number of representation bytes that follow, annotation wrappers wrap exactly one value, struct fields are (sid, value) pairs.", "quantifier": "all nested event streams", "why_tests_cant": "lengths compose over unbounded nesting; a boundary at 14/128/16384 bytes may be missed", "anchors": ["amazon/ion/writer_binary_raw.py:_raw_writer_coroutine,_serialize_container,_serialize_annotation_wrapper,_write_length"]}
{"id": "C06", "title": "Binary writer accepts exactly the well-nested event sequences", "statement": "CONTAINER_END with no open container and STREAM_END inside a container raise TypeError; a scalar event typed as a container with a value, or a container start typed as a scalar, raises TypeError; every well-nested sequence of well-typed events is accepted.", "quantifier": "all event sequences sent to the raw binary writer", "why_tests_cant": "all histories of events", "anchors": ["amazon/ion/writer_binary_raw.py:_raw_writer_coroutine", "amazon/ion/writer.py:serialize_scalar"]}
{"id": "C07", "title": "Binary int round-trip", "statement": "Any Ion int written in binary is read back as the same integer.", "quantifier": "all integers", "why_tests_cant": "unbounded magnitudes; the reader decodes in 8/4/2/1-byte segments", "anchors": ["amazon/ion/writer_binary_raw.py:_serialize_int", "amazon/ion/reader_binary.py:_int_factory,_rslice"]}
{"id": "C08", "title": "Binary decimal round-trip is exact", "statement": "Any finite decimal written in binary is read back with the same sign (including negative zero), coefficient digits and exponent, provided its exponent lies inside the decimal context limits.", "quantifier": "all finite decimals: any sign, any number of digits, any exponent", "why_tests_cant": "precision is handled by an ad-hoc context per value; every digit count and exponent matters", "anchors": ["amazon/ion/writer_binary_raw.py:_serialize_decimal,_write_decimal_value", "amazon/ion/reader_binary.py:_parse_decimal"]}
{"id": "C09", "title": "Binary timestamp round-trip", "statement": "Any timestamp written in binary is read back with the same fields, precision, UTC offset (unknown and zero distinguished) and fractional seconds.", "quantifier": "all timestamps: dates 0001..9999, every precision, every offset, any fractional digits", "why_tests_cant": "calendar carries across day/month/year for every offset; precision drops fields; fraction digits are unbounded", "anchors": ["amazon/ion/writer_binary_raw.py:_serialize_timestamp,_write_timestamp_fractional_seconds", "amazon/ion/reader_binary.py:_timestamp_factory", "amazon/ion/core.py:Timestamp.adjust_from_utc_fields"]}
{"id": "C10", "title": "Binary float round-trip is bit exact", "statement": "Any 64-bit float, including signed zeros, infinities and NaN, is read back with the same bit pattern, and a 32-bit float is widened exactly.", "quantifier": "all 2^64 doubles, all 2^32 singles", "why_tests_cant": "2^64 values", "anchors": ["amazon/ion/writer_binary_raw.py:_serialize_float", "amazon/ion/reader_binary.py:_float_factory"]}
{"id": "C11", "title": "Binary text and lob round-trip", "statement": "Any Unicode string without surrogates, any blob and any clob is read back identical, whatever its length.", "quantifier": "all code point sequences and byte sequences", "why_tests_cant": "unbounded lengths; multi-byte boundaries; length nibble/VarUInt boundary", "anchors": ["amazon/ion/writer_binary_raw.py:_serialize_string,_serialize_lob_value", "amazon/ion/reader_binary.py:_string_factory,_lob_factory"]}
{"id": "C12", "title": "Raw binary stream round-trip", "statement": "Reading the bytes the raw binary writer produced for any well-nested event stream yields the same events: types, values, field-name sids, annotation sids, nesting and depth, then the end-of-stream signal.", "quantifier": "all well-nested event streams", "why_tests_cant": "unbounded nesting, order, sizes", "anchors": ["amazon/ion/writer_binary_raw.py", "amazon/ion/reader_binary.py"]}
{"id": "C13", "title": "Binary reading does not depend on how the input is chunked", "statement": "For every way of splitting a well-formed (possibly truncated) input into data events, hence every buffer size of the blocking reader, the events and the way the session stops are the same; for malformed input every splitting first delivers exactly the events that precede the defect.", "quantifier": "all byte inputs, all chunkings, all NEXT/SKIP command sequences", "why_tests_cant": "exponentially many chunkings per input", "anchors": ["amazon/ion/reader_binary.py:_read_data_handler,_var_uint_field_handler", "amazon/ion/reader.py:reader_trampoline,blocking_reader"]}
{"id": "C14", "title": "Skipping a container equals reading and discarding it", "statement": "Sending SKIP inside a container goes straight to that container END event and leaves the reader in the same state as reading every remaining child.", "quantifier": "all containers, all positions within them, all chunkings", "why_tests_cant": "every nesting and position", "anchors": ["amazon/ion/reader_binary.py:_container_handler,_read_data_handler", "amazon/ion/reader_text.py:_skip_trampoline"]}
{"id": "C15", "title": "Reader events are well nested for every input", "statement": "For every byte input (valid or not) the produced events have matching CONTAINER_START/END of the same type with correct depth; no event is produced at negative depth.", "quantifier": "all byte inputs, all command sequences", "why_tests_cant": "arbitrary, including hostile, input", "anchors": ["amazon/ion/reader_binary.py"]}
{"id": "C16", "title": "Reader makes progress and terminates on every finite input", "statement": "For every finite input each request returns an event, a request for more data or an error after finitely many internal transitions, at most linear in the buffered bytes.", "quantifier": "all byte inputs, all chunkings", "why_tests_cant": "non-termination cannot be observed by a test that terminates", "anchors": ["amazon/ion/reader.py:reader_trampoline", "amazon/ion/reader_binary.py"]}
{"id": "C17", "title": "Version markers are required first and only at top level", "statement": "A binary stream not starting with the version marker is rejected; a version marker inside a container or with a wrong tail is rejected.", "quantifier": "all byte inputs", "why_tests_cant": "all inputs and depths", "anchors": ["amazon/ion/reader_binary.py:_start_type_handler,_ivm_handler"]}
{"id": "C18", "title": "Annotation wrappers must be exactly filled", "statement": "The reader never reports an annotated value whose wrapper length disagrees with the wrapped value, an annotation wrapper directly inside another, or an empty annotation list.", "quantifier": "all byte inputs", "why_tests_cant": "hostile length fields of any size", "anchors": ["amazon/ion/reader_binary.py:_annotation_handler,event_transition,_container_start_handler"]}
{"id": "C19", "title": "NOP padding is invisible", "statement": "Inserting NOP pads of any size between values (or as $0 fields of a struct) does not change the reported events.", "quantifier": "all streams, all pad sizes and positions", "why_tests_cant": "unbounded pads and positions", "anchors": ["amazon/ion/reader_binary.py:_nop_pad_handler"]}
{"id": "C20", "title": "Reader protocol violations are rejected", "statement": "A reader must be started with NEXT; DATA is accepted exactly after INCOMPLETE/STREAM_END; empty DATA is rejected; SKIP is rejected at top level. Violations raise and never produce an event.", "quantifier": "all command histories", "why_tests_cant": "all interleavings of commands and events", "anchors": ["amazon/ion/reader.py:reader_trampoline"]}
{"id": "C21", "title": "BufferQueue behaves as a FIFO of octets", "statement": "For every history of extend/read/read_byte/skip/unread the queue returns exactly the octets of the concatenated input in order, its length is the number of unread octets and position is the number consumed.", "quantifier": "all operation histories, all segmentations", "why_tests_cant": "all segment boundaries and offsets", "anchors": ["amazon/ion/reader.py:BufferQueue"]}
{"id": "C22", "title": "Symbol ids are dense, stable and first definition wins", "statement": "In every symbol table the ids are exactly 1..max_id, looking up an id gives the token with that id, looking up a text gives its lowest id, interning returns an existing token or appends exactly one, and no interning ever changes an existing mapping.", "quantifier": "all tables, all intern/get histories", "why_tests_cant": "all histories", "anchors": ["amazon/ion/symbols.py:SymbolTable"]}
{"id": "C23", "title": "Local tables start with system symbols then imports in order", "statement": "A local symbol table has the nine system symbols at ids 1..9, then every symbol of every import in order with its import location, then the local symbols.", "quantifier": "all import lists and symbol lists", "why_tests_cant": "unbounded imports", "anchors": ["amazon/ion/symbols.py:SymbolTable.__init__"]}
{"id": "C24", "title": "Substitute and placeholder tables have exactly the requested size", "statement": "A substitute keeps the first min(max_id, original) texts at the same ids and pads the rest with unknown text; a placeholder has max_id unknown symbols.", "quantifier": "all shared tables, all versions and max_ids", "why_tests_cant": "all sizes", "anchors": ["amazon/ion/symbols.py:substitute_symbol_table,placeholder_symbol_table"]}
{"id": "C25", "title": "Catalog resolution returns the closest registered table", "statement": "resolve returns the registered table on exact match, otherwise a substitute derived from the exact or the highest registered version, otherwise a placeholder; with no max_id it raises unless the match is exact; the result always carries the requested name, version and max_id.", "quantifier": "all registration histories, all requests", "why_tests_cant": "all histories of registrations", "anchors": ["amazon/ion/symbols.py:SymbolTableCatalog"]}
{"id": "C26", "title": "Symbol table append keeps earlier ids", "statement": "A local symbol table that imports the current table keeps every existing id with the same text and location and assigns the new symbols the following ids.", "quantifier": "all previous tables and symbol lists", "why_tests_cant": "all histories", "anchors": ["amazon/ion/symbols.py:SymbolTable.__init__", "amazon/ion/reader_managed.py:_local_symbol_table_handler"]}
{"id": "C27", "title": "Managed binary round-trip preserves symbol text", "statement": "Writing any event stream with the managed binary writer and reading it with the managed reader and the same catalog yields the same events with the same symbol text for values, field names and annotations.", "quantifier": "all event streams, all import lists", "why_tests_cant": "all symbol sequences and nesting", "anchors": ["amazon/ion/writer_binary.py", "amazon/ion/reader_managed.py"]}
{"id": "C28", "title": "Managed streams are framed; the user never sees system values", "statement": "The managed writer emits a version marker before the first value and a symbol table before values that need it, at every flush; the managed reader never surfaces a version marker or a local symbol table.", "quantifier": "all event histories with any number of STREAM_ENDs", "why_tests_cant": "all histories", "anchors": ["amazon/ion/writer_binary.py:_managed_binary_writer_coroutine", "amazon/ion/reader_managed.py:managed_reader"]}
{"id": "C29", "title": "Lazily resolved symbols use the table in force when read", "statement": "The symbol text of an event is the same whether it is forced immediately or after later tables or version markers have been processed.", "quantifier": "all event streams, all forcing times", "why_tests_cant": "lazy evaluation order is unbounded", "anchors": ["amazon/ion/reader_managed.py:_managed_thunk_event,_ManagedContext"]}
{"id": "C30", "title": "Out of range symbol ids are rejected", "statement": "Forcing a symbol whose id exceeds the current table raises IonException, and every id in range (or zero) resolves.", "quantifier": "all tables, all ids", "why_tests_cant": "all table sizes", "anchors": ["amazon/ion/reader_managed.py:_ManagedContext.resolve"]}
{"id": "C31", "title": "loads(dumps(v)) is equivalent to v (binary)", "statement": "For every Python value in the documented conversion table, loading the binary dump yields a value equal under the Ion data model, including type, annotations and field order per key.", "quantifier": "all nested Python values", "why_tests_cant": "unbounded nesting and sizes", "anchors": ["amazon/ion/simpleion.py:dump,_dump,load,_load"]}
{"id": "C32", "title": "sequence_as_stream and single_value agree", "statement": "dumps(seq, sequence_as_stream=True) loaded with single_value=False gives the list of values; loading with single_value=True raises unless the stream has exactly one value.", "quantifier": "all sequences of values", "why_tests_cant": "all lengths", "anchors": ["amazon/ion/simpleion.py:dump,load"]}
{"id": "C33", "title": "Every struct key can be dumped", "statement": "A dict whose keys are any text (including the empty text) can be dumped to binary.", "quantifier": "all text keys", "why_tests_cant": "special keys", "anchors": ["amazon/ion/simpleion.py:_dump", "amazon/ion/writer_binary.py:intern_symbols"]}
{"id": "C34", "title": "Multimap is an ordered multi-map", "statement": "len is the number of values; [] gives the newest value of a key; assignment replaces all values of the key keeping its position; add_item appends; items lists values grouped by key in insertion order; deletion removes all.", "quantifier": "all operation histories", "why_tests_cant": "all histories", "anchors": ["amazon/ion/core.py:Multimap,MultimapValue"]}
{"id": "C35", "title": "ion_equals is reflexive", "statement": "Every value is equal to itself under the Ion data model, NaN included.", "quantifier": "all values", "why_tests_cant": "NaN, signed zeros, nested containers", "anchors": ["amazon/ion/equivalence.py"]}
{"id": "C36", "title": "ion_equals is symmetric", "statement": "ion_equals(a, b) = ion_equals(b, a).", "quantifier": "all pairs of values, with or without Ion nature", "why_tests_cant": "pairs of mixed types", "anchors": ["amazon/ion/equivalence.py:_ion_equals"]}
{"id": "C37", "title": "Struct equality is equality of field multisets", "statement": "Two structs are equal iff their (name, value) pairs agree as multisets, independent of order.", "quantifier": "all pairs of structs incl. repeated fields", "why_tests_cant": "permutations", "anchors": ["amazon/ion/equivalence.py:_structs_eq"]}
{"id": "C38", "title": "Numeric equality follows the Ion data model", "statement": "Decimals are equal iff sign, coefficient and exponent agree; floats iff bits agree or both are NaN; ints by value; an annotated value is never equal to an un-annotated one. A typed null equals just the nulls of its type with the same annotations, and the untyped one None.", "quantifier": "all numbers", "why_tests_cant": "-0 vs 0, 1.0 vs 1.00", "anchors": ["amazon/ion/equivalence.py:_decimals_eq,_floats_eq,_annotations_eq"]}
{"id": "C39", "title": "Timestamp construction normalises the fraction", "statement": "After construction microsecond, fractional_precision and fractional_seconds are mutually consistent: microsecond is the fraction truncated to six digits, precision is min(6, digits); inconsistent or out-of-range arguments raise ValueError.", "quantifier": "all constructor arguments", "why_tests_cant": "fraction digits unbounded", "anchors": ["amazon/ion/core.py:Timestamp.__new__"]}
{"id": "C40", "title": "UTC adjustment preserves the instant", "statement": "Reading UTC fields with an offset yields local fields denoting the same instant, for every date including leap days and year ends.", "quantifier": "all dates and offsets", "why_tests_cant": "calendar carries", "anchors": ["amazon/ion/core.py:Timestamp.adjust_from_utc_fields", "amazon/ion/writer_binary_raw.py:_serialize_timestamp"]}
{"id": "C41", "title": "Offsets are validated", "statement": "timestamp()/OffsetTZInfo accept exactly offsets strictly between -24h and +24h (hours -23..23, minutes -59..59) and raise ValueError otherwise.", "quantifier": "all integers", "why_tests_cant": "boundaries", "anchors": ["amazon/ion/core.py:OffsetTZInfo,timestamp"]}
{"id": "C42", "title": "unicode_iter yields exactly the code points", "statement": "Iterating UTF-16 or UTF-32 text yields its code points; unpaired surrogates raise ValueError.", "quantifier": "all code unit sequences", "why_tests_cant": "all pairings", "anchors": ["amazon/ion/util.py:unicode_iter,_next_code_point"]}
{"id": "C43", "title": "Text escaping is lossless", "statement": "The quoted text the text writer produces for any string, symbol or clob is ASCII, contains no raw delimiter or newline, and reads back as the same code points.", "quantifier": "all code point sequences", "why_tests_cant": "every code point and adjacency (escape followed by hex digit, quote, backslash)", "anchors": ["amazon/ion/writer_text.py:_bytes_text,_escape", "amazon/ion/reader_text.py:_next_code_point_handler,_quoted_text_handler_factory"]}
{"id": "C44", "title": "Symbols are quoted exactly when needed", "statement": "An unquoted symbol in text output is an identifier that is not a keyword, so it reads back as a symbol with the same text.", "quantifier": "all texts", "why_tests_cant": "keywords, operators, $-symbols", "anchors": ["amazon/ion/writer_text.py:_symbol_needs_quotes", "amazon/ion/reader_text.py:_symbol_or_keyword_handler,_symbol_identifier_or_unquoted_symbol_handler"]}
{"id": "C45", "title": "Text number and timestamp round-trip", "statement": "The text form of any int, decimal or timestamp reads back as the same value.", "quantifier": "all ints, decimals, timestamps", "why_tests_cant": "digits and exponents unbounded", "anchors": ["amazon/ion/writer_text.py:_decimal_str,_bytes_datetime", "amazon/ion/reader_text.py:_numeric_handler_factory,_timestamp_handler,_parse_timestamp"]}
{"id": "C46", "title": "Text stream round-trip", "statement": "Reading the text produced for any well-nested event stream yields the same events.", "quantifier": "all event streams", "why_tests_cant": "unbounded nesting; token adjacency", "anchors": ["amazon/ion/writer_text.py:_raw_writer_coroutine", "amazon/ion/reader_text.py:_container_handler"]}
{"id": "C47", "title": "Indentation does not change the data", "statement": "Text written with any whitespace indent differs from compact text only in whitespace between tokens, and reads back as the same events.", "quantifier": "all streams, all indent strings", "why_tests_cant": "all indents and nestings", "anchors": ["amazon/ion/writer_text.py:_raw_writer_coroutine"]}
{"id": "C48", "title": "Text writer rejects ill-nested events and marks completion", "statement": "CONTAINER_END at top level and version markers or STREAM_END inside containers raise TypeError; COMPLETE is reported exactly when back at top level.", "quantifier": "all event histories", "why_tests_cant": "all histories", "anchors": ["amazon/ion/writer_text.py:_raw_writer_coroutine"]}
{"id": "C49", "title": "Writer protocol is enforced and blocking writer loses nothing", "statement": "The writer must be sent None exactly while HAS_PENDING; INCOMPLETE is rejected; the blocking writer writes every pending chunk in order before returning.", "quantifier": "all event histories", "why_tests_cant": "all interleavings", "anchors": ["amazon/ion/writer.py:writer_trampoline,_drain,blocking_writer"]}
{"id": "C50", "title": "Lazy event values are computed at most once", "statement": "Forcing an event value any number of times evaluates its parser at most once successfully and always yields the same result; deriving events does not force it.", "quantifier": "all forcing histories", "why_tests_cant": "all histories", "anchors": ["amazon/ion/core.py:MemoizingThunk,IonThunkEvent"]}
{"id": "C51", "title": "JSON down-conversion is structure preserving", "statement": "The JSON encoder maps lists element-wise, structs key-wise (newest value per key), nulls and non-finite floats to null. A timestamp becomes an ISO 8601 string of its fields, with six figures of microseconds if there are any and its offset if it is known. A blob becomes its base64 (RFC 4648), a clob the string of its octets, a decimal the nearest double.", "quantifier": "all nested values", "why_tests_cant": "unbounded nesting", "anchors": ["amazon/ion/json_encoder.py:IonToJSONEncoder.default"]}
{"id": "C52", "title": "Malformed binary input is reported as IonException", "statement": "Every malformed stream is reported through IonException rather than an unrelated Python error.", "quantifier": "all malformed byte inputs", "why_tests_cant": "hostile inputs", "anchors": ["amazon/ion/reader_binary.py:_parse_var_int_components,_nop_pad_handler"]}
{"id": "C53", "title": "The raw binary reader reads exactly the Ion binary format", "statement": "Every byte string of the Ion 1.0 binary grammar is read as the sequence of events it denotes, followed by end of stream; and for any octets, pieces and requests every event reported - also before an error - was read from octets the grammar gives that meaning, the octets of successive events following one another.", "quantifier": "all syntax trees of the binary format (any nesting, any length encodings, padding), all byte inputs, all chunkings", "why_tests_cant": "unbounded nesting, lengths and inputs", "anchors": ["amazon/ion/reader_binary.py:raw_reader,_container_handler,_HANDLER_DISPATCH_TABLE"]}
{"id": "C54", "title": "A value loaded from its own dump is ion_equals to it", "statement": "For every value binary Ion can hold (symbols and annotations of known text, timestamps of a definite precision), ion_equals(loads(dumps(v)), v) is True, in both operand orders and in both timestamp modes, however the output is cut into pieces.", "quantifier": "all storable values, all lists of shared imports known to the catalog, all chunkings", "why_tests_cant": "unbounded nesting, repeated fields, every scalar", "anchors": ["amazon/ion/simpleion.py:dump,load", "amazon/ion/equivalence.py:ion_equals"]}
{"id": "C55", "title": "Timestamp equality", "statement": "In data-model mode ion_equals on two timestamps is True exactly when they have the same date and time fields, the same offset, the same declared precision and the same fractional seconds by value with the same number of fractional digits up to six; a plain datetime equals only a Timestamp of precision SECOND with six fractional digits. In instants mode it is True exactly when both denote the same UTC instant.", "quantifier": "all Timestamp and datetime values, both operand orders, both modes", "why_tests_cant": "every combination of fields, offset, precision and fraction digits", "anchors": ["amazon/ion/equivalence.py:_timestamps_eq,_timestamp_instants_eq"]}
{"id": "C56", "title": "Text input may arrive in any pieces", "statement": "The events a text reader reports, and how it ends, depend only on the input and the requests, not on how the source cuts the input into reads.", "quantifier": "all inputs (malformed included), all divisions into non-empty pieces, all series of NEXT and SKIP requests", "why_tests_cant": "all divisions of all inputs", "anchors": ["amazon/ion/reader_text.py:_container_handler,_skip_trampoline", "amazon/ion/reader.py:blocking_reader,BufferQueue"]}
{"id": "C57", "title": "Text reader events are well nested", "statement": "Container ends match starts in type and depth, scalar depths equal the number of open containers, field names occur only in structs, version markers and (until the end of data is declared) end of stream only at the top level.", "quantifier": "all conversations without SKIP, all data, malformed included", "why_tests_cant": "all inputs and histories", "anchors": ["amazon/ion/reader_text.py:_container_handler"]}
{"id": "C58", "title": "SKIP on the text reader is reading to the end of the container", "statement": "SKIP after a container start (or values inside it) is the same as requesting events until the container's end: same data asked for, same final event, same subsequent behaviour.", "quantifier": "all conversations, all data, any pieces", "why_tests_cant": "all inputs", "anchors": ["amazon/ion/reader_text.py:_skip_trampoline"]}
{"id": "C59", "title": "The text reader always answers", "statement": "Every send to the text reader returns an event or raises; the work is linear in the characters at hand.", "quantifier": "all conversations, all data", "why_tests_cant": "hostile inputs and all histories", "anchors": ["amazon/ion/reader_text.py:reader,_skip_trampoline", "amazon/ion/reader.py:reader_trampoline"]}
{"id": "C60", "title": "Malformed text is reported as IonException", "statement": "Every malformed text is reported through IonException rather than an unrelated Python error.", "quantifier": "all malformed texts", "why_tests_cant": "hostile inputs", "anchors": ["amazon/ion/reader_text.py:_illegal_character,_next_code_point_handler"]}
{"id": "C61", "title": "loads(dumps(v, binary=False)) gives v back", "statement": "For every Python value text Ion can hold, dumps in text form (any white-space indentation, with or without version marker, with or without tuple_as_sexp) succeeds, and loads of the text or of its octets, read in any pieces, returns a value with the same type, annotations, content, element order and fields, which ion_equals says is equal; with sequence_as_stream the elements come back one by one; text and binary agree.", "quantifier": "all storable values of any depth, all options, all ways of cutting the input", "why_tests_cant": "the space of values, their nesting and the cuts is unbounded", "anchors": ["amazon/ion/simpleion.py:dump,dumps,load,loads,_dump,_load", "amazon/ion/writer_text.py:raw_writer", "amazon/ion/reader_text.py:reader", "amazon/ion/reader_managed.py:managed_reader"]}
{"id": "C62", "title": "Text Ion output is ASCII", "statement": "Whatever events the text writer accepts, every octet it writes is below 128 (given Ion white space as indentation), so dumps never fails to decode what dump writes and returns exactly that.", "quantifier": "all event sequences, all code points in names, strings and lobs", "why_tests_cant": "all code points in all positions", "anchors": ["amazon/ion/writer_text.py:_escape,_bytes_text,_serialize_symbol_value", "amazon/ion/simpleion.py:dumps"]}
{"id": "C63", "title": "The text reader reads the Ion text grammar", "statement": "For every text of the Ion text grammar (white space and comments, annotations, field names, every spelling of every scalar, containers with trailing commas, version markers), given to the text reader in any pieces, as octets or as text, NEXT requests return exactly the events the grammar assigns to the text, with the right types, values (floats correctly rounded), field names, annotations and depths, and then the end of the stream; the grammar assigns one meaning to a text. Left out of the grammar are the forms on which the reader deviates (comments between a colon and the value, VT/FF directly after a number or keyword, comments after '', '' as an annotation after a long string, an open line comment after an annotated symbol, a long string or ''), and operators with a slash.", "quantifier": "all texts of the grammar of any length and nesting, all cuttings into pieces, octets and text", "why_tests_cant": "unboundedly many texts, nestings and spellings, in all positions and cuttings", "anchors": ["amazon/ion/reader_text.py:reader,_container_handler,_number_or_timestamp_handler,_symbol_handler,_long_string_handler,_lob_handler,_comment_handler,_sexp_hyphen_handler,_next_code_point"]}
{"id": "C64", "title": "loads of any Ion text gives the values it means", "statement": "For every text of the Ion text grammar (C63), from bytes or str or a file read in any pieces, and any catalog: load(single_value=False) returns the list of Python values that mean exactly the top-level user values of the text, in order, with symbol identifiers, annotations and field names resolved by the local symbol table (with its imports) in force at that point, fields gathered under their names, and raises the reader's exception if a symbol table in the text cannot be built; loads(single_value=True) returns the only value or raises IonException if there are none or several; a value, annotation or field name whose symbol has neither text nor an identifier of the table in force makes it raise IonException.", "quantifier": "all texts of the grammar, all catalogs, all cuttings, both kinds of source", "why_tests_cant": "unboundedly many texts, nestings, symbol tables and catalogs", "anchors": ["amazon/ion/simpleion.py:load,loads,_load,_load_iteratively", "amazon/ion/reader_managed.py:managed_reader", "amazon/ion/reader_text.py:reader", "amazon/ion/reader.py:blocking_reader"]}
{"id": "C65", "title": "Every binary scalar payload is read as the value Ion assigns to it", "statement": "For every payload octets of a binary int, float, decimal, timestamp, symbol or string: reading event.value gives exactly the value the Ion specification assigns: the signed big-endian integer; the double with the bits of an 8-octet float, or the double of exactly the same IEEE datum as a 4-octet one (sign and fraction of NaN kept); the decimal coefficient, sign and exponent (within the decimal module's exponent range); for a timestamp the local fields at the same instant as the UTC fields, its offset (minus zero: unknown), precision and fraction; the UTF-8 text. Payloads that are not well formed (truncated VarInts, wrong float length, fields outside the calendar, offsets of a day or more, fractions outside [0,1), overlong UTF-8, surrogates) raise. A payload has only one reading.", "quantifier": "all payloads of all scalar kinds, of any length", "why_tests_cant": "unboundedly many payloads; over-long encodings, leading zeros and calendar edges included", "anchors": ["amazon/ion/reader_binary.py:_int_factory,_float_factory,_decimal_factory,_timestamp_factory,_symbol_factory,_string_factory,_parse_var_int,_parse_decimal,_parse_signed_int_components", "amazon/ion/core.py:Timestamp.adjust_from_utc_fields"]}
{"id": "C66", "title": "loads of any well-formed binary Ion stream gives the values it means", "statement": "For every stream of the Ion 1.0 binary format (any nesting, padding, over-long lengths, local symbol tables, imports, version markers) whose scalar payloads denote values, load(s)/loads return, for any chunking, Python values that mean exactly the Ion values of the stream: symbol identifiers, annotations and field names resolved against the symbol table in force at that point, repeated field names kept, system values left out. If an identifier used by a user value is not in the table in force an IonException is raised; with single_value the only value, or an IonException when there is not exactly one.", "quantifier": "all well-formed binary streams, all catalogs, all chunkings", "why_tests_cant": "unboundedly many streams, encodings and chunkings, not only those the library's writer produces", "anchors": ["amazon/ion/simpleion.py:load,loads,_load", "amazon/ion/reader_binary.py:raw_reader", "amazon/ion/reader_managed.py:managed_reader", "amazon/ion/reader.py:blocking_reader"]}
{"id": "C67", "title": "A binary stream read to its end is well formed", "statement": "If the binary reader, given any octets in any pieces and asked with NEXT, reports the end of the stream without an exception, then the octets were none at all, or a version marker followed by items of the Ion binary format, with exactly the events reported; the only things outside the format that are let through are an annotation wrapper around padding and one around a version marker. When containers are skipped right after they are opened the same holds of everything but the insides of the skipped containers.", "quantifier": "all octet strings, all chunkings, all sequences of NEXT (and of SKIP directly after a container's start)", "why_tests_cant": "malformed inputs are unboundedly many and fail in unboundedly many ways; one accepted malformed stream refutes it", "anchors": ["amazon/ion/reader_binary.py:_container_handler,_varuint_handler,_annotation_handler,_nop_pad_handler,_length_scalar_handler,raw_reader", "amazon/ion/reader.py:reader_trampoline,blocking_reader,BufferQueue"]}
{"id": "C68", "title": "load and loads only accept well-formed binary streams", "statement": "If load or loads, given octets that start with the binary version marker (in any pieces, with any catalog, with or without single_value), return at all, then what follows the marker is a stream of the Ion binary format - every type code legal, every length exact, every annotation wrapper exactly filled, nothing cut short - except for annotation wrappers around padding or a version marker, and except for containers skipped inside an annotated top-level struct (a symbol table's open content), which are not looked at.", "quantifier": "all octet strings that start with the marker, all chunkings, all catalogs", "why_tests_cant": "malformed streams are unboundedly many; one malformed stream that is silently accepted refutes it", "anchors": ["amazon/ion/simpleion.py:load,loads,_load", "amazon/ion/reader_managed.py:managed_reader,_local_symbol_table_handler", "amazon/ion/reader_binary.py:raw_reader", "amazon/ion/reader.py:blocking_reader"]}
{"id": "C69", "title": "Loading binary Ion always ends, with values or one of eight exceptions", "statement": "load and loads of any octets that start with the binary version marker (in any pieces, with or without single_value, with any catalog filled by register) end within a number of steps linear in the number of octets, and either return or raise IonException, CannotSubstituteTable, TypeError, ValueError, AttributeError, OverflowError, UnicodeDecodeError or decimal's exception; never an IndexError, KeyError, AssertionError, StopIteration or struct.error from the machinery, and never without end.", "quantifier": "all octet strings that start with the marker, all chunkings, all catalogs", "why_tests_cant": "corrupt inputs are unboundedly many; a caller that must survive them needs the complete list of exceptions", "anchors": ["amazon/ion/simpleion.py:load,loads,_load", "amazon/ion/reader_managed.py:managed_reader", "amazon/ion/reader_binary.py:raw_reader", "amazon/ion/symbols.py:SymbolTableCatalog.resolve"]}
{"id": "C70", "title": "Comparing events", "statement": "event == event answers True exactly when the two events have the same event type, Ion type, field name, annotations and depth and the same value: whole numbers, text, octets and symbol tokens identical, floats numerically equal with every NaN equal to every NaN, decimals numerically equal, timestamps with the same fields, offset, precision (none counting as SECOND) and fractional seconds; it is an equivalence relation on events whose values have the class of their Ion type, whether or not the value is still an unevaluated thunk; and it raises nothing beyond what evaluating a value raises.", "quantifier": "all pairs and triples of events", "why_tests_cant": "pairs of all values of all types, thunks included", "anchors": ["amazon/ion/core.py:IonEvent.__eq__", "amazon/ion/core.py:IonThunkEvent"]}
{"id": "C71", "title": "Equal symbol tables are interchangeable", "statement": "Two symbol tables compare equal exactly when they have the same type, name, version, substitute flag and greatest id and the same token for every id; equal tables answer every lookup by text or id alike, and interning the same text into both gives the same token and equal tables again; comparison is an equivalence relation.", "quantifier": "all symbol tables, however constructed and interned into, all texts and ids", "why_tests_cant": "all tables and histories of interning", "anchors": ["amazon/ion/symbols.py:SymbolTable.__eq__", "amazon/ion/symbols.py:SymbolTable.intern", "amazon/ion/symbols.py:SymbolTable.get"]}
{"id": "C72", "title": "Values with Ion nature are faithful wrappers", "statement": "cls.from_value(type, v, annotations) gives a value with exactly that type and annotations that ion_equals the plain value v (None becomes a null of the type; a plain datetime a Timestamp of SECOND precision with six digits); copying a value gives an equal value with the same type and annotations; and cls.from_event(v.to_event(...)) gives v back, the event carrying the type, annotations, depth and field name asked for.", "quantifier": "all values of all classes, types, annotations and field names", "why_tests_cant": "all values of all classes", "anchors": ["amazon/ion/simple_types.py:_IonNature.from_value", "amazon/ion/simple_types.py:_IonNature._copy", "amazon/ion/simple_types.py:_IonNature.from_event", "amazon/ion/simple_types.py:_IonNature.to_event", "amazon/ion/simple_types.py:IonPyTimestamp", "amazon/ion/simple_types.py:IonPySymbol", "amazon/ion/core.py:Multimap"]}
{"id": "C73", "title": "Binary output is always a well-formed stream", "statement": "Whatever events a managed binary writer is given, in any order and with flushes anywhere, what it has put out at any moment is nothing or a well-formed binary Ion stream beginning with the version marker; and whenever dump/dumps of any Python value in binary returns, what it wrote is a well-formed binary Ion stream.", "quantifier": "all event histories with Python values, all values dump knows (including ones that do not round-trip), all imported tables and settings", "why_tests_cant": "all histories of events and all nested values", "anchors": ["amazon/ion/writer_binary.py:_managed_binary_writer_coroutine", "amazon/ion/writer_binary.py:_SymbolTableWriter", "amazon/ion/writer_binary_raw.py:_raw_writer_coroutine", "amazon/ion/simpleion.py:dump", "amazon/ion/simpleion.py:dumps"]}
{"id": "C74", "title": "dump of any value returns or raises one of a fixed list of exceptions", "statement": "Dumping any value ends: in binary with the octets or one of IonException, TypeError, AttributeError, AssertionError, OverflowError, UnicodeEncodeError, decimal.DecimalException; in text with the text or one of TypeError, ValueError, AttributeError, UnicodeEncodeError (and UnicodeDecodeError from dumps). No IndexError, KeyError, StopIteration or struct.error escapes.", "quantifier": "all values, annotations, symbol tokens, imported tables, indentations and settings", "why_tests_cant": "all nested values and all internal states on the way", "anchors": ["amazon/ion/simpleion.py:dump", "amazon/ion/simpleion.py:dumps", "amazon/ion/writer_binary.py:_managed_binary_writer_coroutine", "amazon/ion/writer_binary_raw.py:_raw_writer_coroutine", "amazon/ion/writer_text.py:_raw_writer_coroutine", "amazon/ion/writer_buffer.py:BufferTree"]}
{"id": "C75", "title": "load of any text, when it ends, gives values or one of a fixed list of exceptions", "statement": "load/loads of any text Ion or garbage, from a text or a byte stream in any pieces, with any catalog, whenever it returns control returns values or raises one of IonException, CannotSubstituteTable, TypeError, ValueError, AttributeError, AssertionError, KeyError, OverflowError, UnicodeDecodeError, struct.error, decimal.DecimalException; no IndexError or StopIteration escapes. The answer does not depend on how long one waits. (Two kinds of truncated input are known for which the call never returns.)", "quantifier": "all texts and octets that do not start with the binary version marker, all pieces, all catalogs filled by register", "why_tests_cant": "all inputs, including malformed ones, and all ways of cutting them", "anchors": ["amazon/ion/simpleion.py:load", "amazon/ion/simpleion.py:loads", "amazon/ion/reader_text.py:reader", "amazon/ion/reader_managed.py:managed_reader", "amazon/ion/reader.py:blocking_reader"]}
{"id": "C76", "title": "The value of an event is of the class of its Ion type", "statement": "Whatever is asked of a raw binary or text reader, in whatever order and over whatever data, every event it returns has either no value, or the value (1, 0) and then is the version marker, or a value that belongs to a SCALAR event whose ion_type is set and is of the Python class of that type (bool, int, float, Decimal, Timestamp, SymbolToken, text, bytes); when reading the lazy value raises, the event is a SCALAR. In particular a timestamp is always a Timestamp with a precision, never a bare datetime, and containers and signals never carry a value.", "quantifier": "every sequence of requests to a fresh raw reader (binary or text), every data given to it in any pieces, every event it answers", "why_tests_cant": "the sequences of requests and the data are infinite; the class of a value depends on which token handler ran and on how the token ended", "anchors": ["amazon/ion/reader_binary.py:_length_scalar_handler", "amazon/ion/reader_binary.py:_timestamp_factory", "amazon/ion/reader_text.py:_HandlerContext", "amazon/ion/core.py:IonThunkEvent"]}
{"id": "C77", "title": "What load returns can be dumped again and is read back the same", "statement": "Whatever binary Ion load or loads accepts, with any shared tables in the catalog, the values it returns have Ion nature throughout, are of the Python classes of their Ion types, have one group per key, and none of them is a value a reader would take for a version marker or a symbol table; dumping them as a stream, or one by one, as binary Ion succeeds and reading the result gives values of the same meaning, equal under ion_equals if all symbols have known text; dumping them as text does, too. Ion text that is loaded, from text or octets, likewise gives values of Ion nature and of the classes of their types, and can be dumped as binary and as text and read back the same. The exceptions are the limits of the formats: decimals outside the default context, timestamps with an offset below minute precision, symbols of unknown text other than $0, and for text symbols that look like $ and digits.", "quantifier": "every binary stream and every Ion text in any pieces, every catalog built by register, every choice of imports, indent and tuple_as_sexp", "why_tests_cant": "streams and catalogs are infinite; which values come out depends on every symbol table before them", "anchors": ["amazon/ion/simpleion.py:load", "amazon/ion/simpleion.py:_load", "amazon/ion/simpleion.py:dump", "amazon/ion/reader_managed.py:managed_reader", "amazon/ion/symbols.py:SymbolTableCatalog"]}
{"id": "C78", "title": "Nothing read from Ion text is ill-formed", "statement": "Every event a text reader returns, and every value load returns for Ion text, is well formed, whatever characters or octets the reader is given: each text (strings, symbols, field names, annotations) is a sequence of Unicode scalar values, so no lone surrogate gets through, whether raw or written as \\u, \\U or \\x escapes; surrogates in pairs become the one character they stand for; symbol identifiers are not negative, lobs hold octets, floats have 64 bits.", "quantifier": "every sequence of requests and of pieces of text or octets, legal or not; every catalog of encodable tables", "why_tests_cant": "the characters are taken one at a time by co-routines that remember pending escapes and surrogates; any interleaving of escapes, raw characters, pieces and positions must be covered", "anchors": ["amazon/ion/reader_text.py:_next_code_point_handler", "amazon/ion/reader_text.py:reader", "amazon/ion/util.py:CodePoint", "amazon/ion/simpleion.py:load"]}
{"id": "C79", "title": "Reading and loading Ion text ends", "statement": "A text reader that is asked for one event after the other over any source, in any pieces, stops: for a text of n characters it returns at most 37 n + 16 events before the session has ended, at the end of the stream or with an exception. A text without stars and backslashes is never waited for in vain: after the end of the source the reader asks for more data at most three times before it answers with an event, the end of the stream or an exception. Hence load and loads of such a text end, with the values or with one of eleven exceptions, provided the text opens no symbol table (a top-level struct annotated $ion_symbol_table).", "quantifier": "every text or sequence of octets, in every division into non-empty pieces; any number of NEXT requests; for load any catalog that registration has built", "why_tests_cant": "termination over all inputs: an endless run cannot be observed, and the loop of the blocking reader at the end of the source depends on the state of every token handler", "anchors": ["amazon/ion/reader_text.py:reader", "amazon/ion/reader_text.py:_container_handler", "amazon/ion/reader_text.py:_read_data_handler", "amazon/ion/reader.py:blocking_reader", "amazon/ion/reader.py:reader_trampoline"]}
{"id": "C80", "title": "Record and enumeration classes", "statement": "A class declared over record(...) bases exists exactly if all the fields without a default come before those with one and their names are distinct identifiers; otherwise ValueError is raised. Calling the class with positional and keyword arguments builds an instance in which every field holds its positional argument, or else its keyword argument, or else its declared default; a call that names an unknown field, gives a field twice, gives too many arguments or leaves out a field without a default raises TypeError. A subclass of Enum has exactly the declared names as members, each with its name and value; looking a value up gives the last member declared with it and KeyError for any other value; iterating gives one member for each value; a body that binds a public name to something other than an int or a method raises TypeError.", "quantifier": "every sequence of field declarations over any number of bases, every call with positional and keyword arguments, every class body of an enumeration", "why_tests_cant": "the alignment of defaults with fields and the treatment of arguments must be right for every declaration and call; tests try a few", "anchors": ["amazon/ion/util.py:record", "amazon/ion/util.py:_RecordMetaClass", "amazon/ion/util.py:Enum", "amazon/ion/util.py:_EnumMetaClass"]}
{"id": "C81", "title": "Reading Ion binary ends", "statement": "A binary reader over a source of any octets in pieces of any size reports at most two events for each octet, whatever it is asked for; after more requests than that the session has stopped, at the end of the stream or with an exception, and never waits for data that cannot come.", "quantifier": "all octet strings, all ways to cut them into pieces, all sequences of requests (NEXT, SKIP, data)", "why_tests_cant": "a session that never ends, or one that reports more and more events for the same octets, only shows in inputs a test did not choose; a bound over all of them is not observable", "anchors": ["amazon/ion/reader.py:blocking_reader", "amazon/ion/reader.py:reader_trampoline", "amazon/ion/reader_binary.py:_container_handler", "amazon/ion/reader_binary.py:raw_reader"]}
{"id": "C82", "title": "Deriving events", "statement": "An event derived from another with derive_field_name, derive_annotations, derive_value or derive_depth has the given attribute and the other's remaining attributes, whether the event is a plain one, a thunk event or one of a managed reader, whatever was derived or read before, and also if reading an attribute raises; no event changes. Making an event and deriving a field name, annotations or a depth computes nothing, nor does derive_value of an event that is not of a managed reader; an attribute that has been read once is not computed again.", "quantifier": "every program that makes events, derives events from any it has and reads attributes in any order", "why_tests_cant": "thunks are wrapped again with every derivation and keep what they have computed; sharing between events shows only in particular orders of deriving and reading", "anchors": ["amazon/ion/core.py:IonEvent", "amazon/ion/core.py:MemoizingThunk", "amazon/ion/core.py:IonThunkEvent", "amazon/ion/reader_managed.py:_IonManagedThunkEvent"]}
{"id": "C83", "title": "Copies of types", "statement": "A copy of a type (an enumeration member, and so the type of any Ion value) made with pickle or copy.deepcopy behaves as the member: it has its name and value, is equal to it, is ordered and looked up as it is, has the same predicates, a struct with a copied type is dumped as a struct, and values whose types are copies of one type are ion_equals if their contents are.", "quantifier": "every enumeration class, every sequence of copies of members and of copies", "why_tests_cant": "whether two equal types are one object depends on the history of each value", "anchors": ["amazon/ion/util.py:Enum.__getnewargs__", "amazon/ion/core.py:IonType", "amazon/ion/simpleion.py:_dump", "amazon/ion/equivalence.py:_ion_equals"]}
