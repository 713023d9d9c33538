{"claims": [
 {"property": "C01", "status": "proved", "theorems": ["C01_uint_lossless", "C01_varuint_lossless", "C01_int_lossless", "C01_varint_lossless"], "note": ""},
 {"property": "C02", "status": "proved", "theorems": ["C02_cache_transparent", "C02_negative_unsigned_refuted"], "note": "Domain: non-negative values for unsigned writers; outside it the code silently emits a wrong octet (refuted theorem)."},
 {"property": "C03", "status": "proved", "theorems": ["C03_headers_before_content", "C03_reported_length"], "note": ""},
 {"property": "C04", "status": "proved", "theorems": ["C04_unbalanced_rejected"], "note": ""},
 {"property": "C05", "status": "proved", "theorems": ["C05_output_well_formed"], "note": "All accepted event sequences with any number of flushes; grammar in BinFormat.v."},
 {"property": "C06", "status": "proved", "theorems": ["C06_accepts_exactly_well_nested", "C06_well_typed_encodable", "C06_misuse_rejected"], "note": "SIDs assumed non-negative (sids_natural). C06_late_annotation_error_refuted records that SID-less container annotations only fail at the container end."},
 {"property": "C07", "status": "proved", "theorems": ["C07_int_round_trip", "C07_bool_round_trip"], "note": "Writer then reader, any chunking."},
 {"property": "C08", "status": "proved", "theorems": ["C08_decimal_round_trip"], "note": "Within the decimal context limits, as the property says; C08_beyond_limits_refuted shows what happens beyond them."},
 {"property": "C09", "status": "partial", "theorems": ["C09_timestamp_round_trip_partial", "C09_datetime_round_trip_partial"], "note": "For ts_portable timestamps; C09_losses_refuted shows the excluded ones really are lost (offset below minute precision, more than 28 fraction digits, UTC outside the calendar)."},
 {"property": "C10", "status": "proved", "theorems": ["C10_float_round_trip", "C10_single_widened_exactly"], "note": ""},
 {"property": "C11", "status": "proved", "theorems": ["C11_text_and_lob_round_trip", "C11_surrogate_rejected"], "note": ""},
 {"property": "C12", "status": "proved", "theorems": ["C12_stream_round_trip"], "note": "Values of non-portable scalars (see C09) are excluded from the value equality inside echoes/same_value."},
 {"property": "C13", "status": "proved", "theorems": ["C13_chunking_irrelevant", "C13_accepted_prefix_always_delivered", "C13_octet_by_octet_is_the_specification", "C13_malformed_depends_on_pieces_refuted"], "note": "Stated against a whole-input specification of the format. Unrestricted version is false of the code (refuted theorem): VarUInt octets already buffered are not checked against the container end."},
 {"property": "C14", "status": "proved", "theorems": ["C14_skip_is_reading"], "note": "for runs the whole-input specification accepts; on malformed input see C21_negative_skip_refuted"},
 {"property": "C15", "status": "proved", "theorems": ["C15_events_well_nested"], "note": "All series of sends, malformed data included."},
 {"property": "C16", "status": "proved", "theorems": ["C16_linear_progress", "C16_every_send_answered"], "note": "All machine states, reachable or not."},
 {"property": "C17", "status": "proved", "theorems": ["C17_version_marker_first", "C17_version_marker_top_level", "C17_version_marker_octets", "C17_annotated_marker_refuted"], "note": "code also accepts a marker inside a top-level annotation wrapper (refuted case)"},
 {"property": "C18", "status": "proved", "theorems": ["C18_wrapper_exactly_filled", "C18_no_empty_wrapper", "C18_wrapped_padding_refuted"], "note": "For any octets, pieces and requests, also before an error. Wrapped padding reports no value: it is let through with an unchecked length (refuted case, finding 7)."},
 {"property": "C19", "status": "proved", "theorems": ["C19_padding_invisible"], "note": ""},
 {"property": "C20", "status": "proved", "theorems": ["C20_protocol_enforced", "C20_starts_with_next", "C20_finished_after_error"], "note": ""},
 {"property": "C21", "status": "proved", "theorems": ["C21_queue_is_fifo", "C21_fifo_conserves", "C21_negative_skip_refuted", "C21_queue_with_end", "C21_end_case"], "note": "Non-negative counts; unread only of the last unit."},
 {"property": "C22", "status": "proved", "theorems": ["C22_ids_dense", "C22_first_definition_wins", "C22_intern", "C22_stable", "C22_text_default_refuted", "C22_constructor_checks"], "note": "Any table built through the public API, any sequence of interns. SymbolTable.get(text, default) ignores its default: C22_text_default_refuted."},
 {"property": "C23", "status": "proved", "theorems": ["C23_local_layout", "C23_system_ids"], "note": "Layout of system, import and local ids for any list of imports and symbols."},
 {"property": "C24", "status": "proved", "theorems": ["C24_substitute_size", "C24_placeholder_size"], "note": ""},
 {"property": "C25", "status": "proved", "theorems": ["C25_resolution", "C25_identity_of_the_result", "C25_register_checks"], "note": "Any sequence of registrations, any request."},
 {"property": "C26", "status": "partial", "theorems": ["C26_append_keeps_ids_partial", "C26_append_chain", "C26_ion_named_import_refuted"], "note": "Missing: imports named $ion, for which the property is false of the code (C26_ion_named_import_refuted)."},
 {"property": "C27", "status": "partial", "theorems": ["C27_round_trip", "C27_registered_is_known", "C27_accepts"], "note": "Every history of events the managed writer accepts (any flushes, version markers, imports known to the catalog) reads back, over any chunking, as events mirroring it with the same symbol text; every well-nested sequence with encodable names and values is accepted (C27_accepts). Limits: tokens without text alias local symbols and reserved top-level values are swallowed (Examples C27_textless_token_refuted, C27_reserved_value_refuted), so the full statement is false of the code; hypotheses plain_event and unreserved exclude exactly these. Value equality holds for portable scalars (C07-C11)."},
 {"property": "C28", "status": "proved", "theorems": ["C28_frames", "C28_reader_hides", "C28_versions", "C28_user_values_only", "C27_round_trip"], "note": "Symbol table before the values that need it is part of C27_round_trip."},
 {"property": "C29", "status": "proved", "theorems": ["C29_lazy_is_eager"], "note": "Contexts as heap objects, memo cells per attribute; arbitrary programs of sends and attribute reads."},
 {"property": "C30", "status": "proved", "theorems": ["C30_ids", "C30_attributes"], "note": ""},
 {"property": "C31", "status": "proved", "theorems": ["C31_dumps_loads", "C31_reserved_refuted"], "note": "Every storable value, any shared imports known to the catalog, any pieces of input: dumps succeeds, loads returns a value of the same meaning. Outside storable/reserved: C31_reserved_refuted (a top-level symbol $ion_1_0 is swallowed). Binary only; the text path is not covered here."},
 {"property": "C32", "status": "proved", "theorems": ["C32_streams", "C32_other_values", "C32_token_refuted"], "note": "sequence_as_stream of any list, tuple or IonPyList; load(single_value) exact. A SymbolToken is a tuple and is taken apart (C32_token_refuted)."},
 {"property": "C33", "status": "partial", "theorems": ["C33_keys_partial", "C33_empty_key_refuted"], "note": "The property is false as stated: an empty-text key of a plain value raises AttributeError (C33_empty_key_refuted). Proved for all other keys, and for '' and None keys of values with Ion nature."},
 {"property": "C34", "status": "proved", "theorems": ["C34_multimap"], "note": "Any history of assignment, add_item and deletion. Constructor-copy drops repeated values and MultimapValue assignment inserts (Examples C34_copy_refuted, C34_value_assignment_refuted)."},
 {"property": "C35", "status": "proved", "theorems": ["C35_reflexive", "C35_answers"], "note": "For all constructible values, tuple == reflexive; ion_equals always terminates without an exception."},
 {"property": "C36", "status": "partial", "theorems": ["C36_symmetric_partial", "C36_symmetric_with_nature", "C36_list_token_refuted"], "note": "False in general: a plain SymbolToken against a plain list of three depends on the order (refuted by witness). Proved whenever no plain list, or no plain symbol token, occurs in the operands; in particular for all values with Ion nature throughout."},
 {"property": "C37", "status": "partial", "theorems": ["C37_fields", "C37_matching_is_equal", "C37_distinct_names", "C37_repeated_refuted"], "note": "Exact characterisation proved; multiset equality proved for structs without repeated names, and multiset-equal implies equal in general; the converse is false with repeated names (refuted by witness)."},
 {"property": "C38", "status": "proved", "theorems": ["C38_decimals", "C38_floats", "C38_ints", "C38_types_and_annotations", "C38_nulls", "C38_mixed_numbers", "C38_symbols", "C38_texts", "C38_octets", "C38_sequences"], "note": "Every scalar type, nulls, lists and annotations, with or without nature; C38_mixed_numbers records that IonPyInt(1) equals the plain 1.0 and Decimal."},
 {"property": "C39", "status": "partial", "theorems": ["C39_normalised_partial", "C39_inconsistent_rejected", "C39_consistent_accepted", "C39_idempotent", "C39_many_digits_refuted"], "note": "Missing: fractions of more than 28 digits (or exponent below -999999), for which the statement is false of the code (refuted theorem)."},
 {"property": "C40", "status": "proved", "theorems": ["C40_utc_adjust_preserves_instant", "C40_day_count", "C40_edge_refuted"], "note": "Results outside years 1..9999 raise OverflowError (refuted theorem shows it)."},
 {"property": "C41", "status": "proved", "theorems": ["C41_offset_range", "C41_bad_offsets_rejected", "C41_good_offsets_accepted"], "note": "Offsets in whole seconds."},
 {"property": "C42", "status": "proved", "theorems": ["C42_code_points", "C42_unpaired", "C42_scalar_values", "C42_identity"], "note": "unicode_iter over a Python 3 str (code points)."},
 {"property": "C43", "status": "proved", "theorems": ["C43_string_escapes", "C43_clob_escapes", "C43_unambiguous", "C43_string_reads_back", "C43_clob_reads_back", "C43_blob_reads_back", "C44_quoted_exactly"], "note": "quoted text is printable ASCII denoting exactly the code points under an independent escape grammar, which is unambiguous, and reads back; quoted symbols in C44_quoted_exactly"},
 {"property": "C44", "status": "partial", "theorems": ["C44_quoted_exactly", "C44_reads_back_partial", "C44_sid_refuted", "C44_marker_refuted"], "note": "quoting decided exactly by the identifier/keyword rule; reads back except for $digits and lone $ion_M_N, where the claim is false of the code (refuted)"},
 {"property": "C45", "status": "partial", "theorems": ["C45_int", "C45_decimal", "C45_float", "C45_timestamp", "C45_timestamps_refuted", "C45_bool_as_int_refuted"], "note": "all ints, floats and decimals Python can make; timestamps that satisfy timestamp_fits; the rest is false of the code (refuted)"},
 {"property": "C46", "status": "proved", "theorems": ["C46_round_trip"], "note": "for every stream the text format can carry; the exceptions are those of C44 and C45"},
 {"property": "C47", "status": "proved", "theorems": ["C47_only_white_space", "C47_same_tokens", "C47_same_reading", "C47_indent_refuted"], "note": "for every indentation of Ion white space; the writer also accepts other Python white space, for which it is refuted"},
 {"property": "C48", "status": "proved", "theorems": ["C48_step", "C48_sequence"], "note": "Accepted exactly when well nested and every part can be written; COMPLETE exactly when nothing is open."},
 {"property": "C49", "status": "proved", "theorems": ["C49_protocol", "C49_drains", "C49_text_blocking", "C49_binary_blocking"], "note": "Protocol for any writer co-routine; sessions of the text writer and of the managed binary writer."},
 {"property": "C50", "status": "proved", "theorems": ["C50_at_most_once", "C50_derive_forces_nothing"], "note": ""},
 {"property": "C51", "status": "proved", "theorems": ["C51_json", "C51_timestamp", "C51_timestamp_case", "C51_blob", "C51_blob_cases", "C51_decimal", "C51_large_decimal"], "note": "All nested values of Ion types; json module and jsonconversion base class not modelled (plain Python objects inside go to the base class). C51_large_decimal: finding 57."},
 {"property": "C52", "status": "partial", "theorems": ["C52_exceptions_partial", "C52_any_requests_partial", "C52_malformed_number_refuted", "C52_named_padding_refuted", "C52_truncated_refuted"], "note": "The claim is false of the code (TypeError). Proved for any octets in any pieces: only IonException or TypeError with NEXT and with SKIP after a container start; only IonException, TypeError or IndexError with any requests."},
 {"property": "C53", "status": "proved", "theorems": ["C53_format_is_read", "C53_only_format_is_reported", "C53_only_format_is_answered"], "note": ""},
 {"property": "C54", "status": "proved", "theorems": ["C54_dumps_loads_equals", "C54_unspecified_precision_refuted"], "note": "Hypothesis definite excludes symbol zero and timestamps without precision; the latter are shown to fail."},
 {"property": "C55", "status": "proved", "theorems": ["C55_timestamps", "C55_instants", "C55_precision_beyond_micro"], "note": "Characterises timestamp equality in both modes for all values; the last theorem records that more than six fraction digits are not compared."},
 {"property": "C56", "status": "proved", "theorems": ["C56_pieces_irrelevant"], "note": "Any input, any requests, any pieces."},
 {"property": "C57", "status": "proved", "theorems": ["C57_events_well_nested", "C57_unclosed_list_refuted", "C57_missing_field_name_refuted"], "note": "Any conversation without SKIP; the refuted theorems show what the code accepts beyond Ion: unclosed list at end of data, {a}."},
 {"property": "C58", "status": "partial", "theorems": ["C58_skip_is_reading", "C58_sibling_refuted"], "note": "Proved when the last container event reported is a start; false after a nested container's end (C58_sibling_refuted)."},
 {"property": "C59", "status": "partial", "theorems": ["C59_every_send_answered", "C59_budget_suffices", "C59_skip_unclosed_refuted", "C59_open_comment_refuted"], "note": "Every send answered or raises, except after both a declared end of data and a SKIP, where the code really loops (refuted). The blocking reader loops on an open comment (refuted)."},
 {"property": "C60", "status": "partial", "theorems": ["C59_every_send_answered", "C60_other_exceptions_refuted"], "note": "False of the code; the exceptions that can come out are listed in C59_every_send_answered."},
 {"property": "C61", "status": "proved", "theorems": ["C61_dumps_loads", "C61_streams", "C61_dumps_loads_equals", "C61_formats_agree", "C61_reserved_refuted", "C61_sid_key_refuted", "C61_table_refuted", "C61_none_key_refuted", "C61_no_precision_refuted"], "note": "the excluded values (top-level names that spell a version marker or symbol table, keys of the form $10, None key of a plain value, timestamps without precision) are each shown to fail"},
 {"property": "C62", "status": "proved", "theorems": ["C62_output_ascii", "C62_dumps_is_dump", "C62_indent_refuted"], "note": "indentation of Ion white space; with a no-break space the output is not UTF-8"},
 {"property": "C63", "status": "proved", "theorems": ["C63_reads_the_grammar", "C63_one_meaning"], "note": "Against TextGrammar.v, which leaves out the forms named in the property (refutation examples in Props_TextGrammar.v)."},
 {"property": "C64", "status": "proved", "theorems": ["C64_loads_text", "C64_single_value", "C64_every_text", "C64_unknown_symbol"], "note": "loads/load of any text of the grammar (C63), in any pieces: the Python values mean exactly the Ion values of the text, symbols resolved by the tables in force; IonException for an unknown symbol; samples with and without a local symbol table"},
 {"property": "C65", "status": "proved", "theorems": ["C65_payload_value", "C65_one_reading", "C65_text_exact", "C65_float_exact", "C65_integer_exact", "C65_timestamp_exact", "C65_only_well_formed"], "note": "spec BinScalars.v; outside the decimal context's exponent range decimals may be lost (C65_tiny_decimals_lost), and timestamps_exact assumes the fraction fits it"},
 {"property": "C66", "status": "proved", "theorems": ["C66_loads_binary", "C66_unknown_symbol", "C66_single_value", "C66_every_stream"], "note": "every well-formed stream whose payloads denote values; C66_sample and C66_unknown_sample are concrete streams with a local symbol table"},
 {"property": "C67", "status": "proved", "theorems": ["C67_read_to_the_end", "C67_well_formed", "C67_strict_is_the_format", "C67_skipping"], "note": "Soundness of the raw binary reader over whole sessions; the leniencies are named in the spec (accepted) and shown real (C67_lenient_case); C67_pieces_matter_refuted and C67_late_skip_refuted show what does not hold."},
 {"property": "C68", "status": "proved", "theorems": ["C68_loads_only_well_formed", "C68_single_value"], "note": "Octets that do not start with the marker go to the text reader (C64). The two leniencies (a wrapper around padding / a version marker) and the unread open content of symbol tables are in the statement; C68_unread_case shows the latter is real."},
 {"property": "C69", "status": "proved", "theorems": ["C69_binary_load_answers", "C69_single_value", "C69_cases"], "note": "Fuel at least twice the octets plus three; memory limits are not modelled."},
 {"property": "C70", "status": "proved", "theorems": ["C70_answers", "C70_meaning", "C70_reflexive", "C70_symmetric", "C70_transitive", "C70_cases", "C70_mixed_cases"], "note": "values whose class fits the Ion type; outside that symmetry and transitivity are refuted (C70_symmetric_refuted, C70_transitive_refuted)"},
 {"property": "C71", "status": "proved", "theorems": ["C71_meaning", "C71_lookups", "C71_interning", "C71_equivalence", "C71_cases"], "note": "all built tables"},
 {"property": "C72", "status": "partial", "theorems": ["C72_from_value", "C72_from_containers", "C72_copy", "C72_copy_repeated_partial", "C72_copy_repeated_refuted", "C72_events", "C72_cases"], "note": "copying a struct with repeated names is refuted: only the newest value of each name survives; conversions between classes (IonPyFloat(123)) not modelled"},
 {"property": "C73", "status": "proved", "theorems": ["C73_output_well_formed", "C73_dumps_well_formed", "C73_cases"], "note": "Any events (symbol values only in symbol events, floats of 64 bits, datetimes in the calendar), any imports."},
 {"property": "C74", "status": "proved", "theorems": ["C74_binary_dump_answers", "C74_binary_cases", "C74_text_dump_answers", "C74_text_cases"], "note": "Finite decimals only (Decimal NaN and infinities are not modelled)."},
 {"property": "C75", "status": "proved", "theorems": ["C75_text_load_answers", "C75_more_steps", "C75_single_value", "C75_open_comment_hangs", "C75_open_table_hangs", "C75_cases"], "note": "termination itself is refuted (the two _hangs theorems); AssertionError, KeyError and OverflowError are in the upper bound but no input raising them is known"},
 {"property": "C76", "status": "proved", "theorems": ["C76_text_events_fit", "C76_binary_events_fit", "C76_text_cases", "C76_binary_cases"], "note": "Both raw readers, any requests, any data."},
 {"property": "C77", "status": "proved", "theorems": ["C77_binary_values", "C77_binary_again", "C77_binary_equal", "C77_binary_to_text", "C77_text_values", "C77_text_to_binary", "C77_text_again", "C77_text_equal", "C77_case", "C77_text_case", "C77_unknown_text_refuted"], "note": "load of any binary Ion or Ion text, then dump (binary or text), then load; limits of the formats as hypotheses on the scalars, annotations and keys of the loaded values"},
 {"property": "C78", "status": "proved", "theorems": ["C78_events", "C78_loaded", "C78_case_pairs", "C78_case_lone", "C78_case_events"], "note": "all answers of the text reader to any requests, and everything load returns for text; catalog tables must have encodable names and symbols"},
 {"property": "C79", "status": "proved", "theorems": ["C79_reading_ends", "C79_requests_end", "C79_reading_answers", "C79_text_is_read", "C79_cases", "C79_request_cases", "C79_load_ends", "C79_load_is_settled", "C79_load_case", "C79_open_table_waits"], "note": "any number of requests over any pieces; an open comment, a container skipped past the end, or a container left open in a symbol table is waited for for ever (cases), hence the conditions"},
 {"property": "C80", "status": "proved", "theorems": ["C80_record_declared", "C80_record_built", "C80_enum_declared", "C80_enum_members", "C80_enum_lookup", "C80_record_cases", "C80_enum_cases"], "note": "namedtuple's check of names and Python's binding of call arguments are part of the model (library behaviour)"},
 {"property": "C81", "status": "proved", "theorems": ["C81_events_bounded", "C81_answers_bounded", "C81_reading_ends", "C81_next_ends", "C81_cases"], "note": "any octets, any pieces, any requests"},
 {"property": "C82", "status": "proved", "theorems": ["C82_derive", "C82_lazy", "C82_once", "C82_value_lazy"], "note": "the functions of thunks are assumed to give the same result whenever they are called"},
 {"property": "C83", "status": "partial", "theorems": ["C83_copy_partial", "C83_types_partial", "C83_identity_refuted", "C83_members", "C83_cases"], "note": "false of the code: a copy is a new object and the code tests types by identity (C83_identity_refuted, finding 56); proved: name, value, equality, order, lookup, is_numeric and is_container of every copy"}
]}
