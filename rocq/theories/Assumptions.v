(** [Print Assumptions] of the theorems of MANIFEST.json that are not followed by it where they are proved. *)
From Verif Require Props_Fields Props_Writer Props_Reader Props_ReaderGrammar Props_Buffer QueueEnd Props_Symbols Props_Simpleion Props_Equiv Props_Timestamp Props_TextRoundTrip Props_Json Props_RoundTrip Props_TextReader Props_TextValue Props_TextGrammar Props_Load Props_BinLoadErrors Props_Events Props_SymbolEq Props_Nature Props_BinDump Props_DumpErrors Props_TextLoadErrors Props_EventValues Props_LoadedValues Props_LoadedText Props_TextUnicode Props_TextEnds Props_TextLoadEnds Props_Util Props_BinEnds Props_Derive Props_EnumCopy.
Print Assumptions Props_Fields.C02_negative_unsigned_refuted.
Print Assumptions Props_Writer.C07_bool_round_trip.
Print Assumptions Props_Reader.C13_malformed_depends_on_pieces_refuted.
Print Assumptions Props_ReaderGrammar.C17_annotated_marker_refuted.
Print Assumptions Props_ReaderGrammar.C18_wrapped_padding_refuted.
Print Assumptions Props_Reader.C20_starts_with_next.
Print Assumptions Props_Buffer.C21_negative_skip_refuted.
Print Assumptions QueueEnd.C21_end_case.
Print Assumptions Props_Symbols.C22_text_default_refuted.
Print Assumptions Props_Symbols.C23_system_ids.
Print Assumptions Props_Symbols.C25_register_checks.
Print Assumptions Props_Symbols.C26_ion_named_import_refuted.
Print Assumptions Props_Simpleion.C31_reserved_refuted.
Print Assumptions Props_Simpleion.C32_other_values.
Print Assumptions Props_Simpleion.C32_token_refuted.
Print Assumptions Props_Simpleion.C33_empty_key_refuted.
Print Assumptions Props_Equiv.C36_symmetric_with_nature.
Print Assumptions Props_Equiv.C36_list_token_refuted.
Print Assumptions Props_Equiv.C37_repeated_refuted.
Print Assumptions Props_Equiv.C38_ints.
Print Assumptions Props_Equiv.C38_nulls.
Print Assumptions Props_Equiv.C38_mixed_numbers.
Print Assumptions Props_Equiv.C38_symbols.
Print Assumptions Props_Equiv.C38_texts.
Print Assumptions Props_Equiv.C38_octets.
Print Assumptions Props_Timestamp.C39_many_digits_refuted.
Print Assumptions Props_Timestamp.C40_edge_refuted.
Print Assumptions Props_TextRoundTrip.C44_marker_refuted.
Print Assumptions Props_TextRoundTrip.C45_timestamps_refuted.
Print Assumptions Props_TextRoundTrip.C45_bool_as_int_refuted.
Print Assumptions Props_TextRoundTrip.C47_indent_refuted.
Print Assumptions Props_Json.C51_timestamp.
Print Assumptions Props_Json.C51_timestamp_case.
Print Assumptions Props_Json.C51_blob.
Print Assumptions Props_Json.C51_blob_cases.
Print Assumptions Props_Json.C51_decimal.
Print Assumptions Props_Json.C51_large_decimal.
Print Assumptions Props_ReaderGrammar.C52_malformed_number_refuted.
Print Assumptions Props_ReaderGrammar.C52_named_padding_refuted.
Print Assumptions Props_ReaderGrammar.C52_truncated_refuted.
Print Assumptions Props_RoundTrip.C54_unspecified_precision_refuted.
Print Assumptions Props_Equiv.C55_precision_beyond_micro.
Print Assumptions Props_TextReader.C57_unclosed_list_refuted.
Print Assumptions Props_TextReader.C57_missing_field_name_refuted.
Print Assumptions Props_TextReader.C58_sibling_refuted.
Print Assumptions Props_TextReader.C59_skip_unclosed_refuted.
Print Assumptions Props_TextReader.C59_open_comment_refuted.
Print Assumptions Props_TextReader.C60_other_exceptions_refuted.
Print Assumptions Props_TextValue.C61_reserved_refuted.
Print Assumptions Props_TextValue.C61_sid_key_refuted.
Print Assumptions Props_TextValue.C61_table_refuted.
Print Assumptions Props_TextValue.C61_none_key_refuted.
Print Assumptions Props_TextValue.C61_no_precision_refuted.
Print Assumptions Props_TextValue.C62_indent_refuted.
Print Assumptions Props_TextGrammar.C63_reads_the_grammar.
Print Assumptions Props_TextGrammar.C63_one_meaning.
Print Assumptions Props_Load.C64_loads_text.
Print Assumptions Props_Load.C64_single_value.
Print Assumptions Props_Load.C64_every_text.
Print Assumptions Props_Load.C64_unknown_symbol.
Print Assumptions Props_BinLoadErrors.C69_cases.
Print Assumptions Props_Events.C70_cases.
Print Assumptions Props_Events.C70_mixed_cases.
Print Assumptions Props_SymbolEq.C71_cases.
Print Assumptions Props_Nature.C72_copy_repeated_refuted.
Print Assumptions Props_Nature.C72_cases.
Print Assumptions Props_BinDump.C73_cases.
Print Assumptions Props_DumpErrors.C74_binary_cases.
Print Assumptions Props_DumpErrors.C74_text_cases.
Print Assumptions Props_TextLoadErrors.C75_open_comment_hangs.
Print Assumptions Props_TextLoadErrors.C75_cases.
Print Assumptions Props_EventValues.C76_text_cases.
Print Assumptions Props_EventValues.C76_binary_cases.
Print Assumptions Props_LoadedValues.C77_case.
Print Assumptions Props_LoadedText.C77_text_case.
Print Assumptions Props_LoadedValues.C77_unknown_text_refuted.
Print Assumptions Props_TextUnicode.C78_case_pairs.
Print Assumptions Props_TextUnicode.C78_case_lone.
Print Assumptions Props_TextUnicode.C78_case_events.
Print Assumptions Props_TextEnds.C79_reading_ends.
Print Assumptions Props_TextEnds.C79_requests_end.
Print Assumptions Props_TextEnds.C79_reading_answers.
Print Assumptions Props_TextEnds.C79_text_is_read.
Print Assumptions Props_TextEnds.C79_cases.
Print Assumptions Props_TextEnds.C79_request_cases.
Print Assumptions Props_TextLoadEnds.C79_load_case.
Print Assumptions Props_TextLoadEnds.C79_open_table_waits.
Print Assumptions Props_Util.C80_enum_declared.
Print Assumptions Props_Util.C80_enum_lookup.
Print Assumptions Props_Util.C80_record_cases.
Print Assumptions Props_Util.C80_enum_cases.
Print Assumptions Props_BinEnds.C81_cases.
Print Assumptions Props_Derive.C82_derive.
Print Assumptions Props_Derive.C82_lazy.
Print Assumptions Props_Derive.C82_once.
Print Assumptions Props_Derive.C82_value_lazy.
Print Assumptions Props_EnumCopy.C83_copy_partial.
Print Assumptions Props_EnumCopy.C83_types_partial.
Print Assumptions Props_EnumCopy.C83_identity_refuted.
Print Assumptions Props_EnumCopy.C83_members.
Print Assumptions Props_EnumCopy.C83_cases.
