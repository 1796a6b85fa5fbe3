{
 "claims": [
  {
   "property": "C01",
   "status": "proved",
   "theorems": [
    "C01_every_call_returns",
    "C01_drain_terminates"
   ],
   "note": "All options, all instruction-set variants, any buffers, callback and parsed-token input."
  },
  {
   "property": "C02",
   "status": "proved",
   "theorems": [
    "C02_emitted_brackets_balanced",
    "C02_wrong_closer_reported"
   ],
   "note": "For raw-byte input, any buffers and callback."
  },
  {
   "property": "C03",
   "status": "proved",
   "theorems": [
    "C03_document_tokens",
    "C03_strings_covered",
    "C03_numbers_covered"
   ],
   "note": "One buffer, allowNewLineAsTokenDelimiter off; the grammar covers every RFC 8259 text with an object or array root."
  },
  {
   "property": "C04",
   "status": "proved",
   "theorems": [
    "C04_tokens_are_slices",
    "C04_values_point_into_buffer"
   ],
   "note": ""
  },
  {
   "property": "C05",
   "status": "partial",
   "theorems": [
    "C05_harmless_cuts_partial",
    "C05_chunks_refuted",
    "C05_cut_behind_colon_refuted",
    "C05_cut_behind_name_refuted",
    "C05_cut_behind_element_refuted"
   ],
   "note": "Same tokens and error for every number of cuts at harmless places (ChunkSpec.v), without comments, newline delimiters and NUL bytes; refuted for each kind of harmful place."
  },
  {
   "property": "C06",
   "status": "partial",
   "theorems": [
    "C06_number_scanners_agree",
    "C06_word_scanners_agree",
    "C06_comment_scanners_agree",
    "C06_string_scanners_agree_partial",
    "C06_same_tokens_for_every_build_partial",
    "C06_string_scanners_agree_refuted",
    "C06_same_tokens_for_every_build_refuted"
   ],
   "note": "Holds unless a buffer other than the last ends in a backslash; refuted there."
  },
  {
   "property": "C07",
   "status": "partial",
   "theorems": [
    "C07_scan_errors_are_final_partial",
    "C07_invalid_token_is_final_partial",
    "C07_errors_are_final_refuted"
   ],
   "note": "Final for ExpectedDelimiter, EncounteredIllegalChar, IllegalPropertyType, InvalidToken; refuted for IllegalPropertyName."
  },
  {
   "property": "C08",
   "status": "partial",
   "theorems": [
    "C08_only_json_refuted",
    "C08_accepted_exactly_partial",
    "C08_no_deviation_is_json"
   ],
   "note": "Refuted by a bare word. Proved instead: the accepted texts are exactly those of the JSON grammar extended by nine named deviations, and without deviations that grammar is RFC 8259. Texts with NUL bytes are not covered."
  },
  {
   "property": "C09",
   "status": "partial",
   "theorems": [
    "C09_scope_ends_partial",
    "C09_scalar_scope",
    "C09_go_to_end",
    "C09_scope_ends_refuted",
    "C09_nested_scopes_refuted"
   ],
   "note": "Holds for less than 2^16 simultaneously open brackets of the scope type and no scope pushed inside; refuted beyond."
  },
  {
   "property": "C10",
   "status": "partial",
   "theorems": [
    "C10_capture_exact",
    "C10_wrong_kind_refused",
    "C10_reference_exact_partial",
    "C10_reference_spanning_refuted",
    "C10_replaces_refuted",
    "C10_failed_array_refuted"
   ],
   "note": "Owning variants: proved for every tokenizer state and every buffering (bytes captured, matching bracket, rest unread). References: proved when no buffer is given up in between and the opening bracket lies in the buffer. Refuted: text is appended to the target string, a failed JsonArray leaves its copy buffer registered, references over several buffers are undefined."
  },
  {
   "property": "C11",
   "status": "partial",
   "theorems": [
    "C11_lenient_options_harmless_partial",
    "C11_newline_option_harmless_on_one_line_partial",
    "C11_newline_option_refuted"
   ],
   "note": "allowNewLineAsTokenDelimiter breaks valid documents with line breaks."
  },
  {
   "property": "C12",
   "status": "partial",
   "theorems": [
    "C12_comments_are_whitespace_partial",
    "C12_comment_after_word_refuted"
   ],
   "note": "Holds unless the comment directly follows a word (true, false, null)."
  },
  {
   "property": "C13",
   "status": "proved",
   "theorems": [
    "C13_output_independent_of_buffers",
    "C13_never_out_of_bounds",
    "C13_no_space_is_reported"
   ],
   "note": "Any tokens, options and buffer sizes."
  },
  {
   "property": "C14",
   "status": "partial",
   "theorems": [
    "C14_serialized_tokens_read_back_partial",
    "C14_empty_name_refuted"
   ],
   "note": "Holds for all documents without empty member names nested at most 255 deep; refuted for empty names and (C16) deeper nesting."
  },
  {
   "property": "C15",
   "status": "partial",
   "theorems": [
    "C15_reformat_preserves_partial",
    "C15_reformat_twice_partial",
    "C15_reformat_refuted"
   ],
   "note": "As C14."
  },
  {
   "property": "C16",
   "status": "partial",
   "theorems": [
    "C16_all_tokens_written_partial",
    "C16_deep_nesting_refuted"
   ],
   "note": "Holds up to 255 levels; refuted at 256."
  },
  {
   "property": "C17",
   "status": "proved",
   "theorems": [
    "C17_escape_round_trip"
   ],
   "note": "All byte strings, all instruction-set variants."
  },
  {
   "property": "C18",
   "status": "proved",
   "theorems": [
    "C18_string_ends_at_its_quote",
    "C18_strings_are_tokens",
    "C18_strings_have_texts"
   ],
   "note": ""
  },
  {
   "property": "C19",
   "status": "proved",
   "theorems": [
    "C19_strings_denote",
    "C19_utf8_reads"
   ],
   "note": "For all JSON strings whose surrogates are paired."
  },
  {
   "property": "C20",
   "status": "partial",
   "theorems": [
    "C20_no_control_characters_partial",
    "C20_no_control_characters_refuted"
   ],
   "note": "Holds for strings without the unescaped control characters; refuted for 0x00-0x07, 0x0b, 0x0e-0x1f."
  },
  {
   "property": "C21",
   "status": "proved",
   "theorems": [
    "C21_int_round_trip",
    "C21_int_text"
   ],
   "note": "8, 16, 32, 64 and 128 bits, signed and unsigned."
  },
  {
   "property": "C22",
   "status": "partial",
   "theorems": [
    "C22_int_literals_partial",
    "C22_int_literals_refuted"
   ],
   "note": "Holds below 2^64 (2^128 for the 128 bit types) in absolute value, except for negative literals into unsigned types; refuted there."
  },
  {
   "property": "C23",
   "status": "proved",
   "theorems": [
    "C23_comparison_exact",
    "C23_rounding_verdict_exact"
   ],
   "note": ""
  },
  {
   "property": "C24",
   "status": "partial",
   "theorems": [
    "C24_nearest_up_to_16_digits_partial",
    "C24_adjacent_up_to_19_digits_partial",
    "C24_17_digits_refuted",
    "C24_long_literals_refuted",
    "C24_zero_refuted",
    "C24_undefined_refuted",
    "C24_float_nearest_up_to_15_digits_partial",
    "C24_float_nearest_partial",
    "C24_vector_of_doubles_partial",
    "C24_vector_of_floats_partial",
    "C24_float_low_end_refuted",
    "C24_float_high_end_refuted"
   ],
   "note": "Nearest double, ties to even, for every literal with at most 16 digits and any exponent; one of the two adjacent doubles for at most 19 digits, the nearest one unless the value is just above a halfway point. Literals with leading zeros are restricted to the range where they count as digits harmlessly. For 17 digits, for 20 and more digits and for leading zeros outside of that range the claim is false (refuted). So 16 is the exact bound. Floats: nearest for at most 15 digits (16 refuted), and for at most 19 digits except next to the two ends of the range, where the claim is false (refuted)."
  },
  {
   "property": "C25",
   "status": "partial",
   "theorems": [
    "C25_round_trip_partial",
    "C25_round_trip_refuted",
    "C25_double_nearest",
    "C25_double_nearest_refuted",
    "C25_float_nearest",
    "C25_float_round_trip"
   ],
   "note": "Every finite double except 2^-140 and -2^-140 is read back from its printed text with the same bits, for any prior content of the 32 character buffer; for the two exceptions the library prints 7.174648137343063e-43, which is nearer to the next smaller double, and reads that one back (refuted). Every finite float is read back from its printed text with the same bits."
  },
  {
   "property": "C26",
   "status": "partial",
   "theorems": [
    "C26_round_trip_partial",
    "C26_optional_element_refuted",
    "C26_optional_in_tuple_refuted",
    "C26_empty_one_or_many_refuted",
    "C26_infinity_refuted",
    "C26_instant_refuted",
    "C26_unquoted_names_refuted"
   ],
   "note": "All types of the type language, with float, double and time points, at any nesting and all storable values (finite floats, finite doubles but the two of C25, instants that survive C34); the unrestricted claim is false (refutations)."
  },
  {
   "property": "C27",
   "status": "partial",
   "theorems": [
    "C27_member_order_partial",
    "C27_failure_in_any_order_partial",
    "C27_error_depends_on_order_refuted",
    "C27_alias_and_name_refuted"
   ],
   "note": "All structs, texts and permutations: success in one order gives success in every order with the same object and the same reports up to order, and failure gives failure. False as stated for the particular error code and when a name and an alias of one member both occur; std::string members must meet scalars."
  },
  {
   "property": "C28",
   "status": "partial",
   "theorems": [
    "C28_unknown_member_no_effect_partial",
    "C28_missing_members_exact_partial",
    "C28_other_members_untouched_partial",
    "C29_struct_success_partial"
   ],
   "note": "All structs, objects and nested unknown values. Hypothesis: no std::string member meets an array or object (C47_string_takes_bracket_refuted shows that the claim is false otherwise). Exact list of missing names: flat structs directly, nested structs through C29_struct_success_partial."
  },
  {
   "property": "C29",
   "status": "partial",
   "theorems": [
    "C29_struct_success_partial",
    "C29_absent_is_error_partial",
    "C29_absent_required_exact",
    "C29_reported_exactly_partial"
   ],
   "note": "Same hypothesis as C28."
  },
  {
   "property": "C30",
   "status": "partial",
   "theorems": [
    "C30_fixed_array_partial",
    "C30_exactly_n_elements_partial",
    "C30_always_n_slots",
    "C30_string_array_refuted"
   ],
   "note": "Exact characterisation of success for every N and element type, provided strings meet scalars; refuted for std::string elements."
  },
  {
   "property": "C31",
   "status": "partial",
   "theorems": [
    "C31_returns_without_maps_partial",
    "C31_ends_without_maps_partial",
    "C31_valid_document_returns",
    "C31_valid_document_ends",
    "C31_fitting_document_returns",
    "C31_open_map_refuted"
   ],
   "note": "The claim is false: an object that is not closed makes the map handler loop for ever. Proved: every text into every type without maps, float, double and time points returns; every valid document into every type without float, double and time points, with maps and whether or not it fits, returns; with float, double and time points both return or meet the undefined behaviour of C24 or C34, and never loop."
  },
  {
   "property": "C32",
   "status": "partial",
   "theorems": [
    "C32_variable_array_partial",
    "C32_full_array_refuted"
   ],
   "note": "Exact characterisation; the size is not set when exactly N elements are read, so the claim is false for k = N."
  },
  {
   "property": "C33",
   "status": "partial",
   "theorems": [
    "C33_name_round_trip",
    "C33_other_strings_rejected",
    "C33_other_values_rejected",
    "C33_number_refuted"
   ],
   "note": "Names proved for all enums and strings; numbers are accepted unchecked, so that part is false."
  },
  {
   "property": "C34",
   "status": "partial",
   "theorems": [
    "C34_round_trip_partial",
    "C34_recent_round_trip",
    "C34_round_trip_refuted",
    "C34_overflow_refuted",
    "C34_reading_defined"
   ],
   "note": "Exact characterisation (iff) of the instants that survive; false for the others: the reader guesses the unit from the magnitude."
  },
  {
   "property": "C35",
   "status": "partial",
   "theorems": [
    "C35_map_round_trip_partial",
    "C35_plain_keys",
    "C35_key_unescaped",
    "C35_keys_refuted"
   ],
   "note": "Round trip for keys that equal their unescaped form; keys are written without escapes, so the claim is false for others (C35_key_unescaped says what they become)."
  },
  {
   "property": "C36",
   "status": "partial",
   "theorems": [
    "C36_absent_optional_not_reported",
    "C28_other_members_untouched_partial",
    "C36_null_clears_partial",
    "C36_value_sets_partial",
    "C36_null_refuted",
    "C36_unassigned_round_trip"
   ],
   "note": "null clears NullableChecked and smart pointers; false for Nullable and std::optional. Writing and reading back: C36_unassigned_round_trip and C26."
  },
  {
   "property": "C37",
   "status": "proved",
   "theorems": [
    "C37_metadata_describes_tree",
    "C37_map_of_object",
    "C37_first_child",
    "C37_first_child_inside"
   ],
   "note": "All trees, any nesting."
  },
  {
   "property": "C38",
   "status": "partial",
   "theorems": [
    "C38_iteration_partial",
    "C38_find",
    "C38_only_members_refuted",
    "C38_empty_map_refuted"
   ],
   "note": "find is proved for all objects and non-empty names; iteration visits the members and then also the closing bracket, so the statement as written is refuted; find on a default-constructed Map is out of bounds."
  },
  {
   "property": "C39",
   "status": "partial",
   "theorems": [
    "C39_set_partial",
    "C39_set_first",
    "C39_sets_partial",
    "C39_scalar_before_container_refuted",
    "C39_has_data_refuted",
    "C39_duplicate_names_refuted",
    "C39_empty_name_refuted",
    "C39_unassigned_refuted"
   ],
   "note": "Proved for all sequences of calls with distinct original names in which no scalar that precedes a container is replaced; refuted in each excluded case. For the lifetime of the stored texts see C70."
  },
  {
   "property": "C40",
   "status": "partial",
   "theorems": [
    "C40_calls_partial",
    "C40_calls_total",
    "C40_argument",
    "C40_in_order",
    "C40_output_json",
    "C40_one_result_refuted",
    "C40_called_twice_refuted"
   ],
   "note": "callFunctions is modelled with containers, super classes, aliases, arguments of any type of the type language and any returned values. For every text of an object the outcome is the specified one: which function, with which argument, which errors and reports per member, which container afterwards, and an output that is a text of the array of returned values. For any text at all the output is empty or a JSON array. One result per member is false (refuted). Missing: functions that call functions themselves, functions that report MissingFunction, error strings."
  },
  {
   "property": "C41",
   "status": "partial",
   "theorems": [
    "C41_same_document_partial",
    "C41_text_gives_document",
    "C41_duplicate_names_refuted"
   ],
   "note": "Proved for all documents whose objects have no duplicate names and whose numbers compare equal to themselves (std::stod is a parameter); with duplicate names the claim is false (refuted by a witness)."
  },
  {
   "property": "C42",
   "status": "partial",
   "theorems": [
    "C42_no_difference_means_same_partial",
    "C42_diff_completes",
    "C42_nul_refuted"
   ],
   "note": "Proved for all pairs of documents without duplicate names and without NUL bytes in strings; number comparison (std::stod, tolerance) is a parameter assumed to return. NUL case refuted."
  },
  {
   "property": "C43",
   "status": "partial",
   "theorems": [
    "C43_new_items_marked_partial",
    "C43_array_first_refuted"
   ],
   "note": "Proved at every nesting level when the first additional item is not an array; when it is an array the claim is false (refuted by a witness)."
  },
  {
   "property": "C44",
   "status": "partial",
   "theorems": [
    "C44_invalidate_idempotent_partial",
    "C44_missing_items_refuted"
   ],
   "note": "Marks, count, missing members stable for every reachable context and every number of calls; the missing array items grow with every call (refuted)."
  },
  {
   "property": "C45",
   "status": "partial",
   "theorems": [
    "C45_context_partial",
    "C45_lines",
    "C45_column_refuted"
   ],
   "note": "Lines, line index and exact column behaviour for every error of every reachable tokenizer reading text; the column is one too large after a line break (so it can be past the end of the line) and 0 when only later lines are shown, hence partial."
  },
  {
   "property": "C46",
   "status": "partial",
   "theorems": [
    "C46_reset_after_document_partial",
    "C46_reset_refuted"
   ],
   "note": "Holds after a complete document has been read; refuted in the middle of one."
  },
  {
   "property": "C47",
   "status": "partial",
   "theorems": [
    "C47_consumes_its_tokens_partial",
    "C47_any_value_without_strings",
    "C47_string_takes_bracket_refuted"
   ],
   "note": "Any source of tokens, any type; std::string takes brackets, so the claim is false for it; float, double and time point values are those whose reading is defined."
  },
  {
   "property": "C48",
   "status": "partial",
   "theorems": [
    "C48_set_success_partial",
    "C48_duplicate_reported_partial",
    "C48_round_trip_partial"
   ],
   "note": "Reading arrays whose elements fit; round trip for sets of storable elements (see C26)."
  },
  {
   "property": "C49",
   "status": "proved",
   "theorems": [
    "C49_vector",
    "C49_tuple",
    "C49_one_or_many"
   ],
   "note": "All types of the type language; success characterised exactly (iff)."
  },
  {
   "property": "C50",
   "status": "proved",
   "theorems": [
    "C50_map",
    "C50_map_success"
   ],
   "note": "All value types, duplicates included."
  },
  {
   "property": "C51",
   "status": "partial",
   "theorems": [
    "C51_bool_partial",
    "C51_bool_refuted",
    "C51_integers_partial",
    "C51_strings",
    "C51_string_vector"
   ],
   "note": "Strings in full; booleans characterised exactly, the claim being false because the strings \"true\" and \"false\" are accepted too; integers as in C22."
  },
  {
   "property": "C52",
   "status": "partial",
   "theorems": [
    "C52_exponent_literals_partial",
    "C52_exponent_literals_refuted"
   ],
   "note": "Exact for all literals below 256 characters with digits below 2^64 (2^128 for the 128 bit types), except negative ones into unsigned types, 0eN with N > 0, and values from 2^64 up to 10^20 into uint64_t and from 2^128 up to 10^39 into 128 bits, where the claim is false."
  },
  {
   "property": "C53",
   "status": "partial",
   "theorems": [
    "C53_pretty_layout",
    "C53_default_layout",
    "C53_reformat_layout",
    "C53_compact_with_shift_refuted"
   ],
   "note": "Exact text for all documents (no empty names, at most 255 levels) for options made by the constructor and setShiftSize on pretty options; false for compact style set on pretty options."
  },
  {
   "property": "C54",
   "status": "proved",
   "theorems": [
    "C54_double_is_json",
    "C54_float_is_json",
    "C54_double_not_finite",
    "C54_float_not_finite"
   ],
   "note": ""
  },
  {
   "property": "C55",
   "status": "proved",
   "theorems": [
    "C55_umul128"
   ],
   "note": ""
  },
  {
   "property": "C56",
   "status": "partial",
   "theorems": [
    "C56_names_found",
    "C56_names_partial",
    "C56_round_trip_partial",
    "C56_underscore_refuted"
   ],
   "note": "Exactly what is found for every list: each enumerator from its first ASCII letter on. So the claim holds if all names start with a letter, and is false for names like _1 (refuted)."
  },
  {
   "property": "C57",
   "status": "partial",
   "theorems": [
    "C57_keeps_the_tokens",
    "C57_failure",
    "C57_scalar_partial",
    "C57_replay_partial",
    "C57_deferred_partial",
    "C57_written_again_partial",
    "C57_scalar_appends_refuted"
   ],
   "note": "Arrays and objects from any source; replay into every type of the type language for values that fit; a scalar is added to the old content of the vector, so the claim is false there (refuted). Members with empty names are not written (see C14)."
  },
  {
   "property": "C58",
   "status": "partial",
   "theorems": [
    "C58_members_named",
    "C58_error_named_partial",
    "C58_same_result",
    "C58_other_error_refuted",
    "C58_nested_member_refuted",
    "C58_untracked_refuted"
   ],
   "note": "Members: all types, when the context tracks them (otherwise the message is empty, refuted). Error name: all types without maps, T[N] and ArrayVariableContent, for which it is false (refuted). An unknown member of a nested struct is only found by its place in the text (refuted)."
  },
  {
   "property": "C59",
   "status": "partial",
   "theorems": [
    "C59_unrolled",
    "C59_depth",
    "C59_returns_partial",
    "C59_document_returns",
    "C59_round_trip_partial",
    "C59_meaning",
    "C59_bounded_stack_refuted"
   ],
   "note": "Unrolling and independence of the depth: all types, texts, objects, options. Return: without floating point and time points, any text without maps, any valid document with maps (as C31). Round trip: objects that their JSON value determines (as C26). The depth of the calls is bounded by nothing but the text (refuted)."
  },
  {
   "property": "C60",
   "status": "partial",
   "theorems": [
    "C60_double_inside_partial",
    "C60_float_inside_partial",
    "C60_double_prefix_partial",
    "C60_float_prefix_partial",
    "C60_double_to_string",
    "C60_float_to_string",
    "C60_integer_prefix",
    "C60_outside_refuted",
    "C60_prefix_refuted"
   ],
   "note": "All bit patterns, sizes and contents. False for a negative number in a buffer of one character (written outside) and for buffers that do not hold the digits in front of the point and one more (wrong digits); integers in full."
  },
  {
   "property": "C61",
   "status": "partial",
   "theorems": [
    "C61_round_trip",
    "C61_widening",
    "C61_literals_partial",
    "C61_literals_refuted"
   ],
   "note": "Round trip and widening in full. Other literals: exact or clamped for digits below 2^128 and values outside of 2^128..10^39, below 256 characters; false for values in between, which wrap."
  },
  {
   "property": "C62",
   "status": "partial",
   "theorems": [
    "C62_read",
    "C62_read_text",
    "C62_cast_partial",
    "C62_cast_no_object",
    "C62_cast_whole_partial",
    "C62_set_get_partial",
    "C62_set_first",
    "C62_history_partial",
    "C62_set_whole_partial",
    "C62_written_partial",
    "C62_empty_written",
    "C62_member_written",
    "C62_round_trip_partial",
    "C62_names_refuted",
    "C62_old_data_refuted"
   ],
   "note": "For non-empty names that are string contents, values that can be written (C35), and replacements as in C39. castToType for values that fit the handler (C31) and contexts outside of scopes. The whole Map is cast as it was read, not after setValue. For the lifetimes of the strings see C70."
  },
  {
   "property": "C63",
   "status": "proved",
   "theorems": [
    "C63_number",
    "C63_whitespace",
    "C63_word",
    "C63_comment",
    "C63_string",
    "C63_string_escaped_short",
    "C63_string_escaped_refuted",
    "C63_tokenizer",
    "C63_builds",
    "C63_span_unique",
    "C63_string_unique"
   ],
   "note": "The meaning of the intrinsics is part of the model (VecModel.v, top). C63_tokenizer carries the result to the tokenizer model of C01-C20. Strings entered inside an escape sequence: see C06."
  },
  {
   "property": "C64",
   "status": "proved",
   "theorems": [
    "C64_reformat_defined",
    "C64_output_is_the_tokens",
    "C64_buffer_irrelevant",
    "C64_output_length",
    "C64_default_output_length"
   ],
   "note": "reformat is called with a string and tokenizes it as one buffer, so the string cut rule of C06 does not matter."
  },
  {
   "property": "C65",
   "status": "proved",
   "theorems": [
    "C65_tokens_stay",
    "C65_error_is_final",
    "C65_error_is_final_refuted",
    "C65_document_prefix",
    "C65_reformat_prefix",
    "C65_reformat_truncated"
   ],
   "note": "One buffer; for data cut into several buffers see C05. With comments allowed a slash at the end of the data is an error that a continuation can remove (refuted part)."
  },
  {
   "property": "C66",
   "status": "partial",
   "theorems": [
    "C66_lists",
    "C66_obj",
    "C66_obj_super",
    "C66_obj_ext",
    "C66_func_obj",
    "C66_object",
    "C66_one_result",
    "C66_no_limit_refuted"
   ],
   "note": "Lists of bare names: exactly those of up to 2050 names; with 2051 the expansion is shown to be broken. Members described one by one: any number. The preprocessor is modelled on tokens without white space."
  },
  {
   "property": "C67",
   "status": "proved",
   "theorems": [
    "C67_sequence",
    "C67_depth",
    "C67_get",
    "C67_arity",
    "C67_assign",
    "C67_read",
    "C67_write"
   ],
   "note": "References are modelled by what is read and written through them."
  },
  {
   "property": "C68",
   "status": "partial",
   "theorems": [
    "C68_read",
    "C68_write",
    "C68_same_object",
    "C68_members",
    "C68_returns_partial",
    "C68_document_returns",
    "C68_reported_exactly_partial",
    "C68_own_member_first",
    "C68_round_trip_partial",
    "C68_no_own_members_refuted"
   ],
   "note": "The equality with the flattened struct holds for every text and class of good_tcls (each class has a member of its own; others do not compile). Missing: virtual base classes; the corollaries inherit the limits of C26, C28, C29 and C31."
  },
  {
   "property": "C69",
   "status": "partial",
   "theorems": [
    "C69_read",
    "C69_error_member",
    "C69_failure",
    "C69_write",
    "C69_round_trip_partial",
    "C69_round_trip",
    "C69_error_round_trip_refuted",
    "C69_error_object_refuted",
    "C69_enum_range_refuted"
   ],
   "note": "Enums are read and written like their integers, for every text. An Error is never read back (refuted); a number outside an enum without fixed type is undefined (refuted). The round trip inherits storable from C26."
  },
  {
   "property": "C70",
   "status": "partial",
   "theorems": [
    "C70_strings",
    "C70_tokens",
    "C70_alive_partial",
    "C70_alive_new_partial",
    "C70_alive_whole_partial",
    "C70_same_map",
    "C70_dangling_refuted",
    "C70_copy_refuted"
   ],
   "note": "Proved under the conditions of C39 (no scalar replaced before a container); without them tokens dangle (refuted). A copy depends on the original (refuted for every Map with a member set)."
  },
  {
   "property": "C71",
   "status": "partial",
   "theorems": [
    "C71_pieces",
    "C71_read_exactly",
    "C71_read",
    "C71_written",
    "C71_document",
    "C71_value_read_partial",
    "C71_value_written_partial",
    "C71_lone_refuted"
   ],
   "note": "The string read is UTF-8 exactly if the text is and has no lone surrogate; with a lone surrogate refuted. Values: for documents that fit the handlers (C31) and values that can be written and read back (C26)."
  },
  {
   "property": "C72",
   "status": "partial",
   "theorems": [
    "C72_tokens_in_order",
    "C72_text_afterwards_partial",
    "C72_reset",
    "C72_parse_partial",
    "C72_text_afterwards_refuted",
    "C72_empty_refuted"
   ],
   "note": "Outside of scopes. Text that was begun before is read again from its start, and an empty vector is undefined behaviour (refuted). Parsing for documents that fit the handlers (C31)."
  },
  {
   "property": "C73",
   "status": "partial",
   "theorems": [
    "C73_integers",
    "C73_floats",
    "C73_documents",
    "C73_json_numbers",
    "C73_refuted",
    "C73_long_fraction_refuted"
   ],
   "note": "Every JSON number is accepted and the accepted texts are determined exactly. That nothing else is accepted is refuted."
  },
  {
   "property": "C74",
   "status": "partial",
   "theorems": [
    "C74_one_call",
    "C74_tokens",
    "C74_serializeStruct",
    "C74_calls_partial",
    "C74_second_call_refuted"
   ],
   "note": "One call in full, for any string and any writes, and linked to the model of the Serializer. Several calls: exactly when they are defined; the claim for them is false."
  },
  {
   "property": "C75",
   "status": "partial",
   "theorems": [
    "C75_texts",
    "C75_own_message",
    "C75_named_partial",
    "C75_left_over_refuted",
    "C75_doubled_refuted"
   ],
   "note": "The start of every text exactly, for all lists of calls. The claim is false for a refused call after a message was set: the text then names NoError and the message of the other function."
  },
  {
   "property": "C76",
   "status": "partial",
   "theorems": [
    "C76_tokens",
    "C76_ends",
    "C76_closed_partial",
    "C76_unclosed_refuted"
   ],
   "note": "Tokens, metadata and termination for every text. Memory safety for every pair of texts with all brackets closed, JSON or not, without bare words in the base; false for unfinished texts (refuted)."
  },
  {
   "property": "C77",
   "status": "partial",
   "theorems": [
    "C77_declared_names",
    "C77_struct_partial",
    "C77_vector_partial",
    "C77_read_partial",
    "C77_text_partial",
    "C77_refused",
    "C77_round_trip_partial",
    "C77_name_refuted"
   ],
   "note": "Reading and from text to text for new structs and objects without repeated names. The object is written under the names the values were read with; the declared names take no part, so the claim is false for values kept from elsewhere (refuted). Structs without supers; quoted names; members with empty names are not written (see C14)."
  },
  {
   "property": "C78",
   "status": "partial",
   "theorems": [
    "C78_inside",
    "C78_defined",
    "C78_undefined",
    "C78_rfc",
    "C78_written",
    "C78_only_stored_refuted"
   ],
   "note": "Ends and stays inside the string for all strings. Unset digits are used exactly when a high surrogate is followed by a second unicode escape without four digits, which the tokenizer lets through; never for strings of RFC 8259 or written ones."
  },
  {
   "property": "C79",
   "status": "partial",
   "theorems": [
    "C79_values",
    "C79_read",
    "C79_throws",
    "C79_completes_partial",
    "C79_same_document_partial",
    "C79_same_number",
    "C79_out_of_range_refuted",
    "C79_sign_refuted"
   ],
   "note": "For all documents whose numbers are 0 or in the range of the normal doubles. False for larger numbers, and for signs alone, which the tokenizer accepts: std::stod throws (refuted). Between 0 and the normal doubles it depends on the C library. Rounding is part of the comparison, a parameter."
  },
  {
   "property": "C80",
   "status": "proved",
   "theorems": [
    "C80_scan",
    "C80_not_copied",
    "C80_copied",
    "C80_nothing_lost",
    "C80_one_text",
    "C80_same_for_every_build",
    "C80_old_content",
    "C80_refines"
   ],
   "note": "All strings and builds. The scan at the level of intrinsics; std::string is a list of bytes."
  }
 ]
}