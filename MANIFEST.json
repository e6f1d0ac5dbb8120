{
 "claims": [
  {
   "property": "C01",
   "status": "proved",
   "theorems": [
    "C01_split_default",
    "C01_split_string_delimiters",
    "C01_spec_unique",
    "C01_multiple_delimiters"
   ],
   "note": "All element types, predicates and inputs; C01_split_string_delimiters ties the string overload to the predicate one."
  },
  {
   "property": "C02",
   "status": "proved",
   "theorems": [
    "C02_split_compress"
   ],
   "note": ""
  },
  {
   "property": "C03",
   "status": "proved",
   "theorems": [
    "C03_split_include_lossless",
    "C03_include_1st_compress_refuted"
   ],
   "note": "include_1st without compression and include_all; C03_include_1st_compress_refuted shows the remaining combination drops delimiters."
  },
  {
   "property": "C04",
   "status": "proved",
   "theorems": [
    "C04_tokenizer_is_split",
    "C04_all_options_refuted"
   ],
   "note": "Seven of the eight option sets; C04_all_options_refuted shows that with all three bits set the two disagree."
  },
  {
   "property": "C05",
   "status": "proved",
   "theorems": [
    "C05_split_n_prefix",
    "C05_include_all_refuted"
   ],
   "note": "Option sets where include_all is not selected alone; C05_include_all_refuted shows the excluded sets really differ."
  },
  {
   "property": "C06",
   "status": "proved",
   "theorems": [
    "C06_tokens_exist_unique",
    "C06_too_few_tokens",
    "C06_success",
    "C06_failure",
    "C06_total",
    "C06_failing_target_keeps_value",
    "C06_builtin_converters_keep",
    "C06_simple_converters"
   ],
   "note": "parse_values modelled on the list of targets; converters of the built-in types shown to leave the target alone on failure"
  },
  {
   "property": "C07",
   "status": "proved",
   "theorems": [
    "C07_container",
    "C07_sequence",
    "C07_sequence_n",
    "C07_sequence_n_refuted",
    "C07_converted_unique",
    "C07_values_then_rest",
    "C07_argv_sequence"
   ],
   "note": "converter given as a parameter with a specification of which texts convert"
  },
  {
   "property": "C08",
   "status": "proved",
   "theorems": [
    "C08_remove_inplace",
    "C08_remove_inplace_seq"
   ],
   "note": ""
  },
  {
   "property": "C09",
   "status": "proved",
   "theorems": [
    "C09_remove_consecutives_pred",
    "C09_remove_consecutives_eq"
   ],
   "note": "Equality version assumes the comparison decides equality."
  },
  {
   "property": "C10",
   "status": "proved",
   "theorems": [
    "C10_remove_leading",
    "C10_remove_trailing",
    "C10_remove_trailing_refuted",
    "C10_remove_leading_trailing",
    "C10_spec_unique"
   ],
   "note": "remove_trailing is exact when something survives; C10_remove_trailing_refuted gives its exact wrong answer on an all-trimmable string."
  },
  {
   "property": "C11",
   "status": "proved",
   "theorems": [
    "C11_replace_pattern",
    "C11_pattern_absent_or_empty",
    "C11_pointer_output_refuted",
    "C11_replace_char"
   ],
   "note": "String version and insert-iterator version; C11_pointer_output_refuted: with a plain pointer as output the iterator version overwrites itself."
  },
  {
   "property": "C12",
   "status": "proved",
   "theorems": [
    "C12_no_star",
    "C12_literal",
    "C12_prefix_star",
    "C12_sound_on_arrays",
    "C12_complete_refuted",
    "C12_sound_on_strings_refuted",
    "C12_memory_refuted"
   ],
   "note": "Restated to what holds; C12_complete_refuted, C12_sound_on_strings_refuted and C12_memory_refuted show the documented glob is not decided in general."
  },
  {
   "property": "C13",
   "status": "proved",
   "theorems": [
    "C13_find_all",
    "C13_occurrence_meaning",
    "C13_spec_unique",
    "C13_empty_pattern_refuted"
   ],
   "note": "C13_empty_pattern_refuted: an empty pattern never terminates on non-empty data."
  },
  {
   "property": "C14",
   "status": "proved",
   "theorems": [
    "C14_hex_text",
    "C14_hex_roundtrip",
    "C14_hex_refused",
    "C14_hex_empty_refuted"
   ],
   "note": "C14_hex_empty_refuted: the empty string encodes to the empty text, which the decoder refuses. Little-endian host for the two-byte store."
  },
  {
   "property": "C15",
   "status": "proved",
   "theorems": [
    "C15_hex_accepts",
    "C15_validation_refuted"
   ],
   "note": "Restated as what the decoder really does; C15_validation_refuted shows it is not a validator."
  },
  {
   "property": "C16",
   "status": "proved",
   "theorems": [
    "C16_base64_text",
    "C16_base64_buffer",
    "C16_base64_roundtrip",
    "C16_base64_decode_buffer"
   ],
   "note": "Both string and pointer versions; equality with a bit-level RFC 4648 specification."
  },
  {
   "property": "C17",
   "status": "proved",
   "theorems": [
    "C17_base64_decode_safe",
    "C17_short_text_refuted",
    "C17_empty_roundtrip_refuted"
   ],
   "note": "C17_short_text_refuted: text of length 0 or 1 is undefined behaviour, so the empty string does not round-trip."
  },
  {
   "property": "C18",
   "status": "proved",
   "theorems": [
    "C18_unsigned_exact",
    "C18_unsigned_long",
    "C18_unsigned_long_range_refuted"
   ],
   "note": "unsigned long uses 32-bit limits even where long has 64 bits: C18_unsigned_long_range_refuted."
  },
  {
   "property": "C19",
   "status": "proved",
   "theorems": [
    "C19_short_exact",
    "C19_int_exact",
    "C19_long_long_exact",
    "C19_long_exact",
    "C19_int_min_refuted",
    "C19_long_long_min_refuted",
    "C19_long_range_refuted"
   ],
   "note": "Excludes exactly the minimum of int / long long, where the code overflows: C19_int_min_refuted, C19_long_long_min_refuted; long is limited to 32 bits: C19_long_range_refuted."
  },
  {
   "property": "C20",
   "status": "proved",
   "theorems": [
    "C20_canonical_unique",
    "C20_unsigned_round_trip",
    "C20_signed_round_trip",
    "C20_int_min_refuted",
    "C20_long_refuted"
   ],
   "note": "Formatting is proved for every value; reading back excludes what C18/C19 exclude: C20_int_min_refuted, C20_long_refuted."
  },
  {
   "property": "C21",
   "status": "proved",
   "theorems": [
    "C21_checked",
    "C21_unchecked",
    "C21_exact",
    "C21_signed",
    "C21_all_digits_check",
    "C21_twenty_digits_refuted",
    "C21_unchecked_refuted",
    "C21_signed_range_refuted",
    "C21_signed_empty_refuted"
   ],
   "note": "Limits shown by C21_twenty_digits_refuted, C21_unchecked_refuted, C21_signed_range_refuted, C21_signed_empty_refuted."
  },
  {
   "property": "C22",
   "status": "proved",
   "theorems": [
    "C22_convert_reverses_bytes",
    "C22_convert_involution",
    "C22_signed_involution",
    "C22_signed_bytes",
    "C22_host_order",
    "C22_host_order_signed",
    "C22_long_long_le_refuted",
    "C22_transfer",
    "C22_32bit_refuted",
    "C22_32bit_signed_refuted"
   ],
   "note": "16- and 64-bit; C22_32bit_refuted gives the exact wrong result of the 32-bit overload."
  },
  {
   "property": "C23",
   "status": "proved",
   "theorems": [
    "C23_roundtrip",
    "C23_exact_buffer",
    "C23_exact_nested_refuted",
    "C23_nested_sequence_refuted",
    "C23_empty_vector_refuted",
    "C23_length64",
    "C23_length64_refuted",
    "C23_read_sound"
   ],
   "note": "Side conditions are necessary: C23_exact_nested_refuted, C23_nested_sequence_refuted, C23_empty_vector_refuted, C23_length64_refuted."
  },
  {
   "property": "C24",
   "status": "proved",
   "theorems": [
    "C24_reader_history",
    "C24_writer_history",
    "C24_read_frame",
    "C24_write_frame",
    "C24_seek_int_min_refuted",
    "C24_failed_string_not_atomic_refuted"
   ],
   "note": "C24_seek_int_min_refuted, C24_failed_string_not_atomic_refuted and C23_empty_vector_refuted show the exclusions are real."
  },
  {
   "property": "C25",
   "status": "proved",
   "theorems": [
    "C25_no_false_negatives",
    "C25_exact",
    "C25_construction",
    "C25_parameters",
    "C25_default_bounds_refuted",
    "C25_clamped_size_refuted",
    "C25_contains_all",
    "C25_scans"
   ],
   "note": "Default size bounds can produce a table without cells: C25_default_bounds_refuted; a bound that is no multiple of 8: C25_clamped_size_refuted. The floating point search for the optimal parameters is an input of the model."
  },
  {
   "property": "C26",
   "status": "proved",
   "theorems": [
    "C26_incompatible_unchanged",
    "C26_union_inter",
    "C26_diff",
    "C26_equality",
    "C26_copy_refuted"
   ],
   "note": "The copy constructor, and with it the binary operators &, |, ^, is undefined for all operands: C26_copy_refuted."
  },
  {
   "property": "C27",
   "status": "proved",
   "theorems": [
    "C27_compression_keeps_keys",
    "C27_single_step",
    "C27_more_than_half_refuted",
    "C27_use_after_compress_refuted"
   ],
   "note": "Compressing below half overflows the new table: C27_more_than_half_refuted; clear() and set operations after a compression overflow: C27_use_after_compress_refuted. The percentage arithmetic on doubles is an input of the model."
  },
  {
   "property": "C28",
   "status": "proved",
   "theorems": [
    "C28_find_prefix",
    "C28_find",
    "C28_find_inserted",
    "C28_find_refuted",
    "C28_destroy",
    "C28_copy_refuted"
   ],
   "note": "find does not give back the own value of every key: C28_find_refuted; copying a trie deletes its nodes twice: C28_copy_refuted."
  },
  {
   "property": "C29",
   "status": "proved",
   "theorems": [
    "C29_binomial",
    "C29_unique",
    "C29_zero_refuted",
    "C29_huge_refuted"
   ],
   "note": "Refuted outside the stated bounds."
  },
  {
   "property": "C30",
   "status": "proved",
   "theorems": [
    "C30_arrangements",
    "C30_nth_positions",
    "C30_nth_string",
    "C30_bijection",
    "C30_empty_refuted",
    "C30_67_refuted",
    "C30_22_refuted",
    "C30_nth_range"
   ],
   "note": "Refuted for 0, 22 and 67 elements."
  },
  {
   "property": "C31",
   "status": "proved",
   "theorems": [
    "C31_choices",
    "C31_nth",
    "C31_nth_choice",
    "C31_small_k_refuted",
    "C31_buffer",
    "C31_buffer_refuted"
   ],
   "note": "Refuted for k<2 and for plain output iterators with complete_index."
  },
  {
   "property": "C32",
   "status": "proved",
   "theorems": [
    "C32_permutation",
    "C32_combination",
    "C32_select_k",
    "C32_select_1",
    "C32_closed_range_refuted",
    "C32_order_refuted",
    "C32_select_1_refuted"
   ],
   "note": "Products of size and random double are modelled as the truncated index drawn."
  },
  {
   "property": "C33",
   "status": "proved",
   "theorems": [
    "C33_cells",
    "C33_load",
    "C33_row",
    "C33_row_unchecked_refuted",
    "C33_row_overrun_refuted",
    "C33_empty_minimum_refuted"
   ],
   "note": "Restated for token(row,col) and fewer than 2^32 cells; the unchecked row(i), row.parse past the row and the minimum of an empty grid are _refuted theorems."
  },
  {
   "property": "C34",
   "status": "proved",
   "theorems": [
    "C34_operations",
    "C34_remove_row",
    "C34_remove_row_if",
    "C34_survivors",
    "C34_remove_token_if",
    "C34_remove_empty_tokens",
    "C34_enforce_column_count",
    "C34_enforce_min_max_column_count",
    "C34_stale_counts_refuted",
    "C34_enforce_ignores_range_refuted",
    "C34_clear",
    "C34_enforced_counts_refuted",
    "C34_default_range_refuted"
   ],
   "note": "Rows and cells for any sequence of removals; column counts for remove_token_if. Stale counts after remove_row(_if), ignored range and default range() are _refuted theorems. store::remove_row_range/remove_column are not reachable through public members and not modelled."
  },
  {
   "property": "C35",
   "status": "proved",
   "theorems": [
    "C35_join",
    "C35_join_appends",
    "C35_join_if",
    "C35_join_args",
    "C35_split_of_join",
    "C35_single_empty_refuted"
   ],
   "note": "join_if(delimiter,predicate,sequence) at 11368 does not compile when instantiated; the iterator version is modelled"
  },
  {
   "property": "C36",
   "status": "proved",
   "theorems": [
    "C36_copy_file",
    "C36_concatenate",
    "C36_files_identical",
    "C36_failed_copy_refuted",
    "C36_self_copy_refuted"
   ],
   "note": "a failed copy empties the destination and a self copy loses the file: _refuted theorems"
  },
  {
   "property": "C37",
   "status": "proved",
   "theorems": [
    "C37_lines_spec",
    "C37_for_each_line",
    "C37_for_each_line_n",
    "C37_for_each_line_conditional",
    "C37_for_each_line_n_conditional",
    "C37_write_then_load",
    "C37_load",
    "C37_default_delimiter_refuted",
    "C37_newline_in_item_refuted"
   ],
   "note": "the default empty delimiter and items containing a newline do not round trip: _refuted theorems"
  },
  {
   "property": "C38",
   "status": "proved",
   "theorems": [
    "C38_fields",
    "C38_strict",
    "C38_lenient",
    "C38_frame",
    "C38_last",
    "C38_uint_keys",
    "C38_string_keys",
    "C38_uint_map",
    "C38_uint_map_refuted",
    "C38_empty_value_refuted",
    "C38_order",
    "C38_order_refuted"
   ],
   "note": "keyvalue::parser for any key map whose lookup is total, with uintkey_map and stringkey_map instances; key_map<unsigned int> aliasing and the impossible empty value shown by _refuted theorems"
  },
  {
   "property": "C39",
   "status": "proved",
   "theorems": [
    "C39_bit_addressing",
    "C39_bit_addressing_out_of_range",
    "C39_high_bit_count",
    "C39_hamming_distance",
    "C39_hamming_metric",
    "C39_hamming_different_lengths",
    "C39_elementwise_returns",
    "C39_hamming_elementwise_refuted"
   ],
   "note": "C39_hamming_elementwise_refuted: the element-wise variant loops forever."
  },
  {
   "property": "C40",
   "status": "proved",
   "theorems": [
    "C40_interleave",
    "C40_interleave_injective",
    "C40_interleave_different_lengths",
    "C40_interleave_string_refuted",
    "C40_nway_table"
   ],
   "note": "Pointer version, little-endian host; C40_interleave_string_refuted: the std::string version overflows its buffer."
  },
  {
   "property": "C41",
   "status": "proved",
   "theorems": [
    "C41_wide_text",
    "C41_left_right",
    "C41_center",
    "C41_width"
   ],
   "note": ""
  },
  {
   "property": "C42",
   "status": "proved",
   "theorems": [
    "C42_find_exactly",
    "C42_find_atleast",
    "C42_spec_adequate",
    "C42_split_on_consecutive",
    "C42_split_on_consecutive_type",
    "C42_split_on_consecutive_nm",
    "C42_split_on_consecutive_n",
    "C42_at_most_n_refuted",
    "C42_match_exactly",
    "C42_match_atleast",
    "C42_match_atleast_refuted",
    "C42_stateful_refuted",
    "C42_long_range_refuted",
    "C42_types",
    "C42_match_type",
    "C42_zero_refuted"
   ],
   "note": "Preconditions on the range length are necessary (_refuted); match_atleast on an all-matching range, the n+1 results of the bounded split and stateful_predicate are _refuted theorems."
  },
  {
   "property": "C43",
   "status": "proved",
   "theorems": [
    "C43_written",
    "C43_full_width",
    "C43_accepted",
    "C43_short_text_refuted",
    "C43_stale_success_refuted",
    "C43_string",
    "C43_string_any_text_refuted",
    "C43_base64_never_valid_refuted",
    "C43_base64_stores",
    "C43_base64_memory_refuted",
    "C43_field",
    "C43_string_field",
    "C43_base64_field_refuted"
   ],
   "note": "Fixed as the model shows: value exact for full-width text; C43_*_refuted give the short-text, stale-flag, any-character, never-valid and memory defects. Little-endian target."
  },
  {
   "property": "C44",
   "status": "proved",
   "theorems": [
    "C44_case_conversion",
    "C44_imatch",
    "C44_imatch_equivalence",
    "C44_imatch_any",
    "C44_imatch_high_bytes_refuted"
   ],
   "note": "C44_imatch_high_bytes_refuted: outside 7-bit ASCII the comparison is undefined behaviour."
  },
  {
   "property": "C45",
   "status": "proved",
   "theorems": [
    "C45_positions",
    "C45_all_elements",
    "C45_chain",
    "C45_string",
    "C45_range",
    "C45_last_element_refuted",
    "C45_restart_refuted",
    "C45_default_seed"
   ],
   "note": "For other lengths elements are ignored: C45_last_element_refuted, C45_restart_refuted."
  },
  {
   "property": "C46",
   "status": "proved",
   "theorems": [
    "C46_slices",
    "C46_determined",
    "C46_prefix",
    "C46_rotating_covers",
    "C46_reuse_refuted"
   ],
   "note": "offset_splitter on index ranges; make_offsets covers offsets(v1..v12)."
  },
  {
   "property": "C47",
   "status": "proved",
   "theorems": [
    "C47_permutes",
    "C47_enumerates",
    "C47_lex_order",
    "C47_iterator"
   ],
   "note": ""
  },
  {
   "property": "C48",
   "status": "proved",
   "theorems": [
    "C48_defined",
    "C48_numbers",
    "C48_plain",
    "C48_accepted",
    "C48_words",
    "C48_table_refuted",
    "C48_long_double_refuted",
    "C48_sloppy_refuted"
   ],
   "note": "Arithmetic is a parameter (record reals). Range preconditions explicit; C48_*_refuted show them necessary and show the sloppy texts. long double: pow10 only."
  },
  {
   "property": "C49",
   "status": "proved",
   "theorems": [
    "C49_remove_duplicates",
    "C49_remove_duplicates_refuted"
   ],
   "note": "For 7-bit characters; C49_remove_duplicates_refuted: any character >= 0x80 is undefined behaviour (negative index)."
  },
  {
   "property": "C50",
   "status": "proved",
   "theorems": [
    "C50_begins_ends_index"
   ],
   "note": ""
  },
  {
   "property": "C51",
   "status": "proved",
   "theorems": [
    "C51_printable"
   ],
   "note": ""
  },
  {
   "property": "C52",
   "status": "proved",
   "theorems": [
    "C52_ifind",
    "C52_ifind_all",
    "C52_occurrence_meaning"
   ],
   "note": "Contract of std::search assumed as modelled by std_search."
  },
  {
   "property": "C53",
   "status": "proved",
   "theorems": [
    "C53_bitwise_transform",
    "C53_string",
    "C53_xor_involution"
   ],
   "note": ""
  },
  {
   "property": "C54",
   "status": "proved",
   "theorems": [
    "C54_left_padding",
    "C54_right_padding_refuted"
   ],
   "note": "C54_right_padding_refuted: the other padding mode is undefined behaviour."
  },
  {
   "property": "C55",
   "status": "proved",
   "theorems": [
    "C55_construct",
    "C55_round_trip",
    "C55_round_trip_any",
    "C55_empty_text_refuted"
   ],
   "note": "empty texts are swallowed by delimiter compression (refutation included)"
  },
  {
   "property": "C56",
   "status": "proved",
   "theorems": [
    "C56_parse_line",
    "C56_end_of_stream",
    "C56_argv_values_refuted",
    "C56_argv_values_stops"
   ],
   "note": "parse(argc,argv,t1..tn) reads argv[argc]: refutation included"
  },
  {
   "property": "C57",
   "status": "proved",
   "theorems": [
    "C57_replicate",
    "C57_bracketize",
    "C57_interval_inserter",
    "C57_cut",
    "C57_cut_order_refuted",
    "C57_translate",
    "C57_translate_size_mismatch",
    "C57_translate_high_refuted"
   ],
   "note": "cut with r1<r0 and translate with characters from 128 on: refutations included"
  },
  {
   "property": "C58",
   "status": "proved",
   "theorems": [
    "C58_columns",
    "C58_short",
    "C58_sequence",
    "C58_selector",
    "C58_reset",
    "C58_order_refuted",
    "C58_small_sequence_refuted"
   ],
   "note": "strictly increasing column lists; out of order lists and too short sequences shown wrong by _refuted theorems"
  },
  {
   "property": "C59",
   "status": "proved",
   "theorems": [
    "C59_bindings",
    "C59_copy_refuted",
    "C59_assign_empty_refuted"
   ],
   "note": "copy construction dangles and assignment from an empty value does not clear: _refuted theorems"
  },
  {
   "property": "C60",
   "status": "proved",
   "theorems": [
    "C60_write_then_load",
    "C60_load_file",
    "C60_write_file_fails",
    "C60_read_at_offset",
    "C60_short_file_refuted",
    "C60_exists",
    "C60_missing"
   ],
   "note": "the caller-buffer form reports success on short files: _refuted theorem"
  },
  {
   "property": "C61",
   "status": "proved",
   "theorems": [
    "C61_copy_n",
    "C61_copy_n_short_refuted",
    "C61_copy_if",
    "C61_copy_while",
    "C61_copy_until",
    "C61_range_only_contains"
   ],
   "note": "copy_n beyond the range is undefined: _refuted theorem"
  },
  {
   "property": "C62",
   "status": "proved",
   "theorems": [
    "C62_row",
    "C62_text",
    "C62_parse_with_index",
    "C62_parse",
    "C62_parse_range",
    "C62_parse_sequence",
    "C62_parse_n",
    "C62_parse_checked",
    "C62_for_each_column",
    "C62_is_null"
   ],
   "note": "Converters are arbitrary functions; targets keep what a failed conversion leaves, not modelled."
  },
  {
   "property": "C63",
   "status": "proved",
   "theorems": [
    "C63_extract_column",
    "C63_extract_column_checked",
    "C63_extract_columns",
    "C63_column_widths",
    "C63_join_column",
    "C63_join_row",
    "C63_accumulate_row",
    "C63_accumulate_column",
    "C63_accumulate_column_if",
    "C63_for_each_row",
    "C63_sequential_partition",
    "C63_groups_unique",
    "C63_join_last_row_refuted",
    "C63_accumulate_count_refuted",
    "C63_past_last_column_refuted",
    "C63_checked_pointer_refuted",
    "C63_single_row_groups_refuted"
   ],
   "note": ""
  },
  {
   "property": "C64",
   "status": "proved",
   "theorems": [
    "C64_quoted_load",
    "C64_quoted_cells",
    "C64_trimmed_load",
    "C64_quote_state_refuted",
    "C64_include_all_refuted",
    "C64_trim_trailing_refuted",
    "C64_trim_lone_quote_refuted"
   ],
   "note": "Options 0, 1, 2 of the column split; 3 and 4 have a _refuted theorem."
  },
  {
   "property": "C65",
   "status": "proved",
   "theorems": [
    "C65_character_classes",
    "C65_is_all",
    "C65_remaining_string",
    "C65_swap",
    "C65_remove_last",
    "C65_remove_none",
    "C65_remove_refuted",
    "C65_remove_memmove",
    "C65_insert_end",
    "C65_insert_refuted",
    "C65_insert_memmove",
    "C65_all_letters_digits"
   ],
   "note": "Overlapping memcpy is undefined behaviour in the model; the memmove reading is proved separately."
  },
  {
   "property": "C66",
   "status": "proved",
   "theorems": [
    "C66_expect",
    "C66_parse_expected",
    "C66_iexpect",
    "C66_like_literal",
    "C66_like_refuted",
    "C66_inrange",
    "C66_inrange_uint",
    "C66_trim",
    "C66_trim_trailing",
    "C66_trim_trailing_refuted",
    "C66_trim_invalid_mode",
    "C66_case",
    "C66_fill_array"
   ],
   "note": "Target converters are arbitrary or the integer converters; starred patterns in like inherit the defects of C12 (_refuted)."
  },
  {
   "property": "C67",
   "status": "proved",
   "theorems": [
    "C67_duplicates",
    "C67_min_max",
    "C67_min_and_max",
    "C67_extremes_unique",
    "C67_empty_refuted"
   ],
   "note": "min_element/max_element of the standard library are modelled as a left fold."
  },
  {
   "property": "C68",
   "status": "proved",
   "theorems": [
    "C68_first_non_repeated",
    "C68_high_byte_refuted",
    "C68_lines"
   ],
   "note": ""
  },
  {
   "property": "C69",
   "status": "proved",
   "theorems": [
    "C69_rotation",
    "C69_unique_smallest",
    "C69_least",
    "C69_not_canonical_refuted",
    "C69_empty_refuted"
   ],
   "note": "std::list erase while iterating modelled as filter; std::rotate as concatenation."
  },
  {
   "property": "C70",
   "status": "proved",
   "theorems": [
    "C70_seek",
    "C70_rewind",
    "C70_reader_marks",
    "C70_writer_marks",
    "C70_no_mark",
    "C70_reset_clear",
    "C70_load",
    "C70_load_amount",
    "C70_read_text",
    "C70_refused"
   ],
   "note": "The stream is modelled by the bytes it can deliver."
  },
  {
   "property": "C71",
   "status": "proved",
   "theorems": [
    "C71_unknown_size",
    "C71_fixed_size",
    "C71_too_short",
    "C71_fixed_size_unchecked_refuted"
   ],
   "note": ""
  },
  {
   "property": "C72",
   "status": "proved",
   "theorems": [
    "C72_all",
    "C72_count",
    "C72_no_container",
    "C72_attach",
    "C72_all_success_refuted",
    "C72_count_not_set_refuted",
    "C72_set_count"
   ],
   "note": "all split options but include_all_delimiters without include_1st_delimiter, for which split_n differs"
  },
  {
   "property": "C73",
   "status": "proved",
   "theorems": [
    "C73_value",
    "C73_large_exponent_refuted",
    "C73_large_exponent_double_refuted"
   ],
   "note": "Exact rational instance of the parameterised parser; table entries taken as powers of ten."
  },
  {
   "property": "C74",
   "status": "proved",
   "theorems": [
    "C74_integers",
    "C74_exact",
    "C74_fraction_refuted",
    "C74_exponent_refuted"
   ],
   "note": "Doubles are the SpecFloat definitions of the standard library (round to nearest even); table entries taken as the nearest doubles."
  },
  {
   "property": "C75",
   "status": "proved",
   "theorems": [
    "C75_decimal",
    "C75_no_point_refuted",
    "C75_empty_refuted",
    "C75_long_integer_refuted",
    "C75_bad_fraction",
    "C75_bad_integer"
   ],
   "note": ""
  },
  {
   "property": "C76",
   "status": "proved",
   "theorems": [
    "C76_combinations",
    "C76_too_many",
    "C76_conditional",
    "C76_conditional_too_many",
    "C76_restored_refuted",
    "C76_huge_size_refuted"
   ],
   "note": "The function is assumed not to modify the range. C76_restored_refuted and C76_huge_size_refuted show the limits."
  },
  {
   "property": "C77",
   "status": "proved",
   "theorems": [
    "C77_permutations",
    "C77_all",
    "C77_conditional",
    "C77_unsorted_refuted"
   ],
   "note": "std::next_permutation is modelled by its usual algorithm and proved to be the successor function; operator< must be a strict total order; the function is assumed not to modify the range."
  },
  {
   "property": "C78",
   "status": "proved",
   "theorems": [
    "C78_delete_all",
    "C78_delete_all_iff",
    "C78_delete_all_shared_refuted",
    "C78_delete_if",
    "C78_delete_if_shared_refuted"
   ],
   "note": "delete_if for set and multiset compiles for no set (.second on a pointer) and is not modelled"
  },
  {
   "property": "C79",
   "status": "proved",
   "theorems": [
    "C79_keys_sequence",
    "C79_keys_set",
    "C79_keys_multiset",
    "C79_values",
    "C79_values_suffix",
    "C79_values_find_refuted",
    "C79_values_equality_refuted"
   ],
   "note": "the std::queue instance of make_key_list compiles for no queue"
  },
  {
   "property": "C80",
   "status": "proved",
   "theorems": [
    "C80_distinct",
    "C80_seed_refuted"
   ],
   "note": ""
  },
  {
   "property": "C81",
   "status": "proved",
   "theorems": [
    "C81_ignoring_case",
    "C81_case_sensitive",
    "C81_case_sensitive_exact",
    "C81_string_allow",
    "C81_string_block_refuted",
    "C81_exact_refuted",
    "C81_memory_refuted"
   ],
   "note": ""
  },
  {
   "property": "C82",
   "status": "proved",
   "theorems": [
    "C82_range",
    "C82_string",
    "C82_allow_refuted"
   ],
   "note": ""
  },
  {
   "property": "C83",
   "status": "proved",
   "theorems": [
    "C83_sizes",
    "C83_huge_refuted"
   ],
   "note": ""
  },
  {
   "property": "C84",
   "status": "proved",
   "theorems": [
    "C84_convert",
    "C84_back",
    "C84_pointer",
    "C84_pointer_overrun_refuted",
    "C84_count",
    "C84_assignment_refuted",
    "C84_functional_copy_refuted",
    "C84_call_throws"
   ],
   "note": ""
  },
  {
   "property": "C85",
   "status": "proved",
   "theorems": [
    "C85_unique",
    "C85_skip",
    "C85_non_empty"
   ],
   "note": ""
  },
  {
   "property": "C86",
   "status": "proved",
   "theorems": [
    "C86_write",
    "C86_read",
    "C86_round_trip",
    "C86_bounds_refuted",
    "C86_array",
    "C86_alignment_refuted"
   ],
   "note": ""
  },
  {
   "property": "C87",
   "status": "proved",
   "theorems": [
    "C87_read",
    "C87_read_count",
    "C87_read_array_refuted",
    "C87_write_array_refuted"
   ],
   "note": ""
  },
  {
   "property": "C88",
   "status": "proved",
   "theorems": [
    "C88_equal",
    "C88_within",
    "C88_like",
    "C88_begins_ends",
    "C88_begins_ends_refuted",
    "C88_within_empty_refuted",
    "C88_object",
    "C88_copy"
   ],
   "note": ""
  },
  {
   "property": "C89",
   "status": "proved",
   "theorems": [
    "C89_history",
    "C89_changed",
    "C89_compare_print",
    "C89_default",
    "C89_failed_conversion",
    "C89_default_parsed",
    "C89_uninitialised_refuted",
    "C89_scope",
    "C89_no_restore",
    "C89_set_restore"
   ],
   "note": ""
  },
  {
   "property": "C90",
   "status": "proved",
   "theorems": [
    "C90_call",
    "C90_default",
    "C90_copy_refuted",
    "C90_reused_refuted",
    "C90_function_gone_refuted",
    "C90_equality"
   ],
   "note": ""
  },
  {
   "property": "C91",
   "status": "proved",
   "theorems": [
    "C91_format",
    "C91_round_trip",
    "C91_compressible",
    "C91_compressible_refuted",
    "C91_compressed_refuted",
    "C91_large_refuted",
    "C91_default_refuted",
    "C91_default_insert"
   ],
   "note": ""
  },
  {
   "property": "C92",
   "status": "proved",
   "theorems": [
    "C92_no_file",
    "C92_not_saved",
    "C92_truncated",
    "C92_cut_members",
    "C92_after_failure_refuted",
    "C92_any_contents",
    "C92_inconsistent_refuted"
   ],
   "note": ""
  },
  {
   "property": "C93",
   "status": "proved",
   "theorems": [
    "C93_push_back",
    "C93_push_back_set",
    "C93_push_back_multiset"
   ],
   "note": ""
  },
  {
   "property": "C94",
   "status": "proved",
   "theorems": [
    "C94_equal",
    "C94_true",
    "C94_false",
    "C94_unaligned_refuted",
    "C94_short_array_refuted"
   ],
   "note": ""
  },
  {
   "property": "C95",
   "status": "proved",
   "theorems": [
    "C95_make_string",
    "C95_make_string_range",
    "C95_make_string_range_refuted",
    "C95_clear_array",
    "C95_set_array_string",
    "C95_set_array_array",
    "C95_set_array_longer",
    "C95_set_array_shorter_refuted",
    "C95_reverse",
    "C95_fill",
    "C95_fill_sequence",
    "C95_const_refuted"
   ],
   "note": ""
  },
  {
   "property": "C96",
   "status": "proved",
   "theorems": [
    "C96_range",
    "C96_values",
    "C96_sequence",
    "C96_set",
    "C96_multiset",
    "C96_largest_refuted"
   ],
   "note": ""
  },
  {
   "property": "C97",
   "status": "proved",
   "theorems": [
    "C97_min",
    "C97_max",
    "C97_set",
    "C97_empty_refuted"
   ],
   "note": ""
  },
  {
   "property": "C98",
   "status": "proved",
   "theorems": [
    "C98_whole_words",
    "C98_tail",
    "C98_short_refuted",
    "C98_short_before_refuted",
    "C98_unaligned_refuted"
   ],
   "note": ""
  },
  {
   "property": "C99",
   "status": "proved",
   "theorems": [
    "C99_values",
    "C99_real_rng",
    "C99_pregen_refuted"
   ],
   "note": ""
  },
  {
   "property": "C100",
   "status": "proved",
   "theorems": [
    "C100_chain",
    "C100_throw",
    "C100_determined",
    "C100_trailing_refuted"
   ],
   "note": ""
  },
  {
   "property": "C101",
   "status": "proved",
   "theorems": [
    "C101_plus",
    "C101_minus",
    "C101_times",
    "C101_times_agree_refuted"
   ],
   "note": ""
  },
  {
   "property": "C102",
   "status": "proved",
   "theorems": [
    "C102_round_trips",
    "C102_as_type",
    "C102_numbers",
    "C102_no_text",
    "C102_sets"
   ],
   "note": ""
  },
  {
   "property": "C103",
   "status": "proved",
   "theorems": [
    "C103_build",
    "C103_throw"
   ],
   "note": ""
  },
  {
   "property": "C104",
   "status": "proved",
   "theorems": [
    "C104_program",
    "C104_user_memory_refuted",
    "C104_stale_refuted"
   ],
   "note": "for grids without double-quote support; loads that fail are covered by the two refutations"
  },
  {
   "property": "C105",
   "status": "proved",
   "theorems": [
    "C105_walk",
    "C105_walk_is_split",
    "C105_other_predicate_refuted",
    "C105_advance",
    "C105_advance_add",
    "C105_end_remaining_refuted",
    "C105_for_each_token",
    "C105_for_each_token_delimiters"
   ],
   "note": "iterators into different texts are never compared in the model"
  },
  {
   "property": "C106",
   "status": "proved",
   "theorems": [
    "C106_set",
    "C106_set_unique",
    "C106_set_union",
    "C106_set_n",
    "C106_multiset",
    "C106_multiset_unique",
    "C106_multiset_n",
    "C106_queue_stack",
    "C106_queue_stack_n",
    "C106_priority_queue",
    "C106_priority_queue_n",
    "C106_set_n_count_refuted",
    "C106_parse_line",
    "C106_parse_line_n",
    "C106_line_end_of_stream"
   ],
   "note": "the containers of the C++ standard library are modelled as the standard describes them; parse_n under all split options but include_all_delimiters without include_1st_delimiter"
  },
  {
   "property": "C107",
   "status": "proved",
   "theorems": [
    "C107_load",
    "C107_load_sequence",
    "C107_containers",
    "C107_load_file",
    "C107_write_file",
    "C107_set_round_trip",
    "C107_lines_of_file",
    "C107_lines_of_file_conditional",
    "C107_read_line_as_value"
   ],
   "note": "file system as in C36; the round trip supposes elements whose text has no newline and converts back"
  },
  {
   "property": "C108",
   "status": "proved",
   "theorems": [
    "C108_split_cstring",
    "C108_split_char",
    "C108_split_n",
    "C108_unterminated_refuted",
    "C108_remove_cstring",
    "C108_long_cstring_refuted",
    "C108_predicate_object",
    "C108_predicate_storage",
    "C108_remove_empty_strings"
   ],
   "note": "a C string is a buffer of bytes; reading behind its end is undefined behaviour"
  },
  {
   "property": "C109",
   "status": "proved",
   "theorems": [
    "C109_split_regex",
    "C109_split_regex_n",
    "C109_zero_count_refuted",
    "C109_well_formed",
    "C109_ip",
    "C109_ip_refuted",
    "C109_ieee754",
    "C109_ieee754_parses",
    "C109_ieee754_refuted",
    "C109_email",
    "C109_uri",
    "C109_uri_refuted"
   ],
   "note": "boost::regex itself is not modelled: its iterator is the list of matches it delivers, and the expressions are read with a small parser for the Perl syntax they use and the usual meaning of regular expressions"
  },
  {
   "property": "C110",
   "status": "proved",
   "theorems": [
    "C110_join_row",
    "C110_last_row_refuted",
    "C110_no_such_row",
    "C110_join_column",
    "C110_accept_all_refuted",
    "C110_no_such_column"
   ],
   "note": "grids as they come from loading and removal (index structure representing a list of rows)"
  },
  {
   "property": "C111",
   "status": "proved",
   "theorems": [
    "C111_lines",
    "C111_columns",
    "C111_sequence",
    "C111_temporary_list_refuted",
    "C111_surviving_copy_refuted",
    "C111_post_increment_refuted",
    "C111_moved_sequence_refuted",
    "C111_reset",
    "C111_no_reset_refuted",
    "C111_list"
   ],
   "note": "undefined behaviour is a distinct outcome: reading an object that ended; conversions are parameters"
  },
  {
   "property": "C112",
   "status": "proved",
   "theorems": [
    "C112_parts",
    "C112_octets",
    "C112_success",
    "C112_quad",
    "C112_integer",
    "C112_four_parts_refuted",
    "C112_range_refuted",
    "C112_digit_refuted",
    "C112_untouched_refuted"
   ],
   "note": "taking every part modulo 2^32 and ignoring parts beyond the fourth is what the code does; the stricter readings are refuted"
  },
  {
   "property": "C113",
   "status": "proved",
   "theorems": [
    "C113_view",
    "C113_columns",
    "C113_lossless",
    "C113_address_refuted"
   ],
   "note": "standard input and output are lists of characters"
  },
  {
   "property": "C114",
   "status": "proved",
   "theorems": [
    "C114_frequencies",
    "C114_unique",
    "C114_total",
    "C114_file",
    "C114_order"
   ],
   "note": "the printing of the table (printf with a ratio) is not modelled"
  },
  {
   "property": "C115",
   "status": "proved",
   "theorems": [
    "C115_choice",
    "C115_uniform",
    "C115_nearly",
    "C115_exact_refuted",
    "C115_missing_file"
   ],
   "note": "the comparison with 1.0 / line_count_ is exact in the model; the rounding of the quotient is not modelled"
  },
  {
   "property": "C116",
   "status": "proved",
   "theorems": [
    "C116_success",
    "C116_range",
    "C116_four",
    "C116_order",
    "C116_integers",
    "C116_single_refuted",
    "C116_unchanged_refuted",
    "C116_defined_refuted",
    "C116_exponent_refuted"
   ],
   "note": "long long is taken to have 64 bits; what the converter does with an empty token is followed only if the character behind it is NUL"
  },
  {
   "property": "C117",
   "status": "proved",
   "theorems": [
    "C117_output",
    "C117_no_patterns",
    "C117_order",
    "C117_globs",
    "C117_star",
    "C117_usage_refuted",
    "C117_dots_refuted"
   ],
   "note": "argument strings and input are lists of characters; std::sort is modelled by its result"
  },
  {
   "property": "C118",
   "status": "proved",
   "theorems": [
    "C118_output",
    "C118_count",
    "C118_ascending",
    "C118_repeated_refuted",
    "C118_refused"
   ],
   "note": "std::size_t is unsigned long with 64 bits; std::sort is modelled by its result"
  },
  {
   "property": "C119",
   "status": "proved",
   "theorems": [
    "C119_output",
    "C119_median_unique",
    "C119_total",
    "C119_usage",
    "C119_even_median_refuted",
    "C119_empty_cell_refuted",
    "C119_nan_refuted",
    "C119_sum_accuracy",
    "C119_mean_accuracy",
    "C119_mean_error",
    "C119_cancel_refuted"
   ],
   "note": "how operator<< writes a double is a parameter; std::nth_element is modelled by its result"
  },
  {
   "property": "C120",
   "status": "proved",
   "theorems": [
    "C120_elapsed",
    "C120_history",
    "C120_seconds",
    "C120_nearest_refuted",
    "C120_set_back_refuted",
    "C120_overflow_refuted",
    "C120_accuracy"
   ],
   "note": "gettimeofday is a parameter; the Windows branch is not modelled"
  },
  {
   "property": "C121",
   "status": "proved",
   "theorems": [
    "C121_written",
    "C121_injective",
    "C121_total",
    "C121_nested_refuted",
    "C121_pair_of_containers_refuted"
   ],
   "note": "names found by overload resolution with two-phase lookup; classes in namespace strtk as elements are not considered"
  },
  {
   "property": "C122",
   "status": "proved",
   "theorems": [
    "C122_length",
    "C122_long_refuted"
   ],
   "note": ""
  },
  {
   "property": "C123",
   "status": "proved",
   "theorems": [
    "C123_jump",
    "C123_resume",
    "C123_permutation",
    "C123_visits",
    "C123_unsorted_refuted"
   ],
   "note": "std::next_permutation is modelled by the algorithm of libstdc++"
  },
  {
   "property": "C124",
   "status": "proved",
   "theorems": [
    "C124_accuracy",
    "C124_error",
    "C124_short",
    "C124_float",
    "C124_tiny_refuted",
    "C124_long_refuted"
   ],
   "note": "IEEE 754 arithmetic, round to nearest even, by the definitions of the Coq standard library; no extended intermediate precision; the table of powers of ten holds the nearest doubles"
  },
  {
   "property": "C125",
   "status": "proved",
   "theorems": [
    "C125_list",
    "C125_words",
    "C125_token_count_refuted",
    "C125_interesting",
    "C125_no_file",
    "C125_other_alphabets_refuted"
   ],
   "note": "the file system and getline as in C18; the copies of parse_line that for_each_line makes share predicate and container"
  },
  {
   "property": "C126",
   "status": "proved",
   "theorems": [
    "C126_index",
    "C126_permutation",
    "C126_permutation_reached",
    "C126_combination",
    "C126_combination_reached",
    "C126_select_k",
    "C126_select_k_reached",
    "C126_select_1",
    "C126_select_1_reached",
    "C126_one_refuted",
    "C126_randomizer",
    "C126_usage"
   ],
   "note": "the doubles of the generator are an argument; that the generator used keeps to [0,1) is not modelled"
  },
  {
   "property": "C127",
   "status": "proved",
   "theorems": [
    "C127_permutation",
    "C127_combination",
    "C127_select_k",
    "C127_select_1"
   ],
   "note": "draws are exact numbers here, the doubles of C126 approximate them; the n-th comparison and index of select_k_randomly are one draw below n, below k to keep"
  },
  {
   "property": "C128",
   "status": "proved",
   "theorems": [
    "C128_run",
    "C128_alphabet",
    "C128_odd_refuted",
    "C128_letters_refuted",
    "C128_probability"
   ],
   "note": "the sizes line, times and rates are not modelled; the table size found by the floating point search is an argument"
  },
  {
   "property": "C129",
   "status": "proved",
   "theorems": [
    "C129_converters",
    "C129_small_buffer_refuted",
    "C129_strings",
    "C129_trie",
    "C129_trie_program",
    "C129_empty_refuted"
   ],
   "note": "the parts of trie_example02 that time std::map and std::set are not modelled"
  },
  {
   "property": "C130",
   "status": "proved",
   "theorems": [
    "C130_buffer",
    "C130_file",
    "C130_not_saved",
    "C130_nan_refuted",
    "C130_checked"
   ],
   "note": "the arithmetic that makes the records of the successive rounds is replaced by any list; == of double and float is an argument"
  },
  {
   "property": "C131",
   "status": "proved",
   "theorems": [
    "C131_round_trip",
    "C131_full",
    "C131_padding_refuted",
    "C131_sign_refuted",
    "C131_short"
   ],
   "note": "long and unsigned long with the 32-bit range their converters accept; the minimum of int and long long is excluded as in C19"
  },
  {
   "property": "C132",
   "status": "proved",
   "theorems": [
    "C132_cells",
    "C132_totals",
    "C132_bad_volume",
    "C132_empty_cell_refuted"
   ],
   "note": ""
  },
  {
   "property": "C133",
   "status": "proved",
   "theorems": [
    "C133_sums",
    "C133_threes",
    "C133_gaps_refuted",
    "C133_unreadable"
   ],
   "note": "conversion to double and its addition are arguments; get throws for a text that is no number, which the model treats as undefined outcome"
  },
  {
   "property": "C134",
   "status": "proved",
   "theorems": [
    "C134_print",
    "C134_nul"
   ],
   "note": "the text passed to std::cout or printf"
  },
  {
   "property": "C135",
   "status": "proved",
   "theorems": [
    "C135_pairs",
    "C135_order",
    "C135_failure_order_refuted",
    "C135_repeated_key_refuted"
   ],
   "note": ""
  },
  {
   "property": "C136",
   "status": "proved",
   "theorems": [
    "C136_one_record",
    "C136_records",
    "C136_leftover_refuted",
    "C136_missing_key_refuted"
   ],
   "note": "conversion to double is an argument"
  },
  {
   "property": "C137",
   "status": "proved",
   "theorems": [
    "C137_same_type",
    "C137_convert",
    "C137_list",
    "C137_calendar_refuted",
    "C137_format_refuted"
   ],
   "note": ""
  },
  {
   "property": "C138",
   "status": "proved",
   "theorems": [
    "C138_print",
    "C138_round_trip",
    "C138_program",
    "C138_any_text",
    "C138_event"
   ],
   "note": "operator<< of the year is taken to write the digits that type_to_string writes"
  },
  {
   "property": "C139",
   "status": "proved",
   "theorems": [
    "C139_output",
    "C139_selections",
    "C139_empty_refuted",
    "C139_beyond_refuted"
   ],
   "note": ""
  },
  {
   "property": "C140",
   "status": "proved",
   "theorems": [
    "C140_advance",
    "C140_back_refuted",
    "C140_sum",
    "C140_unsorted",
    "C140_default_refuted"
   ],
   "note": "std::sort is taken by its result"
  },
  {
   "property": "C141",
   "status": "proved",
   "theorems": [
    "C141_declaration",
    "C141_written",
    "C141_not_read",
    "C141_total",
    "C141_total_refuted",
    "C141_strict_refuted"
   ],
   "note": ""
  },
  {
   "property": "C142",
   "status": "proved",
   "theorems": [
    "C142_patterns",
    "C142_star_refuted",
    "C142_text_order",
    "C142_ranges",
    "C142_nan_in_range_refuted"
   ],
   "note": "double is IEEE 754 binary64; the memory after a field is an argument of the model"
  },
  {
   "property": "C143",
   "status": "proved",
   "theorems": [
    "C143_trimmed",
    "C143_trimmed_numbers",
    "C143_trimmed_end_refuted",
    "C143_cases"
   ],
   "note": ""
  },
  {
   "property": "C144",
   "status": "proved",
   "theorems": [
    "C144_table",
    "C144_both",
    "C144_resume",
    "C144_program",
    "C144_rows",
    "C144_comment_refuted",
    "C144_single_refuted"
   ],
   "note": ""
  },
  {
   "property": "C145",
   "status": "proved",
   "theorems": [
    "C145_columns",
    "C145_turned",
    "C145_twice",
    "C145_no_rows_refuted"
   ],
   "note": ""
  },
  {
   "property": "C146",
   "status": "proved",
   "theorems": [
    "C146_all",
    "C146_range",
    "C146_same",
    "C146_rows",
    "C146_counted",
    "C146_clean"
   ],
   "note": ""
  },
  {
   "property": "C147",
   "status": "proved",
   "theorems": [
    "C147_averages",
    "C147_no_number",
    "C147_ragged_refuted",
    "C147_row"
   ],
   "note": ""
  },
  {
   "property": "C148",
   "status": "proved",
   "theorems": [
    "C148_shown",
    "C148_faithful",
    "C148_ambiguous_refuted"
   ],
   "note": ""
  },
  {
   "property": "C149",
   "status": "proved",
   "theorems": [
    "C149_counts",
    "C149_lists"
   ],
   "note": ""
  },
  {
   "property": "C150",
   "status": "proved",
   "theorems": [
    "C150_every_prefix",
    "C150_same",
    "C150_delimiter_refuted"
   ],
   "note": ""
  },
  {
   "property": "C151",
   "status": "proved",
   "theorems": [
    "C151_gone",
    "C151_char",
    "C151_decided",
    "C151_new_occurrence_refuted"
   ],
   "note": ""
  },
  {
   "property": "C152",
   "status": "proved",
   "theorems": [
    "C152_lines",
    "C152_empty_refuted"
   ],
   "note": ""
  },
  {
   "property": "C153",
   "status": "proved",
   "theorems": [
    "C153_rotations",
    "C153_output"
   ],
   "note": ""
  },
  {
   "property": "C154",
   "status": "proved",
   "theorems": [
    "C154_output",
    "C154_unique",
    "C154_words",
    "C154_missed_refuted"
   ],
   "note": ""
  },
  {
   "property": "C155",
   "status": "proved",
   "theorems": [
    "C155_output",
    "C155_decomposition"
   ],
   "note": ""
  },
  {
   "property": "C156",
   "status": "proved",
   "theorems": [
    "C156_output",
    "C156_order"
   ],
   "note": ""
  },
  {
   "property": "C157",
   "status": "proved",
   "theorems": [
    "C157_output",
    "C157_refused",
    "C157_undone",
    "C157_undone_refuted",
    "C157_merged_refuted"
   ],
   "note": ""
  },
  {
   "property": "C158",
   "status": "proved",
   "theorems": [
    "C158_output",
    "C158_count",
    "C158_among",
    "C158_overlap_refuted"
   ],
   "note": ""
  },
  {
   "property": "C159",
   "status": "proved",
   "theorems": [
    "C159_output",
    "C159_distinct",
    "C159_empty_refuted"
   ],
   "note": ""
  },
  {
   "property": "C160",
   "status": "proved",
   "theorems": [
    "C160_parse",
    "C160_whole",
    "C160_size_refuted"
   ],
   "note": ""
  },
  {
   "property": "C161",
   "status": "proved",
   "theorems": [
    "C161_columns",
    "C161_ignored",
    "C161_empty_refuted"
   ],
   "note": ""
  },
  {
   "property": "C162",
   "status": "proved",
   "theorems": [
    "C162_keys",
    "C162_last",
    "C162_values",
    "C162_find_refuted"
   ],
   "note": ""
  },
  {
   "property": "C163",
   "status": "proved",
   "theorems": [
    "C163_sinks"
   ],
   "note": ""
  },
  {
   "property": "C164",
   "status": "proved",
   "theorems": [
    "C164_rest",
    "C164_stops",
    "C164_nothing"
   ],
   "note": ""
  },
  {
   "property": "C165",
   "status": "proved",
   "theorems": [
    "C165_positions",
    "C165_values",
    "C165_positions_refuted"
   ],
   "note": ""
  },
  {
   "property": "C166",
   "status": "proved",
   "theorems": [
    "C166_lines",
    "C166_ends",
    "C166_trim",
    "C166_remove_then_squeeze",
    "C166_squeeze_then_remove_refuted",
    "C166_duplicates"
   ],
   "note": ""
  },
  {
   "property": "C167",
   "status": "proved",
   "theorems": [
    "C167_next",
    "C167_unique",
    "C167_iterator",
    "C167_unsorted_refuted",
    "C167_program",
    "C167_block",
    "C167_advance",
    "C167_post_refuted",
    "C167_construct",
    "C167_post_last"
   ],
   "note": ""
  },
  {
   "property": "C168",
   "status": "proved",
   "theorems": [
    "C168_smaller",
    "C168_stays",
    "C168_least_stays",
    "C168_guarded",
    "C168_settles",
    "C168_again_refuted",
    "C168_program",
    "C168_program_refuted"
   ],
   "note": ""
  },
  {
   "property": "C169",
   "status": "proved",
   "theorems": [
    "C169_superscalar",
    "C169_table",
    "C169_numbers",
    "C169_high_refuted"
   ],
   "note": ""
  }
 ]
}
