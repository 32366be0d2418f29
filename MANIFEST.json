{
 "claims": [
  {
   "property": "C01",
   "status": "partial",
   "theorems": [
    "c01_arena_descending_alignment_partial",
    "c01_arena_uniform_alignment_partial",
    "c01_arena_alloc_effect",
    "c01_arena_mixed_alignment_refuted",
    "c01_arena_out_of_bounds_refuted"
   ],
   "note": "Proved for histories using one alignment; refuted for mixed alignments (c01_mixed_alignment_refuted...): the arena reserves align(size) bytes counted from the unaligned end, so blocks overlap / leave the buffer."
  },
  {
   "property": "C02",
   "status": "proved",
   "theorems": [
    "c02_pool_owned_blocks",
    "c02_pool_alloc",
    "c02_pool_free_then_alloc",
    "c02_pool_clear_gives_all"
   ],
   "note": ""
  },
  {
   "property": "C03",
   "status": "proved",
   "theorems": [
    "c03_is_power_of_two",
    "c03_align_forward",
    "c03_align_forward_s64"
   ],
   "note": ""
  },
  {
   "property": "C04",
   "status": "proved",
   "theorems": [
    "c04_mem_set",
    "c04_mem_set_null"
   ],
   "note": ""
  },
  {
   "property": "C05",
   "status": "proved",
   "theorems": [
    "c05_mem_move"
   ],
   "note": ""
  },
  {
   "property": "C06",
   "status": "proved",
   "theorems": [
    "c06_mem_find",
    "c06_c_str_len_capped"
   ],
   "note": ""
  },
  {
   "property": "C07",
   "status": "proved",
   "theorems": [
    "c07_default_resize",
    "c07_resize_frees_old_once"
   ],
   "note": "Allocator is an oracle with the stated contract."
  },
  {
   "property": "C08",
   "status": "partial",
   "theorems": [
    "c08_array_history_partial",
    "c08_array_step_partial",
    "c08_array_init",
    "c08_array_num",
    "c08_array_index",
    "c08_array_back",
    "c08_set_capacity_zero_refuted",
    "c08_resize_size_wraps_refuted"
   ],
   "note": "Proved for all histories without set_capacity(0) and without byte sizes exceeding 64 bits; both exclusions are refuted by witnesses."
  },
  {
   "property": "C09",
   "status": "partial",
   "theorems": [
    "c09_append_items_refuted",
    "c09_append_items_stale"
   ],
   "note": "The code violates the property (append_items never advances Num / writes stale position); the refutation and the actual behaviour are proved."
  },
  {
   "property": "C10",
   "status": "partial",
   "theorems": [
    "c10_append_at_refuted",
    "c10_append_at_duplicates"
   ],
   "note": "The code violates the property; refutation and actual behaviour proved."
  },
  {
   "property": "C11",
   "status": "proved",
   "theorems": [
    "c11_hashtable_is_a_map",
    "c11_hashtable_map_visits_all"
   ],
   "note": ""
  },
  {
   "property": "C12",
   "status": "proved",
   "theorems": [
    "c12_chains_finite",
    "c12_load_bounded"
   ],
   "note": ""
  },
  {
   "property": "C13",
   "status": "proved",
   "theorems": [
    "c13_remove",
    "c13_remove_entry_refuted"
   ],
   "note": "hashtable_remove proved; the separate internal entry point hashtable_remove_entry is refuted."
  },
  {
   "property": "C14",
   "status": "proved",
   "theorems": [
    "c14_crc32",
    "c14_crc64",
    "c14_crc32_injective_short"
   ],
   "note": ""
  },
  {
   "property": "C15",
   "status": "partial",
   "theorems": [
    "c15_text_kept_partial",
    "c15_text_up_to_crc",
    "c15_same_text_same_string",
    "c15_collision_refuted"
   ],
   "note": "Proved for collision-free histories and, in general, up to CRC-32; refuted when two short texts collide (c15_collision_refuted)."
  },
  {
   "property": "C16",
   "status": "proved",
   "theorems": [
    "c16_in_bounds_and_disjoint",
    "c16_accepts_what_fits",
    "c16_unaligned_arena_size_refuted"
   ],
   "note": "Disjointness/bounds for every history; acceptance for arena sizes that are a multiple of 16 (default 1 MB); refuted otherwise (c16_unaligned_arena_size_refuted)."
  },
  {
   "property": "C17",
   "status": "proved",
   "theorems": [
    "c17_append",
    "c17_appends_concat",
    "c17_history",
    "c17_make_length",
    "c17_make_reserve",
    "c17_self_append_refuted",
    "c17_make_length_overflow_refuted"
   ],
   "note": "Appends of text outside the builder; self-append with growth and lengths >= 2^31-33 at creation are refuted separately. strbuilder_append_fmt is not covered here."
  },
  {
   "property": "C18",
   "status": "partial",
   "theorems": [
    "c18_trim",
    "c18_strip_space",
    "c18_clear",
    "c18_trim_ends",
    "c18_trim_middle",
    "c18_skip_line_refuted",
    "c18_clear_not_terminated_refuted"
   ],
   "note": "trim, strip_space, clear proved; skip_line does not drop the first line (refuted); clear leaves no terminator (refuted)."
  },
  {
   "property": "C19",
   "status": "partial",
   "theorems": [
    "c19_str_are_equal",
    "c19_str_contains",
    "c19_str_starts_with",
    "c19_builders",
    "c19_builder_str",
    "c19_embedded_nul_refuted",
    "c19_builder_starts_with_refuted",
    "c19_builder_starts_with_partial"
   ],
   "note": "Equality for all texts; contains/starts_with for NUL-free patterns (embedded NUL refuted); strbuilder_starts_with_string compares one byte less (refuted, actual behaviour proved)."
  },
  {
   "property": "C20",
   "status": "partial",
   "theorems": [
    "c20_i64_to_str",
    "c20_u64_to_str",
    "c20_roundtrip",
    "c20_parse_literal",
    "c20_base_detection",
    "c20_int64_min_refuted",
    "c20_base36_refuted",
    "c20_octal_nine_refuted"
   ],
   "note": "Proved for all values except INT64_MIN (undefined behaviour, refuted) and bases 2-10 and 16; bases 11-15 and 17-64 are printable but not parseable (refuted), and bases < 10 accept digits >= base (refuted)."
  },
  {
   "property": "C21",
   "status": "proved",
   "theorems": [
    "c21_is_alpha",
    "c21_is_digit",
    "c21_is_alphanumeric",
    "c21_is_hex_digit",
    "c21_is_space",
    "c21_case_letters",
    "c21_case_others",
    "c21_digit_values",
    "c21_not_hex",
    "c21_digit_to_int_upper_refuted"
   ],
   "note": "All byte values; digit_to_int is only right for decimal digits and lower-case hex letters (upper case refuted)."
  },
  {
   "property": "C22",
   "status": "partial",
   "theorems": [
    "c22_specifiers",
    "c22_specifiers_all",
    "c22_tokens_partial",
    "c22_extern_refuted",
    "c22_operators",
    "c22_operators_all",
    "c22_classified_same_hash_partial",
    "c22_unclassified",
    "c22_specifier_same_hash_partial",
    "c22_short_texts",
    "c22_other_text_refuted"
   ],
   "note": "All spellings and round trips proved against an independent table; 'extern' and hash collisions refuted."
  },
  {
   "property": "C23",
   "status": "partial",
   "theorems": [
    "c23_access_partial",
    "c23_protected_refuted",
    "c23_access_out_of_range",
    "c23_module_flags",
    "c23_module_flag_invalid_refuted",
    "c23_codetype_names_distinct",
    "c23_class_fwd_keyword_refuted"
   ],
   "note": "All access specifiers but protected (refuted: reads past the literal); module flags; invalid flag has a stray NUL."
  },
  {
   "property": "C24",
   "status": "proved",
   "theorems": [
    "c24_make_code_fresh_zeroed",
    "c24_codes_distinct"
   ],
   "note": "For every history of make_code, client writes and resets."
  },
  {
   "property": "C25",
   "status": "partial",
   "theorems": [
    "c25_append_keeps_order_and_count",
    "c25_append_step",
    "c25_range_for_empty_body_refuted"
   ],
   "note": "Order, count, Front/Back, indexed access and the counting loop proved for every sequence; iterating an empty body with begin/end/next is refuted (null Back)."
  },
  {
   "property": "C26",
   "status": "partial",
   "theorems": [
    "c26_append_in_use_copies_partial",
    "c26_append_same_list_refuted"
   ],
   "note": "Proved for two different lists; refuted for re-appending an entry of the same list (iteration is cut short)."
  },
  {
   "property": "C27",
   "status": "partial",
   "theorems": [
    "c27_body_append_body_partial",
    "c27_append_empty_body_refuted"
   ],
   "note": "Entries are appended as copies in order; refuted for an empty body (null Back). Entries that are themselves bodies (which are flattened) are not covered."
  },
  {
   "property": "C28",
   "status": "partial",
   "theorems": [
    "c28_params_order_and_count_partial",
    "c28_params_append_in_use_copies_partial",
    "c28_params_append_list_count_refuted",
    "c28_params_get_refuted"
   ],
   "note": "Order and count proved for single parameters; count of appended lists and params_get refuted."
  },
  {
   "property": "C29",
   "status": "partial",
   "theorems": [
    "c29_append",
    "c29_append_full",
    "c29_has",
    "c29_index_of",
    "c29_remove_partial",
    "c29_remove_absent",
    "c29_remove_from_full_refuted",
    "c29_remove_duplicate_refuted"
   ],
   "note": "append/has/index_of proved; remove proved when the specifier occurs once and the list is not full; refuted for a full list and for duplicates."
  },
  {
   "property": "C30",
   "status": "partial",
   "theorems": [
    "c30_answer_is_stable",
    "c30_null_and_kinds",
    "c30_equal_declarations_agree_partial",
    "c30_equal_bodies_agree",
    "c30_specifiers",
    "c30_copies_are_equal_partial",
    "c30_reflexivity_refuted",
    "c30_contents_ignored_refuted",
    "c30_symmetry_refuted"
   ],
   "note": "Proved: answers are fuel-stable, kinds/null separate, what a true answer guarantees (names, flags, parts, bodies pairwise, specifiers exactly), copies of trees without multi-parameter lists compare equal. Refuted in the code: every multi-parameter list differs from itself (inverted name test), not symmetric (only members set on the left are compared), contents of untyped/execution/preprocessor/function-body nodes are ignored."
  },
  {
   "property": "C31",
   "status": "partial",
   "theorems": [
    "c31_never_true_refuted",
    "c31_allowed_first_entry_diverges_refuted",
    "c31_empty_body_refuted",
    "c31_forbidden_first_entry_rejected_partial",
    "c31_not_a_body_rejected_partial"
   ],
   "note": "The property fails: the loop never advances. Proved: never answers true; diverges for every fuel when the first entry is allowed; undefined on an empty body; rejects bodies with a forbidden first entry and non-bodies."
  },
  {
   "property": "C32",
   "status": "partial",
   "theorems": [
    "c32_attributes",
    "c32_execution",
    "c32_module",
    "c32_pragma",
    "c32_using_namespace",
    "c32_preprocess_cond",
    "c32_include",
    "c32_constructor",
    "c32_destructor",
    "c32_function",
    "c32_extern_link",
    "c32_friend",
    "c32_namespace",
    "c32_param",
    "c32_variable",
    "c32_type",
    "c32_union",
    "c32_body",
    "c32_define",
    "c32_specifiers",
    "c32_specifier",
    "c32_struct",
    "c32_class",
    "c32_struct_interfaces_partial",
    "c32_class_interfaces_partial",
    "c32_struct_interfaces_without_parent_refuted",
    "c32_class_interfaces_without_parent_refuted",
    "c32_enum_partial",
    "c32_plain_enum_refuted",
    "c32_typedef_partial",
    "c32_template_any_declaration_refuted",
    "c32_operator_cast",
    "c32_using_refuted"
   ],
   "note": "One theorem per constructor: which arguments are accepted, the kind and every stored field of the result, and that nothing else changes; otherwise the invalid code and nothing changes. Refuted: using is inverted, plain enums are rejected, typedef drops attributes, template accepts any declaration, interfaces without a parent are undefined."
  },
  {
   "property": "C33",
   "status": "partial",
   "theorems": [
    "c33_classified_partial",
    "c33_logical_not",
    "c33_compound_assignment",
    "c33_invalid_operator",
    "c33_increment_member_refuted",
    "c33_increment_postfix_refuted",
    "c33_unary_plus_minus_refuted",
    "c33_dereference_global_refuted",
    "c33_subscript_call_refuted",
    "c33_null_return_type_refuted"
   ],
   "note": "Classification and acceptance proved for all operators outside the listed exceptions; refuted: ++/-- misclassified or undefined, unary +/- inverted, dereference/subscript/call misclassified, null return type undefined."
  },
  {
   "property": "C34",
   "status": "partial",
   "theorems": [
    "c34_entries_partial",
    "c34_rejects",
    "c34_no_entries",
    "c34_class_body_arr_refuted",
    "c34_namespace_body_arr_refuted",
    "c34_params_partial",
    "c34_params_rejects",
    "c34_params_null_refuted",
    "c34_params_arr_refuted"
   ],
   "note": "Entries kept in order, nested bodies spliced, kinds checked, empty rejected. Refuted: class_body_arr and namespace_body_arr make the wrong kind, def_params null parameter undefined, def_params_arr reads past the array. Codes placed before a rejected one stay adopted."
  },
  {
   "property": "C35",
   "status": "partial",
   "theorems": [
    "c35_every_line_commented_partial",
    "c35_never_escapes",
    "c35_slice_leaks_refuted",
    "c35_comment_determines_text",
    "c35_long_line_refuted",
    "c35_empty",
    "c35_embedded_nul_refuted"
   ],
   "note": "Proved for NUL-free content followed by NUL or newline with lines under 128 KB; in general nothing escapes but up to two bytes behind a slice leak (refuted), over-long lines and text behind an embedded NUL are lost (refuted)."
  },
  {
   "property": "C36",
   "status": "partial",
   "theorems": [
    "c36_token_fmt_partial",
    "c36_token_fmt_up_to_crc",
    "c36_result_exists",
    "c36_result_unique",
    "c36_unterminated_refuted",
    "c36_full_buffer_hangs_refuted",
    "c36_value_overflow_refuted",
    "c36_collision_refuted"
   ],
   "note": "Holds when the result fits, names do not collide under crc32 and every '<' is closed; each exception is refuted by a theorem."
  },
  {
   "property": "C37",
   "status": "partial",
   "theorems": [
    "c37_format_partial",
    "c37_numeral_unique",
    "c37_literal_overflow_refuted",
    "c37_zero_size_hangs_refuted",
    "c37_argument_dropped_refuted",
    "c37_null_str_refuted",
    "c37_slice_then_B_refuted",
    "c37_zero_flag_refuted",
    "c37_hex_clobbers_refuted"
   ],
   "note": "Full for formats without width/flags/hex/float; overflow and hang cases refuted."
  },
  {
   "property": "C38",
   "status": "partial",
   "theorems": [
    "c38_lex_partial",
    "c38_reads_past_end_refuted",
    "c38_text_dropped_refuted",
    "c38_no_result_refuted"
   ],
   "note": "Termination, memory safety, slices, order and coverage proved for every text except those described by runs_off, on which lex is shown to read past the end; bytes outside tokens are characterised exactly by accounted (white space, closing quotes, and text the lexer drops). Refuted parts: overrun, dropped text, overlapping tokens of unsupported directives."
  },
  {
   "property": "C39",
   "status": "partial",
   "theorems": [
    "c39_positions_partial",
    "c39_exact_partial",
    "c39_column_refuted"
   ],
   "note": "Positions proved exact for directive tokens, at the start and where no white space/# precedes; elsewhere the recorded position is that of the preceding white space (refutation: in 'a b' token b is in column 2)."
  },
  {
   "property": "C40",
   "status": "partial",
   "theorems": [
    "c40_words_partial",
    "c40_macro_table_partial",
    "c40_suffix_refuted",
    "c40_hash_collision_refuted"
   ],
   "note": "Every identifier run outside directives is proved maximal and of the right kind under the macro table in force, and the macro table evolution proved; excluded: runs cut after a number (10u) and identifiers whose crc32 equals a keyword's (gwzsll = virtual), both refuted."
  },
  {
   "property": "C41",
   "status": "partial",
   "theorems": [
    "c41_text_partial",
    "c41_same_content_partial",
    "c41_one_text",
    "c41_body",
    "c41_later_code",
    "c41_format",
    "c41_export_block_refuted",
    "c41_long_body_refuted",
    "c41_class_parent_refuted",
    "c41_enum_class_refuted",
    "c41_export_function_refuted",
    "c41_pure_refuted",
    "c41_operator_attributes_refuted",
    "c41_if_refuted",
    "c41_friend_refuted",
    "c41_anonymous_refuted",
    "c41_lone_constructor_refuted",
    "c41_protected_parent_refuted"
   ],
   "note": "all content shapes of SerSpec.tree, texts below 128 KB; bodies without that bound; the deviating cases are refuted with witnesses"
  },
  {
   "property": "C42",
   "status": "partial",
   "theorems": [
    "c42_last_registration_partial",
    "c42_last_registration_up_to_crc",
    "c42_collision_refuted"
   ],
   "note": "Proved for collision-free names and, in general, up to CRC-32; refuted for colliding names (c42_collision_refuted)."
  },
  {
   "property": "C43",
   "status": "partial",
   "theorems": [
    "c43_parse_partial",
    "c43_header_partial",
    "c43_header_only",
    "c43_short_line_rejected",
    "c43_unterminated_rejected",
    "c43_blank_rejected",
    "c43_never_a_number",
    "c43_write",
    "c43_write_header",
    "c43_roundtrip_partial",
    "c43_roundtrip_header_partial",
    "c43_empty_last_cell_refuted",
    "c43_trailing_cell_lost_refuted",
    "c43_long_line_accepted_refuted",
    "c43_blank_line_lost_refuted",
    "c43_empty_quoted_refuted",
    "c43_tab_delimiter_refuted",
    "c43_text_after_quote_refuted",
    "c43_trailing_blanks_refuted"
   ],
   "note": "Proved for every well-formed table (bare, quoted, empty cells; blanks; header; round trip through csv_write); short rows, unterminated quotes and blank text rejected. False outside: empty last cell, empty quoted cells, longer later rows accepted, blank delimiters (refuted with witnesses)."
  },
  {
   "property": "C44",
   "status": "partial",
   "theorems": [
    "c44_block_dropped_partial",
    "c44_no_block_unchanged",
    "c44_unclosed_block_unchanged",
    "c44_last_directive_without_newline_refuted",
    "c44_endif_without_newline_refuted",
    "c44_nested_conditional_refuted",
    "c44_blank_line_swallowed_refuted",
    "c44_prefix_counts_refuted",
    "c44_null_directive_hides_block_refuted"
   ],
   "note": "The result is exactly the text behind the first block's #endif line for files made of text and complete directive lines; refuted: nested conditional ends the block early, a blank line behind it is swallowed, macro name prefixes count, a null directive hides the block, and a last directive line without newline (or the block's #endif at end of file) reads past the buffer"
  },
  {
   "property": "C45",
   "status": "partial",
   "theorems": [
    "c45_fresh_after_reset_partial",
    "c45_nodes_overwritten_refuted",
    "c45_constant_reused_refuted",
    "c45_macros_lost_refuted",
    "c45_constant_name_overwritten_refuted"
   ],
   "note": "The claim is false of the code: refuted by four theorems (nodes overwritten by free-list links, first constant's node handed out again, names overwritten, macros lost). What holds: nodes made after a reset are fresh among themselves."
  },
  {
   "property": "C46",
   "status": "partial",
   "theorems": [
    "c46_len",
    "c46_len_null",
    "c46_compare",
    "c46_compare_len_partial",
    "c46_compare_len_order_refuted",
    "c46_copy",
    "c46_reverse",
    "c46_skip",
    "c46_skip_any",
    "c46_trim",
    "c46_first_occurrence",
    "c46_case"
   ],
   "note": "All helpers proved except the sign of c_str_compare_len, which orders addresses, not text (refuted)."
  },
  {
   "property": "C47",
   "status": "partial",
   "theorems": [
    "c47_eat_expected",
    "c47_eat_macro_as_identifier",
    "c47_eat_at_end_partial",
    "c47_eat_other_partial",
    "c47_current",
    "c47_current_past_end_refuted",
    "c47_peek_next",
    "c47_neighbours",
    "c47_previous_skips",
    "c47_previous_is_current_refuted",
    "c47_session",
    "c47_eat_moves_refuted"
   ],
   "note": "Consuming, current/kind test, look-ahead and whole histories proved for every stream. Refuted parts: at a trailing newline/comment the current token is read past the array; a mismatch at a newline/comment consumes it; failing paths need the report to be composable (C50)."
  },
  {
   "property": "C48",
   "status": "partial",
   "theorems": [
    "c48_lexical_grammar",
    "c48_text_partial",
    "c48_round_trip_partial",
    "c48_names",
    "c48_ref_ref_refuted",
    "c48_raw_text_refuted"
   ],
   "note": "Proved for every content tree outside preprocessor lines (c48_text_partial, c48_round_trip_partial with C41; c48_lexical_grammar is the lexer's side, complete). Line-end tokens are not counted. Refuted: adjacent & specifiers merge into &&; unterminated body texts run together."
  },
  {
   "property": "C49",
   "status": "partial",
   "theorems": [
    "c49_add_interface_partial",
    "c49_add_interface_without_base_refuted"
   ],
   "note": "Proved when there is a base type; without one it dereferences null (refuted)."
  },
  {
   "property": "C50",
   "status": "partial",
   "theorems": [
    "c50_report_partial",
    "c50_report_overrun_refuted"
   ],
   "note": "Proved to stay inside the source when twice the distance from scope start fits; refuted otherwise: any failure in the second half of its scope's text reads past the end."
  },
  {
   "property": "C51",
   "status": "partial",
   "theorems": [
    "c51_words_kept",
    "c51_literals_kept_partial",
    "c51_literal_changed_refuted",
    "c51_open_comment_refuted"
   ],
   "note": "Termination, memory safety, words and visible characters proved for every text with closed comments; literals and comments verbatim proved for every sequence of pieces except literals that end in an escaped backslash (refuted); unclosed comment refuted."
  },
  {
   "property": "C52",
   "status": "partial",
   "theorems": [
    "c52_using_partial",
    "c52_rewrite_partial",
    "c52_content_lost_refuted",
    "c52_stale_comment_refuted",
    "c52_three_brackets_refuted"
   ],
   "note": "Token-level grammar to node content, for all texts and states; type names up to white space; one-word attributes; function types, decltype and several declarators not covered; failing cases refuted by concrete runs."
  },
  {
   "property": "C53",
   "status": "partial",
   "theorems": [
    "c53_typedef_partial",
    "c53_many_pointers_refuted"
   ],
   "note": "Token-level grammar to node content, for all texts and states; type names up to white space; one-word attributes; function types, decltype and several declarators not covered; failing cases refuted by concrete runs."
  },
  {
   "property": "C54",
   "status": "partial",
   "theorems": [
    "c54_variable_partial",
    "c54_rewrite_partial",
    "c54_declarators_refuted",
    "c54_specifier_refused"
   ],
   "note": "Token-level grammar to node content, for all texts and states; type names up to white space; one-word attributes; function types, decltype and several declarators not covered; failing cases refuted by concrete runs."
  },
  {
   "property": "C55",
   "status": "partial",
   "theorems": [
    "c55_enum_partial",
    "c55_rewrite_partial",
    "c55_content_lost_refuted",
    "c55_enum_class_refuted"
   ],
   "note": "Token-level grammar to node content, for all texts and states; type names up to white space; one-word attributes; function types, decltype and several declarators not covered; failing cases refuted by concrete runs."
  },
  {
   "property": "C56",
   "status": "partial",
   "theorems": [
    "c56_only_api_refuted",
    "c56_declaration_lost_refuted"
   ],
   "note": "Refuted: proved for all texts that only GEN_API and macros are recognized; concrete declarations that are lost."
  },
  {
   "property": "C57",
   "status": "partial",
   "theorems": [
    "c57_round_trip_partial",
    "c57_text_again_partial",
    "c57_unambiguous_partial",
    "c57_attribute_refuted",
    "c57_text_lost_refuted"
   ],
   "note": "Proved for using, using namespace, typedef, variable and enum declarations (enum entries without comments between them), without attributes and parameter packs; attribute positions, exported enums, a trailing string in a parenthesised value, a comment behind the last entry and the register specifier are refuted. The lexer must not read past the end (C38)."
  },
  {
   "property": "C58",
   "status": "partial",
   "theorems": [
    "c58_untyped_str",
    "c58_untyped_str_empty",
    "c58_code_fmt_partial",
    "c58_nested_fmt_refuted",
    "c58_untyped_fmt_refuted",
    "c58_untyped_token_fmt_refuted"
   ],
   "note": "untyped_str proved for all texts; code_fmt proved when values lie outside the shared buffer (nested token_fmt refuted); untyped_fmt and untyped_token_fmt proved to always return the invalid code (refuted)."
  },
  {
   "property": "C59",
   "status": "partial",
   "theorems": [
    "c59_file_partial",
    "c59_prefix_partial",
    "c59_short_write_refuted",
    "c59_pad_lines_refuted",
    "c59_open_failed_refuted",
    "c59_long_fmt_refuted"
   ],
   "note": "Every history proved to give the concatenation, and a prefix of it after an incomplete write; refuted: short writes count as success, pad_lines ignores its number, use after a failed open, formatted texts of 131070 bytes."
  },
  {
   "property": "C60",
   "status": "partial",
   "theorems": [
    "c60_new_partial",
    "c60_clone_partial",
    "c60_in_place_partial",
    "c60_second_append_refuted",
    "c60_position_refuted",
    "c60_write_behind_end_refuted",
    "c60_cut_off_refuted"
   ],
   "note": "Every history with at most one growing write proved; refuted for all data: a second append loses the first; uninitialised position; writes behind the end; cut-off writes report success."
  },
  {
   "property": "C61",
   "status": "partial",
   "theorems": [
    "c61_blocks",
    "c61_contents_kept",
    "c61_never_fails",
    "c61_end_of_bucket_refuted",
    "c61_large_refuted",
    "c61_shrink_refuted"
   ],
   "note": "All histories proved (aligned, disjoint, contained, zeroed, no failure for requests up to the bucket size when it is a multiple of 16); refuted: other bucket sizes, larger requests, shrinking resize."
  },
  {
   "property": "C62",
   "status": "partial",
   "theorems": [
    "c62_function_partial",
    "c62_rewrite_partial",
    "c62_const_refuted",
    "c62_content_lost_refuted"
   ],
   "note": "types and default values are kept up to their white space; no macros and no ... among the parameters; const return types, white space in names, = delete, comparisons and -> in default values are refuted separately"
  },
  {
   "property": "C63",
   "status": "partial",
   "theorems": [
    "c63_global_body_partial",
    "c63_namespace_partial",
    "c63_rewrite_partial",
    "c63_export_refuted",
    "c63_content_changed_refuted",
    "c63_rejected_refuted"
   ],
   "note": "Proved for bodies of blank lines, comments, directives, using, typedef, enum, variables, functions, classes, structs, nested namespaces and extern blocks; content up to white space inside type names and values. Unions, templates, friends, modules, static_assert and macros as members, and operators and constructors outside their class, are not covered. Refuted: export (never returns), variables in front of constructors, unnamed namespaces, rejected declarations."
  },
  {
   "property": "C64",
   "status": "partial",
   "theorems": [
    "c64_class_partial",
    "c64_rewrite_partial",
    "c64_special_members_refuted",
    "c64_bases_refuted",
    "c64_unwritten_refuted"
   ],
   "note": "White space inside type names and default values is not kept; constructors, destructors, operators, friends, templates, unions, macros as members and interfaces behind the first base are not covered by the positive theorem (the model parses constructors, destructors and interfaces: see the refuted theorems). Refuted: names of destructors, = default, explicit, virtual/protected bases, written classes with a base."
  },
  {
   "property": "C65",
   "status": "partial",
   "theorems": [
    "c65_file_partial",
    "c65_file_text_partial",
    "c65_file_again_partial",
    "c65_unambiguous_partial",
    "c65_text_grows_refuted",
    "c65_lost_refuted",
    "c65_function_as_variable_refuted"
   ],
   "note": "Whole files of using, typedef, variable, function declarations and definitions, enums, forward declarations, comments and empty lines survive writing and parsing, text and content, any number and order. Missing: namespaces, class bodies, directives, exported members, empty function bodies; refuted cases proved separately."
  },
  {
   "property": "C66",
   "status": "partial",
   "theorems": [
    "c66_file_partial",
    "c66_text_partial",
    "c66_read_again_partial",
    "c66_cycles_partial",
    "c66_content_kept_partial",
    "c66_growth_partial",
    "c66_lines_lost_refuted"
   ],
   "note": "missing: exported blocks, attributes, final, bases, interfaces, comments behind the head, constructors and directives as members; empty lines at the start of a block are lost (refuted)"
  },
  {
   "property": "C67",
   "status": "partial",
   "theorems": [
    "c67_type_partial",
    "c67_specifier_refused",
    "c67_definition_partial",
    "c67_declaration_partial",
    "c67_rewrite_partial",
    "c67_rewrite_type_partial",
    "c67_reads_past_end_refuted",
    "c67_content_lost_refuted"
   ],
   "note": "proved for friend types, declarations (followed by text longer than up to there) and definitions; a declaration that ends its text is read past the end (proved general refutation); operators not modelled"
  },
  {
   "property": "C68",
   "status": "partial",
   "theorems": [
    "c68_union_partial",
    "c68_rewrite_partial",
    "c68_never_returns_refuted",
    "c68_label_refuted",
    "c68_other_members_refuted",
    "c68_reads_past_end_refuted"
   ],
   "note": "white space inside type names and default values is not kept; not members in the proof: classes and structs (which the function reads), macros; refuted: with an access label inside the function never returns (for every bound on the steps and every library state), functions and stray semicolons become failed members, forward declarations, variables of the union, unclosed unions and comments between brace and semicolon are read past the tokens"
  }
 ]
}