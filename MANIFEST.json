{
 "claims": [
  {
   "property": "C01",
   "status": "proved",
   "theorems": [
    "align_least_multiple",
    "align_panic_iff",
    "align_release_panic_iff",
    "align_release_edge",
    "storage_align_least_multiple",
    "file_blocks_least"
   ],
   "note": ""
  },
  {
   "property": "C02",
   "status": "proved",
   "theorems": [
    "required_bits_least",
    "log2_exact"
   ],
   "note": ""
  },
  {
   "property": "C03",
   "status": "proved",
   "theorems": [
    "page_initialize_iff",
    "page_is_list_of_rows",
    "page_step",
    "page_reports_rows"
   ],
   "note": ""
  },
  {
   "property": "C04",
   "status": "proved",
   "theorems": [
    "page_capacity_exact",
    "page_accepts_iff",
    "page_rejects"
   ],
   "note": ""
  },
  {
   "property": "C05",
   "status": "proved",
   "theorems": [
    "empty_row_on_full_page",
    "empty_row_corrupts_last_row",
    "capacity_check_is_safe_refuted"
   ],
   "note": "The unrestricted reading of the capacity check is refuted with a witness; the exact condition is in C03/C04 (row_ok)."
  },
  {
   "property": "C06",
   "status": "proved",
   "theorems": [
    "page_capacity_history_independent",
    "page_insert_then_remove"
   ],
   "note": ""
  },
  {
   "property": "C07",
   "status": "proved",
   "theorems": [
    "path_order_equal_iff",
    "path_order_reversal",
    "path_order_transitive",
    "path_order_lexicographic",
    "path_order_subtree_contiguous"
   ],
   "note": ""
  },
  {
   "property": "C08",
   "status": "proved",
   "theorems": [
    "prefix_test_exact",
    "proper_prefix_test_always_false",
    "proper_prefix_test_exact_refuted"
   ],
   "note": ""
  },
  {
   "property": "C09",
   "status": "proved",
   "theorems": [
    "extract_exact",
    "resolve_spells_name",
    "resolve_first_error",
    "resolve_then_extract",
    "every_path_has_a_name",
    "every_path_has_a_name_refuted"
   ],
   "note": "The converse needs distinct sibling labels, as stated; the unrestricted converse is refuted."
  },
  {
   "property": "C10",
   "status": "proved",
   "theorems": [
    "layout_no_overlap",
    "layout_no_overlap_everywhere",
    "layout_covers_elements",
    "layout_covers_variable_parts",
    "layout_index_sorted",
    "layout_exists_iff"
   ],
   "note": ""
  },
  {
   "property": "C11",
   "status": "proved",
   "theorems": [
    "marshal_round_trip",
    "marshal_round_trip_total",
    "every_value_has_a_source"
   ],
   "note": "Types of up to 2^59 nodes (small); marshallable is the exact storability condition on tag fields, implied by usable case counts (marshal_round_trip_total)."
  },
  {
   "property": "C12",
   "status": "proved",
   "theorems": [
    "encoded_size_exact",
    "marshal_round_trip_total"
   ],
   "note": ""
  },
  {
   "property": "C13",
   "status": "proved",
   "theorems": [
    "short_fixed_part_panics",
    "short_string_is_overrun",
    "undersized_detected_refuted"
   ],
   "note": "Writing past the end is the outcome Undef of the model."
  },
  {
   "property": "C14",
   "status": "proved",
   "theorems": [
    "enum_tag_round_trip",
    "full_width_tag_debug_panics",
    "full_width_tag_release_lost",
    "unstorable_tag_debug_panics"
   ],
   "note": ""
  },
  {
   "property": "C15",
   "status": "proved",
   "theorems": [
    "encoded_record_is_faithful_source",
    "encoded_record_same_json"
   ],
   "note": ""
  },
  {
   "property": "C16",
   "status": "proved",
   "theorems": [
    "fixed_fields_aligned",
    "first_payload_is_aligned",
    "payload_alignment_refuted"
   ],
   "note": ""
  },
  {
   "property": "C17",
   "status": "proved",
   "theorems": [
    "json_round_trip"
   ],
   "note": "jsonable: fewer than 64 fields per struct, distinct labels, representable characters (C18), floats whose text is a number read back as itself (hypothesis on the float oracle)."
  },
  {
   "property": "C18",
   "status": "proved",
   "theorems": [
    "string_survives_iff",
    "long_characters_not_utf8",
    "string_is_reread",
    "bad_controls_differ"
   ],
   "note": ""
  },
  {
   "property": "C19",
   "status": "proved",
   "theorems": [
    "integer_round_trip",
    "integer_accepted_iff"
   ],
   "note": ""
  },
  {
   "property": "C20",
   "status": "proved",
   "theorems": [
    "tokenizer_step_consumes",
    "tokenizer_terminates",
    "tokenizer_run_bounded",
    "tokenizer_panics_iff",
    "tokenizer_never_undefined",
    "tokenizer_skips_white",
    "tokenizer_rejects_other"
   ],
   "note": ""
  },
  {
   "property": "C21",
   "status": "proved",
   "theorems": [
    "number_token_shape",
    "number_token_error",
    "token_first_character"
   ],
   "note": ""
  },
  {
   "property": "C22",
   "status": "proved",
   "theorems": [
    "decode_well_typed",
    "decoded_value_encodes",
    "decode_answers",
    "decode_well_typed_refuted"
   ],
   "note": "The input is a sequence of Unicode scalar values; the float oracle returns bit patterns of the right width."
  },
  {
   "property": "C23",
   "status": "proved",
   "theorems": [
    "members_in_any_order",
    "wrong_members_rejected"
   ],
   "note": ""
  },
  {
   "property": "C24",
   "status": "proved",
   "theorems": [
    "trailing_text"
   ],
   "note": ""
  },
  {
   "property": "C25",
   "status": "proved",
   "theorems": [
    "wide_struct_never_decoded",
    "wide_struct_panics",
    "release_64_only_empty",
    "wide_struct_is_encoded",
    "decoded_value_encodes",
    "marshal_round_trip_total"
   ],
   "note": ""
  },
  {
   "property": "C26",
   "status": "proved",
   "theorems": [
    "names_equivalence",
    "names_order",
    "names_as_keys"
   ],
   "note": "The upper-casing table is an arbitrary function."
  },
  {
   "property": "C27",
   "status": "proved",
   "theorems": [
    "unify_laws",
    "unify_meaning",
    "nullability"
   ],
   "note": ""
  },
  {
   "property": "C28",
   "status": "proved",
   "theorems": [
    "evaluation_type",
    "evaluation_not_null",
    "evaluation_not_null_rows_refuted",
    "evaluation_is_null_refuted",
    "evaluation_case_refuted",
    "evaluation_in_refuted"
   ],
   "note": "The reference evaluator is a specification written for this model; the operations of the data types are arbitrary."
  },
  {
   "property": "C29",
   "status": "proved",
   "theorems": [
    "insert_accepted",
    "assignable_meaning"
   ],
   "note": ""
  },
  {
   "property": "C30",
   "status": "proved",
   "theorems": [
    "update_accepted",
    "delete_accepted"
   ],
   "note": ""
  },
  {
   "property": "C31",
   "status": "proved",
   "theorems": [
    "validation_returns",
    "validation_panics",
    "case_guard_panics",
    "case_guard_hides"
   ],
   "note": ""
  },
  {
   "property": "C32",
   "status": "proved",
   "theorems": [
    "select_list_columns",
    "select_list_accepted",
    "select_all_columns",
    "labels_kept",
    "labels_shape",
    "labels_distinct_refuted"
   ],
   "note": ""
  },
  {
   "property": "C33",
   "status": "proved",
   "theorems": [
    "set_operation_columns",
    "values_columns",
    "values_excess_ignored"
   ],
   "note": ""
  },
  {
   "property": "C34",
   "status": "proved",
   "theorems": [
    "in_typing",
    "is_null_typing",
    "where_is_null"
   ],
   "note": ""
  },
  {
   "property": "C35",
   "status": "proved",
   "theorems": [
    "with_invisible_in_from",
    "with_never_matters"
   ],
   "note": ""
  },
  {
   "property": "C36",
   "status": "proved",
   "theorems": [
    "schema_history",
    "schema_creation_step"
   ],
   "note": ""
  },
  {
   "property": "C47",
   "status": "proved",
   "theorems": [
    "scope_accepted",
    "unqualified_column",
    "qualified_column"
   ],
   "note": ""
  },
  {
   "property": "C48",
   "status": "proved",
   "theorems": [
    "query_accepted"
   ],
   "note": ""
  },
  {
   "property": "C49",
   "status": "proved",
   "theorems": [
    "with_context",
    "with_context_iff",
    "with_message_exact"
   ],
   "note": "initialize is not called by the rest of the code."
  },
  {
   "property": "C50",
   "status": "proved",
   "theorems": [
    "with_column_list"
   ],
   "note": ""
  },
  {
   "property": "C37",
   "status": "proved",
   "theorems": [
    "location_round_trip",
    "location_distinct",
    "location_overflow",
    "location_complete"
   ],
   "note": ""
  },
  {
   "property": "C38",
   "status": "proved",
   "theorems": [
    "lists_are_sequences",
    "lists_start_empty",
    "lists_reject_linked",
    "lists_reject_linked_refuted"
   ],
   "note": "A buffer alone on its list is not recognised as linked (refuted theorem)."
  },
  {
   "property": "C39",
   "status": "proved",
   "theorems": [
    "pool_debug_never",
    "pool_release_fresh",
    "pool_bad_arguments",
    "pool_memory_refuted"
   ],
   "note": ""
  },
  {
   "property": "C43",
   "status": "proved",
   "theorems": [
    "volume_regions",
    "volume_bitmap_misplaced",
    "volume_sizes",
    "volume_geometry_exists",
    "volume_fits_refuted",
    "volume_default_block_size"
   ],
   "note": ""
  },
  {
   "property": "C44",
   "status": "proved",
   "theorems": [
    "volume_bitmap_right",
    "volume_bitmap_metadata_free",
    "volume_bitmap_end_free"
   ],
   "note": "The loop is only reached if the header copy is repaired (C51)."
  },
  {
   "property": "C45",
   "status": "proved",
   "theorems": [
    "volume_ids",
    "volume_ids_exhausted"
   ],
   "note": ""
  },
  {
   "property": "C51",
   "status": "proved",
   "theorems": [
    "create_never_succeeds",
    "init_file_header_never",
    "create_keeps_numbering",
    "create_registration"
   ],
   "note": ""
  },
  {
   "property": "C40",
   "status": "proved",
   "theorems": [
    "pool_handle_count",
    "pool_lock_separation",
    "pool_exclusion",
    "pool_page_isolation",
    "pool_location_buffer",
    "pool_release_succeeds"
   ],
   "note": ""
  },
  {
   "property": "C41",
   "status": "proved",
   "theorems": [
    "pool_old_content_lost",
    "pool_next_access",
    "pool_old_content_refuted",
    "pool_alias_refuted",
    "pool_mapped_forever",
    "pool_crowded"
   ],
   "note": "The refuted theorems are the witnesses for the second half."
  },
  {
   "property": "C42",
   "status": "proved",
   "theorems": [
    "pool_lock_race",
    "pool_lock_panic"
   ],
   "note": ""
  },
  {
   "property": "C52",
   "status": "proved",
   "theorems": [
    "pool_never_waits",
    "pool_exhausted",
    "pool_panics",
    "pool_progress"
   ],
   "note": ""
  },
  {
   "property": "C46",
   "status": "proved",
   "theorems": [
    "type_trees_unambiguous",
    "type_values_unambiguous",
    "type_show_parse",
    "type_spelled_parse",
    "type_body_comma",
    "type_tuple_comma"
   ],
   "note": ""
  },
  {
   "property": "C59",
   "status": "proved",
   "theorems": [
    "type_parser_total",
    "type_parser_grammar",
    "type_lexer_words",
    "type_parser_errors"
   ],
   "note": ""
  },
  {
   "property": "C60",
   "status": "proved",
   "theorems": [
    "type_parser_image"
   ],
   "note": ""
  },
  {
   "property": "C61",
   "status": "proved",
   "theorems": [
    "parsed_path_has_a_name",
    "repeated_label_has_no_name",
    "parsed_type_json",
    "parsed_type_json_refuted"
   ],
   "note": "The refuted theorem is the repeated label."
  },
  {
   "property": "C53",
   "status": "proved",
   "theorems": [
    "sql_parser_total",
    "sql_parser_grammar",
    "sql_grammar_unambiguous",
    "sql_parser_steps"
   ],
   "note": ""
  },
  {
   "property": "C54",
   "status": "proved",
   "theorems": [
    "sql_lexer_words",
    "sql_lexer_place",
    "sql_lexer_unique"
   ],
   "note": ""
  },
  {
   "property": "C55",
   "status": "proved",
   "theorems": [
    "parsed_validation_returns",
    "parsed_validation_refuted"
   ],
   "note": "The refuted theorem shows that the conditions are needed."
  },
  {
   "property": "C56",
   "status": "proved",
   "theorems": [
    "sql_parser_image",
    "sql_show_parse"
   ],
   "note": ""
  },
  {
   "property": "C57",
   "status": "proved",
   "theorems": [
    "sql_keyword_letters",
    "sql_with_dropped",
    "sql_plan_dropped",
    "sql_limit_comma"
   ],
   "note": ""
  },
  {
   "property": "C58",
   "status": "proved",
   "theorems": [
    "sql_parser_errors"
   ],
   "note": ""
  },
  {
   "property": "C62",
   "status": "proved",
   "theorems": [
    "sql_report_answer",
    "sql_expected_list",
    "sql_expected_exact",
    "sql_expected_sound_refuted",
    "sql_expected_complete_refuted"
   ],
   "note": ""
  },
  {
   "property": "C63",
   "status": "proved",
   "theorems": [
    "validation_sound",
    "validation_exact",
    "expression_typing",
    "query_typing",
    "typing_unique",
    "validation_exact_refuted"
   ],
   "note": ""
  },
  {
   "property": "C64",
   "status": "proved",
   "theorems": [
    "create_first_page",
    "create_without_a_pool",
    "file_header_fields",
    "timestamp_fields",
    "timestamp_monotone",
    "timestamp_panics"
   ],
   "note": ""
  },
  {
   "property": "C65",
   "status": "proved",
   "theorems": [
    "page_of_records",
    "stored_fields_aligned",
    "stored_record_json",
    "record_fits_iff",
    "record_fits_refuted"
   ],
   "note": ""
  },
  {
   "property": "C66",
   "status": "proved",
   "theorems": [
    "validation_ignores_case",
    "columns_ignore_case"
   ],
   "note": ""
  },
  {
   "property": "C67",
   "status": "proved",
   "theorems": [
    "validation_frame",
    "new_schema_changes_nothing"
   ],
   "note": ""
  },
  {
   "property": "C68",
   "status": "proved",
   "theorems": [
    "pool_dirty_exact",
    "pool_dirty_forever",
    "pool_released_to",
    "pool_dirty_refuted"
   ],
   "note": ""
  },
  {
   "property": "C69",
   "status": "proved",
   "theorems": [
    "encode_to_writer_exact",
    "encode_to_writer",
    "willing_writer_succeeds",
    "encode_to_writer_refuted",
    "interrupted_write_refuted"
   ],
   "note": ""
  },
  {
   "property": "C70",
   "status": "proved",
   "theorems": [
    "token_value_is_a_piece",
    "number_ends_at_position",
    "positions_refine_characters"
   ],
   "note": ""
  },
  {
   "property": "C71",
   "status": "proved",
   "theorems": [
    "sql_error_place",
    "sql_error_found",
    "sql_on_demand",
    "type_error_place",
    "type_error_found",
    "type_on_demand"
   ],
   "note": ""
  },
  {
   "property": "C72",
   "status": "proved",
   "theorems": [
    "fixed_part_has_no_holes",
    "record_alignment",
    "field_order",
    "tags_packed_in_order",
    "tags_packed_tightly",
    "part_order",
    "encoded_record_image",
    "image_is_unique",
    "encoding_is_canonical_refuted"
   ],
   "note": ""
  },
  {
   "property": "C73",
   "status": "proved",
   "theorems": [
    "token_is_symbol",
    "decoder_accepts_documents",
    "accepted_is_document",
    "documents_unambiguous",
    "repeated_field_no_documents",
    "rest_is_ignored_refuted"
   ],
   "note": ""
  },
  {
   "property": "C74",
   "status": "proved",
   "theorems": [
    "query_result",
    "query_result_checked",
    "query_not_null",
    "query_result_refuted",
    "query_width_refuted",
    "query_with_refuted",
    "query_not_null_refuted",
    "query_checked_refuted"
   ],
   "note": ""
  },
  {
   "property": "C75",
   "status": "proved",
   "theorems": [
    "statement_result",
    "history_conforms",
    "insert_by_position_refuted",
    "update_not_null_refuted"
   ],
   "note": ""
  },
  {
   "property": "C76",
   "status": "proved",
   "theorems": [
    "pool_memory",
    "slices_apart_iff",
    "slices_apart_refuted",
    "kept_slice_refuted"
   ],
   "note": ""
  },
  {
   "property": "C77",
   "status": "proved",
   "theorems": [
    "load_depends_on_values",
    "dump_reloads_page",
    "dump_loads_into_fresh_page",
    "dump_reloads_page_refuted"
   ],
   "note": ""
  },
  {
   "property": "C78",
   "status": "proved",
   "theorems": [
    "text_ignores_case",
    "text_case_refuted"
   ],
   "note": ""
  },
  {
   "property": "C79",
   "status": "proved",
   "theorems": [
    "validate_message_drop",
    "message_true",
    "message_exact",
    "message_tells",
    "insert_message_refuted"
   ],
   "note": ""
  },
  {
   "property": "C80",
   "status": "proved",
   "theorems": [
    "token_error_exact",
    "decode_error_exact",
    "one_fault",
    "fault_or_document",
    "decode_message_tells",
    "first_fault_refuted"
   ],
   "note": ""
  },
  {
   "property": "C81",
   "status": "proved",
   "theorems": [
    "pool_winds_down",
    "pool_no_deadlock",
    "pool_drains",
    "pool_idle_access",
    "pool_pinned",
    "pool_spare_refuted"
   ],
   "note": ""
  },
  {
   "property": "C82",
   "status": "proved",
   "theorems": [
    "page_history_bytes",
    "page_layout",
    "page_form_shows",
    "page_form_step",
    "page_table_determined",
    "page_bytes_determined_refuted",
    "removed_last_row_stays"
   ],
   "note": ""
  },
  {
   "property": "C83",
   "status": "proved",
   "theorems": [
    "drop_not_null_query",
    "add_not_null_query",
    "not_null_delete",
    "not_null_insert",
    "not_null_update",
    "altered_tables",
    "drop_not_null_limit_refuted",
    "add_not_null_in_refuted",
    "drop_not_null_update_refuted"
   ],
   "note": ""
  },
  {
   "property": "C84",
   "status": "proved",
   "theorems": [
    "record_is_its_encoding",
    "readable_iff_encoded",
    "size_checks_record",
    "size_checks_plain_record",
    "unchecked_tag_refuted",
    "unchecked_length_refuted",
    "truncated_record_refuted"
   ],
   "note": ""
  },
  {
   "property": "C85",
   "status": "proved",
   "theorems": [
    "found_row_exact",
    "found_page_exact",
    "found_page_shape",
    "found_page_history",
    "readable_page_safe",
    "found_append_safe",
    "unchecked_remove_refuted",
    "unchecked_insert_refuted",
    "readable_is_page_refuted"
   ],
   "note": ""
  },
  {
   "property": "C105",
   "status": "proved",
   "theorems": [
    "wider_type_accepts",
    "widening_preorder",
    "carried_unique",
    "field_added_refuted",
    "number_of_both_refuted"
   ],
   "note": ""
  },
  {
   "property": "C106",
   "status": "proved",
   "theorems": [
    "page_migrates",
    "carried_value_typed",
    "migrated_records_exist",
    "page_narrows_refuted"
   ],
   "note": ""
  },
  {
   "property": "C107",
   "status": "proved",
   "theorems": [
    "text_tells_value",
    "text_tells_exactly",
    "text_ends_once",
    "dump_tells_page",
    "repeated_case_untold_refuted"
   ],
   "note": ""
  },
  {
   "property": "C108",
   "status": "proved",
   "theorems": [
    "same_texts_both_types",
    "page_moves_back",
    "sign_change_refuted"
   ],
   "note": ""
  },
  {
   "property": "C109",
   "status": "proved",
   "theorems": [
    "text_fits_room",
    "dump_fits_room",
    "prim_room_needed",
    "string_room_needed"
   ],
   "note": ""
  },
  {
   "property": "C104",
   "status": "proved",
   "theorems": [
    "part_exchanged",
    "exchanged_unique",
    "exchanged_component",
    "part_written",
    "accepted_text_exchanged_refuted"
   ],
   "note": ""
  },
  {
   "property": "C103",
   "status": "proved",
   "theorems": [
    "same_symbols_same_value",
    "space_after_symbols",
    "space_anywhere_refuted",
    "space_in_string_refuted"
   ],
   "note": ""
  },
  {
   "property": "C102",
   "status": "proved",
   "theorems": [
    "value_survives_iff",
    "rewriting_keeps_value_iff",
    "rewriting_settles",
    "rewritten_equal_iff",
    "parsed_labels_plain",
    "rewriting_settles_refuted"
   ],
   "note": ""
  },
  {
   "property": "C101",
   "status": "proved",
   "theorems": [
    "type_space_added",
    "type_space_removed",
    "type_space_free",
    "type_cut_refused",
    "type_space_free_refuted"
   ],
   "note": ""
  },
  {
   "property": "C100",
   "status": "proved",
   "theorems": [
    "parts_exchanged",
    "parentheses_added",
    "parentheses_removed",
    "optional_end_cut",
    "cut_changes_all",
    "parentheses_refuted"
   ],
   "note": ""
  },
  {
   "property": "C99",
   "status": "proved",
   "theorems": [
    "rfc_text_decoded",
    "rfc_text_accepted",
    "encoder_writes_rfc",
    "string_is_rfc",
    "pairs_decoded_refuted",
    "only_rfc_refuted",
    "float_rfc_refuted",
    "equal_texts_refuted"
   ],
   "note": ""
  },
  {
   "property": "C98",
   "status": "proved",
   "theorems": [
    "literals_filled",
    "string_bound",
    "literals_not_validated",
    "literals_not_typed",
    "string_bound_refuted"
   ],
   "note": ""
  },
  {
   "property": "C97",
   "status": "proved",
   "theorems": [
    "cut_no_document",
    "cut_not_decoded",
    "joined_documents",
    "document_goes_on",
    "cut_not_decoded_refuted"
   ],
   "note": ""
  },
  {
   "property": "C96",
   "status": "proved",
   "theorems": [
    "sql_space_added",
    "sql_space_removed",
    "sql_words_spaced",
    "sql_space_sign_refuted",
    "sql_comment_refuted"
   ],
   "note": ""
  },
  {
   "property": "C95",
   "status": "proved",
   "theorems": [
    "reserved_file_names",
    "reserved_file_blocks",
    "reserved_files_overlap",
    "file_table_mirrored",
    "bitmap_on_pages",
    "bitmap_within_page_refuted",
    "attributes_never",
    "create_whole_never"
   ],
   "note": ""
  },
  {
   "property": "C94",
   "status": "proved",
   "theorems": [
    "row_replaced",
    "row_replaced_bytes",
    "page_restored_refuted",
    "number_updated_on_page"
   ],
   "note": ""
  },
  {
   "property": "C93",
   "status": "proved",
   "theorems": [
    "number_changed_in_place",
    "number_changed_at_its_offset",
    "payload_number_at_an_offset_refuted"
   ],
   "note": ""
  },
  {
   "property": "C92",
   "status": "proved",
   "theorems": [
    "catalog_read_back",
    "catalog_written",
    "catalog_read_again",
    "catalog_entries",
    "struct_members",
    "catalog_members_in_any_order",
    "params_read_back",
    "params_read_fit",
    "catalog_filed_refuted"
   ],
   "note": ""
  },
  {
   "property": "C91",
   "status": "proved",
   "theorems": [
    "renamed_statement",
    "renamed_query",
    "exchanged_names",
    "exchanged_aliases",
    "renamed_wildcard_refuted",
    "renamed_with_refuted",
    "renamed_insert_refuted"
   ],
   "note": ""
  },
  {
   "property": "C90",
   "status": "proved",
   "theorems": [
    "added_columns_query",
    "added_columns_statement",
    "added_columns_insert",
    "added_columns_accepted",
    "added_columns_wildcard_refuted",
    "added_columns_ambiguous_refuted",
    "added_columns_set_refuted",
    "added_columns_not_null_refuted"
   ],
   "note": ""
  },
  {
   "property": "C89",
   "status": "proved",
   "theorems": [
    "found_table_exact",
    "found_table_values",
    "sizes_check_table",
    "found_table_append",
    "found_table_remove",
    "found_table_extended",
    "found_table_dumps",
    "sizes_check_table_refuted"
   ],
   "note": ""
  },
  {
   "property": "C88",
   "status": "proved",
   "theorems": [
    "source_answers_primitive",
    "source_answers_tag",
    "source_answers_text",
    "last_word_unique",
    "ordered_map_is_list",
    "decoded_places_exact",
    "former_contents_forgotten",
    "former_contents_kept",
    "failed_decode_leaves_rest_refuted"
   ],
   "note": ""
  },
  {
   "property": "C87",
   "status": "proved",
   "theorems": [
    "alignment_of_type",
    "extended_type_writes_alike",
    "extended_type_reads_alike",
    "old_records_read_as_new",
    "new_records_read_as_old",
    "rows_of_old_values",
    "struct_is_stored_as_tuple",
    "longer_tag_refuted",
    "wider_case_refuted",
    "added_field_refuted"
   ],
   "note": ""
  },
  {
   "property": "C86",
   "status": "proved",
   "theorems": [
    "rewritten_statement",
    "rewritten_query",
    "rewritten_expression",
    "rewriting_refuted"
   ],
   "note": ""
  }
 ]
}