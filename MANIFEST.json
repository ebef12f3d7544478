{
 "claims": [
  {
   "property": "C01",
   "status": "proved",
   "theorems": [
    "C01_one_lexeme",
    "C01_rule_unique",
    "C01_tokens"
   ],
   "note": ""
  },
  {
   "property": "C02",
   "status": "proved",
   "theorems": [
    "C02_terminates_and_consumes_all",
    "C02_each_token_progresses"
   ],
   "note": ""
  },
  {
   "property": "C03",
   "status": "proved",
   "theorems": [
    "C03_no_out_of_bounds",
    "C03_scan_defined"
   ],
   "note": ""
  },
  {
   "property": "C04",
   "status": "proved",
   "theorems": [
    "C04_identifier_is_one_token"
   ],
   "note": ""
  },
  {
   "property": "C05",
   "status": "proved",
   "theorems": [
    "C05_gaps_have_no_tokens"
   ],
   "note": ""
  },
  {
   "property": "C06",
   "status": "proved",
   "theorems": [
    "C06_comment_at_eof_is_not_skipped",
    "C06_more_slashes",
    "C06_hash_at_eof_is_not_skipped"
   ],
   "note": ""
  },
  {
   "property": "C07",
   "status": "proved",
   "theorems": [
    "C07_string_extends_to_last_quote",
    "C07_lone_quote_is_dropped"
   ],
   "note": ""
  },
  {
   "property": "C08",
   "status": "proved",
   "theorems": [
    "C08_foreign_byte_is_dropped",
    "C08_slash_is_dropped"
   ],
   "note": ""
  },
  {
   "property": "C09",
   "status": "proved",
   "theorems": [
    "C09_line_numbers"
   ],
   "note": ""
  },
  {
   "property": "C10",
   "status": "proved",
   "theorems": [
    "C10_columns"
   ],
   "note": ""
  },
  {
   "property": "C11",
   "status": "proved",
   "theorems": [
    "C11_accepts_exactly_the_language",
    "C11_text",
    "C11_language_is_lists_of_definitions",
    "C11_unambiguous"
   ],
   "note": ""
  },
  {
   "property": "C12",
   "status": "proved",
   "theorems": [
    "C12_terminates",
    "C12_text",
    "C12_scanner_tokens_are_good"
   ],
   "note": ""
  },
  {
   "property": "C13",
   "status": "proved",
   "theorems": [
    "C13_recorded_in_order",
    "C13_text"
   ],
   "note": ""
  },
  {
   "property": "C14",
   "status": "proved",
   "theorems": [
    "C14_syntax_error",
    "C14_text"
   ],
   "note": ""
  },
  {
   "property": "C15",
   "status": "proved",
   "theorems": [
    "C15_no_tokens",
    "C15_only_comments_and_blanks"
   ],
   "note": ""
  },
  {
   "property": "C16",
   "status": "proved",
   "theorems": [
    "C16_one_name_space",
    "C16_every_call_is_defined",
    "C16_every_file_is_a_history"
   ],
   "note": ""
  },
  {
   "property": "C17",
   "status": "proved",
   "theorems": [
    "C17_store_is_the_file"
   ],
   "note": ""
  },
  {
   "property": "C18",
   "status": "proved",
   "theorems": [
    "C18_redefinition",
    "C18_file_still_accepted"
   ],
   "note": ""
  },
  {
   "property": "C19",
   "status": "proved",
   "theorems": [
    "C19_fresh_section_keeps_common",
    "C19_leak_into_common_struct",
    "C19_leak_into_common_enum"
   ],
   "note": ""
  },
  {
   "property": "C20",
   "status": "proved",
   "theorems": [
    "C20_resolution",
    "C20_resolution_of_definitions"
   ],
   "note": ""
  },
  {
   "property": "C21",
   "status": "proved",
   "theorems": [
    "C21_idempotent",
    "C21_touches_nothing_else"
   ],
   "note": ""
  },
  {
   "property": "C22",
   "status": "proved",
   "theorems": [
    "C22_unresolved_stays_unresolved"
   ],
   "note": ""
  },
  {
   "property": "C23",
   "status": "proved",
   "theorems": [
    "C23_emitted_entry_points",
    "C23_counter_is_zero_iff_unreferenced"
   ],
   "note": ""
  },
  {
   "property": "C24",
   "status": "proved",
   "theorems": [
    "C24_acyclic_has_entry_point",
    "C24_cyclic_may_have_none"
   ],
   "note": ""
  },
  {
   "property": "C25",
   "status": "proved",
   "theorems": [
    "C25_result",
    "C25_success_means_known",
    "C25_vector_not_checked"
   ],
   "note": ""
  },
  {
   "property": "C26",
   "status": "proved",
   "theorems": [
    "C26_reader_calls_defined",
    "C26_writer_calls_defined",
    "C26_from_definitions"
   ],
   "note": ""
  },
  {
   "property": "C27",
   "status": "proved",
   "theorems": [
    "C27_order_free"
   ],
   "note": ""
  },
  {
   "property": "C28",
   "status": "proved",
   "theorems": [
    "C28_enum_lines",
    "C28_struct_lines",
    "C28_files"
   ],
   "note": ""
  },
  {
   "property": "C29",
   "status": "proved",
   "theorems": [
    "C29_programs_exist",
    "C29_enum_text_enum",
    "C29_text"
   ],
   "note": ""
  },
  {
   "property": "C30",
   "status": "proved",
   "theorems": [
    "C30_unknown_text",
    "C30_known_text",
    "C30_class_enums_hold_ints"
   ],
   "note": ""
  },
  {
   "property": "C31",
   "status": "proved",
   "theorems": [
    "C31_full_round_trip",
    "C31_new_objects"
   ],
   "note": ""
  },
  {
   "property": "C32",
   "status": "proved",
   "theorems": [
    "C32_delta_round_trip",
    "C32_left_out_is_undefined",
    "C32_new_objects",
    "C32_nested_initialiser_refuted"
   ],
   "note": ""
  },
  {
   "property": "C33",
   "status": "proved",
   "theorems": [
    "C33_longs",
    "C33_value",
    "C33_xml_undefined"
   ],
   "note": ""
  },
  {
   "property": "C34",
   "status": "proved",
   "theorems": [
    "C34_delta_exact",
    "C34_constructor"
   ],
   "note": ""
  },
  {
   "property": "C35",
   "status": "proved",
   "theorems": [
    "C35_absent_unchanged",
    "C35_short_long_undefined",
    "C35_all_absent"
   ],
   "note": ""
  },
  {
   "property": "C36",
   "status": "proved",
   "theorems": [
    "C36_unknown_ignored",
    "C36_elements"
   ],
   "note": ""
  },
  {
   "property": "C37",
   "status": "proved",
   "theorems": [
    "C37_appends",
    "C37_twice"
   ],
   "note": ""
  },
  {
   "property": "C38",
   "status": "proved",
   "theorems": [
    "C38_any_root",
    "C38_no_root"
   ],
   "note": ""
  },
  {
   "property": "C39",
   "status": "proved",
   "theorems": [
    "C39_full_round_trip",
    "C39_blank_strings_lost"
   ],
   "note": ""
  },
  {
   "property": "C40",
   "status": "proved",
   "theorems": [
    "C40_delta_round_trip"
   ],
   "note": ""
  },
  {
   "property": "C41",
   "status": "proved",
   "theorems": [
    "C41_top_level_unchanged",
    "C41_written_values_lost"
   ],
   "note": ""
  },
  {
   "property": "C42",
   "status": "proved",
   "theorems": [
    "C42_round_trip",
    "C42_nested_scalars",
    "C42_late_enum_refuted",
    "C42_unfinished_refuted",
    "C42_piece_refuted"
   ],
   "note": ""
  },
  {
   "property": "C43",
   "status": "proved",
   "theorems": [
    "C43_never_read",
    "C43_written"
   ],
   "note": ""
  },
  {
   "property": "C44",
   "status": "proved",
   "theorems": [
    "C44_ini_refuses_structs",
    "C44_n_ini_refuses_vectors"
   ],
   "note": ""
  },
  {
   "property": "C45",
   "status": "proved",
   "theorems": [
    "C45_unambiguous",
    "C45_names",
    "C45_written"
   ],
   "note": ""
  },
  {
   "property": "C46",
   "status": "proved",
   "theorems": [
    "C46_header_status",
    "C46_no_such_file",
    "C46_no_arguments"
   ],
   "note": ""
  },
  {
   "property": "C47",
   "status": "proved",
   "theorems": [
    "C47_config_status"
   ],
   "note": ""
  },
  {
   "property": "C48",
   "status": "proved",
   "theorems": [
    "C48_paths",
    "C48_files_of_an_output",
    "C48_skipped"
   ],
   "note": ""
  },
  {
   "property": "C49",
   "status": "proved",
   "theorems": [
    "C49_read_only",
    "C49_result"
   ],
   "note": ""
  },
  {
   "property": "C50",
   "status": "proved",
   "theorems": [
    "C50_files_are_cumulative"
   ],
   "note": ""
  },
  {
   "property": "C51",
   "status": "proved",
   "theorems": [
    "C51_unclosed_comment_swallows_file"
   ],
   "note": ""
  },
  {
   "property": "C52",
   "status": "proved",
   "theorems": [
    "C52_any_separator_makes_a_float",
    "C52_integers"
   ],
   "note": ""
  },
  {
   "property": "C53",
   "status": "proved",
   "theorems": [
    "C53_expected_tokens_can_follow"
   ],
   "note": ""
  },
  {
   "property": "C54",
   "status": "proved",
   "theorems": [
    "C54_header_to_program",
    "C54_config_to_programs"
   ],
   "note": ""
  },
  {
   "property": "C55",
   "status": "proved",
   "theorems": [
    "C55_same_name_overwrites"
   ],
   "note": ""
  },
  {
   "property": "C56",
   "status": "proved",
   "theorems": [
    "C56_structs_h_overwritten"
   ],
   "note": ""
  },
  {
   "property": "C57",
   "status": "proved",
   "theorems": [
    "C57_half_written"
   ],
   "note": ""
  },
  {
   "property": "C58",
   "status": "proved",
   "theorems": [
    "C58_strings"
   ],
   "note": ""
  },
  {
   "property": "C59",
   "status": "proved",
   "theorems": [
    "C59_reading_keeps_types"
   ],
   "note": ""
  },
  {
   "property": "C60",
   "status": "proved",
   "theorems": [
    "C60_no_file",
    "C60_no_write"
   ],
   "note": ""
  },
  {
   "property": "C61",
   "status": "proved",
   "theorems": [
    "C61_undefined"
   ],
   "note": ""
  },
  {
   "property": "C62",
   "status": "proved",
   "theorems": [
    "C62_absent_section",
    "C62_used_reader_refuted"
   ],
   "note": ""
  },
  {
   "property": "C63",
   "status": "proved",
   "theorems": [
    "C63_last_struct_decides",
    "C63_result_true",
    "C63_failure_reported_refuted"
   ],
   "note": ""
  },
  {
   "property": "C64",
   "status": "proved",
   "theorems": [
    "C64_undefined_iff"
   ],
   "note": ""
  },
  {
   "property": "C65",
   "status": "proved",
   "theorems": [
    "C65_defined",
    "C65_scoped",
    "C65_typed",
    "C65_unscoped_refuted"
   ],
   "note": ""
  },
  {
   "property": "C66",
   "status": "proved",
   "theorems": [
    "C66_no_file",
    "C66_no_write",
    "C66_constructor"
   ],
   "note": ""
  },
  {
   "property": "C67",
   "status": "proved",
   "theorems": [
    "C67_meaning"
   ],
   "note": ""
  },
  {
   "property": "C68",
   "status": "proved",
   "theorems": [
    "C68_unreadable",
    "C68_undefined",
    "C68_status",
    "C68_document_to_programs"
   ],
   "note": ""
  },
  {
   "property": "C69",
   "status": "proved",
   "theorems": [
    "C69_unknown_is_default",
    "C69_names_and_numbers"
   ],
   "note": ""
  },
  {
   "property": "C70",
   "status": "proved",
   "theorems": [
    "C70_bootstrap"
   ],
   "note": ""
  },
  {
   "property": "C71",
   "status": "proved",
   "theorems": [
    "C71_round_trip",
    "C71_program"
   ],
   "note": ""
  },
  {
   "property": "C72",
   "status": "proved",
   "theorems": [
    "C72_unknown_ignored"
   ],
   "note": ""
  },
  {
   "property": "C73",
   "status": "proved",
   "theorems": [
    "C73_declared_defined",
    "C73_declared_once",
    "C73_class_names",
    "C73_any_class_name_refuted"
   ],
   "note": ""
  },
  {
   "property": "C74",
   "status": "proved",
   "theorems": [
    "C74_classes"
   ],
   "note": ""
  },
  {
   "property": "C75",
   "status": "proved",
   "theorems": [
    "C75_enum_header",
    "C75_formatted"
   ],
   "note": ""
  },
  {
   "property": "C76",
   "status": "proved",
   "theorems": [
    "C76_directives",
    "C76_enum_header_complete",
    "C76_struct_header_complete"
   ],
   "note": ""
  },
  {
   "property": "C77",
   "status": "proved",
   "theorems": [
    "C77_own_header",
    "C77_enum_header",
    "C77_inputs",
    "C77_all_found",
    "C77_single_header",
    "C77_other_directory_refuted"
   ],
   "note": ""
  },
  {
   "property": "C78",
   "status": "proved",
   "theorems": [
    "C78_one_token",
    "C78_tokens",
    "C78_layout"
   ],
   "note": ""
  },
  {
   "property": "C79",
   "status": "proved",
   "theorems": [
    "C79_scanned",
    "C79_text_exists",
    "C79_printed",
    "C79_printed_to_program"
   ],
   "note": ""
  },
  {
   "property": "C80",
   "status": "proved",
   "theorems": [
    "C80_layout_free",
    "C80_other_files"
   ],
   "note": ""
  },
  {
   "property": "C81",
   "status": "proved",
   "theorems": [
    "C81_program",
    "C81_header",
    "C81_document"
   ],
   "note": ""
  },
  {
   "property": "C82",
   "status": "proved",
   "theorems": [
    "C82_buffer_invisible",
    "C82_memory_safe",
    "C82_tokens"
   ],
   "note": ""
  },
  {
   "property": "C83",
   "status": "proved",
   "theorems": [
    "C83_values_safe",
    "C83_memory_invisible",
    "C83_front_end"
   ],
   "note": ""
  },
  {
   "property": "C84",
   "status": "proved",
   "theorems": [
    "C84_fitting",
    "C84_standard_exists",
    "C84_header",
    "C84_stores",
    "C84_delta",
    "C84_enum_text",
    "C84_decimal",
    "C84_strings",
    "C84_operations",
    "C84_separators",
    "C84_comma_refuted",
    "C84_unchecked_refuted",
    "C84_literals",
    "C84_signed_operations"
   ],
   "note": ""
  },
  {
   "property": "C85",
   "status": "proved",
   "theorems": [
    "C85_tokens",
    "C85_parse",
    "C85_definitions",
    "C85_run"
   ],
   "note": ""
  },
  {
   "property": "C86",
   "status": "proved",
   "theorems": [
    "C86_tokens",
    "C86_text",
    "C86_shape",
    "C86_header",
    "C86_document",
    "C86_quotes_refuted",
    "C86_unended_refuted",
    "C86_more_refuted"
   ],
   "note": ""
  },
  {
   "property": "C87",
   "status": "proved",
   "theorems": [
    "C87_again",
    "C87_header",
    "C87_config"
   ],
   "note": ""
  },
  {
   "property": "C88",
   "status": "proved",
   "theorems": [
    "C88_constants_free",
    "C88_header"
   ],
   "note": ""
  },
  {
   "property": "C89",
   "status": "proved",
   "theorems": [
    "C89_config",
    "C89_header",
    "C89_bad_inputs",
    "C89_no_warning",
    "C89_warned"
   ],
   "note": ""
  },
  {
   "property": "C90",
   "status": "proved",
   "theorems": [
    "C90_program",
    "C90_header",
    "C90_document"
   ],
   "note": ""
  },
  {
   "property": "C91",
   "status": "proved",
   "theorems": [
    "C91_builds",
    "C91_header",
    "C91_file",
    "C91_stamp",
    "C91_any_build"
   ],
   "note": ""
  },
  {
   "property": "C92",
   "status": "proved",
   "theorems": [
    "C92_round_trip",
    "C92_exact",
    "C92_faithful"
   ],
   "note": ""
  },
  {
   "property": "C93",
   "status": "proved",
   "theorems": [
    "C93_document",
    "C93_project"
   ],
   "note": ""
  },
  {
   "property": "C94",
   "status": "proved",
   "theorems": [
    "C94_program",
    "C94_header",
    "C94_full_round_trip",
    "C94_library",
    "C94_document"
   ],
   "note": ""
  },
  {
   "property": "C95",
   "status": "proved",
   "theorems": [
    "C95_layout",
    "C95_meaning",
    "C95_document",
    "C95_project"
   ],
   "note": ""
  },
  {
   "property": "C96",
   "status": "proved",
   "theorems": [
    "C96_library",
    "C96_written",
    "C96_program",
    "C96_configuration",
    "C96_no_root"
   ],
   "note": ""
  },
  {
   "property": "C97",
   "status": "proved",
   "theorems": [
    "C97_versions",
    "C97_programs",
    "C97_headers",
    "C97_new_short_refuted"
   ],
   "note": ""
  },
  {
   "property": "C98",
   "status": "proved",
   "theorems": [
    "C98_order",
    "C98_permutation",
    "C98_programs",
    "C98_configuration",
    "C98_configuration_text",
    "C98_vector_refuted"
   ],
   "note": ""
  },
  {
   "property": "C99",
   "status": "proved",
   "theorems": [
    "C99_meaning",
    "C99_new_reader",
    "C99_values_only",
    "C99_comments",
    "C99_order",
    "C99_unknown_item",
    "C99_unknown_section",
    "C99_programs",
    "C99_unfinished_refuted",
    "C99_long_line_refuted"
   ],
   "note": ""
  },
  {
   "property": "C100",
   "status": "proved",
   "theorems": [
    "C100_written",
    "C100_versions",
    "C100_same_types",
    "C100_programs",
    "C100_narrower_refuted"
   ],
   "note": ""
  },
  {
   "property": "C101",
   "status": "proved",
   "theorems": [
    "C101_cut",
    "C101_lines",
    "C101_programs",
    "C101_number_refuted"
   ],
   "note": ""
  },
  {
   "property": "C102",
   "status": "proved",
   "theorems": [
    "C102_range",
    "C102_reached",
    "C102_lost",
    "C102_empty_refuted",
    "C102_percent_refuted",
    "C102_other_member_refuted"
   ],
   "note": ""
  },
  {
   "property": "C103",
   "status": "proved",
   "theorems": [
    "C103_structs",
    "C103_numbers",
    "C103_any_file",
    "C103_programs",
    "C103_other_number_refuted",
    "C103_not_reported_refuted"
   ],
   "note": ""
  },
  {
   "property": "C104",
   "status": "proved",
   "theorems": [
    "C104_defined",
    "C104_values",
    "C104_programs",
    "C104_calm",
    "C104_other_number_refuted",
    "C104_no_number_refuted"
   ],
   "note": ""
  },
  {
   "property": "C105",
   "status": "proved",
   "theorems": [
    "C105_exact",
    "C105_case"
   ],
   "note": ""
  }
 ]
}