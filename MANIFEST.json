{
 "claims": [
  {
   "property": "C01",
   "status": "proved",
   "theorems": [
    "C01_left",
    "C01_right",
    "C01_center",
    "C01_left_joining_refuted",
    "C01_right_joining_refuted"
   ],
   "note": ""
  },
  {
   "property": "C02",
   "status": "proved",
   "theorems": [
    "C02_left_adds_spaces",
    "C02_right_adds_spaces",
    "C02_center_adds_spaces",
    "C02_wide_unchanged"
   ],
   "note": ""
  },
  {
   "property": "C03",
   "status": "proved",
   "theorems": [
    "C03_left_idempotent",
    "C03_right_idempotent",
    "C03_center_idempotent",
    "C03_left_joining_refuted"
   ],
   "note": ""
  },
  {
   "property": "C04",
   "status": "proved",
   "theorems": [
    "C04_ascii_width",
    "C04_modulo",
    "C04_wraps"
   ],
   "note": ""
  },
  {
   "property": "C05",
   "status": "proved",
   "theorems": [
    "C05_sequences_take_no_width",
    "C05_colour_is_sequence",
    "C05_wrap_in_colour",
    "C05_joining_refuted"
   ],
   "note": ""
  },
  {
   "property": "C06",
   "status": "proved",
   "theorems": [
    "C06_cache_transparent",
    "C06_stale_but_earlier",
    "C06_condition_change_refuted"
   ],
   "note": ""
  },
  {
   "property": "C07",
   "status": "proved",
   "theorems": [
    "C07_concurrent_results",
    "C07_progress",
    "C07_bounded",
    "C07_machine_is_visualWidth",
    "C07_machine_deterministic"
   ],
   "note": ""
  },
  {
   "property": "C08",
   "status": "proved",
   "theorems": [
    "C08_no_underflow",
    "C08_exact",
    "C08_c1_bound",
    "C08_c1_refuted"
   ],
   "note": ""
  },
  {
   "property": "C09",
   "status": "proved",
   "theorems": [
    "C09_leftmost_longest",
    "C09_no_match",
    "C09_count_terminates",
    "C09_scan_unique"
   ],
   "note": ""
  },
  {
   "property": "C10",
   "status": "proved",
   "theorems": [
    "C10_lossless",
    "C10_deterministic",
    "C10_end_is_final"
   ],
   "note": ""
  },
  {
   "property": "C11",
   "status": "proved",
   "theorems": [
    "C11_uax29"
   ],
   "note": ""
  },
  {
   "property": "C12",
   "status": "proved",
   "theorems": [
    "C12_runes"
   ],
   "note": ""
  },
  {
   "property": "C13",
   "status": "proved",
   "theorems": [
    "C13_restartable",
    "C13_first_cluster"
   ],
   "note": ""
  },
  {
   "property": "C14",
   "status": "proved",
   "theorems": [
    "C14_property_lookup",
    "C14_package_tables_sorted"
   ],
   "note": ""
  },
  {
   "property": "C15",
   "status": "proved",
   "theorems": [
    "C15_inTable",
    "C15_package_tables_compact"
   ],
   "note": ""
  },
  {
   "property": "C16",
   "status": "proved",
   "theorems": [
    "C16_RuneWidth_total"
   ],
   "note": ""
  },
  {
   "property": "C17",
   "status": "proved",
   "theorems": [
    "C17_RuneWidth_by_tables"
   ],
   "note": ""
  },
  {
   "property": "C18",
   "status": "proved",
   "theorems": [
    "C18_LUT_RuneWidth",
    "C18_LUT_StringWidth"
   ],
   "note": ""
  },
  {
   "property": "C19",
   "status": "proved",
   "theorems": [
    "C19_environment",
    "C19_new_condition",
    "C19_any_state"
   ],
   "note": ""
  },
  {
   "property": "C20",
   "status": "proved",
   "theorems": [
    "C20_sum_of_clusters",
    "C20_terminates",
    "C20_bounds",
    "C20_bytes",
    "C20_bytes_eastasian_refuted"
   ],
   "note": ""
  },
  {
   "property": "C21",
   "status": "proved",
   "theorems": [
    "C21_rune",
    "C21_string"
   ],
   "note": ""
  },
  {
   "property": "C22",
   "status": "proved",
   "theorems": [
    "C22_locale",
    "C22_charset_unique",
    "C22_startup",
    "C22_code_pages",
    "C22_platforms"
   ],
   "note": ""
  },
  {
   "property": "C23",
   "status": "proved",
   "theorems": [
    "C23_running_maximum",
    "C23_never_decreases"
   ],
   "note": ""
  },
  {
   "property": "C24",
   "status": "proved",
   "theorems": [
    "C24_order_irrelevant",
    "C24_maximum",
    "C24_nil_map"
   ],
   "note": ""
  },
  {
   "property": "C25",
   "status": "proved",
   "theorems": [
    "C25_success",
    "C25_failure",
    "C25_widths"
   ],
   "note": ""
  },
  {
   "property": "C26",
   "status": "proved",
   "theorems": [
    "C26_basic"
   ],
   "note": ""
  },
  {
   "property": "C27",
   "status": "proved",
   "theorems": [
    "C27_wrong_length",
    "C27_error_iff",
    "C27_cells"
   ],
   "note": ""
  },
  {
   "property": "C28",
   "status": "proved",
   "theorems": [
    "C28_rows_line_up"
   ],
   "note": ""
  },
  {
   "property": "C29",
   "status": "proved",
   "theorems": [
    "C29_columns",
    "C29_has_column",
    "C29_latest",
    "C29_outcome",
    "C29_any",
    "C29_without_map"
   ],
   "note": ""
  },
  {
   "property": "C30",
   "status": "proved",
   "theorems": [
    "C30_header_cell",
    "C30_header_unpadded",
    "C30_header_width",
    "C30_header_line",
    "C30_east_asian_refuted"
   ],
   "note": ""
  },
  {
   "property": "C31",
   "status": "proved",
   "theorems": [
    "C31_modulo",
    "C31_exact",
    "C31_no_columns"
   ],
   "note": ""
  },
  {
   "property": "C32",
   "status": "proved",
   "theorems": [
    "C32_horizontal_output",
    "C32_horizontal_exact",
    "C32_horizontal_positions",
    "C32_every_item_once"
   ],
   "note": ""
  },
  {
   "property": "C33",
   "status": "proved",
   "theorems": [
    "C33_vertical_output",
    "C33_vertical_exact",
    "C33_vertical_positions"
   ],
   "note": ""
  },
  {
   "property": "C34",
   "status": "proved",
   "theorems": [
    "C34_lines_fit",
    "C34_most_groups",
    "C34_groups",
    "C34_one_column",
    "C34_empty_separator_refuted"
   ],
   "note": ""
  },
  {
   "property": "C35",
   "status": "proved",
   "theorems": [
    "C35_compact_lines_fit"
   ],
   "note": ""
  },
  {
   "property": "C36",
   "status": "proved",
   "theorems": [
    "C36_terminates",
    "C36_no_more_lines",
    "C36_groups"
   ],
   "note": ""
  },
  {
   "property": "C37",
   "status": "proved",
   "theorems": [
    "C37_terminates",
    "C37_diverges",
    "C37_running",
    "C37_fuel"
   ],
   "note": ""
  },
  {
   "property": "C38",
   "status": "proved",
   "theorems": [
    "C38_groups_line_up",
    "C38_printed"
   ],
   "note": ""
  },
  {
   "property": "C39",
   "status": "proved",
   "theorems": [
    "C39_failing_write"
   ],
   "note": ""
  },
  {
   "property": "C40",
   "status": "proved",
   "theorems": [
    "C40_division_by_zero",
    "C40_no_other_panic",
    "C40_get_in_range",
    "C40_nil_column"
   ],
   "note": ""
  },
  {
   "property": "C41",
   "status": "proved",
   "theorems": [
    "C41_empty_list",
    "C41_empty_vertical"
   ],
   "note": ""
  },
  {
   "property": "C42",
   "status": "proved",
   "theorems": [
    "C42_clamped"
   ],
   "note": ""
  },
  {
   "property": "C43",
   "status": "proved",
   "theorems": [
    "C43_left_twice",
    "C43_right_twice",
    "C43_center_twice",
    "C43_center_iff",
    "C43_center_refuted"
   ],
   "note": ""
  },
  {
   "property": "C44",
   "status": "proved",
   "theorems": [
    "C44_table_width",
    "C44_header_above"
   ],
   "note": ""
  },
  {
   "property": "C45",
   "status": "proved",
   "theorems": [
    "C45_formatted_then_merged"
   ],
   "note": ""
  },
  {
   "property": "C46",
   "status": "proved",
   "theorems": [
    "C46_step_width",
    "C46_one_width",
    "C46_nonneg",
    "C46_agrees_refuted"
   ],
   "note": ""
  },
  {
   "property": "C47",
   "status": "proved",
   "theorems": [
    "C47_decode",
    "C47_encode",
    "C47_one_encoding",
    "C47_text",
    "C47_valid",
    "C47_clusters",
    "C47_width"
   ],
   "note": ""
  },
  {
   "property": "C48",
   "status": "proved",
   "theorems": [
    "C48_class",
    "C48_one_cluster",
    "C48_widths"
   ],
   "note": ""
  },
  {
   "property": "C49",
   "status": "proved",
   "theorems": [
    "C49_prefix",
    "C49_subadditive",
    "C49_zero_width",
    "C49_text_starts",
    "C49_suffix_refuted",
    "C49_truncated_refuted"
   ],
   "note": ""
  },
  {
   "property": "C50",
   "status": "proved",
   "theorems": [
    "C50_goroutines",
    "C50_bounded",
    "C50_finishes",
    "C50_sequential",
    "C50_alignments",
    "C50_format_item",
    "C50_format_basic",
    "C50_align_item",
    "C50_header",
    "C50_merging"
   ],
   "note": ""
  },
  {
   "property": "C51",
   "status": "proved",
   "theorems": [
    "C51_reachable",
    "C51_independent",
    "C51_frame",
    "C51_shared_table",
    "C51_copy_refuted"
   ],
   "note": ""
  },
  {
   "property": "C52",
   "status": "proved",
   "theorems": [
    "C52_history",
    "C52_literal",
    "C52_nil_format",
    "C52_add_column",
    "C52_table_copy",
    "C52_spec_copy",
    "C52_spec_copy_refuted",
    "C52_set_column"
   ],
   "note": ""
  },
  {
   "property": "C53",
   "status": "proved",
   "theorems": [
    "C53_shapeup",
    "C53_members",
    "C53_package",
    "C53_eastasian",
    "C53_lookup",
    "C53_unsorted_refuted",
    "C53_emoji",
    "C53_properties"
   ],
   "note": ""
  },
  {
   "property": "C54",
   "status": "proved",
   "theorems": [
    "C54_plain",
    "C54_compact",
    "C54_which"
   ],
   "note": ""
  },
  {
   "property": "C55",
   "status": "proved",
   "theorems": [
    "C55_wider",
    "C55_same_count",
    "C55_overflow_refuted",
    "C55_greedy_refuted",
    "C55_least"
   ],
   "note": ""
  },
  {
   "property": "C56",
   "status": "proved",
   "theorems": [
    "C56_horizontal",
    "C56_vertical",
    "C56_endless"
   ],
   "note": ""
  },
  {
   "property": "C57",
   "status": "proved",
   "theorems": [
    "C57_read_back",
    "C57_injective",
    "C57_spaces_refuted"
   ],
   "note": ""
  },
  {
   "property": "C58",
   "status": "proved",
   "theorems": [
    "C58_batches",
    "C58_change",
    "C58_compact_refuted",
    "C58_turned",
    "C58_same"
   ],
   "note": ""
  },
  {
   "property": "C59",
   "status": "proved",
   "theorems": [
    "C59_lines",
    "C59_long",
    "C59_trim",
    "C59_line",
    "C59_files",
    "C59_fault",
    "C59_whole",
    "C59_source",
    "C59_category",
    "C59_lookup",
    "C59_output",
    "C59_category_refuted",
    "C59_mention_refuted"
   ],
   "note": ""
  },
  {
   "property": "C60",
   "status": "proved",
   "theorems": [
    "C60_line",
    "C60_tables",
    "C60_newer",
    "C60_cut",
    "C60_cut_emoji",
    "C60_long",
    "C60_no_emoji",
    "C60_backward_refuted"
   ],
   "note": ""
  },
  {
   "property": "C61",
   "status": "proved",
   "theorems": [
    "C61_widths",
    "C61_exact",
    "C61_string_width",
    "C61_halts",
    "C61_ends",
    "C61_one_maker",
    "C61_with_table",
    "C61_alone",
    "C61_remake_refuted",
    "C61_both_default_refuted",
    "C61_table_lost_refuted",
    "C61_torn_flags_refuted"
   ],
   "note": ""
  },
  {
   "property": "C62",
   "status": "proved",
   "theorems": [
    "C62_bounds",
    "C62_exact",
    "C62_one_writer",
    "C62_rows",
    "C62_split",
    "C62_alone",
    "C62_all_end",
    "C62_halts",
    "C62_lost_width_refuted"
   ],
   "note": ""
  },
  {
   "property": "C63",
   "status": "proved",
   "theorems": [
    "C63_flags",
    "C63_requests",
    "C63_written",
    "C63_file",
    "C63_few",
    "C63_ends",
    "C63_page",
    "C63_header_refuted"
   ],
   "note": ""
  },
  {
   "property": "C64",
   "status": "proved",
   "theorems": [
    "C64_measured",
    "C64_aligned",
    "C64_rows",
    "C64_merged",
    "C64_attributes",
    "C64_colon_refuted",
    "C64_link_refuted",
    "C64_moving_refuted",
    "C64_joined_refuted"
   ],
   "note": ""
  },
  {
   "property": "C65",
   "status": "proved",
   "theorems": [
    "C65_narrow",
    "C65_ambiguous",
    "C65_wide",
    "C65_neutral",
    "C65_disjoint",
    "C65_emoji",
    "C65_presentation",
    "C65_combining",
    "C65_private",
    "C65_eastasian",
    "C65_widths",
    "C65_text",
    "C65_blocks"
   ],
   "note": ""
  },
  {
   "property": "C66",
   "status": "proved",
   "theorems": [
    "C66_still",
    "C66_any",
    "C66_clean",
    "C66_lazy_compact",
    "C66_lazy_plain",
    "C66_ends",
    "C66_torn_refuted",
    "C66_lazy_plain_refuted",
    "C66_lazy_wide_refuted"
   ],
   "note": ""
  },
  {
   "property": "C67",
   "status": "proved",
   "theorems": [
    "C67_plain",
    "C67_compact",
    "C67_once",
    "C67_times",
    "C67_failing",
    "C67_failing_compact"
   ],
   "note": ""
  },
  {
   "property": "C68",
   "status": "proved",
   "theorems": [
    "C68_format",
    "C68_widths",
    "C68_only",
    "C68_basic",
    "C68_align",
    "C68_align_other",
    "C68_plain",
    "C68_compact",
    "C68_blame",
    "C68_zero",
    "C68_asked",
    "C68_quiet",
    "C68_vertical_ends",
    "C68_refines",
    "C68_changing_refuted"
   ],
   "note": ""
  },
  {
   "property": "C69",
   "status": "proved",
   "theorems": [
    "C69_wider_columns",
    "C69_later",
    "C69_compact_same",
    "C69_later_compact",
    "C69_vertical_refuted",
    "C69_empty_separator_refuted",
    "C69_wraps_refuted"
   ],
   "note": ""
  },
  {
   "property": "C70",
   "status": "proved",
   "theorems": [
    "C70_widths",
    "C70_missing",
    "C70_no_emoji",
    "C70_responses",
    "C70_one_meaning",
    "C70_repo"
   ],
   "note": ""
  },
  {
   "property": "C71",
   "status": "proved",
   "theorems": [
    "C71_format",
    "C71_format_adds",
    "C71_basic_adds",
    "C71_align_adds",
    "C71_rejected",
    "C71_add_column",
    "C71_plain",
    "C71_compact",
    "C71_blame",
    "C71_grown",
    "C71_cells",
    "C71_grown_refuted"
   ],
   "note": ""
  },
  {
   "property": "C72",
   "status": "proved",
   "theorems": [
    "C72_merge",
    "C72_builtin",
    "C72_align",
    "C72_recorded",
    "C72_own_alignment_refuted"
   ],
   "note": ""
  },
  {
   "property": "C73",
   "status": "proved",
   "theorems": [
    "C73_width",
    "C73_visual",
    "C73_characters",
    "C73_decorated",
    "C73_merge",
    "C73_inside_refuted",
    "C73_alone_refuted",
    "C73_escape_refuted"
   ],
   "note": ""
  },
  {
   "property": "C74",
   "status": "proved",
   "theorems": [
    "C74_repair",
    "C74_runes",
    "C74_valid",
    "C74_runes_only",
    "C74_width",
    "C74_clusters",
    "C74_merge",
    "C74_run_refuted"
   ],
   "note": ""
  },
  {
   "property": "C75",
   "status": "proved",
   "theorems": [
    "C75_clusters",
    "C75_visited",
    "C75_width",
    "C75_merge",
    "C75_half_flags_refuted",
    "C75_zwj_refuted",
    "C75_presentation_refuted"
   ],
   "note": ""
  },
  {
   "property": "C76",
   "status": "proved",
   "theorems": [
    "C76_subadditive",
    "C76_joined",
    "C76_grows",
    "C76_unfinished_refuted",
    "C76_c1_refuted",
    "C76_seam",
    "C76_lines_fit",
    "C76_compact_fit",
    "C76_separator_refuted"
   ],
   "note": ""
  },
  {
   "property": "C77",
   "status": "proved",
   "theorems": [
    "C77_widths",
    "C77_memory",
    "C77_halts",
    "C77_ends",
    "C77_contains",
    "C77_made_before",
    "C77_made_before_text",
    "C77_no_table",
    "C77_no_table_exact",
    "C77_alone",
    "C77_unwritten",
    "C77_torn",
    "C77_one_maker_refuted"
   ],
   "note": ""
  },
  {
   "property": "C78",
   "status": "proved",
   "theorems": [
    "C78_apart",
    "C78_measured",
    "C78_sum",
    "C78_removed",
    "C78_removed_same",
    "C78_kept",
    "C78_bytes",
    "C78_bytes_refuted",
    "C78_across_refuted",
    "C78_mark_refuted"
   ],
   "note": ""
  },
  {
   "property": "C79",
   "status": "proved",
   "theorems": [
    "C79_visual",
    "C79_string_wraps",
    "C79_string",
    "C79_string_refuted",
    "C79_clusters",
    "C79_rune",
    "C79_sequences"
   ],
   "note": ""
  },
  {
   "property": "C80",
   "status": "proved",
   "theorems": [
    "C80_rules",
    "C80_width",
    "C80_order_refuted",
    "C80_branch",
    "C80_branch_refuted",
    "C80_prAny",
    "C80_state",
    "C80_table",
    "C80_groups",
    "C80_lines"
   ],
   "note": ""
  },
  {
   "property": "C81",
   "status": "proved",
   "theorems": [
    "C81_fatal",
    "C81_unchanging",
    "C81_readers",
    "C81_second_pass",
    "C81_alone",
    "C81_one_writer_refuted",
    "C81_got_through"
   ],
   "note": ""
  },
  {
   "property": "C82",
   "status": "proved",
   "theorems": [
    "C82_search",
    "C82_inTable",
    "C82_rune",
    "C82_step",
    "C82_string",
    "C82_searches",
    "C82_cache"
   ],
   "note": ""
  },
  {
   "property": "C83",
   "status": "proved",
   "theorems": [
    "C83_lost",
    "C83_left",
    "C83_right",
    "C83_center",
    "C83_bounds",
    "C83_left_stable",
    "C83_right_stable",
    "C83_center_stable",
    "C83_left_twice",
    "C83_right_twice",
    "C83_center_thrice",
    "C83_center_twice_refuted"
   ],
   "note": ""
  },
  {
   "property": "C84",
   "status": "proved",
   "theorems": [
    "C84_split",
    "C84_one_way",
    "C84_same",
    "C84_byte",
    "C84_fields",
    "C84_csv_refuted",
    "C84_overlap_refuted"
   ],
   "note": ""
  },
  {
   "property": "C85",
   "status": "proved",
   "theorems": [
    "C85_endless",
    "C85_soon",
    "C85_above",
    "C85_fine",
    "C85_odd",
    "C85_length_refuted"
   ],
   "note": ""
  },
  {
   "property": "C86",
   "status": "proved",
   "theorems": [
    "C86_alike",
    "C86_order",
    "C86_shared",
    "C86_rows",
    "C86_nil_refuted",
    "C86_add_refuted",
    "C86_order_refuted"
   ],
   "note": ""
  },
  {
   "property": "C87",
   "status": "proved",
   "theorems": [
    "C87_grow",
    "C87_narrow",
    "C87_middle_refuted",
    "C87_vertical_refuted"
   ],
   "note": ""
  },
  {
   "property": "C88",
   "status": "proved",
   "theorems": [
    "C88_stream",
    "C88_total",
    "C88_page",
    "C88_known",
    "C88_second"
   ],
   "note": ""
  },
  {
   "property": "C89",
   "status": "proved",
   "theorems": [
    "C89_plain",
    "C89_lines",
    "C89_exact",
    "C89_text",
    "C89_same",
    "C89_joining_refuted"
   ],
   "note": ""
  },
  {
   "property": "C90",
   "status": "proved",
   "theorems": [
    "C90_align",
    "C90_format",
    "C90_align_item",
    "C90_merge",
    "C90_zero",
    "C90_exact",
    "C90_read",
    "C90_drifting",
    "C90_straight_refuted"
   ],
   "note": ""
  },
  {
   "property": "C91",
   "status": "proved",
   "theorems": [
    "C91_reordered",
    "C91_cells",
    "C91_fewer",
    "C91_format",
    "C91_more_refuted",
    "C91_panic_refuted"
   ],
   "note": ""
  },
  {
   "property": "C92",
   "status": "proved",
   "theorems": [
    "C92_same",
    "C92_longer",
    "C92_bytes_refuted",
    "C92_wrap_refuted"
   ],
   "note": ""
  },
  {
   "property": "C93",
   "status": "proved",
   "theorems": [
    "C93_returned",
    "C93_goes_on",
    "C93_format",
    "C93_merge",
    "C93_writer",
    "C93_midway",
    "C93_together_refuted"
   ],
   "note": ""
  },
  {
   "property": "C94",
   "status": "proved",
   "theorems": [
    "C94_saves",
    "C94_vertical",
    "C94_root",
    "C94_horizontal_best",
    "C94_vertical_best",
    "C94_missed_refuted"
   ],
   "note": ""
  },
  {
   "property": "C95",
   "status": "proved",
   "theorems": [
    "C95_text",
    "C95_endless",
    "C95_plain",
    "C95_compact",
    "C95_roomy",
    "C95_rows",
    "C95_narrower_refuted",
    "C95_joined_refuted"
   ],
   "note": ""
  },
  {
   "property": "C96",
   "status": "proved",
   "theorems": [
    "C96_exactly",
    "C96_least",
    "C96_enough",
    "C96_larger",
    "C96_rounds",
    "C96_programs",
    "C96_session",
    "C96_saves_refuted"
   ],
   "note": ""
  },
  {
   "property": "C97",
   "status": "proved",
   "theorems": [
    "C97_format",
    "C97_widths",
    "C97_format_table",
    "C97_basic_table",
    "C97_align_spec",
    "C97_kept_refuted",
    "C97_gone",
    "C97_plain",
    "C97_merge_live",
    "C97_align_live",
    "C97_basic_live"
   ],
   "note": ""
  },
  {
   "property": "C98",
   "status": "proved",
   "theorems": [
    "C98_seam",
    "C98_insert",
    "C98_replace",
    "C98_swap",
    "C98_splice",
    "C98_edits",
    "C98_visual",
    "C98_settles",
    "C98_sharp",
    "C98_settles_refuted",
    "C98_escape_refuted"
   ],
   "note": ""
  },
  {
   "property": "C99",
   "status": "proved",
   "theorems": [
    "C99_plain",
    "C99_exact",
    "C99_compact",
    "C99_compact_against_plain",
    "C99_compact_larger_refuted",
    "C99_any_screen",
    "C99_any_screen_vertical_refuted"
   ],
   "note": ""
  },
  {
   "property": "C100",
   "status": "proved",
   "theorems": [
    "C100_plain",
    "C100_one",
    "C100_when",
    "C100_compact",
    "C100_header",
    "C100_unaligned_refuted",
    "C100_longer_refuted"
   ],
   "note": ""
  },
  {
   "property": "C101",
   "status": "proved",
   "theorems": [
    "C101_same",
    "C101_never_moved",
    "C101_plain",
    "C101_compact",
    "C101_plain_total",
    "C101_compact_total",
    "C101_vertical",
    "C101_few_refuted",
    "C101_horizontal_refuted"
   ],
   "note": ""
  },
  {
   "property": "C102",
   "status": "proved",
   "theorems": [
    "C102_one",
    "C102_header",
    "C102_ascii",
    "C102_fits",
    "C102_stays",
    "C102_room_refuted",
    "C102_first_refuted"
   ],
   "note": ""
  },
  {
   "property": "C103",
   "status": "proved",
   "theorems": [
    "C103_said",
    "C103_all",
    "C103_few",
    "C103_one",
    "C103_lines",
    "C103_main_fault",
    "C103_emoji_fault",
    "C103_script",
    "C103_columns",
    "C103_columns_told",
    "C103_broken_refuted",
    "C103_silent_refuted",
    "C103_writing_refuted",
    "C103_prefix_refuted"
   ],
   "note": ""
  },
  {
   "property": "C104",
   "status": "proved",
   "theorems": [
    "C104_merging",
    "C104_round",
    "C104_times",
    "C104_vertical",
    "C104_once_refuted",
    "C104_computed",
    "C104_format",
    "C104_align",
    "C104_header"
   ],
   "note": ""
  },
  {
   "property": "C105",
   "status": "proved",
   "theorems": [
    "C105_made",
    "C105_merge",
    "C105_header",
    "C105_total",
    "C105_align",
    "C105_align_panics",
    "C105_frozen",
    "C105_until"
   ],
   "note": ""
  },
  {
   "property": "C106",
   "status": "proved",
   "theorems": [
    "C106_merge",
    "C106_bare",
    "C106_line_feed",
    "C106_align",
    "C106_only",
    "C106_coloured",
    "C106_leak_refuted"
   ],
   "note": ""
  },
  {
   "property": "C107",
   "status": "proved",
   "theorems": [
    "C107_parts",
    "C107_width",
    "C107_bytes",
    "C107_valid",
    "C107_last",
    "C107_unbounded",
    "C107_inside_refuted",
    "C107_one_by_one_refuted"
   ],
   "note": ""
  },
  {
   "property": "C108",
   "status": "proved",
   "theorems": [
    "C108_runes",
    "C108_counts",
    "C108_rows",
    "C108_merged",
    "C108_same",
    "C108_straight_refuted"
   ],
   "note": ""
  },
  {
   "property": "C109",
   "status": "proved",
   "theorems": [
    "C109_above",
    "C109_number",
    "C109_fits",
    "C109_compact_refuted",
    "C109_empty_refuted"
   ],
   "note": ""
  },
  {
   "property": "C110",
   "status": "proved",
   "theorems": [
    "C110_horizontal",
    "C110_vertical",
    "C110_lines",
    "C110_same",
    "C110_separator_refuted",
    "C110_last_refuted"
   ],
   "note": ""
  },
  {
   "property": "C111",
   "status": "proved",
   "theorems": [
    "C111_place",
    "C111_compact_refuted",
    "C111_bytes_refuted"
   ],
   "note": ""
  },
  {
   "property": "C112",
   "status": "proved",
   "theorems": [
    "C112_seam",
    "C112_append",
    "C112_insert",
    "C112_replace",
    "C112_swap",
    "C112_splice",
    "C112_edits",
    "C112_edits_sharp",
    "C112_front_refuted",
    "C112_inside_refuted"
   ],
   "note": ""
  },
  {
   "property": "C113",
   "status": "proved",
   "theorems": [
    "C113_one",
    "C113_fits",
    "C113_longest",
    "C113_cell",
    "C113_merged",
    "C113_sign",
    "C113_lines",
    "C113_one_column_refuted",
    "C113_bytes_refuted",
    "C113_runes_refuted",
    "C113_dots_refuted",
    "C113_colours_refuted"
   ],
   "note": ""
  },
  {
   "property": "C114",
   "status": "proved",
   "theorems": [
    "C114_one",
    "C114_fits",
    "C114_drawn",
    "C114_after",
    "C114_cell",
    "C114_merged",
    "C114_bare_refuted"
   ],
   "note": ""
  },
  {
   "property": "C115",
   "status": "proved",
   "theorems": [
    "C115_fewest",
    "C115_broken",
    "C115_furthest",
    "C115_wider",
    "C115_parts",
    "C115_enough",
    "C115_narrowest",
    "C115_area_refuted"
   ],
   "note": ""
  }
 ]
}