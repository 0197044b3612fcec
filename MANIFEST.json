{
 "claims": [
  {
   "property": "C01",
   "status": "proved",
   "theorems": [
    "C01_destroyed_storage_is_gone",
    "C01_storage_safe_and_leak_free",
    "C01_copy_of_moved_from_leaks_refuted",
    "C01_load_over_storage_leaks_refuted"
   ],
   "note": ""
  },
  {
   "property": "C02",
   "status": "proved",
   "theorems": [
    "C02_storage_value_semantics"
   ],
   "note": ""
  },
  {
   "property": "C03",
   "status": "proved",
   "theorems": [
    "C03_external_memory",
    "C03_never_releases_wrongly",
    "C03_caller_memory_intact",
    "C03_external_memory_cannot_be_resized",
    "C03_copy_of_proxy_leaks_refuted",
    "C03_assign_own_proxy_dangles_refuted"
   ],
   "note": ""
  },
  {
   "property": "C04",
   "status": "proved",
   "theorems": [
    "C04_fixed_storage",
    "C04_fixed_storage_stepwise",
    "C04_move_then_assign_double_free_refuted",
    "C04_assign_to_proxy_refuted",
    "C04_load_into_proxy_refuted",
    "C04_proxy_size_ignored_refuted",
    "C04_wrong_list_leaks_refuted"
   ],
   "note": ""
  },
  {
   "property": "C05",
   "status": "proved",
   "theorems": [
    "C05_cell_in_bounds_and_unique",
    "C05_lines"
   ],
   "note": ""
  },
  {
   "property": "C06",
   "status": "proved",
   "theorems": [
    "C06_write_changes_one_element",
    "C06_write_seen_through_windows"
   ],
   "note": ""
  },
  {
   "property": "C07",
   "status": "proved",
   "theorems": [
    "C07_getsize",
    "C07_swap_refuted",
    "C07_throwing_resize_refuted",
    "C07_move_exact",
    "C07_swap_exact",
    "C07_throwing_resize_exact",
    "C07_sparse_getsize",
    "C07_zero_resize_refuted"
   ],
   "note": ""
  },
  {
   "property": "C08",
   "status": "proved",
   "theorems": [
    "C08_cursors_visit_rows_and_columns"
   ],
   "note": ""
  },
  {
   "property": "C09",
   "status": "proved",
   "theorems": [
    "C09_window_aliases_region",
    "C09_window_of_window_refuted",
    "C09_window_of_window_exact",
    "C09_fill_empty_window_exact"
   ],
   "note": ""
  },
  {
   "property": "C10",
   "status": "proved",
   "theorems": [
    "C10_striped_iterator",
    "C10_empty_blocks_refuted",
    "C10_empty_ranges_exact"
   ],
   "note": ""
  },
  {
   "property": "C11",
   "status": "proved",
   "theorems": [
    "C11_nested_list",
    "C11_ragged_list_refuted",
    "C11_nested_list_exact"
   ],
   "note": ""
  },
  {
   "property": "C12",
   "status": "proved",
   "theorems": [
    "C12_fillers",
    "C12_sparse_filler_small_nnz_exact",
    "C12_sparse_filler_row_major_exact",
    "C12_sparse_filler",
    "C12_sparse_filler_small_nnz_refuted"
   ],
   "note": ""
  },
  {
   "property": "C13",
   "status": "proved",
   "theorems": [
    "C13_dense_to_dense"
   ],
   "note": ""
  },
  {
   "property": "C14",
   "status": "proved",
   "theorems": [
    "C14_window_to_dense",
    "C14_empty_window_refuted",
    "C14_empty_window_exact"
   ],
   "note": ""
  },
  {
   "property": "C15",
   "status": "proved",
   "theorems": [
    "C15_stale_count_exact",
    "C15_row_major_source_exact",
    "C15_row_to_column_square",
    "C15_dense_sparse_dense",
    "C15_row_major_source_refuted",
    "C15_stale_count_refuted",
    "C15_sparse_to_sparse",
    "C15_row_to_column_sparse_refuted"
   ],
   "note": ""
  },
  {
   "property": "C16",
   "status": "proved",
   "theorems": [
    "C16_sparse_well_formed",
    "C16_operations_total"
   ],
   "note": ""
  },
  {
   "property": "C17",
   "status": "proved",
   "theorems": [
    "C17_transpose"
   ],
   "note": ""
  },
  {
   "property": "C18",
   "status": "proved",
   "theorems": [
    "C18_row_major_square",
    "C18_row_major_not_square_exact",
    "C18_sparse_transpose",
    "C18_no_rows_refuted",
    "C18_row_major_refuted"
   ],
   "note": ""
  },
  {
   "property": "C19",
   "status": "proved",
   "theorems": [
    "C19_any_orientation_exact",
    "C19_dense_plus_minus",
    "C19_dimension_check",
    "C19_dense_compound",
    "C19_dense_compound_self",
    "C19_mixed_orientation_refuted"
   ],
   "note": ""
  },
  {
   "property": "C20",
   "status": "proved",
   "theorems": [
    "C20_row_major_square",
    "C20_row_major_not_square_exact",
    "C20_sparse_plus_minus",
    "C20_represents_sum_difference"
   ],
   "note": ""
  },
  {
   "property": "C21",
   "status": "proved",
   "theorems": [
    "C21_any_orientation_exact",
    "C21_sparse_minus_dense_exact",
    "C21_sparse_minus_dense_negated",
    "C21_mixed_plus_minus",
    "C21_mixed_compound",
    "C21_unsupported_compound_throws",
    "C21_sparse_minus_dense_refuted",
    "C21_row_major_dense_refuted"
   ],
   "note": ""
  },
  {
   "property": "C22",
   "status": "proved",
   "theorems": [
    "C22_zero_of_any_size",
    "C22_zero_neutral",
    "C22_zero_minus_refuted"
   ],
   "note": ""
  },
  {
   "property": "C23",
   "status": "proved",
   "theorems": [
    "C23_two_part_product",
    "C23_two_part_sum",
    "C23_two_part_difference",
    "C23_dense_compound",
    "C23_sparse_or_zero_compound",
    "C23_to_dense",
    "C23_dimension_check",
    "C23_two_part_minus_two_part_refuted",
    "C23_two_part_compound_refuted",
    "C23_empty_two_part_refuted",
    "C23_difference_exact",
    "C23_self_difference_exact",
    "C23_listed_two_part_compound",
    "C23_two_part_compound_exact",
    "C23_float_compound"
   ],
   "note": ""
  },
  {
   "property": "C24",
   "status": "proved",
   "theorems": [
    "C24_any_orientation_exact",
    "C24_row_major_square_exact",
    "C24_foreign_result",
    "C24_dense_product",
    "C24_dense_product_ring",
    "C24_dimension_check",
    "C24_row_major_refuted"
   ],
   "note": ""
  },
  {
   "property": "C25",
   "status": "proved",
   "theorems": [
    "C25_foreign_result",
    "C25_cursor_product"
   ],
   "note": ""
  },
  {
   "property": "C26",
   "status": "proved",
   "theorems": [
    "C26_any_orientation_square_exact",
    "C26_row_major_square_exact",
    "C26_sparse_product",
    "C26_sparse_product_ring"
   ],
   "note": ""
  },
  {
   "property": "C27",
   "status": "proved",
   "theorems": [
    "C27_any_orientation_square_exact",
    "C27_foreign_result",
    "C27_sparse_dense",
    "C27_dense_sparse",
    "C27_mixed_ring"
   ],
   "note": ""
  },
  {
   "property": "C28",
   "status": "proved",
   "theorems": [
    "C28_getsize_exact",
    "C28_zero_products",
    "C28_dimension_check",
    "C28_getsize_refuted"
   ],
   "note": ""
  },
  {
   "property": "C29",
   "status": "proved",
   "theorems": [
    "C29_empty_inner_dimension_exact",
    "C29_foreign_result",
    "C29_gemm",
    "C29_gemm_is_native",
    "C29_mixed_precision",
    "C29_csrmm",
    "C29_empty_inner_dimension_refuted"
   ],
   "note": ""
  },
  {
   "property": "C30",
   "status": "proved",
   "theorems": [
    "C30_blocked_product",
    "C30_no_inner_block_refuted"
   ],
   "note": ""
  },
  {
   "property": "C31",
   "status": "proved",
   "theorems": [
    "C31_dispatch",
    "C31_results_listed",
    "C31_unlisted_type_refuted",
    "C31_static_order_refuted",
    "C31_differences_listed",
    "C31_compounds_listed",
    "C31_member_values"
   ],
   "note": ""
  },
  {
   "property": "C32",
   "status": "proved",
   "theorems": [
    "C32_cut_elementwise",
    "C32_cut_and_reassemble"
   ],
   "note": ""
  },
  {
   "property": "C33",
   "status": "proved",
   "theorems": [
    "C33_first_type",
    "C33_always_typed",
    "C33_zero_limit_refuted",
    "C33_reversed_thresholds",
    "C33_negative_threshold",
    "C33_bad_thresholds_nonvacuous",
    "C33_empty_block_refuted",
    "C33_every_setting",
    "C33_default_settings_total"
   ],
   "note": ""
  },
  {
   "property": "C34",
   "status": "proved",
   "theorems": [
    "C34_conversion_elementwise",
    "C34_loss",
    "C34_sparse_double_drops_refuted",
    "C34_plain_source_double_counts_refuted",
    "C34_nan_becomes_zero",
    "C34_nan_block_is_zero_refuted",
    "C34_insignificant_elements",
    "C34_nan_is_cut_as_zero_refuted",
    "C34_large_elements_kept",
    "C34_default_ieee"
   ],
   "note": ""
  },
  {
   "property": "C35",
   "status": "proved",
   "theorems": [
    "C35_norm_of_current_contents",
    "C35_stale_norm_refuted",
    "C35_any_change_refuted",
    "C35_every_program",
    "C35_complete_output"
   ],
   "note": ""
  },
  {
   "property": "C36",
   "status": "proved",
   "theorems": [
    "C36_count_of_current_contents",
    "C36_stale_count_refuted",
    "C36_any_change_refuted",
    "C36_same_range",
    "C36_ieee",
    "C36_nan_spoils_counts_refuted"
   ],
   "note": ""
  },
  {
   "property": "C37",
   "status": "proved",
   "theorems": [
    "C37_checker_range",
    "C37_adjacent_ranges",
    "C37_ieee",
    "C37_nan_bound_refuted"
   ],
   "note": ""
  },
  {
   "property": "C38",
   "status": "proved",
   "theorems": [
    "C38_checker_order",
    "C38_unlisted_types_refuted",
    "C38_nan_threshold_refuted",
    "C38_ieee"
   ],
   "note": ""
  },
  {
   "property": "C39",
   "status": "proved",
   "theorems": [
    "C39_sizes_tile",
    "C39_product_sizes_tile"
   ],
   "note": ""
  },
  {
   "property": "C40",
   "status": "proved",
   "theorems": [
    "C40_sizes_within_bounds",
    "C40_small_minimum_always_succeeds",
    "C40_uniform_matrices_succeed",
    "C40_only_failure_is_no_candidate",
    "C40_constructor",
    "C40_constructor_wrap_refuted",
    "C40_short_dimension_refuted",
    "C40_peak_at_edge_refuted",
    "C40_constructor_exact",
    "C40_product_every_outcome"
   ],
   "note": ""
  },
  {
   "property": "C41",
   "status": "proved",
   "theorems": [
    "C41_profile_row_major",
    "C41_profile_square_column_major",
    "C41_profile_defined",
    "C41_column_major_refuted",
    "C41_profile_column_major_exact"
   ],
   "note": ""
  },
  {
   "property": "C42",
   "status": "proved",
   "theorems": [
    "C42_norm_through_pointer",
    "C42_blocked_stops",
    "C42_sparse_sum_exact",
    "C42_listed_norm_one_exact",
    "C42_two_sparse_parts_exact",
    "C42_dense_norm_evaluates_in_storage_order",
    "C42_norm_of_one_part",
    "C42_norm_of_window",
    "C42_compact_if_count_matches",
    "C42_converted_matrices_are_compact",
    "C42_representations_agree",
    "C42_norm_of_two_parts",
    "C42_norm_of_blocked",
    "C42_sparse_sum_refuted",
    "C42_two_part_norm_one_refuted"
   ],
   "note": ""
  },
  {
   "property": "C43",
   "status": "proved",
   "theorems": [
    "C43_any_archive",
    "C43_round_trip",
    "C43_sequences",
    "C43_truncated_archive",
    "C43_altered_archive_refuted"
   ],
   "note": ""
  },
  {
   "property": "C44",
   "status": "proved",
   "theorems": [
    "C44_any_file",
    "C44_short_file_exact",
    "C44_accepted_windows",
    "C44_constructed_from_files",
    "C44_construction_rejected",
    "C44_window_of_file",
    "C44_bad_window_rejected",
    "C44_window_of_written_matrix",
    "C44_short_file_refuted",
    "C44_row_major_refuted",
    "C44_offset_wrap_refuted"
   ],
   "note": ""
  },
  {
   "property": "C45",
   "status": "proved",
   "theorems": [
    "C45_default_settings_exact",
    "C45_unwritable_file_exact",
    "C45_picture",
    "C45_one_character_per_element",
    "C45_pixel_unique",
    "C45_default_settings_refuted",
    "C45_unwritable_file_refuted"
   ],
   "note": ""
  },
  {
   "property": "C46",
   "status": "proved",
   "theorems": [
    "C46_names",
    "C46_round_trip",
    "C46_unregistered",
    "C46_last_registration_wins",
    "C46_aliases_refuted",
    "C46_tracker_table",
    "C46_type_positions"
   ],
   "note": ""
  },
  {
   "property": "C47",
   "status": "proved",
   "theorems": [
    "C47_tall_exact",
    "C47_band_matrix",
    "C47_wide_band_matrix",
    "C47_too_wide_refuted",
    "C47_tall_refuted",
    "C47_wide_missing_refuted"
   ],
   "note": ""
  },
  {
   "property": "C48",
   "status": "proved",
   "theorems": [
    "C48_norm_matrix_exact",
    "C48_type_matrix",
    "C48_dimension_matrix",
    "C48_norm_matrix",
    "C48_norm_matrix_refuted",
    "C48_type_counting",
    "C48_uninitialised_counting_refuted"
   ],
   "note": ""
  },
  {
   "property": "C49",
   "status": "proved",
   "theorems": [
    "C49_storage_order_exact",
    "C49_sparse_exact",
    "C49_maximal_deviation",
    "C49_root_mean_square_deviation",
    "C49_orientation_refuted",
    "C49_sparse_refuted",
    "C49_dimensions_refuted"
   ],
   "note": ""
  },
  {
   "property": "C50",
   "status": "proved",
   "theorems": [
    "C50_unknown_type_exact",
    "C50_missing_exact",
    "C50_band_entry",
    "C50_equal_entry",
    "C50_file_entry",
    "C50_malformed_entry",
    "C50_in_order",
    "C50_benchmark_checks",
    "C50_actions",
    "C50_unknown_type_refuted",
    "C50_unknown_action_refuted",
    "C50_missing_refuted"
   ],
   "note": ""
  },
  {
   "property": "C51",
   "status": "proved",
   "theorems": [
    "C51_dense_equal",
    "C51_elements",
    "C51_reflexive",
    "C51_symmetric",
    "C51_nan_refuted",
    "C51_transitive_refuted",
    "C51_orientation_refuted",
    "C51_sparse_equal",
    "C51_sparse_dimensions_refuted",
    "C51_zero_equal",
    "C51_operator_is_identity",
    "C51_copy_operator_refuted",
    "C51_dense_any_orientation_exact",
    "C51_sparse_any_shape_exact",
    "C51_elements_in_reals",
    "C51_itself_exact",
    "C51_chain"
   ],
   "note": ""
  },
  {
   "property": "C52",
   "status": "proved",
   "theorems": [
    "C52_programs",
    "C52_move_construct",
    "C52_move_assign",
    "C52_swap",
    "C52_move_blocked_refuted",
    "C52_move_assign_norm_refuted",
    "C52_swap_size_refuted",
    "C52_swap_norm_refuted",
    "C52_blocked_resize_refuted",
    "C52_self_move_refuted",
    "C52_sparse_swap",
    "C52_sparse_swap_size_refuted",
    "C52_swap_exchanges",
    "C52_norm_is_never_recomputed",
    "C52_moved_from_exact"
   ],
   "note": ""
  },
  {
   "property": "C53",
   "status": "proved",
   "theorems": [
    "C53_pipeline_with_generated_sizes",
    "C53_pipeline"
   ],
   "note": ""
  },
  {
   "property": "C54",
   "status": "proved",
   "theorems": [
    "C54_cuts_at_largest_changes",
    "C54_matrix_cuts",
    "C54_product_cuts",
    "C54_column_major_cuts",
    "C54_square_column_major_cuts"
   ],
   "note": ""
  },
  {
   "property": "C55",
   "status": "proved",
   "theorems": [
    "C55_row_major_exact",
    "C55_write_import",
    "C55_import_rejects_short_files",
    "C55_row_major_refuted"
   ],
   "note": ""
  },
  {
   "property": "C58",
   "status": "proved",
   "theorems": [
    "C58_printed_zero",
    "C58_name_first",
    "C58_unlisted",
    "C58_printed_elements",
    "C58_columns_aligned",
    "C58_full_and_large",
    "C58_printed_sparse",
    "C58_dynamic",
    "C58_pairs_refuted"
   ],
   "note": ""
  },
  {
   "property": "C56",
   "status": "proved",
   "theorems": [
    "C56_border_exact",
    "C56_type_picture",
    "C56_locate",
    "C56_wide_border_refuted"
   ],
   "note": ""
  },
  {
   "property": "C57",
   "status": "proved",
   "theorems": [
    "C57_counts_and_times",
    "C57_report"
   ],
   "note": ""
  },
  {
   "property": "C59",
   "status": "proved",
   "theorems": [
    "C59_reported_error",
    "C59_zero_error_means_equal"
   ],
   "note": ""
  },
  {
   "property": "C60",
   "status": "proved",
   "theorems": [
    "C60_random_matrix",
    "C60_range",
    "C60_reproducible_refuted"
   ],
   "note": ""
  },
  {
   "property": "C61",
   "status": "proved",
   "theorems": [
    "C61_sum",
    "C61_product",
    "C61_blocked_product"
   ],
   "note": ""
  },
  {
   "property": "C62",
   "status": "proved",
   "theorems": [
    "C62_nan_is_multiplied_as_zero_refuted",
    "C62_infinity_is_lost_refuted",
    "C62_no_overflow",
    "C62_moderate_matrices",
    "C62_pipeline_error",
    "C62_default_settings"
   ],
   "note": ""
  },
  {
   "property": "C63",
   "status": "proved",
   "theorems": [
    "C63_block_list",
    "C63_heights_checked",
    "C63_widths_refuted",
    "C63_ragged_refuted",
    "C63_resize_exact"
   ],
   "note": ""
  },
  {
   "property": "C64",
   "status": "proved",
   "theorems": [
    "C64_eigen",
    "C64_blaze",
    "C64_blaze_rejects",
    "C64_dimensions",
    "C64_row_major_refuted",
    "C64_eigen_any_orientation_exact",
    "C64_blaze_any_orientation_exact",
    "C64_row_major_square_exact"
   ],
   "note": ""
  },
  {
   "property": "C65",
   "status": "proved",
   "theorems": [
    "C65_action_result",
    "C65_runs_irrelevant",
    "C65_no_run",
    "C65_exact_product",
    "C65_rounding"
   ],
   "note": ""
  },
  {
   "property": "C66",
   "status": "proved",
   "theorems": [
    "C66_row_and_file",
    "C66_every_run",
    "C66_rejected_settings",
    "C66_complete_table",
    "C66_stops_at_failure",
    "C66_exact_table",
    "C66_one_file_per_action_refuted"
   ],
   "note": ""
  },
  {
   "property": "C67",
   "status": "proved",
   "theorems": [
    "C67_programs",
    "C67_sizes_agree",
    "C67_independent",
    "C67_moved_from_resize_refuted",
    "C67_moved_from_refuted",
    "C67_default_refuted",
    "C67_copy_moved_from_refuted",
    "C67_swap_size_refuted",
    "C67_self_move_refuted"
   ],
   "note": ""
  },
  {
   "property": "C68",
   "status": "proved",
   "theorems": [
    "C68_block_action",
    "C68_small_minimum",
    "C68_bad_limits",
    "C68_no_run",
    "C68_short_dimension_refuted",
    "C68_default_limits_refuted",
    "C68_without_elision_refuted",
    "C68_nan_is_lost_refuted",
    "C68_rounding",
    "C68_rounding_total"
   ],
   "note": ""
  },
  {
   "property": "C71",
   "status": "proved",
   "theorems": [
    "C71_generator",
    "C71_generator_compiles",
    "C71_up_to_date",
    "C71_reference",
    "C71_compiles",
    "C71_names",
    "C71_forwarding",
    "C71_complex_dot",
    "C71_defined",
    "C71_const_is_kept"
   ],
   "note": ""
  },
  {
   "property": "C70",
   "status": "proved",
   "theorems": [
    "C70_file_after_write_exact",
    "C70_interrupted_write_exact",
    "C70_histories",
    "C70_reports",
    "C70_no_overwrite",
    "C70_histories_keep_files",
    "C70_own_file_only",
    "C70_not_atomic_refuted",
    "C70_silent_failure_refuted"
   ],
   "note": ""
  },
  {
   "property": "C69",
   "status": "proved",
   "theorems": [
    "C69_timer",
    "C69_durations",
    "C69_numbers",
    "C69_streams_independent",
    "C69_table",
    "C69_columns",
    "C69_digits_leak_refuted",
    "C69_timer_leaks_refuted"
   ],
   "note": ""
  },
  {
   "property": "C72",
   "status": "proved",
   "theorems": [
    "C72_first_match",
    "C72_first_pair",
    "C72_no_match_reported",
    "C72_no_pair_reported",
    "C72_search_and_table",
    "C72_unlisted_object",
    "C72_release_wrong_type_refuted",
    "C72_print_vector",
    "C72_nonvacuous",
    "C72_cases_exhaustive",
    "C72_search_exact",
    "C72_search_pair_exact",
    "C72_table_exact"
   ],
   "note": ""
  },
  {
   "property": "C73",
   "status": "proved",
   "theorems": [
    "C73_destroyed_window_is_gone",
    "C73_programs",
    "C73_shared_elements",
    "C73_dangling",
    "C73_moved_window_refuted",
    "C73_assignment_rebinds",
    "C73_nonvacuous"
   ],
   "note": ""
  },
  {
   "property": "C74",
   "status": "proved",
   "theorems": [
    "C74_add_value",
    "C74_minus_own_part_exact",
    "C74_programs",
    "C74_handles_valid",
    "C74_reads_preserved",
    "C74_results_fresh",
    "C74_update",
    "C74_only_dense_change",
    "C74_update_value",
    "C74_copy_is_alias",
    "C74_blocked_copy_is_alias",
    "C74_block_is_alias",
    "C74_write",
    "C74_copies_independent_refuted",
    "C74_blocked_copies_independent_refuted",
    "C74_parts_independent_refuted",
    "C74_minus_own_part_refuted"
   ],
   "note": ""
  },
  {
   "property": "C75",
   "status": "proved",
   "theorems": [
    "C75_stack_programs",
    "C75_fixed_sparse_programs",
    "C75_sparse_assignment_refuted",
    "C75_long_list_refuted",
    "C75_equality_refuted",
    "C75_stack_matrix_refuted"
   ],
   "note": ""
  },
  {
   "property": "C76",
   "status": "proved",
   "theorems": [
    "C76_ieee_norm",
    "C76_ieee_occupation",
    "C76_ieee_exclusive",
    "C76_special_elements",
    "C76_share_ieee",
    "C76_occupation_ieee",
    "C76_empty_matrix_refuted",
    "C76_norm_comparisons",
    "C76_occupation_comparisons",
    "C76_comparisons_are_exclusive",
    "C76_stale_comparison_refuted",
    "C76_zero_matrix_agrees",
    "C76_zero_matrix_closed_range_refuted",
    "C76_runtime_typed",
    "C76_two_part_refuted"
   ],
   "note": ""
  },
  {
   "property": "C77",
   "status": "proved",
   "theorems": [
    "C77_special_elements",
    "C77_special_one_part",
    "C77_reported_special",
    "C77_special_blocks",
    "C77_special_two_parts",
    "C77_ieee_norm_rounding",
    "C77_norms_do_not_overflow",
    "C77_overflow_refuted",
    "C77_nan_reported_as_exact_refuted",
    "C77_reported_error_of_actions",
    "C77_norm_of_one_part",
    "C77_norm_of_window",
    "C77_reported_error"
   ],
   "note": ""
  },
  {
   "property": "C78",
   "status": "proved",
   "theorems": [
    "C78_row_major_rectangular",
    "C78_exchanged_dimensions_refuted",
    "C78_row_major_square",
    "C78_col_major_square",
    "C78_row_major_ring",
    "C78_col_major_ring",
    "C78_tall_operands_refuted",
    "C78_well_formed_only_square",
    "C78_col_major_product_refuted"
   ],
   "note": ""
  },
  {
   "property": "C79",
   "status": "proved",
   "theorems": [
    "C79_recorded_counts_ieee",
    "C79_cut_ieee",
    "C79_nan_threshold_refuted",
    "C79_recorded_counts_are_harmless",
    "C79_fresh_source",
    "C79_cut",
    "C79_stale_counts_refuted",
    "C79_stale_counts_overrun_refuted"
   ],
   "note": ""
  },
  {
   "property": "C80",
   "status": "proved",
   "theorems": [
    "C80_field",
    "C80_history",
    "C80_text",
    "C80_dense",
    "C80_dense_single",
    "C80_dense_own_format",
    "C80_dense_default",
    "C80_sparse_stream_format",
    "C80_sparse_fresh_stream",
    "C80_null_pointer",
    "C80_dynamic",
    "C80_two_parts",
    "C80_zero",
    "C80_print_mode",
    "C80_streams_independent",
    "C80_dense_leaves_its_format",
    "C80_print_order_refuted",
    "C80_printing_twice_refuted",
    "C80_signs_refuted"
   ],
   "note": ""
  },
  {
   "property": "C81",
   "status": "proved",
   "theorems": [
    "C81_dense_assignment_refuted",
    "C81_dense_blocked_resize_refuted",
    "C81_sparse_assignment_refuted",
    "C81_sparse_resize_dims_refuted",
    "C81_no_failure",
    "C81_survivable",
    "C81_failed_resize_refuted",
    "C81_failed_assignment_refuted",
    "C81_failed_load_refuted",
    "C81_fixed_storages",
    "C81_dense_constructors",
    "C81_dense_resize_refuted",
    "C81_dense_default_resize_refuted",
    "C81_sparse_constructors",
    "C81_sparse_resize_refuted",
    "C81_unnoticed",
    "C81_dense_unnoticed",
    "C81_sparse_unnoticed"
   ],
   "note": ""
  },
  {
   "property": "C82",
   "status": "proved",
   "theorems": [
    "C82_own_storages",
    "C82_order_invisible"
   ],
   "note": ""
  },
  {
   "property": "C83",
   "status": "proved",
   "theorems": [
    "C83_race_exact",
    "C83_ieee_answers",
    "C83_ieee_races",
    "C83_shared_answers",
    "C83_race_iff",
    "C83_const_matrix_race_refuted"
   ],
   "note": ""
  },
  {
   "property": "C84",
   "status": "proved",
   "theorems": [
    "C84_bounds",
    "C84_exact_alone",
    "C84_race_iff",
    "C84_lost_counts_refuted"
   ],
   "note": ""
  }
 ]
}