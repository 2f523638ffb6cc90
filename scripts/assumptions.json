[
 [
  [],
  [
   "C01_common_events",
   "C01_negative_event_refuted",
   "C01_empty_second_array_refuted",
   "C02_max_events",
   "C02_empty_array_refuted",
   "C03_in1d_events",
   "C05_event_pairs",
   "C05_event_pairs_meaning",
   "C05_multiplicity",
   "C06_map_cluster",
   "C06_no_cluster_lost",
   "C06_surplus_clusters_dropped",
   "C04_hist_1d",
   "C04_hist_2d",
   "C04_hist_3d",
   "C04_large_index_refuted",
   "C07_aligned_chunks",
   "C07_whole_table",
   "C07_resume",
   "C07_error_after_range_refuted",
   "C07_indexed_refuted",
   "C07_missing_start_reported_partial",
   "C07_missing_event_refuted",
   "C08_chunk_size_independent",
   "C10_interleave",
   "C10_injective",
   "C10_round_trip",
   "C10_decode_encode",
   "C10_decode_low_bits",
   "C10_large_coordinate_refuted",
   "C11_cluster_shape",
   "C11_translation_invariant",
   "C11_shape_determines_cluster",
   "C12_popcount",
   "C12_above_32_bit_refuted",
   "C49_array_of_shape",
   "C49_shape_of_array",
   "C13_merge_cluster_data",
   "C13_clusters_once",
   "C13_chunk_size_independent",
   "C13_clusters_behind_dut0_lost_refuted",
   "C14_masking",
   "C14_iteration",
   "C14_more_iterations_mask_more",
   "C15_smc_order",
   "C15_smc_table",
   "C15_smc_empty_table_refuted",
   "C16_smc_bounded",
   "C16_smc_completes",
   "C16_smc_can_complete",
   "C17_smc_one_core_hangs",
   "C17_smc_returned",
   "C17_smc_silent_refuted",
   "C17_smc_blocked_refuted",
   "C18_histogram_sum",
   "C18_histogram2_sum",
   "C18_histogram2_refuted",
   "C19_combined",
   "C19_events_apart",
   "C19_empty_table_refuted",
   "C19_first_table_empty_refuted",
   "C20_max_events",
   "C23_hits_permuted",
   "C23_closest_hit",
   "C24_columns_follow_their_dut",
   "C24_hit_flag",
   "C24_eleven_duts_refuted",
   "C23_prediction",
   "C23_ideal_tracks",
   "C25_isolation",
   "C25_symmetric",
   "C26_each_dut_once",
   "C26_own_configuration",
   "C26_repeated_fit_duts_refuted",
   "C52_stored_tracks",
   "C52_excluded_dut_does_not_count",
   "C53_parallel_fit",
   "C53_even_slices",
   "C33_round_trip",
   "C33_keep_others",
   "C33_load_adds",
   "C33_iteration",
   "C33_load_refuted",
   "C33_empty_file_refuted",
   "C33_user_class_refuted",
   "C36_no_hit",
   "C36_covariance",
   "C36_chi2",
   "C36_chi2_positive",
   "C36_least_squares",
   "C36_invariant",
   "C36_forward_fit",
   "C36_backward_fit",
   "C36_unique_best",
   "C36_smoothed_chi2",
   "C57_states",
   "C57_smoothed",
   "C58_mean",
   "C58_unused",
   "C58_ends",
   "C58_counted_twice",
   "C58_refuted",
   "C37_fixed",
   "C37_steady",
   "C37_no_exception",
   "C37_unselected",
   "C37_aligned",
   "C37_total",
   "C59_best",
   "C60_counts",
   "C60_max_tracks",
   "C60_saved",
   "C60_no_hit",
   "C60_parameters",
   "C60_saved_refuted",
   "C60_max_tracks_refuted",
   "C60_no_hit_refuted",
   "C60_parameters_refuted",
   "C39_one_point_refuted",
   "C41_chunks",
   "C41_no_rows",
   "C41_translation",
   "C41_succeeds",
   "C41_single",
   "C41_no_chunks",
   "C41_rotation",
   "C41_rotation_refuted",
   "C46_pymosa",
   "C46_fei4",
   "C46_chunk_size",
   "C46_ordered",
   "C46_planes_refuted",
   "C70_least_squares",
   "C71_rotation",
   "C71_translation_fixed",
   "C71_rotation_fixed",
   "C71_aligned",
   "C71_converged",
   "C71_not_before",
   "C71_parallel",
   "C71_few_tracks",
   "C71_no_tracks",
   "C71_angles_refuted",
   "C72_slope",
   "C72_succeeds",
   "C72_optimal",
   "C72_exact",
   "C72_unique",
   "C75_events",
   "C75_defined",
   "C75_divisible",
   "C75_more_events_refuted",
   "C76_shuffle",
   "C82_exact",
   "C82_close",
   "C82_files",
   "C82_required",
   "C82_reflexive",
   "C82_extra_rows_refuted",
   "C82_empty_refuted",
   "C82_strings_refuted",
   "C82_symmetry_refuted",
   "C83_calls",
   "C83_all",
   "C83_number",
   "C86_last_plane",
   "C86_other_planes",
   "C88_output_refuted",
   "C89_size",
   "C89_empty_chunk",
   "C89_shape",
   "C89_last_shape",
   "C89_pattern",
   "C89_counted",
   "C89_square_refuted",
   "C96_nearest",
   "C96_unchanged",
   "C96_any_svd",
   "C96_chunk",
   "C97_distinct",
   "C97_apart",
   "C97_displacement",
   "C97_electrodes",
   "C97_limits",
   "C97_round_trip",
   "C97_inverse_refuted",
   "C97_even_refuted",
   "C97_cluster_refuted",
   "C98_warning",
   "C98_recorded",
   "C98_last",
   "C98_complete",
   "C98_cut_refuted",
   "C98_only_passed",
   "C98_date_refuted",
   "C98_defaults_refuted",
   "C73_rows",
   "C73_succeeds",
   "C73_keep_data",
   "C74_chi2",
   "C74_zero",
   "C73_quality_bound",
   "C73_missing_hit",
   "C73_larger_distance_refuted",
   "C103_chunks",
   "C103_pass",
   "C103_cut",
   "C103_tables",
   "C103_group",
   "C103_success",
   "C103_track_chi2_refuted",
   "C103_exclude_refuted",
   "C103_min_hits",
   "C103_arguments",
   "C103_one_pass",
   "C103_passes",
   "C102_counts",
   "C102_size_refuted",
   "C102_mask_refuted",
   "C102_no_match_refuted",
   "C102_outside_refuted",
   "C102_shape",
   "C104_diagonal_refuted",
   "C104_most_probable",
   "C87_duts",
   "C87_paired",
   "C87_only_sorted",
   "C87_succeeds",
   "C87_range_refuted",
   "C87_order_refuted",
   "C106_region",
   "C106_dut",
   "C106_chunks",
   "C107_output",
   "C107_fitting",
   "C107_interrupted",
   "C107_interrupted_refuted",
   "C107_select",
   "C107_names",
   "C107_in_place",
   "C107_new_file",
   "C107_same_file_refuted",
   "C107_reuse_refuted",
   "C108_names",
   "C108_selection",
   "C108_exponent_refuted",
   "C108_inner_digit_refuted",
   "C09_event_range_sorted",
   "C09_event_range_unsorted",
   "C09_event_zero_refuted",
   "C09_start_behind_data_refuted",
   "C50_find_closest",
   "C50_single_element",
   "C50_unsigned_refuted",
   "C43_in1d_index",
   "C43_fill_invalid",
   "C43_empty_second_array_refuted",
   "C44_unique_column",
   "C44_count_unique_neighbors",
   "C44_negative_values",
   "C44_negative_refuted",
   "C44_cell_itself_counted",
   "C45_mean_is_weighted",
   "C45_statistics_of_data",
   "C51_quantiles",
   "C51_upper_limit_one_refuted",
   "C48_node_names",
   "C48_table_names",
   "C111_nearest",
   "C111_nan",
   "C111_mask_refuted",
   "C112_bars",
   "C112_totals",
   "C113_shown",
   "C113_clusters",
   "C113_chunk_refuted",
   "C113_empty_refuted",
   "C113_last_bin_refuted",
   "C07_indexed",
   "C07_missing_start_unreported",
   "C42_correlate",
   "C42_exact",
   "C42_overflow_refuted",
   "C42_outside_refuted",
   "C61_range",
   "C61_chunks",
   "C61_chunks_refuted",
   "C116_select_duts",
   "C116_as_asked",
   "C116_accepted",
   "C116_fits",
   "C116_storable",
   "C116_duplicates_refuted",
   "C116_kalman_refuted",
   "C116_defaults",
   "C116_excluded",
   "C116_excluded_two",
   "C116_changed_list",
   "C116_reused_list_refuted",
   "C117_resolutions",
   "C117_shared",
   "C117_accepted",
   "C117_shared_refuted",
   "C117_reused_refuted",
   "C117_tuple_refuted",
   "C117_tuple_of_tuples_refuted",
   "C117_names",
   "C118_as_asked",
   "C118_accepted",
   "C118_satisfiable",
   "C118_no_selection",
   "C118_empty_refuted",
   "C118_repeated_dut_refuted",
   "C119_cluster_of_indices",
   "C119_end_of_event",
   "C119_masks",
   "C119_converted",
   "C119_given_positions",
   "C119_copied_twice",
   "C119_other_true_refuted",
   "C120_index_refuted",
   "C120_pairs",
   "C122_median",
   "C122_pixels",
   "C122_nodes",
   "C122_disabled_refuted",
   "C77_pixels",
   "C77_last_column",
   "C77_seed",
   "C77_charge",
   "C77_no_diffusion",
   "C77_double_charge_refuted",
   "C77_last_column_refuted",
   "C77_loss_refuted",
   "C78_pixel",
   "C78_pixel_unique",
   "C78_border",
   "C78_efficiency",
   "C78_hits",
   "C78_table",
   "C78_negative_charge_refuted",
   "C79_n_duts",
   "C79_more_duts_refuted",
   "C123_accepted",
   "C123_parameters",
   "C123_free_entries",
   "C123_caller_list",
   "C123_caller_list_refuted",
   "C113_pictures",
   "C124_error",
   "C124_equal",
   "C124_equivalence",
   "C124_order",
   "C124_hidden_refuted",
   "C124_types_refuted",
   "C93_select_duts",
   "C93_none_refuted",
   "C93_hit_duts",
   "C93_single_dut_refuted",
   "C93_fit_duts",
   "C93_chi2",
   "C93_shapes",
   "C93_group_shapes",
   "C93_number",
   "C93_distances",
   "C93_parameters",
   "C93_query",
   "C93_telescope_none_refuted",
   "C93_quality_none_refuted",
   "C93_steps",
   "C93_queries",
   "C93_files",
   "C93_reads",
   "C93_telescope",
   "C93_configuration",
   "C93_name_refuted",
   "C93_name",
   "C20_max_events",
   "C20_single_chunk",
   "C20_no_limit",
   "C20_keeps_all_refuted",
   "C21_python_integers_refuted",
   "C22_select_tracks",
   "C22_summary",
   "C22_summary_converse",
   "C22_query_only_refuted",
   "C133_shares",
   "C133_exists",
   "C133_pages",
   "C133_made",
   "C133_last_refuted",
   "C133_title_refuted",
   "C135_reduced",
   "C135_other_refuted",
   "C68_call",
   "C134_columns",
   "C134_reason",
   "C134_decision",
   "C134_messages",
   "C134_close_refuted",
   "C134_infinite_refuted",
   "C134_strings_refuted",
   "C134_arrays",
   "C140_residuals",
   "C140_largest_refuted",
   "C140_charges",
   "C144_accepted",
   "C144_set",
   "C144_single",
   "C144_empty_refuted",
   "C149_bars",
   "C151_stored",
   "C151_untouched",
   "C151_compared",
   "C151_round_trip",
   "C151_exceptions",
   "C151_number_refuted",
   "C151_erased_refuted",
   "C151_order_refuted",
   "C151_nan_to_num",
   "C145_loaded",
   "C145_empty",
   "C145_dict_refuted",
   "C145_missing_refuted",
   "C145_pairs_refuted",
   "C145_rejected",
   "C145_sequence",
   "C145_lines",
   "C154_sensor",
   "C154_empty_refuted",
   "C154_region",
   "C154_equal",
   "C155_drawn",
   "C155_only",
   "C155_number",
   "C155_omitted",
   "C155_between_refuted",
   "C152_splitext",
   "C152_output",
   "C152_kept",
   "C152_chain",
   "C152_inputs",
   "C152_steps",
   "C152_same_output_refuted",
   "C152_beside",
   "C152_beside_refuted",
   "C152_fit_tracks",
   "C152_spelling",
   "C152_beside_distinct",
   "C152_combined",
   "C152_combined_refuted",
   "C156_labels",
   "C156_headings",
   "C156_missing",
   "C156_overlap_refuted",
   "C153_planes",
   "C153_given",
   "C153_first",
   "C153_process",
   "C153_lowest_index_refuted",
   "C153_number",
   "C159_limits",
   "C159_same_refuted",
   "C159_projection_refuted",
   "C159_projection"
  ]
 ],
 [
  [
   "ClassicalDedekindReals.sig_forall_dec",
   "ClassicalDedekindReals.sig_not_dec",
   "FunctionalExtensionality.functional_extensionality_dep"
  ],
  [
   "C27_proper_rotation",
   "C27_axes",
   "C27_order",
   "C27_transformations_inverse",
   "C27_round_trip",
   "C27_sensor_round_trip",
   "C27_off_plane_error",
   "C27_isometry",
   "C28_sensor",
   "C28_parallel_error",
   "C31_global_round_trip",
   "C34_same_track",
   "C34_on_plane",
   "C34_unique",
   "C34_composition",
   "C34_identity",
   "C34_back_and_forth",
   "C35_composition",
   "C39_intercept",
   "C39_line_model",
   "C39_find_inliers_near",
   "C39_find_inliers_refuted",
   "C39_ransac",
   "C39_ransac_fails",
   "C39_two_points_refuted",
   "C39_ratio_bound",
   "C56_frame",
   "C56_covariance",
   "C62_in_range",
   "C62_edge_refuted",
   "C63_nearest",
   "C63_thetas",
   "C63_votes",
   "C63_all_votes",
   "C63_straight_line",
   "C63_selection",
   "C63_no_correlation",
   "C64_line",
   "C69_histogram",
   "C69_chunking_refuted",
   "C81_seed",
   "C81_defined",
   "C81_direction",
   "C84_scattering_planes_refuted",
   "C84_success",
   "C86_momentum",
   "C89_index_error",
   "C89_errors_consistent",
   "C94_symmetric",
   "C100_no_diffusion_refuted",
   "C95_rms",
   "C95_binned",
   "C95_single_bin",
   "C95_uniform_refuted",
   "C95_line",
   "C95_means",
   "C99_tracks",
   "C99_resample",
   "C99_errors",
   "C99_y_refuted",
   "C99_redraw_refuted",
   "C106_small_chunks",
   "C48_applied",
   "C48_round_trip",
   "C48_off_plane_error",
   "C48_errors",
   "C48_errors_refuted",
   "C48_eleven_duts_refuted",
   "C47_proper",
   "C47_no_correction",
   "C47_rigid",
   "C47_single_axis",
   "C120_bounded",
   "C120_linear",
   "C120_weight_refuted",
   "C122_corners_refuted",
   "C122_sparse_refuted",
   "C122_fraction",
   "C123_tracks",
   "C123_unique",
   "C123_error",
   "C123_total",
   "C123_chunks",
   "C123_distance",
   "C123_no_limits",
   "C115_order",
   "C115_positions",
   "C115_fails",
   "C115_no_extrapolation",
   "C115_extrapolation",
   "C115_own_hit",
   "C115_beam_offset",
   "C115_beam_refuted",
   "C131_ends",
   "C131_covers",
   "C131_line_refuted",
   "C131_planes",
   "C131_page",
   "C131_chunk_size",
   "C131_succeeds",
   "C128_file",
   "C128_no_cluster",
   "C128_chunk_size",
   "C128_errors",
   "C128_extents_refuted",
   "C68_histograms",
   "C68_purity",
   "C68_centre_refuted",
   "C68_cut_refuted",
   "C68_returns_refuted",
   "C141_accumulator",
   "C141_one_bin",
   "C141_mirrored_refuted",
   "C141_data",
   "C146_dut",
   "C146_regions",
   "C146_edges_refuted",
   "C146_pages",
   "C146_second_refuted",
   "C146_one_bin_refuted",
   "C146_empty_region_refuted",
   "C143_pages",
   "C143_residuals",
   "C143_curve",
   "C143_box",
   "C143_one_refuted",
   "C143_single_refuted",
   "C143_image",
   "C143_points",
   "C157_planes",
   "C157_negative",
   "C157_diagonal",
   "C157_covariances_refuted"
  ]
 ],
 [
  [
   "ClassicalDedekindReals.sig_forall_dec",
   "FunctionalExtensionality.functional_extensionality_dep"
  ],
  [
   "C28_plane",
   "C54_skew",
   "C54_plane_normal",
   "C31_index_round_trip",
   "C31_position_round_trip",
   "C31_out_of_range",
   "C31_pixel_area",
   "C31_extent",
   "C32_primitive_cell",
   "C32_periodic",
   "C32_centre",
   "C32_double_column",
   "C32_odd_columns_refuted",
   "C39_find_inliers",
   "C40_running",
   "C40_chunking",
   "C40_counts",
   "C40_bins",
   "C40_first_chunk",
   "C40_residuals",
   "C40_range_refuted",
   "C40_single_position",
   "C64_slope_error",
   "C64_range",
   "C64_reference_refuted",
   "C64_new_limits",
   "C64_narrower",
   "C64_limits_refuted",
   "C84_chi2",
   "C84_chi2_fit_duts",
   "C88_round_trip",
   "C88_succeeds",
   "C88_truncated",
   "C88_pixel_refuted",
   "C88_out_of_range",
   "C90_peak",
   "C90_peak_inside",
   "C90_border_refuted",
   "C90_range",
   "C90_default_range",
   "C90_histogram",
   "C90_first_chunk_refuted",
   "C90_bins",
   "C92_start",
   "C92_direction",
   "C92_affine",
   "C92_triangles",
   "C92_chord",
   "C92_rectangle",
   "C92_small",
   "C92_pixel_sizes",
   "C95_mean",
   "C95_median",
   "C95_limits",
   "C95_outside_refuted",
   "C95_threshold",
   "C105_start",
   "C91_reflection",
   "C91_inside",
   "C91_no_image",
   "C91_selected",
   "C91_bounded",
   "C91_assigned",
   "C91_all_assigned",
   "C91_counts",
   "C91_mask",
   "C91_border_refuted",
   "C65_counts",
   "C65_chunking",
   "C65_succeeds",
   "C65_first_chunk_refuted",
   "C65_efficiency",
   "C65_edges",
   "C65_previous_dut_refuted",
   "C66_within",
   "C66_shape",
   "C66_no_cut",
   "C66_monotone",
   "C66_monotone_refuted",
   "C67_region",
   "C67_empty_chunk_refuted",
   "C67_border_refuted",
   "C102_window",
   "C104_counts",
   "C104_range",
   "C104_total",
   "C104_size",
   "C104_chunks",
   "C104_efficiency",
   "C104_hits",
   "C104_hits_skipped",
   "C104_shapes",
   "C104_extended",
   "C104_extent",
   "C104_size_refuted",
   "C104_edge_refuted",
   "C104_hits_refuted",
   "C104_extension_refuted",
   "C106_charge",
   "C106_mean_charge",
   "C106_cluster_size",
   "C106_cluster_size_refuted",
   "C110_groups",
   "C110_end_refuted",
   "C110_below_refuted",
   "C110_all",
   "C119_cluster_of_positions",
   "C120_valid",
   "C120_binned",
   "C120_limit_refuted",
   "C125_nodes",
   "C125_chunking",
   "C125_projection",
   "C125_file",
   "C125_limits_refuted",
   "C121_accepted",
   "C121_events",
   "C121_zero_refuted",
   "C121_clusters_refuted",
   "C121_mean_positions",
   "C121_message_refuted",
   "C121_bins",
   "C121_border_refuted",
   "C126_success",
   "C126_read",
   "C126_only",
   "C126_percentages",
   "C126_zero_refuted",
   "C126_mask_refuted",
   "C126_pixel_refuted",
   "C129_density",
   "C129_charge",
   "C129_chunk_size",
   "C129_centre",
   "C129_axis",
   "C129_empty",
   "C129_axis_refuted",
   "C129_empty_refuted",
   "C130_pages",
   "C130_area",
   "C130_chunk_size",
   "C130_range_refuted",
   "C130_name_refuted",
   "C130_empty_refuted",
   "C132_pages",
   "C132_marks",
   "C132_shown",
   "C132_sums",
   "C135_file",
   "C135_unselected",
   "C135_twice_refuted",
   "C135_selected_refuted",
   "C135_pages",
   "C135_drawn",
   "C68_truncated_refuted",
   "C68_bins",
   "file_ok",
   "C137_file",
   "C137_pages",
   "C137_drawn",
   "C137_zero_refuted",
   "C142_maps",
   "C142_chunks",
   "C142_axis_refuted",
   "C142_zero_refuted",
   "C147_mean",
   "C147_near",
   "C147_nan_refuted",
   "C147_fixed_refuted",
   "C148_dut",
   "C148_efficient",
   "C148_region",
   "C148_region_refuted",
   "C149_density",
   "C149_shares",
   "C149_diagonal_refuted",
   "C150_pixels",
   "C150_open_refuted",
   "C150_colours",
   "C150_dead_pixels",
   "C150_limit",
   "C139_chunks",
   "C139_file",
   "C139_no_tracks",
   "C139_complete",
   "C139_failed_fit_refuted",
   "C139_last_refuted",
   "C138_same_colour_refuted",
   "C158_peak",
   "C158_errors",
   "C158_scale",
   "C158_background_refuted"
  ]
 ],
 [
  [
   "ClassicalDedekindReals.sig_forall_dec",
   "ClassicalDedekindReals.sig_not_dec",
   "Classical_Prop.classic",
   "FunctionalExtensionality.functional_extensionality_dep"
  ],
  [
   "C29_rebuilds",
   "C29_recovers",
   "C29_refuses",
   "C29_gimbal_lock_refuted",
   "C29_reflection_refuted",
   "C30_round_trip",
   "C30_round_trip_back",
   "C30_refuted",
   "C35_derivative",
   "C38_annealing",
   "C38_geometric",
   "C55_derivative",
   "C55_same_axis",
   "C55_translation",
   "C55_unrotated",
   "C55_about_beam",
   "C55_refuted",
   "C55_quarter_turn_refuted",
   "C56_derivative",
   "C64_placement",
   "C64_aligned",
   "C64_exact",
   "C69_angles",
   "C69_scale",
   "C69_rotation",
   "C69_global",
   "C69_reversed_refuted",
   "C80_beam",
   "C80_collinear",
   "C80_succeeds",
   "C80_rotation",
   "C80_beam_rotation",
   "C80_one_dut_refuted",
   "C84_succeeds",
   "C84_material",
   "C85_first",
   "C85_second",
   "C85_position",
   "C85_order_refuted",
   "C86_monotone",
   "C86_momentum_dependence",
   "C86_inclination",
   "C94_convolution",
   "C94_decreasing",
   "C94_positive",
   "C94_half_maximum",
   "C100_integral",
   "C100_range",
   "C100_sum",
   "C100_total",
   "C100_nearer",
   "C100_abort",
   "C100_loss_refuted",
   "C99_flight",
   "C99_shape",
   "C99_straight",
   "C99_success",
   "C99_axis",
   "C99_inclined_refuted",
   "C99_sigma",
   "C99_small_budget_refuted",
   "C105_density",
   "C105_mode",
   "C105_expectation",
   "C105_interval",
   "C105_limits",
   "C105_errors",
   "C105_mirror",
   "C105_width",
   "C105_impossible",
   "C104_bins_double",
   "C104_bins_refuted",
   "C109_close",
   "C109_default",
   "C109_extended",
   "C109_whole",
   "C109_no_carry",
   "C109_fewer_refuted",
   "C109_more_refuted",
   "C114_range",
   "C114_whole",
   "C114_six",
   "C114_odd_refuted",
   "C114_fewer_refuted",
   "C114_limits",
   "C127_success",
   "C127_file",
   "C127_empty",
   "C127_order",
   "C127_empty_refuted",
   "C136_pages",
   "C136_unknown_refuted",
   "C101_round_trip",
   "C101_nearest",
   "C101_outside",
   "C101_exact",
   "C101_mimosa_refuted"
  ]
 ],
 [
  [
   "ClassicalDedekindReals.sig_forall_dec"
  ],
  [
   "C120_never_processed_refuted",
   "C139_pages",
   "C139_changes",
   "effective_ok",
   "colours_ok",
   "C138_effective",
   "C138_colours",
   "C138_markers",
   "C138_marker_refuted",
   "C138_pixel_hits_refuted",
   "C138_figures"
  ]
 ]
]