{
 "claims": [
  {
   "property": "C01",
   "status": "proved",
   "theorems": [
    "C01_common_events",
    "C01_negative_event_refuted",
    "C01_empty_second_array_refuted"
   ],
   "note": "Proved for sorted arrays of non-negative event numbers with a non-empty second array; the two refuted theorems show both hypotheses are needed."
  },
  {
   "property": "C02",
   "status": "proved",
   "theorems": [
    "C02_max_events",
    "C02_empty_array_refuted"
   ],
   "note": "Proved for sorted non-empty arrays."
  },
  {
   "property": "C03",
   "status": "proved",
   "theorems": [
    "C03_in1d_events"
   ],
   "note": "All sorted inputs."
  },
  {
   "property": "C04",
   "status": "proved",
   "theorems": [
    "C04_hist_1d",
    "C04_hist_2d",
    "C04_hist_3d",
    "C04_large_index_refuted"
   ],
   "note": "Counts equal the number of matching inputs modulo 2^32; input whose index exceeds 2^32 aliases a valid bin (refuted theorem)."
  },
  {
   "property": "C05",
   "status": "proved",
   "theorems": [
    "C05_event_pairs",
    "C05_event_pairs_meaning",
    "C05_multiplicity"
   ],
   "note": "Cartesian product per event, in order."
  },
  {
   "property": "C06",
   "status": "proved",
   "theorems": [
    "C06_map_cluster",
    "C06_no_cluster_lost",
    "C06_surplus_clusters_dropped"
   ],
   "note": ""
  },
  {
   "property": "C07",
   "status": "proved",
   "theorems": [
    "C07_aligned_chunks",
    "C07_whole_table",
    "C07_resume",
    "C07_error_after_range_refuted",
    "C07_indexed_refuted",
    "C07_missing_start_reported_partial",
    "C07_missing_event_refuted",
    "C07_indexed",
    "C07_missing_start_unreported"
   ],
   "note": "Every parameter combination without the event-number column index; refuted theorems record a spurious ValueError behind the range and the lost last event with try_speedup."
  },
  {
   "property": "C08",
   "status": "proved",
   "theorems": [
    "C08_chunk_size_independent"
   ],
   "note": "For every event-local per-chunk function and associative combination."
  },
  {
   "property": "C09",
   "status": "proved",
   "theorems": [
    "C09_event_range_sorted",
    "C09_event_range_unsorted",
    "C09_event_zero_refuted",
    "C09_start_behind_data_refuted"
   ],
   "note": ""
  },
  {
   "property": "C10",
   "status": "proved",
   "theorems": [
    "C10_interleave",
    "C10_injective",
    "C10_round_trip",
    "C10_decode_encode",
    "C10_decode_low_bits",
    "C10_large_coordinate_refuted"
   ],
   "note": "morton_1 keeps garbage in bits 32..47 when the coordinate has 17 bits or more"
  },
  {
   "property": "C100",
   "status": "proved",
   "theorems": [
    "C100_integral",
    "C100_range",
    "C100_sum",
    "C100_total",
    "C100_nearer",
    "C100_abort",
    "C100_no_diffusion_refuted",
    "C100_loss_refuted"
   ],
   "note": "real numbers; erf is the integral which defines it (its bound and limit, hence the integral of Gauss, are proved in ErfProofs.v)"
  },
  {
   "property": "C101",
   "status": "proved",
   "theorems": [
    "C101_round_trip",
    "C101_nearest",
    "C101_exact",
    "C101_mimosa_refuted",
    "C101_outside"
   ],
   "note": "rounding to nearest even of every operation with Flocq; no overflow; one axis"
  },
  {
   "property": "C102",
   "status": "proved",
   "theorems": [
    "C102_counts",
    "C102_window",
    "C102_shape",
    "C102_size_refuted",
    "C102_mask_refuted",
    "C102_no_match_refuted",
    "C102_outside_refuted"
   ],
   "note": "bin numbers and nearest pixels are given; cluster IDs below 2^32"
  },
  {
   "property": "C103",
   "status": "proved",
   "theorems": [
    "C103_chunks",
    "C103_pass",
    "C103_cut",
    "C103_tables",
    "C103_group",
    "C103_success",
    "C103_track_chi2_refuted",
    "C103_exclude_refuted",
    "C103_min_hits",
    "C103_arguments",
    "C103_one_pass",
    "C103_passes"
   ],
   "note": "The initial alignment, the fit of a track and the update are parameters; AlignKalmanModel and FitKalmanModel model them."
  },
  {
   "property": "C104",
   "status": "proved",
   "theorems": [
    "C104_counts",
    "C104_total",
    "C104_range",
    "C104_size",
    "C104_size_refuted",
    "C104_chunks",
    "C104_edge_refuted",
    "C104_efficiency",
    "C104_hits",
    "C104_hits_skipped",
    "C104_hits_refuted",
    "C104_shapes",
    "C104_diagonal_refuted",
    "C104_most_probable",
    "C104_extended",
    "C104_extent",
    "C104_extension_refuted",
    "C104_bins_double",
    "C104_bins_refuted"
   ],
   "note": "exact arithmetic except for the number of bins; one region; the averaged quantities use the running mean of C40; extensions larger than the map are not modelled"
  },
  {
   "property": "C105",
   "status": "proved",
   "theorems": [
    "C105_density",
    "C105_mode",
    "C105_expectation",
    "C105_interval",
    "C105_limits",
    "C105_errors",
    "C105_mirror",
    "C105_width",
    "C105_impossible",
    "C105_start"
   ],
   "note": "exact arithmetic; scipy's minimize is assumed to return the solution of its problem (its convergence is not modelled)"
  },
  {
   "property": "C106",
   "status": "proved",
   "theorems": [
    "C106_region",
    "C106_dut",
    "C106_chunks",
    "C106_charge",
    "C106_mean_charge",
    "C106_cluster_size",
    "C106_cluster_size_refuted",
    "C106_small_chunks"
   ],
   "note": "EffDistModel; charge, frame, size and angle are given functions of the track. False: that clusters of 8 and 9 pixels are in different bins (refuted)."
  },
  {
   "property": "C107",
   "status": "proved",
   "theorems": [
    "C107_output",
    "C107_fitting",
    "C107_interrupted",
    "C107_interrupted_refuted",
    "C107_select",
    "C107_names",
    "C107_in_place",
    "C107_new_file",
    "C107_same_file_refuted",
    "C107_reuse_refuted"
   ],
   "note": "Nodes of the root group; threads are in C15-C17."
  },
  {
   "property": "C108",
   "status": "proved",
   "theorems": [
    "C108_names",
    "C108_selection",
    "C108_exponent_refuted",
    "C108_inner_digit_refuted"
   ],
   "note": "The evaluation by numexpr is a given function."
  },
  {
   "property": "C109",
   "status": "proved",
   "theorems": [
    "C109_close",
    "C109_default",
    "C109_extended",
    "C109_whole",
    "C109_no_carry",
    "C109_fewer_refuted",
    "C109_more_refuted"
   ],
   "note": "one axis, rectangular pixels; doubles without overflow; resolutions and pitches of at least 2^-100, up to 2^40 bins"
  },
  {
   "property": "C11",
   "status": "proved",
   "theorems": [
    "C11_cluster_shape",
    "C11_translation_invariant",
    "C11_shape_determines_cluster"
   ],
   "note": "the part of the clusterizer callback that computes shape and extent; pixel_clusterizer itself is an external package"
  },
  {
   "property": "C110",
   "status": "proved",
   "theorems": [
    "C110_groups",
    "C110_all",
    "C110_end_refuted",
    "C110_below_refuted"
   ],
   "note": "real numbers; csr_matrix keeps the order of the values in a row"
  },
  {
   "property": "C111",
   "status": "proved",
   "theorems": [
    "C111_nearest",
    "C111_nan",
    "C111_mask_refuted"
   ],
   "note": "distance_transform_edt by its documented behaviour (a function with it exists: search_is_edt)"
  },
  {
   "property": "C112",
   "status": "proved",
   "theorems": [
    "C112_bars",
    "C112_totals"
   ],
   "note": "the drawing itself is not modelled"
  },
  {
   "property": "C113",
   "status": "proved",
   "theorems": [
    "C113_shown",
    "C113_clusters",
    "C113_chunk_refuted",
    "C113_empty_refuted",
    "C113_last_bin_refuted",
    "C113_pictures"
   ],
   "note": "n_hits and shapes are integers; the drawing itself is not modelled"
  },
  {
   "property": "C114",
   "status": "proved",
   "theorems": [
    "C114_range",
    "C114_whole",
    "C114_six",
    "C114_limits",
    "C114_odd_refuted",
    "C114_fewer_refuted"
   ],
   "note": "Every operation is rounded to the nearest double (Flocq)."
  },
  {
   "property": "C115",
   "status": "proved",
   "theorems": [
    "C115_order",
    "C115_fails",
    "C115_no_extrapolation",
    "C115_extrapolation",
    "C115_own_hit",
    "C115_beam_offset",
    "C115_beam_refuted",
    "C115_positions"
   ],
   "note": "Exact (real) arithmetic; missing hits (nan) are None. The track finding itself is C23 and C24."
  },
  {
   "property": "C116",
   "status": "proved",
   "theorems": [
    "C116_select_duts",
    "C116_as_asked",
    "C116_accepted",
    "C116_fits",
    "C116_storable",
    "C116_duplicates_refuted",
    "C116_kalman_refuted",
    "C116_defaults",
    "C116_excluded",
    "C116_excluded_two",
    "C116_changed_list",
    "C116_reused_list_refuted"
   ],
   "note": "Arguments as values of a small data type (None, number, list or tuple of numbers, lists and None); classes of errors only. That the DUTs are in the telescope is not checked by this part of the code."
  },
  {
   "property": "C117",
   "status": "proved",
   "theorems": [
    "C117_resolutions",
    "C117_shared",
    "C117_accepted",
    "C117_shared_refuted",
    "C117_reused_refuted",
    "C117_tuple_refuted",
    "C117_tuple_of_tuples_refuted",
    "C117_names"
   ],
   "note": "Lists as objects with identity, tuples and numbers as values; numbers of any type. extend_areas, extend_in_pixel_areas and cut_distances have the same checks; plot_ranges is not modelled."
  },
  {
   "property": "C118",
   "status": "proved",
   "theorems": [
    "C118_as_asked",
    "C118_accepted",
    "C118_satisfiable",
    "C118_no_selection",
    "C118_empty_refuted",
    "C118_repeated_dut_refuted"
   ],
   "note": ""
  },
  {
   "property": "C119",
   "status": "proved",
   "theorems": [
    "C119_cluster_of_indices",
    "C119_cluster_of_positions",
    "C119_end_of_event",
    "C119_masks",
    "C119_converted",
    "C119_given_positions",
    "C119_copied_twice",
    "C119_other_true_refuted"
   ],
   "note": "The clusterizer of pixel_clusterizer is an argument of the theorems."
  },
  {
   "property": "C12",
   "status": "proved",
   "theorems": [
    "C12_popcount",
    "C12_above_32_bit_refuted"
   ],
   "note": ""
  },
  {
   "property": "C120",
   "status": "proved",
   "theorems": [
    "C120_never_processed_refuted",
    "C120_index_refuted",
    "C120_valid",
    "C120_binned",
    "C120_limit_refuted",
    "C120_pairs",
    "C120_bounded",
    "C120_linear",
    "C120_weight_refuted"
   ],
   "note": ""
  },
  {
   "property": "C121",
   "status": "proved",
   "theorems": [
    "C121_accepted",
    "C121_events",
    "C121_zero_refuted",
    "C121_clusters_refuted",
    "C121_message_refuted",
    "C121_bins",
    "C121_border_refuted",
    "C121_mean_positions"
   ],
   "note": ""
  },
  {
   "property": "C122",
   "status": "proved",
   "theorems": [
    "C122_median",
    "C122_fraction",
    "C122_pixels",
    "C122_nodes",
    "C122_corners_refuted",
    "C122_sparse_refuted",
    "C122_disabled_refuted"
   ],
   "note": "Exact real arithmetic for square root and standard deviation; counts below 2^31. The iteration itself is C14."
  },
  {
   "property": "C123",
   "status": "proved",
   "theorems": [
    "C123_accepted",
    "C123_parameters",
    "C123_free_entries",
    "C123_caller_list",
    "C123_caller_list_refuted",
    "C123_tracks",
    "C123_unique",
    "C123_error",
    "C123_total",
    "C123_chunks",
    "C123_distance",
    "C123_no_limits"
   ],
   "note": "Model of the arguments and of the selection of tracks of calculate_transformation; the fit itself is C41, C70 and C71."
  },
  {
   "property": "C124",
   "status": "proved",
   "theorems": [
    "C124_error",
    "C124_equal",
    "C124_equivalence",
    "C124_order",
    "C124_hidden_refuted",
    "C124_types_refuted"
   ],
   "note": "The yaml loader is not modelled: a file is the list of its documents."
  },
  {
   "property": "C125",
   "status": "proved",
   "theorems": [
    "C125_nodes",
    "C125_chunking",
    "C125_projection",
    "C125_file",
    "C125_limits_refuted"
   ],
   "note": "Edges are given (C40 and the residual range properties model them); the results of the fits are not modelled."
  },
  {
   "property": "C126",
   "status": "proved",
   "theorems": [
    "C126_success",
    "C126_read",
    "C126_only",
    "C126_percentages",
    "C126_zero_refuted",
    "C126_mask_refuted",
    "C126_pixel_refuted"
   ],
   "note": "The counts are given (C65, C91, C104 model them); plots are not modelled."
  },
  {
   "property": "C127",
   "status": "proved",
   "theorems": [
    "C127_success",
    "C127_file",
    "C127_empty",
    "C127_order",
    "C127_empty_refuted"
   ],
   "note": "real numbers; slopes with nan are a separate value; the fits of the histograms are not modelled"
  },
  {
   "property": "C128",
   "status": "proved",
   "theorems": [
    "C128_file",
    "C128_no_cluster",
    "C128_chunk_size",
    "C128_extents_refuted",
    "C128_errors"
   ],
   "note": "the clusterizer (external package) is an argument; the function for a chunk is the one of C119, the runs of SMC those of C107 with the chunks of C07; a run of SMC that does not end normally is None"
  },
  {
   "property": "C129",
   "status": "proved",
   "theorems": [
    "C129_density",
    "C129_charge",
    "C129_chunk_size",
    "C129_centre",
    "C129_axis",
    "C129_empty",
    "C129_axis_refuted",
    "C129_empty_refuted"
   ],
   "note": "Exact real numbers; imshow with origin lower draws the entry [0, 0] at (left, bottom). The y axis is mirrored and an empty table shows the previous DUT."
  },
  {
   "property": "C13",
   "status": "proved",
   "theorems": [
    "C13_merge_cluster_data",
    "C13_clusters_once",
    "C13_chunk_size_independent",
    "C13_clusters_behind_dut0_lost_refuted"
   ],
   "note": "Full loop over the chunks of DUT0 with the resumed reads of the other files."
  },
  {
   "property": "C130",
   "status": "proved",
   "theorems": [
    "C130_pages",
    "C130_area",
    "C130_chunk_size",
    "C130_range_refuted",
    "C130_name_refuted",
    "C130_empty_refuted"
   ],
   "note": "Exact real numbers; the sorting function of np.percentile is any that sorts. First page depends on chunk_size; names without number and empty tables."
  },
  {
   "property": "C131",
   "status": "proved",
   "theorems": [
    "C131_page",
    "C131_ends",
    "C131_covers",
    "C131_planes",
    "C131_chunk_size",
    "C131_succeeds",
    "C131_line_refuted"
   ],
   "note": "Model PlotEventsModel.v. The drawn line does not cover the telescope (C131_line_refuted, exact condition in C131_covers); all else as documented."
  },
  {
   "property": "C132",
   "status": "proved",
   "theorems": [
    "C132_pages",
    "C132_marks",
    "C132_shown",
    "C132_sums"
   ],
   "note": "Counts without upper limit; color scales and limits of the axes are not modelled."
  },
  {
   "property": "C133",
   "status": "proved",
   "theorems": [
    "C133_shares",
    "C133_exists",
    "C133_pages",
    "C133_made",
    "C133_last_refuted",
    "C133_title_refuted"
   ],
   "note": "The claims of the label of the last share and of the title are refuted (C133_last_refuted, C133_title_refuted). Shares are rational numbers."
  },
  {
   "property": "C134",
   "status": "proved",
   "theorems": [
    "C134_columns",
    "C134_reason",
    "C134_decision",
    "C134_messages",
    "C134_close_refuted",
    "C134_infinite_refuted",
    "C134_strings_refuted",
    "C134_arrays"
   ],
   "note": "Columns within the tolerances, columns with both infinities and strings are refuted (C134_close_refuted, C134_infinite_refuted, C134_strings_refuted)."
  },
  {
   "property": "C135",
   "status": "proved",
   "theorems": [
    "C135_file",
    "C135_reduced",
    "C135_unselected",
    "C135_pages",
    "C135_drawn",
    "C135_twice_refuted",
    "C135_selected_refuted",
    "C135_other_refuted"
   ],
   "note": "The singular value decomposition is any array of integers of the shape of the histogram."
  },
  {
   "property": "C136",
   "status": "proved",
   "theorems": [
    "C136_pages",
    "C136_unknown_refuted"
   ],
   "note": "The fit of a histogram is any function of its entries and edges."
  },
  {
   "property": "C137",
   "status": "proved",
   "theorems": [
    "C137_file",
    "C137_pages",
    "C137_drawn",
    "C137_zero_refuted"
   ],
   "note": "Drawing itself and colours are not modelled; which of several exceptions comes first is not modelled."
  },
  {
   "property": "C138",
   "status": "proved",
   "theorems": [
    "C138_effective",
    "C138_colours",
    "C138_markers",
    "C138_marker_refuted",
    "C138_same_colour_refuted",
    "C138_pixel_hits_refuted",
    "C138_figures"
   ],
   "note": "the nearest-neighbour search is any function which returns a pixel such that no other is closer"
  },
  {
   "property": "C139",
   "status": "proved",
   "theorems": [
    "C139_chunks",
    "C139_file",
    "C139_pages",
    "C139_complete",
    "C139_failed_fit_refuted",
    "C139_last_refuted",
    "C139_changes",
    "C139_no_tracks"
   ],
   "note": "the fit of a track and the update of a DUT are any functions (modelled in AlignKalmanModel and FitKalmanModel)"
  },
  {
   "property": "C14",
   "status": "proved",
   "theorems": [
    "C14_masking",
    "C14_iteration",
    "C14_more_iterations_mask_more"
   ],
   "note": "median filter and threshold comparison are arbitrary functions of the image"
  },
  {
   "property": "C140",
   "status": "proved",
   "theorems": [
    "C140_residuals",
    "C140_charges",
    "C140_largest_refuted"
   ],
   "note": "The statement describes the actual behaviour: the histogram ends one bin too early (np.arange without the end), refuted for the largest value."
  },
  {
   "property": "C141",
   "status": "proved",
   "theorems": [
    "C141_accumulator",
    "C141_data",
    "C141_one_bin",
    "C141_mirrored_refuted"
   ],
   "note": "The statement describes the actual behaviour; the desired position of the votes is refuted."
  },
  {
   "property": "C142",
   "status": "proved",
   "theorems": [
    "C142_maps",
    "C142_chunks",
    "C142_axis_refuted",
    "C142_zero_refuted"
   ],
   "note": "The statement describes the actual behaviour including the two counterexamples."
  },
  {
   "property": "C143",
   "status": "proved",
   "theorems": [
    "C143_pages",
    "C143_residuals",
    "C143_curve",
    "C143_image",
    "C143_points",
    "C143_one_refuted",
    "C143_single_refuted",
    "C143_box"
   ],
   "note": "The statement describes the actual behaviour including the counterexamples; C143_pages covers the exception for empty histograms."
  },
  {
   "property": "C144",
   "status": "proved",
   "theorems": [
    "C144_accepted",
    "C144_set",
    "C144_single",
    "C144_empty_refuted"
   ],
   "note": "The statement describes the actual behaviour; the counterexample depends on numba, whose typed lists without entries have no type."
  },
  {
   "property": "C145",
   "status": "proved",
   "theorems": [
    "C145_loaded",
    "C145_empty",
    "C145_lines",
    "C145_dict_refuted",
    "C145_missing_refuted",
    "C145_pairs_refuted",
    "C145_rejected",
    "C145_sequence"
   ],
   "note": "The statement describes the actual behaviour including the counterexamples; yaml.safe_load is a given function."
  },
  {
   "property": "C146",
   "status": "proved",
   "theorems": [
    "C146_dut",
    "C146_regions",
    "C146_pages",
    "C146_edges_refuted",
    "C146_second_refuted",
    "C146_one_bin_refuted",
    "C146_empty_region_refuted"
   ],
   "note": "Stored entries and pages are proved for all chunks; the unit of the edges of regions depends on the plots, the second page of the total angle is wrong by a factor of 1000, one bin and regions without tracks in the first chunk raise exceptions (refuted)."
  },
  {
   "property": "C147",
   "status": "proved",
   "theorems": [
    "C147_mean",
    "C147_near",
    "C147_nan_refuted",
    "C147_fixed_refuted"
   ],
   "note": "The mean is proved for rectangles on the grid, with bounds otherwise; rectangles which start before the map show nan (refuted, for two of the three fixed rectangles if the maps are not extended)."
  },
  {
   "property": "C148",
   "status": "proved",
   "theorems": [
    "C148_dut",
    "C148_efficient",
    "C148_region",
    "C148_region_refuted"
   ],
   "note": "Distributions of DUTs and logged numbers are proved for all counts; the page of a region ignores the mask (refuted)."
  },
  {
   "property": "C149",
   "status": "proved",
   "theorems": [
    "C149_bars",
    "C149_density",
    "C149_shares",
    "C149_diagonal_refuted"
   ],
   "note": "Bars of sizes and shapes and the remaining clusters; shares of the in-pixel pages with their bounds and sums. Two diagonal pixels are shown as three pixels (refuted)."
  },
  {
   "property": "C15",
   "status": "proved",
   "theorems": [
    "C15_smc_order",
    "C15_smc_table",
    "C15_smc_empty_table_refuted"
   ],
   "note": "All interleavings of the three threads and of the pool. An empty input table kills the writer (proved)."
  },
  {
   "property": "C150",
   "status": "proved",
   "theorems": [
    "C150_pixels",
    "C150_colours",
    "C150_dead_pixels",
    "C150_limit",
    "C150_open_refuted"
   ],
   "note": "Polygons, colours and limits of the pages; the effect of a polygon which is not closed (not reached for pixels inside of the sensor: C91)."
  },
  {
   "property": "C151",
   "status": "proved",
   "theorems": [
    "C151_stored",
    "C151_untouched",
    "C151_compared",
    "C151_round_trip",
    "C151_exceptions",
    "C151_number_refuted",
    "C151_erased_refuted",
    "C151_order_refuted",
    "C151_nan_to_num"
   ],
   "note": "Functions with single return values; the numpy rules of broadcasting, allclose and nan_to_num and the rejection of empty arrays by create_carray are modelled as documented."
  },
  {
   "property": "C152",
   "status": "proved",
   "theorems": [
    "C152_splitext",
    "C152_output",
    "C152_kept",
    "C152_chain",
    "C152_inputs",
    "C152_steps",
    "C152_same_output_refuted",
    "C152_beside",
    "C152_beside_refuted",
    "C152_fit_tracks",
    "C152_beside_distinct",
    "C152_combined",
    "C152_combined_refuted",
    "C152_spelling"
   ],
   "note": "os.path of the standard library for posix, on ASCII names; the replacement of \"prealigned\" in names of configurations is in C93."
  },
  {
   "property": "C153",
   "status": "proved",
   "theorems": [
    "C153_planes",
    "C153_given",
    "C153_first",
    "C153_process",
    "C153_lowest_index_refuted",
    "C153_number"
   ],
   "note": "ASCII names; header IDs are natural numbers; the external interpreters, which write the interpreted files, are not modelled."
  },
  {
   "property": "C154",
   "status": "proved",
   "theorems": [
    "C154_sensor",
    "C154_empty_refuted",
    "C154_region",
    "C154_equal"
   ],
   "note": "Limits and bins of the density pages of the sensor and of a region; the pages of a DUT without associated hit end with an exception. np.percentile of an empty array is an IndexError as the code of the regions expects; the percentile is exact."
  },
  {
   "property": "C155",
   "status": "proved",
   "theorems": [
    "C155_drawn",
    "C155_only",
    "C155_number",
    "C155_omitted",
    "C155_between_refuted"
   ],
   "note": "Start and vector of every arrow, their number and the condition for the page; the bins between are not shown. Rational numbers; the mesh and the widths are not modelled."
  },
  {
   "property": "C156",
   "status": "proved",
   "theorems": [
    "C156_labels",
    "C156_headings",
    "C156_missing",
    "C156_overlap_refuted"
   ],
   "note": "Frames, texts, rotations, headings and percentages of the labels of the regions. Rational numbers; the rounding of the percentage to two decimals is not modelled."
  },
  {
   "property": "C157",
   "status": "proved",
   "theorems": [
    "C157_planes",
    "C157_negative",
    "C157_diagonal",
    "C157_covariances_refuted"
   ],
   "note": "Selection of the planes, components of the state, errors and the check of chi2; the smoother is arbitrary here (C58). Real numbers."
  },
  {
   "property": "C158",
   "status": "proved",
   "theorems": [
    "C158_peak",
    "C158_errors",
    "C158_scale",
    "C158_background_refuted"
   ],
   "note": "fwhm and peak_detect for every spline routine; scaling and background with the stated property of the routine. Real numbers."
  },
  {
   "property": "C159",
   "status": "proved",
   "theorems": [
    "C159_limits",
    "C159_same_refuted",
    "C159_projection",
    "C159_projection_refuted"
   ],
   "note": "Limits of the colours and the projection above the map. Rational numbers; the projection at the right is made in the same way with exchanged axes and not modelled."
  },
  {
   "property": "C16",
   "status": "proved",
   "theorems": [
    "C16_smc_bounded",
    "C16_smc_completes",
    "C16_smc_can_complete"
   ],
   "note": "Deadlock freedom, termination in at most 8 steps per chunk + 4, bounded queues."
  },
  {
   "property": "C17",
   "status": "proved",
   "theorems": [
    "C17_smc_one_core_hangs",
    "C17_smc_returned",
    "C17_smc_silent_refuted",
    "C17_smc_blocked_refuted"
   ],
   "note": "The desired property (exception is reported) is refuted; the actual behaviour is proved."
  },
  {
   "property": "C18",
   "status": "proved",
   "theorems": [
    "C18_histogram_sum",
    "C18_histogram2_sum",
    "C18_histogram2_refuted"
   ],
   "note": "2-D histograms with different column counts are scrambled by ndarray.resize (refuted)."
  },
  {
   "property": "C19",
   "status": "proved",
   "theorems": [
    "C19_combined",
    "C19_events_apart",
    "C19_empty_table_refuted",
    "C19_first_table_empty_refuted"
   ],
   "note": "event numbers are unbounded integers, all tables have an event_number column"
  },
  {
   "property": "C20",
   "status": "proved",
   "theorems": [
    "C20_max_events",
    "C20_single_chunk",
    "C20_no_limit",
    "C20_keeps_all_refuted"
   ],
   "note": "rounding and random choice are arbitrary functions with the documented behaviour; exact rationals instead of doubles"
  },
  {
   "property": "C21",
   "status": "proved",
   "theorems": [
    "C20_max_events",
    "C21_python_integers_refuted"
   ],
   "note": ""
  },
  {
   "property": "C22",
   "status": "proved",
   "theorems": [
    "C22_select_tracks",
    "C22_summary",
    "C22_query_only_refuted",
    "C22_summary_converse"
   ],
   "note": ""
  },
  {
   "property": "C23",
   "status": "proved",
   "theorems": [
    "C23_hits_permuted",
    "C23_closest_hit",
    "C23_prediction",
    "C23_ideal_tracks"
   ],
   "note": "for any floating point arithmetic; ideal tracks under order and separation hypotheses shown satisfiable by C23_ideal_case"
  },
  {
   "property": "C24",
   "status": "proved",
   "theorems": [
    "C24_columns_follow_their_dut",
    "C24_hit_flag",
    "C24_eleven_duts_refuted"
   ],
   "note": "at most 10 DUTs; refuted for 11"
  },
  {
   "property": "C25",
   "status": "proved",
   "theorems": [
    "C25_isolation",
    "C25_symmetric"
   ],
   "note": "rows ordered by event number; exact rational positions, non-finite as None"
  },
  {
   "property": "C26",
   "status": "proved",
   "theorems": [
    "C26_each_dut_once",
    "C26_own_configuration",
    "C26_repeated_fit_duts_refuted"
   ],
   "note": ""
  },
  {
   "property": "C27",
   "status": "proved",
   "theorems": [
    "C27_proper_rotation",
    "C27_axes",
    "C27_order",
    "C27_transformations_inverse",
    "C27_round_trip",
    "C27_sensor_round_trip",
    "C27_off_plane_error",
    "C27_isometry"
   ],
   "note": "Over the real numbers; floating point rounding is not modelled. nan entries (missing hits) are not modelled here."
  },
  {
   "property": "C28",
   "status": "proved",
   "theorems": [
    "C28_plane",
    "C28_sensor",
    "C28_parallel_error"
   ],
   "note": "Over the real numbers."
  },
  {
   "property": "C29",
   "status": "proved",
   "theorems": [
    "C29_rebuilds",
    "C29_recovers",
    "C29_refuses",
    "C29_gimbal_lock_refuted",
    "C29_reflection_refuted"
   ],
   "note": "The full statement (all rotation matrices) is false of the code; the two _refuted theorems give the counterexamples."
  },
  {
   "property": "C30",
   "status": "proved",
   "theorems": [
    "C30_round_trip",
    "C30_round_trip_back",
    "C30_refuted"
   ],
   "note": "The original statement is false of the code for x = 0; C30_refuted gives the counterexamples."
  },
  {
   "property": "C31",
   "status": "proved",
   "theorems": [
    "C31_index_round_trip",
    "C31_position_round_trip",
    "C31_out_of_range",
    "C31_pixel_area",
    "C31_extent",
    "C31_global_round_trip"
   ],
   "note": "Over the real numbers."
  },
  {
   "property": "C32",
   "status": "proved",
   "theorems": [
    "C32_primitive_cell",
    "C32_periodic",
    "C32_centre",
    "C32_double_column",
    "C32_odd_columns_refuted"
   ],
   "note": "np.mod is modelled as the exact floored remainder."
  },
  {
   "property": "C33",
   "status": "proved",
   "theorems": [
    "C33_round_trip",
    "C33_keep_others",
    "C33_load_adds",
    "C33_iteration",
    "C33_load_refuted",
    "C33_empty_file_refuted",
    "C33_user_class_refuted"
   ],
   "note": "State invariant over all sequences of operations (set, add, assign, load); float conversions and comparison are abstract (strict order)."
  },
  {
   "property": "C34",
   "status": "proved",
   "theorems": [
    "C34_same_track",
    "C34_on_plane",
    "C34_unique",
    "C34_composition",
    "C34_identity",
    "C34_back_and_forth"
   ],
   "note": "for all planes given by position and angles, tracks crossing the target plane; real arithmetic"
  },
  {
   "property": "C35",
   "status": "proved",
   "theorems": [
    "C35_derivative",
    "C35_composition"
   ],
   "note": "directional derivatives in every direction of the state space"
  },
  {
   "property": "C36",
   "status": "proved",
   "theorems": [
    "C36_no_hit",
    "C36_covariance",
    "C36_chi2",
    "C36_chi2_positive",
    "C36_least_squares",
    "C36_invariant",
    "C36_forward_fit",
    "C36_backward_fit",
    "C36_unique_best",
    "C36_smoothed_chi2"
   ],
   "note": "Over any ordered field and any dimensions; Jacobians, gain matrices and reference states are inputs."
  },
  {
   "property": "C37",
   "status": "proved",
   "theorems": [
    "C37_fixed",
    "C37_steady",
    "C37_no_exception",
    "C37_unselected",
    "C37_aligned",
    "C37_total"
   ],
   "note": "fit results are arbitrary inputs; real closed field instead of doubles"
  },
  {
   "property": "C38",
   "status": "proved",
   "theorems": [
    "C38_annealing",
    "C38_geometric"
   ],
   "note": "real power instead of floating point power"
  },
  {
   "property": "C39",
   "status": "proved",
   "theorems": [
    "C39_intercept",
    "C39_line_model",
    "C39_find_inliers",
    "C39_find_inliers_near",
    "C39_find_inliers_refuted",
    "C39_ransac",
    "C39_ransac_fails",
    "C39_two_points_refuted",
    "C39_one_point_refuted",
    "C39_ratio_bound"
   ],
   "note": "real numbers, no rounding"
  },
  {
   "property": "C40",
   "status": "proved",
   "theorems": [
    "C40_running",
    "C40_chunking",
    "C40_counts",
    "C40_bins",
    "C40_first_chunk",
    "C40_residuals",
    "C40_range_refuted",
    "C40_single_position"
   ],
   "note": "Running mean over chunks; bins from the first chunk lose entries of later chunks."
  },
  {
   "property": "C41",
   "status": "proved",
   "theorems": [
    "C41_chunks",
    "C41_no_rows",
    "C41_translation",
    "C41_succeeds",
    "C41_single",
    "C41_no_chunks",
    "C41_rotation",
    "C41_rotation_refuted"
   ],
   "note": "The rotation uses only the last chunk (refuted average)."
  },
  {
   "property": "C42",
   "status": "proved",
   "theorems": [
    "C42_correlate",
    "C42_exact",
    "C42_overflow_refuted",
    "C42_outside_refuted"
   ],
   "note": ""
  },
  {
   "property": "C43",
   "status": "proved",
   "theorems": [
    "C43_in1d_index",
    "C43_fill_invalid",
    "C43_empty_second_array_refuted"
   ],
   "note": "np.argsort is any sorting permutation"
  },
  {
   "property": "C44",
   "status": "proved",
   "theorems": [
    "C44_unique_column",
    "C44_count_unique_neighbors",
    "C44_cell_itself_counted",
    "C44_negative_values",
    "C44_negative_refuted"
   ],
   "note": "padding smaller than the array"
  },
  {
   "property": "C45",
   "status": "proved",
   "theorems": [
    "C45_mean_is_weighted",
    "C45_statistics_of_data"
   ],
   "note": "exact rational arithmetic; the square of the rms"
  },
  {
   "property": "C46",
   "status": "proved",
   "theorems": [
    "C46_pymosa",
    "C46_fei4",
    "C46_chunk_size",
    "C46_ordered",
    "C46_planes_refuted"
   ],
   "note": "Formatting of hit tables; the interpretation of raw data itself (trigger number overflows) is in external packages."
  },
  {
   "property": "C47",
   "status": "proved",
   "theorems": [
    "C47_proper",
    "C47_no_correction",
    "C47_rigid",
    "C47_single_axis"
   ],
   "note": "all alignments and corrections; real arithmetic instead of floats"
  },
  {
   "property": "C48",
   "status": "proved",
   "theorems": [
    "C48_applied",
    "C48_round_trip",
    "C48_off_plane_error",
    "C48_table_names",
    "C48_errors",
    "C48_errors_refuted",
    "C48_eleven_duts_refuted",
    "C48_node_names"
   ],
   "note": "rows of the table with real numbers; positive result for table names naming at most one DUT; counterexamples for error columns and 11 DUTs"
  },
  {
   "property": "C49",
   "status": "proved",
   "theorems": [
    "C49_array_of_shape",
    "C49_shape_of_array"
   ],
   "note": ""
  },
  {
   "property": "C50",
   "status": "proved",
   "theorems": [
    "C50_find_closest",
    "C50_single_element",
    "C50_unsigned_refuted"
   ],
   "note": ""
  },
  {
   "property": "C51",
   "status": "proved",
   "theorems": [
    "C51_quantiles",
    "C51_upper_limit_one_refuted"
   ],
   "note": "exact rational arithmetic"
  },
  {
   "property": "C52",
   "status": "proved",
   "theorems": [
    "C52_stored_tracks",
    "C52_excluded_dut_does_not_count"
   ],
   "note": ""
  },
  {
   "property": "C53",
   "status": "proved",
   "theorems": [
    "C53_parallel_fit",
    "C53_even_slices"
   ],
   "note": ""
  },
  {
   "property": "C54",
   "status": "proved",
   "theorems": [
    "C54_skew",
    "C54_plane_normal"
   ],
   "note": "Single vector form of skew (the array form applies it per row)."
  },
  {
   "property": "C55",
   "status": "proved",
   "theorems": [
    "C55_derivative",
    "C55_same_axis",
    "C55_translation",
    "C55_unrotated",
    "C55_about_beam",
    "C55_refuted",
    "C55_quarter_turn_refuted"
   ],
   "note": "derivative at zero corrections; the code's Jacobian is refuted for rotated DUTs"
  },
  {
   "property": "C56",
   "status": "proved",
   "theorems": [
    "C56_frame",
    "C56_derivative",
    "C56_covariance"
   ],
   "note": ""
  },
  {
   "property": "C57",
   "status": "proved",
   "theorems": [
    "C57_states",
    "C57_smoothed"
   ],
   "note": ""
  },
  {
   "property": "C58",
   "status": "proved",
   "theorems": [
    "C58_mean",
    "C58_unused",
    "C58_ends",
    "C58_counted_twice",
    "C58_refuted"
   ],
   "note": "C58_refuted: three hits 0, 1, 0 in any ordered field."
  },
  {
   "property": "C59",
   "status": "proved",
   "theorems": [
    "C59_best"
   ],
   "note": ""
  },
  {
   "property": "C60",
   "status": "proved",
   "theorems": [
    "C60_counts",
    "C60_max_tracks",
    "C60_saved",
    "C60_no_hit",
    "C60_parameters",
    "C60_saved_refuted",
    "C60_max_tracks_refuted",
    "C60_no_hit_refuted",
    "C60_parameters_refuted"
   ],
   "note": "positive theorems describe what the code does, the refuted ones what the documentation suggests"
  },
  {
   "property": "C61",
   "status": "proved",
   "theorems": [
    "C61_range",
    "C61_chunks_refuted",
    "C61_chunks"
   ],
   "note": ""
  },
  {
   "property": "C62",
   "status": "proved",
   "theorems": [
    "C62_in_range",
    "C62_edge_refuted"
   ],
   "note": "real numbers, no rounding"
  },
  {
   "property": "C63",
   "status": "proved",
   "theorems": [
    "C63_nearest",
    "C63_thetas",
    "C63_votes",
    "C63_all_votes",
    "C63_straight_line",
    "C63_selection",
    "C63_no_correlation"
   ],
   "note": "real numbers; votes not limited to 32 bits"
  },
  {
   "property": "C64",
   "status": "proved",
   "theorems": [
    "C64_placement",
    "C64_line",
    "C64_aligned",
    "C64_exact",
    "C64_slope_error",
    "C64_range",
    "C64_reference_refuted",
    "C64_new_limits",
    "C64_narrower",
    "C64_limits_refuted"
   ],
   "note": "real numbers, no rounding"
  },
  {
   "property": "C65",
   "status": "proved",
   "theorems": [
    "C65_counts",
    "C65_chunking",
    "C65_succeeds",
    "C65_efficiency",
    "C65_edges",
    "C65_first_chunk_refuted",
    "C65_previous_dut_refuted"
   ],
   "note": "Counts and efficiency over chunks; first chunk without valid hit fails or uses counts of the previous DUT."
  },
  {
   "property": "C66",
   "status": "proved",
   "theorems": [
    "C66_within",
    "C66_shape",
    "C66_no_cut",
    "C66_monotone",
    "C66_monotone_refuted"
   ],
   "note": "Rectangle or ellipse; not monotone at the transition."
  },
  {
   "property": "C67",
   "status": "proved",
   "theorems": [
    "C67_region",
    "C67_empty_chunk_refuted",
    "C67_border_refuted"
   ],
   "note": "Running average of region efficiencies; ZeroDivisionError for a chunk without track in the region."
  },
  {
   "property": "C68",
   "status": "proved",
   "theorems": [
    "C68_histograms",
    "C68_purity",
    "C68_truncated_refuted",
    "C68_centre_refuted",
    "C68_cut_refuted",
    "C68_returns_refuted",
    "C68_bins",
    "C68_call"
   ],
   "note": "Purity per DUT on reals; the float division is exact division followed by truncation. No theorem covers the condition on minimum_hit_density under which a purity is calculated at all."
  },
  {
   "property": "C69",
   "status": "proved",
   "theorems": [
    "C69_angles",
    "C69_scale",
    "C69_rotation",
    "C69_global",
    "C69_reversed_refuted",
    "C69_histogram",
    "C69_chunking_refuted"
   ],
   "note": "Real arithmetic; the Gauss fits and plots are not modelled."
  },
  {
   "property": "C70",
   "status": "proved",
   "theorems": [
    "C70_least_squares"
   ],
   "note": "Singular value decompositions are quantified with their specification; exact real arithmetic."
  },
  {
   "property": "C71",
   "status": "proved",
   "theorems": [
    "C71_rotation",
    "C71_translation_fixed",
    "C71_rotation_fixed",
    "C71_aligned",
    "C71_converged",
    "C71_not_before",
    "C71_parallel",
    "C71_few_tracks",
    "C71_no_tracks",
    "C71_angles_refuted"
   ],
   "note": "Exact arithmetic: in floating point the zero singular values may be tiny instead."
  },
  {
   "property": "C72",
   "status": "proved",
   "theorems": [
    "C72_slope",
    "C72_succeeds",
    "C72_optimal",
    "C72_exact",
    "C72_unique"
   ],
   "note": "The singular value decomposition is any decomposition of the centred hits; exact arithmetic."
  },
  {
   "property": "C73",
   "status": "proved",
   "theorems": [
    "C73_rows",
    "C73_succeeds",
    "C73_keep_data",
    "C73_quality_bound",
    "C73_missing_hit",
    "C73_larger_distance_refuted"
   ],
   "note": "The intersections of the tracks and the peak of the residuals of aligned DUTs are inputs."
  },
  {
   "property": "C74",
   "status": "proved",
   "theorems": [
    "C74_chi2",
    "C74_zero"
   ],
   "note": "Exact arithmetic; masked sums are taken as 0."
  },
  {
   "property": "C75",
   "status": "proved",
   "theorems": [
    "C75_events",
    "C75_defined",
    "C75_divisible",
    "C75_more_events_refuted"
   ],
   "note": "Number of tracks drawn for an event universally quantified."
  },
  {
   "property": "C76",
   "status": "proved",
   "theorems": [
    "C76_shuffle"
   ],
   "note": "Permutations by np.random.shuffle universally quantified."
  },
  {
   "property": "C77",
   "status": "proved",
   "theorems": [
    "C77_pixels",
    "C77_last_column",
    "C77_seed",
    "C77_charge",
    "C77_no_diffusion",
    "C77_double_charge_refuted",
    "C77_last_column_refuted",
    "C77_loss_refuted"
   ],
   "note": "Charge fractions universally quantified (for C77_charge: differences of two monotone functions), rational arithmetic."
  },
  {
   "property": "C78",
   "status": "proved",
   "theorems": [
    "C78_pixel",
    "C78_pixel_unique",
    "C78_border",
    "C78_efficiency",
    "C78_hits",
    "C78_table",
    "C78_negative_charge_refuted",
    "C78_kept"
   ],
   "note": "Rational arithmetic instead of floating point; noise, permutations and charges universally quantified."
  },
  {
   "property": "C79",
   "status": "proved",
   "theorems": [
    "C79_n_duts",
    "C79_more_duts_refuted"
   ],
   "note": "The z positions stand for all settings with one entry per DUT."
  },
  {
   "property": "C80",
   "status": "proved",
   "theorems": [
    "C80_beam",
    "C80_collinear",
    "C80_succeeds",
    "C80_rotation",
    "C80_beam_rotation",
    "C80_one_dut_refuted"
   ],
   "note": "Real arithmetic; the fitted line is universally quantified (line_fit_3d: C72)."
  },
  {
   "property": "C81",
   "status": "proved",
   "theorems": [
    "C81_seed",
    "C81_defined",
    "C81_direction"
   ],
   "note": "Real arithmetic; the fitted line is universally quantified (C72)."
  },
  {
   "property": "C82",
   "status": "proved",
   "theorems": [
    "C82_exact",
    "C82_close",
    "C82_files",
    "C82_required",
    "C82_reflexive",
    "C82_extra_rows_refuted",
    "C82_empty_refuted",
    "C82_strings_refuted",
    "C82_symmetry_refuted"
   ],
   "note": "Values are rationals, NaN, infinities or strings; numpy's broadcasting of different row shapes is not needed because the shape is compared first. The _refuted theorems show the differences that are missed."
  },
  {
   "property": "C83",
   "status": "proved",
   "theorems": [
    "C83_calls",
    "C83_all",
    "C83_number"
   ],
   "note": "Keyword arguments are looped like positional ones and are modelled by the same list."
  },
  {
   "property": "C84",
   "status": "proved",
   "theorems": [
    "C84_scattering_planes_refuted",
    "C84_success",
    "C84_succeeds",
    "C84_material",
    "C84_chi2",
    "C84_chi2_fit_duts"
   ],
   "note": "The chi2 probability (cdf) is not modelled. C84_scattering_planes_refuted holds for all inputs."
  },
  {
   "property": "C85",
   "status": "proved",
   "theorems": [
    "C85_first",
    "C85_second",
    "C85_position",
    "C85_order_refuted"
   ],
   "note": "The corrections of the filter are arbitrary inputs."
  },
  {
   "property": "C86",
   "status": "proved",
   "theorems": [
    "C86_momentum",
    "C86_monotone",
    "C86_momentum_dependence",
    "C86_inclination",
    "C86_last_plane",
    "C86_other_planes"
   ],
   "note": ""
  },
  {
   "property": "C87",
   "status": "proved",
   "theorems": [
    "C87_duts",
    "C87_paired",
    "C87_only_sorted",
    "C87_succeeds",
    "C87_range_refuted",
    "C87_order_refuted"
   ],
   "note": "Selections that are not strictly increasing are mispaired; the range check is off by one."
  },
  {
   "property": "C88",
   "status": "proved",
   "theorems": [
    "C88_round_trip",
    "C88_succeeds",
    "C88_truncated",
    "C88_pixel_refuted",
    "C88_out_of_range",
    "C88_output_refuted"
   ],
   "note": "Truncation to uint16 shifts positions left of the pixel centre to the pixel before; an output file name is never accepted."
  },
  {
   "property": "C89",
   "status": "proved",
   "theorems": [
    "C89_size",
    "C89_empty_chunk",
    "C89_shape",
    "C89_last_shape",
    "C89_pattern",
    "C89_counted",
    "C89_square_refuted",
    "C89_index_error",
    "C89_errors_consistent"
   ],
   "note": "The last bin of the shape histogram mixes two patterns (np.histogram includes the upper edge)."
  },
  {
   "property": "C90",
   "status": "proved",
   "theorems": [
    "C90_peak",
    "C90_peak_inside",
    "C90_border_refuted",
    "C90_range",
    "C90_default_range",
    "C90_histogram",
    "C90_first_chunk_refuted",
    "C90_bins"
   ],
   "note": "Real numbers instead of doubles; the spline peak finder (scipy) is an arbitrary function with non-negative width. Findings: border peaks are not rejected; an empty first chunk is an error."
  },
  {
   "property": "C91",
   "status": "proved",
   "theorems": [
    "C91_reflection",
    "C91_inside",
    "C91_no_image",
    "C91_selected",
    "C91_bounded",
    "C91_assigned",
    "C91_all_assigned",
    "C91_counts",
    "C91_mask",
    "C91_border_refuted"
   ],
   "note": "The Voronoi diagram of scipy and the nearest-neighbour search are universally quantified under their specification; real numbers instead of doubles."
  },
  {
   "property": "C92",
   "status": "proved",
   "theorems": [
    "C92_start",
    "C92_direction",
    "C92_affine",
    "C92_triangles",
    "C92_chord",
    "C92_rectangle",
    "C92_small",
    "C92_pixel_sizes"
   ],
   "note": "Real numbers instead of doubles."
  },
  {
   "property": "C93",
   "status": "proved",
   "theorems": [
    "C93_select_duts",
    "C93_none_refuted",
    "C93_hit_duts",
    "C93_single_dut_refuted",
    "C93_fit_duts",
    "C93_chi2",
    "C93_shapes",
    "C93_parameters",
    "C93_query",
    "C93_queries",
    "C93_telescope_none_refuted",
    "C93_quality_none_refuted",
    "C93_steps",
    "C93_files",
    "C93_configuration",
    "C93_name_refuted",
    "C93_name",
    "C93_group_shapes",
    "C93_number",
    "C93_distances",
    "C93_reads",
    "C93_telescope"
   ],
   "note": "the analysis functions called by the alignment are actions on files"
  },
  {
   "property": "C94",
   "status": "proved",
   "theorems": [
    "C94_convolution",
    "C94_symmetric",
    "C94_decreasing",
    "C94_positive",
    "C94_half_maximum"
   ],
   "note": "erf is defined by its integral; real numbers instead of floats"
  },
  {
   "property": "C95",
   "status": "proved",
   "theorems": [
    "C95_mean",
    "C95_rms",
    "C95_binned",
    "C95_median",
    "C95_single_bin",
    "C95_limits",
    "C95_outside_refuted",
    "C95_threshold",
    "C95_uniform_refuted",
    "C95_line",
    "C95_means"
   ],
   "note": "curve_fit and the line fit are given functions; real numbers instead of floats"
  },
  {
   "property": "C96",
   "status": "proved",
   "theorems": [
    "C96_nearest",
    "C96_unchanged",
    "C96_any_svd",
    "C96_chunk"
   ],
   "note": "svd, eigvalsh and spacing are given functions; an ordered field instead of floats"
  },
  {
   "property": "C97",
   "status": "proved",
   "theorems": [
    "C97_distinct",
    "C97_apart",
    "C97_displacement",
    "C97_electrodes",
    "C97_limits",
    "C97_round_trip",
    "C97_inverse_refuted",
    "C97_even_refuted",
    "C97_cluster_refuted"
   ],
   "note": "exact numbers instead of floats; positions in nm"
  },
  {
   "property": "C98",
   "status": "proved",
   "theorems": [
    "C98_warning",
    "C98_recorded",
    "C98_last",
    "C98_complete",
    "C98_cut_refuted",
    "C98_only_passed",
    "C98_defaults_refuted",
    "C98_date_refuted"
   ],
   "note": "files are their tables of arguments; strings are bytes"
  },
  {
   "property": "C99",
   "status": "proved",
   "theorems": [
    "C99_flight",
    "C99_shape",
    "C99_straight",
    "C99_success",
    "C99_axis",
    "C99_inclined_refuted",
    "C99_sigma",
    "C99_small_budget_refuted",
    "C99_tracks",
    "C99_errors",
    "C99_y_refuted",
    "C99_redraw_refuted",
    "C99_resample"
   ],
   "note": "real numbers; random numbers are universally quantified; the azimuth of a scattered direction with x = 0 is left open (C30_refuted)"
  }
 ]
}