# Formal model of beam_telescope_analysis – design

(Sections 5 to 7 are generated by scripts/gen_design.py.)

## 1. Layout

* `rocq/theories/<Topic>Model.v`: definitions only; every definition cites the file and the lines of `/repo/beam_telescope_analysis/` it models and
  states its simplifications.
* `rocq/theories/<Topic>Proofs.v`: lemmas.
* `rocq/theories/<Topic>Props.v`: independent specifications, the property theorems (`CNN_...`), `Example`s which show that the hypotheses can be met, and
  `Print Assumptions`.  Theorems `..._refuted` prove that a statement one would expect is false; theorems `..._partial` prove a part of a statement.
* `properties.jsonl`: the properties; `MANIFEST.json`: status and theorems of each; `seeded/LOG.jsonl`: the mutations of the model and the theorems that failed.

## 2. Conventions of the model

* Integer arrays are `list Z` (`list nat`, `list N` for indices and bit patterns); exceptions are values (`inr`, `None` or a constructor of an error type).
* Loops over arrays are structural recursion; `while` loops with a data dependent exit have fuel with an explicit out-of-fuel value, which the theorems exclude
  (termination is then part of the theorem).
* Floating point numbers are real numbers (`R`), elements of an arbitrary real field (mathcomp) or rational numbers: rounding is *not* modelled.  `nan` is `None` where
  the code tests for it.
* Integer overflow is modelled where the code depends on it: indices of the compiled histograms, the correlation histograms, 32 bit population count, 64 bit Morton codes, flag words,
  uint16 indices.
* External calls (function of SMC, random numbers, median filter, SVD, splines, curve_fit, Voronoi diagram, nearest neighbour search, clusterizer, numpy's order of equal elements) are
  universally quantified, if necessary with their documented specification as hypothesis.
* Threads (smc.py) are a labelled transition system; theorems are about all interleavings.

## 3. Trusted base

* The kernel of Coq 8.16.1 (with vm_compute/native casts as used by the libraries) and the axioms of the standard library listed in section 5; no own axioms.
* That the definitions of the Model files describe the code: they were written by reading the source, the code itself has not been run.  Parts that are not modelled are in section 4.
* That the hypotheses on external functions (SVD, KD tree, Voronoi diagram, sorting) are true of the implementations.
* That the behaviour of libraries written into the models, as documented by them, is that of the installed versions: e.g. bins of numpy's histograms, extents of matplotlib's images, typed lists of numba
  (an empty one is refused by compiled functions, C144).

## 4. What is modelled and what is not

Modelled (file: functions):

* cpp/AnalysisFunctions.h, analysis_functions.pyx: all functions.
* tools/analysis_utils.py: all functions except the gauss variants without own use (gauss2, gauss_offset, gauss_offset_slope, double_gauss, double_gauss_offset), the splines inside fwhm (scipy; given
  functions) and scipy's minimisation inside get_mean_efficiency (its result is given; the interval it looks for is in EffIntervalModel).
* tools/geometry_utils.py: all functions.  tools/kalman.py: all functions; check_covariance_matrix and _make_matrix_psd in NearestPsdModel, with the results of np.linalg.svd and eigvalsh as given functions.
* tools/smc.py: class SMC (reader, worker, writer, combination of results, input and output nodes); not modelled: the choice of n_cores and of the chunk size, pickling (dill), func returning None, align_at.
* tools/data_selection.py: combine_files, reduce_events, select_tracks (arguments, selection by flags, queries as arbitrary predicates), table_where (names in queries).
* tools/simulate_data.py: events, shuffling, charge sharing with the charge fractions, digitisation, tracks, scattering, settings; not modelled: distributions of random numbers (each random number is universally quantified).
* tools/storage_utils.py: save_configuration_dict (with the name of a file), save_arguments.
* tools/test_tools.py: nan_equal, nan_close, compare_h5_files, compare_yaml_files (on loaded documents), _call_function_with_args, get_array_differences and the messages of compare_h5_files; create_fixture, check_with_fixture (functions with single return values) and nan_to_num; not modelled: create_folder, return values which are arrays, in fixtures.
* telescope/dut.py, telescope/telescope.py: attributes, geometry, load and save, open_configuation, the text of a telescope, diamond sensors; the conversion of rectangular pixels also in double precision (FloatModel, with Flocq).
* hit_analysis.py: convert, convert_coordinates, check, check_file, mask, mask_pixels, cluster (wrapper), cluster_hits (set-up, conversion and copying of columns, call-back functions, histograms, errors of positions, the passes over the output file and its nodes), correlate, merge_cluster_data.
  pixel_clusterizer is an external package.
* Default names of output files (FileNamesModel): os.path.splitext, dirname, join and commonprefix of the standard library (posix, ASCII), the endings of all steps; temporary names of the alignments are not modelled.
* track_analysis.py: find_tracks, fit_tracks (with its arguments, method and names), store_track_data, create_results_array, line_fit_3d, _fit_tracks_kalman_loop, _kalman_fit_3d (states and errors of the planes), _find_small_distance.
* dut_alignment.py: apply_alignment, prealign (with hough transform; RANSAC functions), align and _duts_alignment (arguments and order of the steps), align_telescope, calculate_transformation,
  Kalman alignment (arguments and selections, groups and passes, chunks and tables, loop, update, Jacobian, annealing).
* result_analysis.py: calculate_residuals (histograms, stored arrays with their names, edges and choice of fit, means; range and number of bins also in double precision), calculate_efficiency (arguments for resolutions and names of regions, valid hits, counts, regions, pixels, the stored groups and arrays, pixel hits around the intersections, in-pixel maps with their size, extension, hits and cluster shapes, distributions of charge, frame, cluster size and track angles, number of bins also in double precision), calculate_purity (counts), get_angles, histogram_track_angle (histograms, order and selection of DUTs, nodes of the file; not: fits), calculate_residuals (also: its two maps and the pages with residuals, see plot_utils), calculate_residual_correlation (types of the DUTs, index, pairs, bins, rows written; not: limits, transformations).
* converter/: format_hit_table of both converters and the names of their files (process_dut of pybar_fei4_converter); not modelled: the external interpreters.

* tools/plot_utils.py: the numbers shown by plot_tracks_per_event and plot_cluster_hists, the maps of track density and charge, the density pages, residual arrows and labels of regions of efficiency_plots, the limits and the upper projection of plot_2d_pixel_hist, the pages of correlations, of track angles and of check_file, the distributions of chi2, the figures of events, the pages of masked pixels and of the statistics of fits, the pairs, correlations and weights of plot_residual_correlation, the padded polygons of the efficiency plot and its effective pixels (bins, colours, markers), its pages of the efficiency per pixel, the ranges of its maps of mean residuals and charges, its pages of track angles, its distributions of efficiencies, cluster sizes and cluster shapes, its in-pixel densities of cluster shapes, the efficiencies of the fixed rectangles of its in-pixel maps, the pages of prealign and align_kalman, the pages with residuals of calculate_residuals.

Not modelled: other plots (plot_utils), logging, pytables (files are their contents), tools/residuals.py, examples, tests.


## 5. Axioms used by the theorems

Print Assumptions of every theorem of MANIFEST.json gives one of these sets (the number is the column "Ax" of section 6):

* Ax 0: none (closed under the global context) – 465 theorems
* Ax 1: `ClassicalDedekindReals.sig_forall_dec` – 11 theorems
* Ax 2: `ClassicalDedekindReals.sig_forall_dec`, `FunctionalExtensionality.functional_extensionality_dep` – 192 theorems
* Ax 3: `ClassicalDedekindReals.sig_forall_dec`, `ClassicalDedekindReals.sig_not_dec`, `FunctionalExtensionality.functional_extensionality_dep` – 133 theorems
* Ax 4: `ClassicalDedekindReals.sig_forall_dec`, `ClassicalDedekindReals.sig_not_dec`, `Classical_Prop.classic`, `FunctionalExtensionality.functional_extensionality_dep` – 97 theorems

## 6. Status of the properties

| id | property | status | file: theorems (Ax) | remarks |
|----|----|----|----|----|
| C01 | Common events of two event arrays | proved | EventArraysProps: C01_common_events (0), C01_negative_event_refuted (0), C01_empty_second_array_refuted (0) | Proved for sorted arrays of non-negative event numbers with a non-empty second array; the two refuted theorems show both hypotheses are needed. |
| C02 | Maximum multiplicity merge of event arrays | proved | EventArraysProps: C02_max_events (0), C02_empty_array_refuted (0) | Proved for sorted non-empty arrays. |
| C03 | Event membership mask | proved | EventArraysProps: C03_in1d_events (0) | All sorted inputs. |
| C04 | Integer histograms are exact or fail | proved | HistProps: C04_hist_1d (0), C04_hist_2d (0), C04_hist_3d (0), C04_large_index_refuted (0) | Counts equal the number of matching inputs modulo 2^32; input whose index exceeds 2^32 aliases a valid bin (refuted theorem). |
| C05 | Event-wise pairing of two data sets is complete | proved | EventArraysProps: C05_event_pairs (0), C05_event_pairs_meaning (0), C05_multiplicity (0) | Cartesian product per event, in order. |
| C06 | Clusters are mapped to the event axis without loss inside an event | proved | EventArraysProps: C06_map_cluster (0), C06_no_cluster_lost (0), C06_surplus_clusters_dropped (0) |  |
| C07 | Chunked reading neither loses, duplicates nor splits | proved | ChunksProps: C07_aligned_chunks (0), C07_whole_table (0), C07_resume (0), C07_error_after_range_refuted (0), C07_indexed_refuted (0), C07_missing_start_reported_partial (0), C07_missing_event_refuted (0); ChunksIndexedProps: C07_indexed (0), C07_missing_start_unreported (0) | Every parameter combination without the event-number column index; refuted theorems record a spurious ValueError behind the range and the lost last event with try_speedup. |
| C08 | Chunk-size independence of chunked processing | proved | ChunksProps: C08_chunk_size_independent (0) | For every event-local per-chunk function and associative combination. |
| C09 | Event range selection | proved | ArrayUtilsProps: C09_event_range_sorted (0), C09_event_range_unsorted (0), C09_event_zero_refuted (0), C09_start_behind_data_refuted (0) |  |
| C10 | Morton index round trip | proved | BitsProps: C10_interleave (0), C10_injective (0), C10_round_trip (0), C10_decode_encode (0), C10_decode_low_bits (0), C10_large_coordinate_refuted (0) | morton_1 keeps garbage in bits 32..47 when the coordinate has 17 bits or more |
| C100 | Charge fractions of the simulation are a probability distribution over the pixels | proved | ChargeProps: C100_integral (4), C100_range (4), C100_sum (4), C100_total (4), C100_nearer (4), C100_abort (4), C100_no_diffusion_refuted (3), C100_loss_refuted (4) | real numbers; erf is the integral which defines it (its bound and limit, hence the integral of Gauss, are proved in ErfProofs.v) |
| C101 | Indices and local positions in double precision | proved | FloatProps: C101_round_trip (4), C101_nearest (4), C101_exact (4), C101_mimosa_refuted (4), C101_outside (4) | rounding to nearest even of every operation with Flocq; no overflow; one axis |
| C102 | Pixel hits around the track intersections are counted once, if at all | proved | PixelHitsProps: C102_counts (0), C102_window (2), C102_shape (0), C102_size_refuted (0), C102_mask_refuted (0), C102_no_match_refuted (0), C102_outside_refuted (0) | bin numbers and nearest pixels are given; cluster IDs below 2^32 |
| C103 | Passes, tables and arguments of the Kalman alignment | proved | KalmanStepsProps: C103_chunks (0), C103_pass (0), C103_cut (0), C103_tables (0), C103_group (0), C103_success (0), C103_track_chi2_refuted (0), C103_exclude_refuted (0), C103_min_hits (0), C103_arguments (0), C103_one_pass (0), C103_passes (0) | The initial alignment, the fit of a track and the update are parameters; AlignKalmanModel and FitKalmanModel model them. |
| C104 | In-pixel maps of the efficiency analysis | proved | InPixelProps: C104_counts (2), C104_total (2), C104_range (2), C104_size (2), C104_size_refuted (2), C104_chunks (2), C104_edge_refuted (2), C104_efficiency (2), C104_hits (2), C104_hits_skipped (2), C104_hits_refuted (2), C104_shapes (2), C104_diagonal_refuted (0), C104_most_probable (0), C104_extended (2), C104_extent (2), C104_extension_refuted (2), C104_bins_double (4), C104_bins_refuted (4) | exact arithmetic except for the number of bins; one region; the averaged quantities use the running mean of C40; extensions larger than the map are not modelled |
| C105 | Confidence interval of the efficiency | proved | EffIntervalProps: C105_density (4), C105_mode (4), C105_expectation (4), C105_interval (4), C105_limits (4), C105_errors (4), C105_mirror (4), C105_width (4), C105_impossible (4), C105_start (2) | exact arithmetic; scipy's minimize is assumed to return the solution of its problem (its convergence is not modelled) |
| C106 | Distributions of charge, frame and cluster size in the efficiency analysis | proved | EffDistProps: C106_region (0), C106_dut (0), C106_chunks (0), C106_charge (2), C106_mean_charge (2), C106_cluster_size (2), C106_cluster_size_refuted (2), C106_small_chunks (3) | EffDistModel; charge, frame, size and angle are given functions of the track. False: that clusters of 8 and 9 pixels are in different bins (refuted). |
| C107 | Output nodes of the split-map-combine class | proved | SmcNodesProps: C107_output (0), C107_fitting (0), C107_interrupted (0), C107_interrupted_refuted (0), C107_select (0), C107_names (0), C107_in_place (0), C107_new_file (0), C107_same_file_refuted (0), C107_reuse_refuted (0) | Nodes of the root group; threads are in C15-C17. |
| C108 | Column names in the query of select_tracks | proved | QueryProps: C108_names (0), C108_selection (0), C108_exponent_refuted (0), C108_inner_digit_refuted (0) | The evaluation by numexpr is a given function. |
| C109 | Number of bins of the efficiency histogram in double precision | proved | FloatBinsProps: C109_close (4), C109_default (4), C109_extended (4), C109_whole (4), C109_no_carry (4), C109_fewer_refuted (4), C109_more_refuted (4) | one axis, rectangular pixels; doubles without overflow; resolutions and pitches of at least 2^-100, up to 2^40 bins |
| C11 | Cluster shape identifies the hit pattern | proved | BitsProps: C11_cluster_shape (0), C11_translation_invariant (0), C11_shape_determines_cluster (0) | the part of the clusterizer callback that computes shape and extent; pixel_clusterizer itself is an external package |
| C110 | Groups of binned_statistic | proved | BinStatProps: C110_groups (2), C110_all (2), C110_end_refuted (2), C110_below_refuted (2) | real numbers; csr_matrix keeps the order of the values in a row |
| C111 | Filling of invalid cells | proved | BinStatProps: C111_nearest (0), C111_nan (0), C111_mask_refuted (0) | distance_transform_edt by its documented behaviour (a function with it exists: search_is_edt) |
| C112 | Plot of tracks per event | proved | PlotHistProps: C112_bars (0), C112_totals (0) | the drawing itself is not modelled |
| C113 | Plots of cluster sizes and shapes | proved | PlotHistProps: C113_shown (0), C113_clusters (0), C113_chunk_refuted (0), C113_empty_refuted (0), C113_last_bin_refuted (0); PlotShapesProps: C113_pictures (0) | n_hits and shapes are integers; the drawing itself is not modelled |
| C114 | Range and number of bins of the residual histogram in double precision | proved | ResidualBinsProps: C114_range (4), C114_whole (4), C114_six (4), C114_limits (4), C114_odd_refuted (4), C114_fewer_refuted (4) | Every operation is rounded to the nearest double (Flocq). |
| C115 | Track finding: order of the DUTs and extrapolation | proved | FindSetupProps: C115_order (3), C115_fails (3), C115_no_extrapolation (3), C115_extrapolation (3), C115_own_hit (3), C115_beam_offset (3), C115_beam_refuted (3), C115_positions (3) | Exact (real) arithmetic; missing hits (nan) are None. The track finding itself is C23 and C24. |
| C116 | fit_tracks fits every selected DUT with the DUTs and requirements asked for, or rejects its arguments | proved | FitArgsProps: C116_select_duts (0), C116_as_asked (0), C116_accepted (0), C116_fits (0), C116_storable (0), C116_duplicates_refuted (0), C116_kalman_refuted (0), C116_defaults (0), C116_excluded (0), C116_excluded_two (0), C116_changed_list (0), C116_reused_list_refuted (0) | Arguments as values of a small data type (None, number, list or tuple of numbers, lists and None); classes of errors only. That the DUTs are in the telescope is not checked by this part of the code. |
| C117 | calculate_efficiency uses the resolution asked for each DUT | proved | EffArgsProps: C117_resolutions (0), C117_shared (0), C117_accepted (0), C117_shared_refuted (0), C117_reused_refuted (0), C117_tuple_refuted (0), C117_tuple_of_tuples_refuted (0), C117_names (0) | Lists as objects with identity, tuples and numbers as values; numbers of any type. extend_areas, extend_in_pixel_areas and cut_distances have the same checks; plot_ranges is not modelled. |
| C118 | Arguments of select_tracks | proved | SelectArgsProps: C118_as_asked (0), C118_accepted (0), C118_satisfiable (0), C118_no_selection (0), C118_empty_refuted (0), C118_repeated_dut_refuted (0) |  |
| C119 | Set-up of cluster_hits and end of clusters and events | proved | ClusterSetupProps: C119_cluster_of_indices (0), C119_cluster_of_positions (2), C119_end_of_event (0), C119_masks (0), C119_converted (0), C119_given_positions (0), C119_copied_twice (0), C119_other_true_refuted (0) | The clusterizer of pixel_clusterizer is an argument of the theorems. |
| C12 | Population count | proved | BitsProps: C12_popcount (0), C12_above_32_bit_refuted (0) |  |
| C120 | Correlation of residuals | proved | ResidualCorrProps: C120_never_processed_refuted (1), C120_index_refuted (0), C120_valid (2), C120_binned (2), C120_limit_refuted (2), C120_pairs (0), C120_bounded (3), C120_linear (3), C120_weight_refuted (3) |  |
| C121 | Checks and event numbers of check_file | proved | CheckFileProps: C121_accepted (2), C121_events (2), C121_zero_refuted (2), C121_clusters_refuted (2), C121_message_refuted (2), C121_bins (2), C121_border_refuted (2), C121_mean_positions (2) |  |
| C122 | Noise level, threshold and files of pixel masks | proved | NoiseLevelProps: C122_median (0), C122_fraction (3), C122_pixels (0), C122_nodes (0), C122_corners_refuted (3), C122_sparse_refuted (3), C122_disabled_refuted (0) | Exact real arithmetic for square root and standard deviation; counts below 2^31. The iteration itself is C14. |
| C123 | Parameters and tracks of calculate_transformation | proved | TransformArgsProps: C123_accepted (0), C123_parameters (0), C123_free_entries (0), C123_caller_list (0), C123_caller_list_refuted (0), C123_tracks (3), C123_unique (3), C123_error (3), C123_total (3), C123_chunks (3), C123_distance (3), C123_no_limits (3) | Model of the arguments and of the selection of tracks of calculate_transformation; the fit itself is C41, C70 and C71. |
| C124 | Comparison of yaml files | proved | YamlFilesProps: C124_error (0), C124_equal (0), C124_equivalence (0), C124_order (0), C124_hidden_refuted (0), C124_types_refuted (0) | The yaml loader is not modelled: a file is the list of its documents. |
| C125 | Histograms stored by calculate_residuals | proved | ResidualNodesProps: C125_nodes (2), C125_chunking (2), C125_projection (2), C125_file (2), C125_limits_refuted (2) | Edges are given (C40 and the residual range properties model them); the results of the fits are not modelled. |
| C126 | Content of the file of calculate_efficiency | proved | EffStoreProps: C126_success (2), C126_read (2), C126_only (2), C126_percentages (2), C126_zero_refuted (2), C126_mask_refuted (2), C126_pixel_refuted (2) | The counts are given (C65, C91, C104 model them); plots are not modelled. |
| C127 | Content of the file of histogram_track_angle | proved | AngleFileProps: C127_success (4), C127_file (4), C127_empty (4), C127_order (4), C127_empty_refuted (4) | real numbers; slopes with nan are a separate value; the fits of the histograms are not modelled |
| C128 | Content of the file of cluster_hits | proved | ClusterFileProps: C128_file (3), C128_no_cluster (3), C128_chunk_size (3), C128_extents_refuted (3), C128_errors (3) | the clusterizer (external package) is an argument; the function for a chunk is the one of C119, the runs of SMC those of C107 with the chunks of C07; a run of SMC that does not end normally is None |
| C129 | Maps of track density, hit density and mean charge | proved | DensityProps: C129_density (2), C129_charge (2), C129_chunk_size (2), C129_centre (2), C129_axis (2), C129_empty (2), C129_axis_refuted (2), C129_empty_refuted (2) | Exact real numbers; imshow with origin lower draws the entry [0, 0] at (left, bottom). The y axis is mirrored and an empty table shows the previous DUT. |
| C13 | Merging clusters of all DUTs | proved | MergeProps: C13_merge_cluster_data (0), C13_clusters_once (0), C13_chunk_size_independent (0), C13_clusters_behind_dut0_lost_refuted (0) | Full loop over the chunks of DUT0 with the resumed reads of the other files. |
| C130 | Distributions of the track chi2 | proved | Chi2PlotProps: C130_pages (2), C130_area (2), C130_chunk_size (2), C130_range_refuted (2), C130_name_refuted (2), C130_empty_refuted (2) | Exact real numbers; the sorting function of np.percentile is any that sorts. First page depends on chunk_size; names without number and empty tables. |
| C131 | Figures of plot_events: every track of the range is drawn once at its positions; the drawn lines lie on the fitted tracks but do not cover the telescope | proved | PlotEventsProps: C131_page (3), C131_ends (3), C131_covers (3), C131_planes (3), C131_chunk_size (3), C131_succeeds (3), C131_line_refuted (3) | Model PlotEventsModel.v. The drawn line does not cover the telescope (C131_line_refuted, exact condition in C131_covers); all else as documented. |
| C132 | Pages of masked pixels show every masked pixel once and count the hits of the others | proved | MaskPlotProps: C132_pages (2), C132_marks (2), C132_shown (2), C132_sums (2) | Counts without upper limit; color scales and limits of the axes are not modelled. |
| C133 | The figures of fit_tracks show true shares of tracks; the last share and the title do not say what their labels say | proved | FitStatsProps: C133_shares (0), C133_exists (0), C133_pages (0), C133_made (0), C133_last_refuted (0), C133_title_refuted (0) | The claims of the label of the last share and of the title are refuted (C133_last_refuted, C133_title_refuted). Shares are rational numbers. |
| C134 | The message of compare_h5_files names every difference; sums and strings spoil it | proved | DiffReportProps: C134_columns (0), C134_reason (0), C134_decision (0), C134_messages (0), C134_close_refuted (0), C134_infinite_refuted (0), C134_strings_refuted (0), C134_arrays (0) | Columns within the tolerances, columns with both infinities and strings are refuted (C134_close_refuted, C134_infinite_refuted, C134_strings_refuted). |
| C135 | The file of correlate has every pair of DUTs once, and its figures show the bins of the hits | proved | CorrFileProps: C135_file (2), C135_reduced (0), C135_unselected (2), C135_pages (2), C135_drawn (2), C135_twice_refuted (2), C135_selected_refuted (2), C135_other_refuted (0) | The singular value decomposition is any array of integers of the shape of the histogram. |
| C136 | The figures of track angles show the stored histograms and fits of each DUT, in mrad | proved | AnglePlotProps: C136_pages (4), C136_unknown_refuted (4) | The fit of a histogram is any function of its entries and edges. |
| C137 | File and figures of check_file | proved | CheckPlotProps: C137_file (2), C137_pages (2), C137_drawn (2), C137_zero_refuted (2) | Drawing itself and colours are not modelled; which of several exceptions comes first is not modelled. |
| C138 | Effective pixels of the efficiency plots | proved | EffPixelsProps: C138_effective (1), C138_colours (1), C138_markers (1), C138_marker_refuted (1), C138_same_colour_refuted (2), C138_pixel_hits_refuted (1), C138_figures (1) | the nearest-neighbour search is any function which returns a pixel such that no other is closer |
| C139 | File and pages of align_kalman | proved | KfFileProps: C139_chunks (2), C139_file (2), C139_pages (1), C139_complete (2), C139_failed_fit_refuted (2), C139_last_refuted (2), C139_changes (1), C139_no_tracks (2) | the fit of a track and the update of a DUT are any functions (modelled in AlignKalmanModel and FitKalmanModel) |
| C14 | Noisy/disabled pixel masking terminates and is consistent | proved | PixelMaskProps: C14_masking (0), C14_iteration (0), C14_more_iterations_mask_more (0) | median filter and threshold comparison are arbitrary functions of the image |
| C140 | Ranges of the colours of the maps of mean residuals and charges | proved | MapRangeProps: C140_residuals (0), C140_charges (0), C140_largest_refuted (0) | The statement describes the actual behaviour: the histogram ends one bin too early (np.arange without the end), refuted for the largest value. |
| C141 | Pages of prealign | proved | HoughPlotProps: C141_accumulator (3), C141_data (3), C141_one_bin (3), C141_mirrored_refuted (3) | The statement describes the actual behaviour; the desired position of the votes is refuted. |
| C142 | Maps of calculate_residuals | proved | ResidualMapProps: C142_maps (2), C142_chunks (2), C142_axis_refuted (2), C142_zero_refuted (2) | The statement describes the actual behaviour including the two counterexamples. |
| C143 | Pages with the distributions of residuals | proved | ResidualPlotProps: C143_pages (3), C143_residuals (3), C143_curve (3), C143_image (3), C143_points (3), C143_one_refuted (3), C143_single_refuted (3), C143_box (3) | The statement describes the actual behaviour including the counterexamples; C143_pages covers the exception for empty histograms. |
| C144 | DUTs for the extrapolation of find_tracks | proved | FindArgsProps: C144_accepted (0), C144_set (0), C144_single (0), C144_empty_refuted (0) | The statement describes the actual behaviour; the counterexample depends on numba, whose typed lists without entries have no type. |
| C145 | Reading of a configuration and text of a telescope | proved | OpenConfigProps: C145_loaded (0), C145_empty (0), C145_lines (0), C145_dict_refuted (0), C145_missing_refuted (0), C145_pairs_refuted (0), C145_rejected (0), C145_sequence (0) | The statement describes the actual behaviour including the counterexamples; yaml.safe_load is a given function. |
| C146 | Histograms of track angles of the efficiency analysis | proved | EffAnglesProps: C146_dut (3), C146_regions (3), C146_pages (3), C146_edges_refuted (3), C146_second_refuted (3), C146_one_bin_refuted (3), C146_empty_region_refuted (3) | Stored entries and pages are proved for all chunks; the unit of the edges of regions depends on the plots, the second page of the total angle is wrong by a factor of 1000, one bin and regions without tracks in the first chunk raise exceptions (refuted). |
| C147 | Efficiencies of fixed rectangles in the in-pixel maps | proved | CenterRegionProps: C147_mean (2), C147_near (2), C147_nan_refuted (2), C147_fixed_refuted (2) | The mean is proved for rectangles on the grid, with bounds otherwise; rectangles which start before the map show nan (refuted, for two of the three fixed rectangles if the maps are not extended). |
| C148 | Distributions of efficiencies | proved | EffHistProps: C148_dut (2), C148_efficient (2), C148_region (2), C148_region_refuted (2) | Distributions of DUTs and logged numbers are proved for all counts; the page of a region ignores the mask (refuted). |
| C149 | Pages of cluster sizes and cluster shapes of a region | proved | ShapePagesProps: C149_bars (0), C149_density (2), C149_shares (2), C149_diagonal_refuted (2) | Bars of sizes and shapes and the remaining clusters; shares of the in-pixel pages with their bounds and sums. Two diagonal pixels are shown as three pixels (refuted). |
| C15 | Parallel map keeps chunk order under every schedule | proved | SmcProps: C15_smc_order (0), C15_smc_table (0), C15_smc_empty_table_refuted (0) | All interleavings of the three threads and of the pool. An empty input table kills the writer (proved). |
| C150 | Pages "Efficiency per pixel" colour every pixel with its own efficiency | proved | PixelColoursProps: C150_pixels (2), C150_colours (2), C150_dead_pixels (2), C150_limit (2), C150_open_refuted (2) | Polygons, colours and limits of the pages; the effect of a polygon which is not closed (not reached for pixels inside of the sensor: C91). |
| C151 | Fixtures of the unit tests: stored values, comparison and replacement of nan | proved | FixtureProps: C151_stored (0), C151_untouched (0), C151_compared (0), C151_round_trip (0), C151_exceptions (0), C151_number_refuted (0), C151_erased_refuted (0), C151_order_refuted (0), C151_nan_to_num (0) | Functions with single return values; the numpy rules of broadcasting, allclose and nan_to_num and the rejection of empty arrays by create_carray are modelled as documented. |
| C152 | Default names of output files | proved | FileNamesProps: C152_splitext (0), C152_output (0), C152_kept (0), C152_chain (0), C152_inputs (0), C152_steps (0), C152_same_output_refuted (0), C152_beside (0), C152_beside_refuted (0), C152_fit_tracks (0), C152_beside_distinct (0), C152_combined (0), C152_combined_refuted (0), C152_spelling (0) | os.path of the standard library for posix, on ASCII names; the replacement of "prealigned" in names of configurations is in C93. |
| C153 | Names of the files of the converters | proved | ConverterNamesProps: C153_planes (0), C153_given (0), C153_first (0), C153_process (0), C153_lowest_index_refuted (0), C153_number (0) | ASCII names; header IDs are natural numbers; the external interpreters, which write the interpreted files, are not modelled. |
| C154 | Pages with the densities of hits and tracks of the efficiency plots | proved | DensityLimitProps: C154_sensor (0), C154_empty_refuted (0), C154_region (0), C154_equal (0) | Limits and bins of the density pages of the sensor and of a region; the pages of a DUT without associated hit end with an exception. np.percentile of an empty array is an IndexError as the code of the regions expects; the percentile is exact. |
| C155 | Page with the arrows of the residuals of the efficiency plots | proved | ArrowsProps: C155_drawn (0), C155_only (0), C155_number (0), C155_omitted (0), C155_between_refuted (0) | Start and vector of every arrow, their number and the condition for the page; the bins between are not shown. Rational numbers; the mesh and the widths are not modelled. |
| C156 | Frames and labels of the efficiency regions | proved | RegionPageProps: C156_labels (0), C156_headings (0), C156_missing (0), C156_overlap_refuted (0) | Frames, texts, rotations, headings and percentages of the labels of the regions. Rational numbers; the rounding of the percentage to two decimals is not modelled. |
| C157 | States and errors of the planes of a Kalman fit | proved | KalmanErrorsProps: C157_planes (3), C157_negative (3), C157_diagonal (3), C157_covariances_refuted (3) | Selection of the planes, components of the state, errors and the check of chi2; the smoother is arbitrary here (C58). Real numbers. |
| C158 | Peak and full width at half maximum | proved | PeakProps: C158_peak (2), C158_errors (2), C158_scale (2), C158_background_refuted (2) | fwhm and peak_detect for every spline routine; scaling and background with the stated property of the routine. Real numbers. |
| C159 | Limits of the colours and projections of the maps | proved | PixelHistProps: C159_limits (0), C159_same_refuted (0), C159_projection (0), C159_projection_refuted (0) | Limits of the colours and the projection above the map. Rational numbers; the projection at the right is made in the same way with exchanged axes and not modelled. |
| C16 | Parallel map always makes progress and buffers a bounded amount | proved | SmcProps: C16_smc_bounded (0), C16_smc_completes (0), C16_smc_can_complete (0) | Deadlock freedom, termination in at most 8 steps per chunk + 4, bounded queues. |
| C17 | What happens when the function of a parallel map raises | proved | SmcProps: C17_smc_one_core_hangs (0), C17_smc_returned (0), C17_smc_silent_refuted (0), C17_smc_blocked_refuted (0) | The desired property (exception is reported) is refuted; the actual behaviour is proved. |
| C18 | Combining histograms of chunks | proved | SmcProps: C18_histogram_sum (0), C18_histogram2_sum (0), C18_histogram2_refuted (0) | 2-D histograms with different column counts are scrambled by ndarray.resize (refuted). |
| C19 | Combining files keeps events apart | proved | CombineProps: C19_combined (0), C19_events_apart (0), C19_empty_table_refuted (0), C19_first_table_empty_refuted (0) | event numbers are unbounded integers, all tables have an event_number column |
| C20 | max_events is respected | proved | SelectionProps: C20_max_events (0), C20_single_chunk (0), C20_no_limit (0), C20_keeps_all_refuted (0) | rounding and random choice are arbitrary functions with the documented behaviour; exact rationals instead of doubles |
| C21 | max_events selection never fails | proved | SelectionProps: C20_max_events (0), C21_python_integers_refuted (0) |  |
| C22 | Track selection keeps exactly the requested tracks | proved | SelectionProps: C22_select_tracks (0), C22_summary (0), C22_query_only_refuted (0), C22_summary_converse (0) |  |
| C23 | Track finding only permutes hits inside an event | proved | FindTracksProps: C23_hits_permuted (0), C23_closest_hit (0); FindTracksIdeal: C23_prediction (0), C23_ideal_tracks (0) | for any floating point arithmetic; ideal tracks under order and separation hypotheses shown satisfiable by C23_ideal_case |
| C24 | Columns follow their DUT after track finding (up to 10 DUTs) | proved | FindTracksProps: C24_columns_follow_their_dut (0), C24_hit_flag (0), C24_eleven_duts_refuted (0) | at most 10 DUTs; refuted for 11 |
| C25 | Isolation flag means isolation | proved | FitTracksProps: C25_isolation (0), C25_symmetric (0) | rows ordered by event number; exact rational positions, non-finite as None |
| C26 | Each selected DUT is fitted exactly once with its own requested DUT set | proved | FitTracksProps: C26_each_dut_once (0), C26_own_configuration (0), C26_repeated_fit_duts_refuted (0) |  |
| C27 | Rotation matrices are proper rotations | proved | GeometryProps: C27_proper_rotation (3), C27_axes (3), C27_order (3), C27_transformations_inverse (3), C27_round_trip (3), C27_sensor_round_trip (3), C27_off_plane_error (3), C27_isometry (3) | Over the real numbers; floating point rounding is not modelled. nan entries (missing hits) are not modelled here. |
| C28 | Line-plane intersections | proved | GeometryProps: C28_plane (2), C28_sensor (3), C28_parallel_error (3) | Over the real numbers. |
| C29 | Euler angles reproduce the rotation matrix | proved | AnglesProps: C29_rebuilds (4), C29_recovers (4), C29_refuses (4), C29_gimbal_lock_refuted (4), C29_reflection_refuted (4) | The full statement (all rotation matrices) is false of the code; the two _refuted theorems give the counterexamples. |
| C30 | Spherical coordinates round trip | proved | AnglesProps: C30_round_trip (4), C30_round_trip_back (4), C30_refuted (4) | The original statement is false of the code for x = 0; C30_refuted gives the counterexamples. |
| C31 | Pixel index and position are inverse | proved | SensorProps: C31_index_round_trip (2), C31_position_round_trip (2), C31_out_of_range (2), C31_pixel_area (2), C31_extent (2), C31_global_round_trip (3) | Over the real numbers. |
| C32 | Primitive cell mapping | proved | SensorProps: C32_primitive_cell (2), C32_periodic (2), C32_centre (2), C32_double_column (2), C32_odd_columns_refuted (2) | np.mod is modelled as the exact floored remainder. |
| C33 | Telescope configuration round trip | proved | TelescopeProps: C33_round_trip (0), C33_keep_others (0), C33_load_adds (0), C33_iteration (0), C33_load_refuted (0), C33_empty_file_refuted (0), C33_user_class_refuted (0) | State invariant over all sequences of operations (set, add, assign, load); float conversions and comparison are abstract (strict order). |
| C34 | Extrapolated Kalman state describes the same track | proved | KalmanTrackProps: C34_same_track (3), C34_on_plane (3), C34_unique (3), C34_composition (3), C34_identity (3), C34_back_and_forth (3) | for all planes given by position and angles, tracks crossing the target plane; real arithmetic |
| C35 | Track Jacobian is the derivative of the extrapolation | proved | KalmanTrackProps: C35_derivative (4), C35_composition (3) | directional derivatives in every direction of the state space |
| C36 | Kalman update | proved | KalmanFilterProps: C36_no_hit (0), C36_covariance (0), C36_chi2 (0), C36_chi2_positive (0), C36_least_squares (0), C36_invariant (0), C36_forward_fit (0), C36_backward_fit (0), C36_unique_best (0), C36_smoothed_chi2 (0) | Over any ordered field and any dimensions; Jacobians, gain matrices and reference states are inputs. |
| C37 | Parameters not to be aligned never move; the others move slowly | proved | AlignKalmanProps: C37_fixed (0), C37_steady (0), C37_no_exception (0), C37_unselected (0), C37_aligned (0), C37_total (0) | fit results are arbitrary inputs; real closed field instead of doubles |
| C38 | Annealing | proved | AlignJacobianProps: C38_annealing (4), C38_geometric (4) | real power instead of floating point power |
| C39 | Pre-alignment line model | proved | RansacProps: C39_intercept (3), C39_line_model (3), C39_find_inliers (2), C39_find_inliers_near (3), C39_find_inliers_refuted (3), C39_ransac (3), C39_ransac_fails (3), C39_two_points_refuted (3), C39_one_point_refuted (0), C39_ratio_bound (3) | real numbers, no rounding |
| C40 | Running average of per-bin means | proved | RunningMeanProps: C40_running (2), C40_chunking (2), C40_counts (2), C40_bins (2), C40_first_chunk (2), C40_residuals (2), C40_range_refuted (2), C40_single_position (2) | Running mean over chunks; bins from the first chunk lose entries of later chunks. |
| C41 | Chunks of the alignment and their combination | proved | TransformProps: C41_chunks (0), C41_no_rows (0), C41_translation (0), C41_succeeds (0), C41_single (0), C41_no_chunks (0), C41_rotation (0), C41_rotation_refuted (0) | The rotation uses only the last chunk (refuted average). |
| C42 | Correlation histograms count each pair once | proved | CorrelateProps: C42_correlate (0), C42_exact (0), C42_overflow_refuted (0), C42_outside_refuted (0) |  |
| C43 | Index look-up | proved | ArrayUtilsProps: C43_in1d_index (0), C43_fill_invalid (0), C43_empty_second_array_refuted (0) | np.argsort is any sorting permutation |
| C44 | Unique/neighbour counting | proved | ArrayUtilsProps: C44_unique_column (0), C44_count_unique_neighbors (0), C44_cell_itself_counted (0), C44_negative_values (0), C44_negative_refuted (0) | padding smaller than the array |
| C45 | Histogram statistics | proved | ArrayUtilsProps: C45_mean_is_weighted (0), C45_statistics_of_data (0) | exact rational arithmetic; the square of the rms |
| C46 | Formatting of converted hit tables | proved | ConverterProps: C46_pymosa (0), C46_fei4 (0), C46_chunk_size (0), C46_ordered (0), C46_planes_refuted (0) | Formatting of hit tables; the interpretation of raw data itself (trigger number overflows) is in external packages. |
| C47 | Alignment update composes transformations | proved | AlignProps: C47_proper (3), C47_no_correction (3), C47_rigid (3), C47_single_axis (3) | all alignments and corrections; real arithmetic instead of floats |
| C48 | Applying and reverting the alignment | proved | AlignProps: C48_applied (3), C48_round_trip (3), C48_off_plane_error (3), C48_table_names (0), C48_errors (3), C48_errors_refuted (3), C48_eleven_duts_refuted (3), C48_node_names (0) | rows of the table with real numbers; positive result for table names naming at most one DUT; counterexamples for error columns and 11 DUTs |
| C49 | Cluster shape to array and back | proved | BitsProps: C49_array_of_shape (0), C49_shape_of_array (0) |  |
| C50 | Closest value | proved | ArrayUtilsProps: C50_find_closest (0), C50_single_element (0), C50_unsigned_refuted (0) |  |
| C51 | Histogram quantiles | proved | ArrayUtilsProps: C51_quantiles (0), C51_upper_limit_one_refuted (0) | exact rational arithmetic |
| C52 | Tracks stored by fit_tracks | proved | FitTracksProps: C52_stored_tracks (0), C52_excluded_dut_does_not_count (0) |  |
| C53 | Parallel fit keeps the order of the tracks | proved | FitTracksProps: C53_parallel_fit (0), C53_even_slices (0) |  |
| C54 | Skew matrices and plane normals | proved | GeometryProps: C54_skew (2), C54_plane_normal (2) | Single vector form of skew (the array form applies it per row). |
| C55 | Alignment Jacobian | proved | AlignJacobianProps: C55_derivative (4), C55_same_axis (4), C55_translation (4), C55_unrotated (4), C55_about_beam (4), C55_refuted (4), C55_quarter_turn_refuted (4) | derivative at zero corrections; the code's Jacobian is refuted for rotated DUTs |
| C56 | Scatter gain matrix | proved | KalmanScatterProps: C56_frame (3), C56_derivative (4), C56_covariance (3) |  |
| C57 | DUTs outside of the fit do not influence the track | proved | KalmanFilterProps: C57_states (0), C57_smoothed (0) |  |
| C58 | Kalman smoother | proved | KalmanFilterProps: C58_mean (0), C58_unused (0), C58_ends (0), C58_counted_twice (0), C58_refuted (0) | C58_refuted: three hits 0, 1, 0 in any ordered field. |
| C59 | Optimality of the alignment update | proved | AlignKalmanProps: C59_best (0) |  |
| C60 | Loop of the Kalman alignment | proved | AlignKalmanProps: C60_counts (0), C60_max_tracks (0), C60_saved (0), C60_no_hit (0), C60_parameters (0), C60_saved_refuted (0), C60_max_tracks_refuted (0), C60_no_hit_refuted (0), C60_parameters_refuted (0) | positive theorems describe what the code does, the refuted ones what the documentation suggests |
| C61 | Correlation of consecutive events | proved | CorrelateProps: C61_range (0), C61_chunks_refuted (0), C61_chunks (0) |  |
| C62 | Correlation histograms cover the sensor | proved | CorrelateBinsProps: C62_in_range (3), C62_edge_refuted (3) | real numbers, no rounding |
| C63 | Hough transform finds the correlation line | proved | HoughProps: C63_nearest (3), C63_thetas (3), C63_votes (3), C63_all_votes (3), C63_straight_line (3), C63_selection (3), C63_no_correlation (3) | real numbers; votes not limited to 32 bits |
| C64 | Pre-alignment maps the device on the reference | proved | PrealignProps: C64_placement (4), C64_line (3), C64_aligned (4), C64_exact (4), C64_slope_error (2), C64_range (2), C64_reference_refuted (2), C64_new_limits (2), C64_narrower (2), C64_limits_refuted (2) | real numbers, no rounding |
| C65 | Efficiency counts do not depend on the chunking | proved | EfficiencyProps: C65_counts (2), C65_chunking (2), C65_succeeds (2), C65_efficiency (2), C65_edges (2), C65_first_chunk_refuted (2), C65_previous_dut_refuted (2) | Counts and efficiency over chunks; first chunk without valid hit fails or uses counts of the previous DUT. |
| C66 | Distance cut of the efficiency | proved | EfficiencyProps: C66_within (2), C66_shape (2), C66_no_cut (2), C66_monotone (2), C66_monotone_refuted (2) | Rectangle or ellipse; not monotone at the transition. |
| C67 | Efficiency of regions | proved | EfficiencyProps: C67_region (2), C67_empty_chunk_refuted (2), C67_border_refuted (2) | Running average of region efficiencies; ZeroDivisionError for a chunk without track in the region. |
| C68 | Purity histograms | proved | PurityProps: C68_histograms (3), C68_purity (3), C68_truncated_refuted (2), C68_centre_refuted (3), C68_cut_refuted (3), C68_returns_refuted (3), C68_bins (2), C68_call (0) | Purity per DUT on reals; the float division is exact division followed by truncation. No theorem covers the condition on minimum_hit_density under which a purity is calculated at all. |
| C69 | Track angles and their histograms | proved | TrackAngleProps: C69_angles (4), C69_scale (4), C69_rotation (4), C69_global (4), C69_reversed_refuted (4), C69_histogram (3), C69_chunking_refuted (3) | Real arithmetic; the Gauss fits and plots are not modelled. |
| C70 | A step of the alignment is the best linear step | proved | TransformFitProps: C70_least_squares (0) | Singular value decompositions are quantified with their specification; exact real arithmetic. |
| C71 | Results of the alignment iterations | proved | TransformFitProps: C71_rotation (0), C71_translation_fixed (0), C71_rotation_fixed (0), C71_aligned (0), C71_converged (0), C71_not_before (0), C71_parallel (0), C71_few_tracks (0), C71_no_tracks (0); TransformCases: C71_angles_refuted (0) | Exact arithmetic: in floating point the zero singular values may be tiny instead. |
| C72 | Line fit of tracks | proved | LineFitProps: C72_slope (0), C72_succeeds (0), C72_optimal (0), C72_exact (0), C72_unique (0) | The singular value decomposition is any decomposition of the centred hits; exact arithmetic. |
| C73 | Rows and flags of the stored tracks | proved | StoreTracksProps: C73_rows (0), C73_succeeds (0), C73_keep_data (0), C73_quality_bound (0), C73_missing_hit (0), C73_larger_distance_refuted (0) | The intersections of the tracks and the peak of the residuals of aligned DUTs are inputs. |
| C74 | chi2 of fitted tracks | proved | StoreTracksProps: C74_chi2 (0), C74_zero (0) | Exact arithmetic; masked sums are taken as 0. |
| C75 | Event numbers of simulated tracks | proved | SimulateProps: C75_events (0), C75_defined (0), C75_divisible (0), C75_more_events_refuted (0) | Number of tracks drawn for an event universally quantified. |
| C76 | Shuffling of simulated hits within an event | proved | SimulateProps: C76_shuffle (0) | Permutations by np.random.shuffle universally quantified. |
| C77 | Charge sharing of simulated hits | proved | SimulateHitsProps: C77_pixels (0), C77_last_column (0), C77_seed (0), C77_charge (0), C77_no_diffusion (0), C77_double_charge_refuted (0), C77_last_column_refuted (0), C77_loss_refuted (0) | Charge fractions universally quantified (for C77_charge: differences of two monotone functions), rational arithmetic. |
| C78 | Digitised hits of the simulation | proved | SimulateHitsProps: C78_pixel (0), C78_pixel_unique (0), C78_border (0), C78_efficiency (0), C78_hits (0), C78_table (0), C78_negative_charge_refuted (0), C78_kept (?) | Rational arithmetic instead of floating point; noise, permutations and charges universally quantified. |
| C79 | Number of simulated DUTs | proved | SimulateHitsProps: C79_n_duts (0), C79_more_duts_refuted (0) | The z positions stand for all settings with one entry per DUT. |
| C80 | Alignment of the telescope to the beam | proved | BeamAlignProps: C80_beam (4), C80_collinear (4), C80_succeeds (4), C80_rotation (4), C80_beam_rotation (4), C80_one_dut_refuted (4) | Real arithmetic; the fitted line is universally quantified (line_fit_3d: C72). |
| C81 | Track seed of the Kalman filter | proved | BeamAlignProps: C81_seed (3), C81_defined (3), C81_direction (3) | Real arithmetic; the fitted line is universally quantified (C72). |
| C82 | Comparison of result files decides equality of headers and rows, with named blind spots | proved | TestToolsProps: C82_exact (0), C82_close (0), C82_files (0), C82_required (0), C82_reflexive (0), C82_extra_rows_refuted (0), C82_empty_refuted (0), C82_strings_refuted (0), C82_symmetry_refuted (0) | Values are rationals, NaN, infinities or strings; numpy's broadcasting of different row shapes is not needed because the shape is compared first. The _refuted theorems show the differences that are missed. |
| C83 | Test helper calls a function with every combination of the looped arguments exactly once | proved | TestToolsProps: C83_calls (0), C83_all (0), C83_number (0) | Keyword arguments are looped like positional ones and are modelled by the same list. |
| C84 | Set-up of the Kalman fit of tracks | proved | FitKalmanProps: C84_scattering_planes_refuted (3), C84_success (3), C84_succeeds (4), C84_material (4), C84_chi2 (2), C84_chi2_fit_duts (2) | The chi2 probability (cdf) is not modelled. C84_scattering_planes_refuted holds for all inputs. |
| C85 | Reference trajectory of the Kalman filter | proved | FitKalmanProps: C85_first (4), C85_second (4), C85_position (4), C85_order_refuted (4) | The corrections of the filter are arbitrary inputs. |
| C86 | Multiple scattering in the Kalman filter | proved | FitKalmanProps: C86_momentum (3), C86_monotone (4), C86_momentum_dependence (4), C86_inclination (4); KalmanLastProps: C86_last_plane (0), C86_other_planes (0) |  |
| C87 | Wrappers pair the selected DUTs with their files only if the selection is in telescope order | proved | WrapperProps: C87_duts (0), C87_paired (0), C87_only_sorted (0), C87_succeeds (0), C87_range_refuted (0), C87_order_refuted (0) | Selections that are not strictly increasing are mispaired; the range check is off by one. |
| C88 | Conversion between pixel indices and local positions | proved | CoordinatesProps: C88_round_trip (2), C88_succeeds (2), C88_truncated (2), C88_pixel_refuted (2), C88_out_of_range (2), C88_output_refuted (0) | Truncation to uint16 shifts positions left of the pixel centre to the pixel before; an output file name is never accepted. |
| C89 | Histograms of cluster sizes and cluster shapes | proved | ClusterHistProps: C89_size (0), C89_empty_chunk (0), C89_shape (0), C89_last_shape (0), C89_pattern (0), C89_counted (0), C89_square_refuted (0), C89_index_error (3), C89_errors_consistent (3) | The last bin of the shape histogram mixes two patterns (np.histogram includes the upper edge). |
| C90 | Residual histograms count every selected track once, in bins tied to the pixel size, and the fallback peak finder | proved | ResidualsProps: C90_peak (2), C90_peak_inside (2), C90_border_refuted (2), C90_range (2), C90_default_range (2), C90_histogram (2), C90_first_chunk_refuted (2), C90_bins (2) | Real numbers instead of doubles; the spline peak finder (scipy) is an arbitrary function with non-negative width. Findings: border peaks are not rejected; an empty first chunk is an error. |
| C91 | Tracks are assigned to the pixel they cross; mirrored points close the cells at the sensor border | proved | VoronoiProps: C91_reflection (2), C91_inside (2), C91_no_image (2), C91_selected (2), C91_bounded (2), C91_assigned (2), C91_all_assigned (2), C91_counts (2), C91_mask (2), C91_border_refuted (2) | The Voronoi diagram of scipy and the nearest-neighbour search are universally quantified under their specification; real numbers instead of doubles. |
| C92 | Polygon areas | proved | PolygonProps: C92_start (2), C92_direction (2), C92_affine (2), C92_triangles (2), C92_chord (2), C92_rectangle (2), C92_small (2), C92_pixel_sizes (2) | Real numbers instead of doubles. |
| C93 | The alignment of the DUTs accepts exactly consistent selections, fits with the required hits, and leaves no temporary files | proved | AlignArgsProps: C93_select_duts (0), C93_none_refuted (0), C93_hit_duts (0), C93_single_dut_refuted (0), C93_fit_duts (0), C93_chi2 (0), C93_shapes (0), C93_parameters (0), C93_query (0), C93_queries (0), C93_telescope_none_refuted (0), C93_quality_none_refuted (0), C93_steps (0), C93_files (0), C93_configuration (0), C93_name_refuted (0), C93_name (0), C93_group_shapes (0), C93_number (0), C93_distances (0), C93_reads (0), C93_telescope (0) | the analysis functions called by the alignment are actions on files |
| C94 | The Gaussian fit functions are what they claim to be | proved | GaussProps: C94_convolution (4), C94_symmetric (3), C94_decreasing (4), C94_positive (4), C94_half_maximum (4) | erf is defined by its integral; real numbers instead of floats |
| C95 | Moments of a histogram describe its data, and the line of the residuals is fitted to the selected bins | proved | FitResidualsProps: C95_mean (2), C95_rms (3), C95_binned (3), C95_median (2), C95_single_bin (3), C95_limits (2), C95_outside_refuted (2), C95_threshold (2), C95_uniform_refuted (3), C95_line (3), C95_means (3) | curve_fit and the line fit are given functions; real numbers instead of floats |
| C96 | Covariances are replaced by the nearest positive semi-definite matrix, or refused | proved | NearestPsdProps: C96_nearest (0), C96_unchanged (0), C96_any_svd (0), C96_chunk (0) | svd, eigvalsh and spacing are given functions; an ordered field instead of floats |
| C97 | The pixels of the diamond sensors are at the positions of their electrodes | proved | DiamondProps: C97_distinct (0), C97_apart (0), C97_displacement (0), C97_electrodes (0), C97_limits (0), C97_round_trip (0), C97_inverse_refuted (0), C97_even_refuted (0), C97_cluster_refuted (0) | exact numbers instead of floats; positions in nm |
| C98 | The arguments of an analysis function are stored in its output files | proved | StorageProps: C98_warning (0), C98_recorded (0), C98_last (0), C98_complete (0), C98_cut_refuted (0), C98_only_passed (0), C98_defaults_refuted (0), C98_date_refuted (0) | files are their tables of arguments; strings are bytes |
| C99 | Tracks of the simulation pass through the sensors as particles do | proved | SimTracksProps: C99_flight (4), C99_shape (4), C99_straight (4), C99_success (4), C99_axis (4), C99_inclined_refuted (4), C99_sigma (4), C99_small_budget_refuted (4), C99_tracks (3), C99_errors (3), C99_y_refuted (3), C99_redraw_refuted (3), C99_resample (3) | real numbers; random numbers are universally quantified; the azimuth of a scattered direction with x = 0 is left open (C30_refuted) |

## 7. Findings

Statements a user would expect which are false of the code (each with a proof that a counterexample exists):

| theorem | finding |
|----|----|
| C01_negative_event_refuted | Without the two side conditions the statement fails: an event number -1 is never reported, and an empty second array is read out of bounds. |
| C01_empty_second_array_refuted | Common events of two event arrays: see the statement of C01 |
| C02_empty_array_refuted | An empty array (e.g. a chunk without clusters) is read out of bounds. |
| C04_large_index_refuted | Without the int32 restriction the claim fails: the index is truncated to 32 bits before the range check, a far out-of-range index is counted. |
| C07_error_after_range_refuted | The full claim "a request whose rows all fit in chunks is delivered without error" is false: the event behind the requested range can raise ValueError although all requested rows were delivered. |
| C07_indexed_refuted | With a column index on event_number (try_speedup) the last event before stop_event is lost: the stop event is turned into a stop index, in front of which the last event is taken to be incomplete. |
| C07_missing_event_refuted | fail_on_missing_events does not report a missing start event that is not before the end of the first chunk, nor a missing stop event. |
| C09_event_zero_refuted | rows of event 0 are not found if there are no other events |
| C09_start_behind_data_refuted | a start event behind the data without a stop event returns everything |
| C10_large_coordinate_refuted | the decoded 64 bit number is wrong for every coordinate from 2^16 on |
| C100_no_diffusion_refuted | Without diffusion (temperature 0) every pixel gets the full charge: the fractions of n x m pixels sum up to n m. |
| C100_loss_refuted | "Distribute total charge with maximum 1% loss": with a cloud of more than five pixels the fraction of every pixel is less than 1%, all of them are left out. |
| C101_mimosa_refuted | Column 69 of the MIMOSA26 sensor (18.4 um, 1152 columns) becomes column 68. |
| C102_size_refuted | A cluster with two or more hits is a ValueError: the bins of the tracks are repeated for each hit although there is already one for each hit. |
| C102_mask_refuted | A track on a disabled pixel in the chunk is an error. |
| C102_no_match_refuted | A chunk of cluster hits of which none belongs to a valid track is an error. |
| C102_outside_refuted | A valid track with an intersection outside of the histogram is a ValueError, also without cluster hits. |
| C103_track_chi2_refuted | The documented form of track_chi2, a number, which is also the default: TypeError after the search for tracks, and the temporary file stays. |
| C103_exclude_refuted | Lists for the DUTs of groups with different numbers of DUTs never work. |
| C104_size_refuted | The size of the maps depends on the chunks if the resolution does not divide the pitch: cells of several pixels of 50 um, bins of 30 um, tracks at 95 um and 110 um. |
| C104_edge_refuted | A track on an edge: in the last bin of the map before it is enlarged, in the next bin after it. Double columns of 50 um, bins of 10 um, tracks at 50 um and 70 um. |
| C104_hits_refuted | The map of hits depends on the chunks, and contains hits that are not valid: the hit of the far track is counted in the bin (2, 0) in one chunk with the other track, but not in a chunk of its own. |
| C104_diagonal_refuted | Two diagonal pixels (shape 6) are counted in the entry 6, as the shape 11 of three pixels; the other diagonal (shape 9) is not counted. |
| C104_extension_refuted | If the resolution does not divide the pitch, the extension is not the map of the neighbouring pixel: pixels of 50 um, bins of 30 um, a track 5 um from the edge of the pixel. The extended map has it in the bin from 60 um to 90 um, where no pixel has the position 5 um. |
| C104_bins_refuted | In general one bin can be missing: for the pitch 18.4 um and the resolution 0.6 um there are 30 bins in the range of 31 * 0.6 um, each 0.62 um wide. |
| C106_cluster_size_refuted | Desired: clusters of 8 and of 9 pixels are in different bins and all sizes are counted. |
| C107_interrupted_refuted | But the temporary table of the stopped run stays in the file, and then no later run (with mode 'r+') can write this node: create_table raises in the writer thread. |
| C107_same_file_refuted | One would expect that the input table survives or that the caller gets an exception. With the default mode 'w' and output_filename = input_filename every run that is not refused empties the file and returns without exception (the NoSuchNodeError is raised in the thread of the reader). |
| C107_reuse_refuted | One would expect that a second run with the same node description writes to the same node. The first run leaves "_tmp" at the name in the dictionary of the caller: the second run writes to a node X_tmp, the node X keeps the first result. |
| C108_exponent_refuted | One would expect that numbers can be written as in Python. A number with exponent (1e3, 5.0e-3) is taken for a variable: every such query is an error, whatever the columns are. |
| C108_inner_digit_refuted | One would expect that every column can be used. A name with a digit before a letter is cut behind the digits: it is an error unless the parts are columns. |
| C109_fewer_refuted | Number of bins of the efficiency histogram in double precision: see the statement of C109 |
| C109_more_refuted | Number of bins of the efficiency histogram in double precision: see the statement of C109 |
| C110_end_refuted | A number at the upper end of the range, or above, is an error for the whole array. |
| C110_below_refuted | A number below the range, by less than a bin, is counted in the first bin; a number further below is an error. |
| C111_mask_refuted | A mask of invalid cells replaces the test for nan: a cell with nan which is not in the mask stays nan and is a source of values. |
| C113_chunk_refuted | One chunk without a hit in the DUT makes the plot fail. |
| C113_empty_refuted | A DUT with an empty table shows the bars of the previous DUT, below the title "0 hits, 0 clusters"; for the first DUT the plot fails. |
| C113_last_bin_refuted | The last bin of the histogram of the shapes holds two shapes: 65534 and 65535, the cluster of 4x4 pixels; larger shapes are not counted. |
| C114_odd_refuted | Refuted: the range is not always an even number of pixels. With the pitch 18.4 um of Mimosa26 and a FWHM of 90 um, 30 pixels cover 6 FWHM; but 30 * 18.4 / 18.4 is more than 30 in double precision, and a pixel is added: the range is 31 pixels, with 620 bins for 20 bins per pixel. |
| C114_fewer_refuted | Refuted: the number of bins is not always the number of pixels times the bins per pixel. With the pitch of Mimosa26 and narrow residuals, 6 pixels with 21 bins per pixel have 125 bins. |
| C115_beam_refuted | Track finding: order of the DUTs and extrapolation: see the statement of C115 |
| C116_duplicates_refuted | Repetitions in select_fit_duts are not rejected, and then no track can be stored: two different DUTs cannot have the three required hits. |
| C116_kalman_refuted | With the Kalman filter two fit DUTs are not rejected, although no track can be stored. |
| C116_reused_list_refuted | Used again, for a telescope with more DUTs, the list asks for other DUTs than at first. |
| C117_shared_refuted | The list [None, 50] for two DUTs, given as the same object ([[None, 50]] * 2): the second DUT gets the pixel size of the first one. Two lists with the same contents give what was asked for. |
| C117_reused_refuted | The list is changed by the call: used again for a DUT with another pixel size, it asks for the resolution of the first call. |
| C117_tuple_refuted | None in a tuple is an error, although a pair with None can be given as a list. |
| C117_tuple_of_tuples_refuted | A tuple with one pair for each DUT passes the checks if there are two DUTs, but is then taken as one pair. |
| C118_empty_refuted | An empty list of DUTs for all DUTs is rejected, although an empty list for each DUT is accepted and asks for the same. |
| C118_repeated_dut_refuted | A repeated DUT passes the checks; the error comes when the second table is created, after the tracks of the DUT have been written. |
| C119_other_true_refuted | With another true value than True (1, or a boolean of numpy) the columns and rows are not converted: positions are clustered, but the clusterizer gets hits without positions. |
| C12_above_32_bit_refuted | larger numbers, as used for 64 bit cluster shapes, are not counted correctly |
| C120_never_processed_refuted | No DUT can be processed: an integer has no pixel size, an object cannot be formatted as integer. The function returns only if no DUT is selected. |
| C120_index_refuted | For a single DUT the loops over the bins change the index of the DUT: with more than one bin in x the first reference track ends with an IndexError, with one bin in x and more than one in y the second one. |
| C120_limit_refuted | Correlation of residuals: see the statement of C120 |
| C120_weight_refuted | In the fit of the correlations a bin with more pairs of tracks has a smaller weight than a bin with fewer, although its correlation is known better. |
| C121_zero_refuted | If the first chunk holds event 0 only, the difference between the first two events is missing. |
| C121_clusters_refuted | A table of clusters, as cluster_hits writes it, cannot be checked: the columns that are checked are those of hits. |
| C121_message_refuted | A position outside of the sensor is found, but the message of the error cannot be made: the error is a TypeError. |
| C121_border_refuted | A position exactly at the upper border passes the checks, but its bin is outside of the histogram if the size of the sensor is a multiple of the resolution. |
| C122_corners_refuted | A noisy pixel is not the only thing that is masked: on a sensor in which every pixel has the same number of hits, the four corners, and only they, are masked with the default filter size and threshold if there are 396 pixels or more: the positions past the edges count as 0, and five of nine positions around a corner are past the edges. |
| C122_sparse_refuted | With few hits every pixel with a hit is masked, for every threshold: if all pixels with hits have the same number of hits and fewer than half of the positions around each have hits, the noise level is 0. |
| C122_disabled_refuted | Both a mask of disabled pixels and the name DisabledPixelMask: the second node cannot be created. |
| C123_caller_list_refuted | Refuted: the argument is not changed by the call. The caller's list is another one afterwards whenever an item was None, and even when the call fails because of a later item. |
| C124_hidden_refuted | Refuted: equal files have the same documents. A first document whose keys all come again is not looked at, and the types of numbers may differ. |
| C124_types_refuted | Comparison of yaml files: see the statement of C124 |
| C125_limits_refuted | Refuted: the limits select the same tracks for all histograms. A hit outside of the limits in x is left out of the residual histogram and of the histogram against the y position but counted against the x position. |
| C126_zero_refuted | Refuted: all efficiencies zero are refused. With minimum_track_density 0 a bin without track is enough: nan counts as different from zero. |
| C126_mask_refuted | Refuted: bins with too few tracks can be told from the others. Except for the mask of stat_2d_efficiency_hist no array depends on minimum_track_density: the masks of pixels, of regions and of all other maps are lost. |
| C126_pixel_refuted | Refuted: the file tells how many tracks are behind the efficiency of a pixel. One track with hit and hundred tracks with hit give the same file. |
| C127_empty_refuted | The histograms stored under the name of a DUT are not always made of the tracks of this DUT: a DUT without tracks. |
| C128_extents_refuted | One would expect that the file tells the extents of the clusters, which are calculated for each cluster (C119). They are overwritten: two clusterizers whose clusters differ in nothing but these two columns give the same file. |
| C129_axis_refuted | Maps of track density, hit density and mean charge: see the statement of C129 |
| C129_empty_refuted | Desired: the pages of a DUT show its own tracks. |
| C13_clusters_behind_dut0_lost_refuted | A cluster of another DUT behind the last event of DUT0 is lost. |
| C130_range_refuted | Distributions of the track chi2: see the statement of C130 |
| C130_name_refuted | Desired (the "continue" of the except clause): a node whose name has no number is left out. False: IndexError. |
| C130_empty_refuted | Distributions of the track chi2: see the statement of C130 |
| C131_line_refuted | The line of a track through a telescope which starts at or behind the origin and ends more than 10 mm behind it does not reach the last DUT. |
| C133_last_refuted | The figures of fit_tracks show true shares of tracks; the last share and the title do not say what their labels say: see the statement of C133 |
| C133_title_refuted | The title lists as "Fit DUTs" the DUTs whose tracks are stored; with exclude_dut_hit this is, in every fit, the one DUT which is not used in the fit. |
| C134_close_refuted | The message of compare_h5_files names every difference; sums and strings spoil it: see the statement of C134 |
| C134_infinite_refuted | A column which is the same in both tables is reported as different if it has both infinities (their sum is NaN). |
| C134_strings_refuted | With tolerances and a column of strings the detailed comparison fails with an exception where the other one has a result. |
| C135_twice_refuted | Refuted: "a reference may be given twice". The second histogram of the same pair cannot be created (NodeError), after the file has been filled. |
| C135_selected_refuted | Refuted: "the check of the DUTs rejects DUTs which the telescope does not have". The number of DUTs itself passes, and correlate stops later with an IndexError. |
| C135_other_refuted | Refuted: "nodes which are no correlations are skipped". A node whose name has fewer than two numbers stops all figures (IndexError; only AttributeError is handled). |
| C136_unknown_refuted | Refuted: "what histogram_track_angle accepts can be plotted". DUTs which the telescope does not have are ignored by the histograms, but their figures end with an exception (no such node or name). |
| C137_zero_refuted | Desired: a file with hits has figures. False: with hits of event 0 only there is none, although the number of the event is stored. |
| C138_marker_refuted | Desired: every pixel which is seen in the area of its own bins has a marker. False: the pixel of the first bin with tracks with hit has none if it has no other such bin. |
| C138_same_colour_refuted | Effective pixels of the efficiency plots: see the statement of C138 |
| C138_pixel_hits_refuted | Desired: with the hits of the pixels there is a figure of the effective pixels by the numbers of hits. False: with them the figures end with an exception, for every DUT with at most 10^5 pixels. |
| C139_failed_fit_refuted | Desired: the chi2 of a track whose fit fails is not in the file. False: it is stored as 0 (and so is its p-value); if all fits fail the pages end with an exception. |
| C139_last_refuted | Desired: the file tells the result of the alignment. False: what the last track changes is not in the file; two different results have the same file. |
| C140_largest_refuted | Desired: the range of the map contains all mean residuals, or all but a few. False: if a value is at most the largest one rounded up minus 1, the largest one is above the range. |
| C141_mirrored_refuted | Desired: the page shows the number of votes of a line at its distance and angle. False: one hit in the second of two bins votes for the distance 1 at angle 0, the page shows 0 there. |
| C142_axis_refuted | Maps of calculate_residuals: see the statement of C142 |
| C142_zero_refuted | Maps of calculate_residuals: see the statement of C142 |
| C143_one_refuted | On the second page a bin with one residual cannot be told from an empty one: no part of its bar is above the lower end of the axis. The bars of all bins with more residuals are seen. |
| C143_single_refuted | If all residuals are in one bin, the drawn curve of the fit is zero everywhere, although the fit has the height of the bin. |
| C144_empty_refuted | An empty list, which is documented to disable the extrapolation too, passes the check, but raises TypeError. |
| C145_dict_refuted | A dictionary is documented as argument in the code ("conf is already a dict"), but every dictionary with entries and every open file is a NameError in Python 3; in Python 2 the dictionary is returned. |
| C145_missing_refuted | The name of a missing file is not reported as such: as YAML it is a text, and a text with at least one character is a ValueError. |
| C145_pairs_refuted | A document which is not a mapping can be accepted: a list of texts with two characters each (different first characters) is taken as pairs of key and value. |
| C146_edges_refuted | One would expect that the output file does not depend on the plots: with the pages the stored edges of every histogram of every region differ from the edges which are stored without plots, the entries and the histograms of the DUT are the same. |
| C146_second_refuted | The second page has the same title and the same label as the first one, "Total track angle distribution" and "Track angle [mrad]": its bars are at the angles in mrad times 1000, hence at wrong positions. |
| C146_one_bin_refuted | With one bin the histograms can be calculated and stored, the plots raise an exception. |
| C146_empty_region_refuted | If no track of the first chunk with hit is in one of the regions the call raises an exception, with and without plots. |
| C147_nan_refuted | A rectangle which starts before the map shows nan, whatever the efficiencies of its bins are: the negative index counts from the end of the map. |
| C147_fixed_refuted | If the in-pixel maps are not extended (the default), they begin at 0, and two of the three fixed rectangles show nan: for every map which is at least two bins wider than 10 um. |
| C148_region_refuted | A region with all pixels of the DUT should have the same distribution as the DUT: if a pixel has tracks, but fewer than the minimum, its bar is higher in the distribution of the region. |
| C149_diagonal_refuted | The page of the shapes 13, 14, 7 and 11 (three pixels) shows the share 1 for a bin whose only cluster has two diagonal pixels. |
| C15_smc_empty_table_refuted | Every run on a table without rows ends with the caller unaware of a dead writer. |
| C150_open_refuted | A polygon which is not closed is skipped, but not its value: the colours of all following pixels are those of their predecessors. Two pixels with efficiencies of 50 % and 100 %, the first one without closed polygon. |
| C151_number_refuted | "As many calls as stored values are compared" is false: one call is compared with all stored values, and one stored value with all calls; without calls the answer is yes. |
| C151_erased_refuted | "A fixture which cannot be made leaves the old one" is false: an empty list of values erases it. |
| C151_order_refuted | "The order of the keyword arguments does not matter" is false: the same calls in another order do not agree with the fixture. |
| C152_same_output_refuted | "Different steps have different outputs" and "different inputs have different outputs" are false: both conversions to local coordinates write to the same file, and so do two inputs which differ after the last dot. |
| C152_beside_refuted | "Different inputs have different outputs" is false for these functions: all inputs of a directory share the output. |
| C152_combined_refuted | "The combined file is none of the inputs" is false: a further file is added to a combined one. |
| C153_lowest_index_refuted | "The name with the lowest index is taken" (comment of L45) is false: of the files 9 and 10 it is that of 10. |
| C154_empty_refuted | "The densities of every DUT are drawn" is false: without a hit there is no page at all, and if no track has a hit the plots end with an exception after the second page. |
| C155_between_refuted | "The arrows show the residuals of the sensor" is false: residuals of the bins between are not shown whatever they are, and a bin without a residual looks like one with the residual 0. |
| C156_overlap_refuted | "The labels do not cover each other" is false: regions with the same middle have their texts at the same place. |
| C157_covariances_refuted | "The returned arrays have the same planes" is false: with scattering planes, there are more covariances than positions for every track. |
| C158_background_refuted | "The width is that of the peak above its background" is false: a constant background of at least the height of the peak makes all values positive with respect to half of the largest, so that a spline without zeros for positive data finds no peak. |
| C159_same_refuted | "The limits are never the same" is false exactly if both limits are 0; with equal limits below 0 the range is upside down. |
| C159_projection_refuted | "The projection above the map shows it along x" is false: it has one point for each row, and for a map whose values depend only on the column all points have the same value. |
| C17_smc_silent_refuted | C17 refuted for two cores: func raises on the first of two chunks, the constructor returns, no result is written. |
| C17_smc_blocked_refuted | With more chunks than fit into the queue the same failure blocks the constructor for ever. |
| C18_histogram2_refuted | ... but not in general: a 2 x 1 and a 2 x 2 histogram. |
| C19_empty_table_refuted | An empty table breaks the separation: the last event number is taken from the chunk variable, which still holds rows of another table; later files overlap with earlier ones. |
| C19_first_table_empty_refuted | ... and an empty first table raises. |
| C20_keeps_all_refuted | More requested events than there are does not mean that all events are kept: the number taken from a chunk is proportional to its rows, not to its events. |
| C21_python_integers_refuted | C21: with Python integers as row counts the formula would divide by zero once all requested events are taken before the last chunk. |
| C22_query_only_refuted | ... but the summary raises ZeroDivisionError after the first DUT if only a query is given. |
| C24_eleven_duts_refuted | With 11 DUTs the columns of DUT 10 are rearranged a second time, with the indices of DUT 1. |
| C26_repeated_fit_duts_refuted | Without the requirement that the fit DUTs of a configuration are different, the required number of hits of another DUT is used: DUT 1 asks for hits in DUTs 0 and 2 but gets no tracks with two hits. |
| C29_gimbal_lock_refuted | Gimbal lock: for a rotation by 90 degrees about y no result is assigned. |
| C29_reflection_refuted | Mirror images pass the check for rotation matrices, and get angles of some other matrix. |
| C30_refuted | The azimuth is wrong in the plane x = 0, and the negative z axis is refused. |
| C32_odd_columns_refuted | For an odd number of columns it is shifted by one pitch: the left edge of the sensor is mapped to the middle of a pair. |
| C33_load_refuted | C33 is not true of a telescope that is not new: the loaded telescope has all DUTs it had before |
| C33_empty_file_refuted | keep_others and a file without content: an exception |
| C33_user_class_refuted | A DUT of a class of the user (set with telescope[id] = dut): can be saved, cannot be loaded |
| C39_find_inliers_refuted | ... but not all of the points within the threshold are selected |
| C39_two_points_refuted | Two points, which are on a straight line: the function always fails, and with one point as well |
| C39_one_point_refuted | Pre-alignment line model: see the statement of C39 |
| C40_range_refuted | Desired: the result does not depend on the chunk size. False: the bins cover only the range of the first chunk, entries of later chunks outside of this range are in no bin. |
| C41_rotation_refuted | Chunks of the alignment and their combination: see the statement of C41 |
| C42_overflow_refuted | A bin with 2^31 pairs has a negative number of entries |
| C42_outside_refuted | An index outside of the histogram writes to memory outside of it |
| C43_empty_second_array_refuted | empty second array |
| C44_negative_refuted | One would expect that different values are counted separately: the value -1 and the largest value are counted once. |
| C46_planes_refuted | No other plane than those of the list is written; hits of other planes are lost without a message. A header ID twice gives the hits twice. |
| C48_errors_refuted | ... but not in general: the error of a DUT rotated by -45 degrees moves from x to y. |
| C48_eleven_duts_refuted | More than ten DUTs: the offset of the tracks of DUT 10 is transformed with DUT 1 as well, and the way back does not undo this. |
| C50_unsigned_refuted | unsigned integers: the difference wraps around and the second element is chosen for values left of the first one |
| C51_upper_limit_one_refuted | with an upper limit of 1 the lower limit has no effect, and the returned list of indices contains an index behind the histogram |
| C55_refuted | But not in general: for a sensor facing the other way (rotated by 180 degrees about y) the derivative with respect to the rotation about the beam has the wrong sign, ... |
| C55_quarter_turn_refuted | ... and for a sensor rotated by 90 degrees about the beam the rotations about x and y are mixed up. |
| C58_refuted | Kalman smoother: see the statement of C58 |
| C60_saved_refuted | Saved is the alignment before the last track |
| C60_max_tracks_refuted | One track more than max_tracks is used |
| C60_no_hit_refuted | A track without hit in the first plane, which is not to be aligned: the alignment of this plane is nan; at the next track, there is an exception |
| C60_parameters_refuted | One list of parameters for each selected DUT, as described for the argument, is an IndexError if DUT 4 is the only selected one; so are the lists used by default |
| C61_chunks_refuted | The function is called for each chunk: pairs with one hit in the chunk before are not counted. Same hits, in one chunk and in two |
| C62_edge_refuted | Clusters or hits exactly at the edge of the sensor (which the functions accept) have an index outside of the histogram |
| C64_reference_refuted | For a reference at another position none of them is found: the position of the bins of the reference is not taken into account |
| C64_limits_refuted | Without a common range the new limits are the gap between the two ranges: not a single pixel with correlation is within the limits |
| C65_first_chunk_refuted | Desired: a first chunk without valid hit is no problem. False: for the first DUT the analysis fails, whatever follows. |
| C65_previous_dut_refuted | Desired: the result of a DUT depends on its own tracks only. False: without valid hit in its first chunk the counts of tracks with hit of the previous DUT are used; here a DUT without a single hit is 100 % efficient. |
| C66_monotone_refuted | Desired: a wider cut keeps all hits. False where the rectangle becomes an ellipse (2.4 pixels and 2.5 pixels). |
| C67_empty_chunk_refuted | Desired: a chunk without track in the region is no problem. False: the analysis fails with ZeroDivisionError, whatever the other chunks are. |
| C67_border_refuted | Desired: two regions which touch share the tracks among them. False: tracks on the border are in none of them. |
| C68_truncated_refuted | Desired: the purity is the fraction of pure hits. False: 1 of 3 gives 33 %, 1 of 200 gives 0 %. |
| C68_centre_refuted | Desired: all pure hits are counted. False: a chunk with pure hits at the centre of the sensor only is skipped. |
| C68_cut_refuted | Documented: a hit with distance <= cut_distance is pure. False for equality. |
| C68_returns_refuted | Desired: figures are made, and purities are returned and stored. False: with at least one DUT calculate_purity always raises an exception and no figure is made. Where the purities of the first DUT can be computed this is the call of purity_plots, which lacks the telescope (with it the call would be accepted); the message which follows would raise the next exception, since it has two placeholders and one value. |
| C69_reversed_refuted | Desired: the angles belong to the line and not to the direction in which it is stored. False: for the opposite direction (local slopes of a DUT which is mounted with its z axis against the beam) alpha and beta change their signs. |
| C69_chunking_refuted | Desired: the histogram does not depend on the chunk size. False: angles of later chunks outside of the range of the first chunk are lost. |
| C71_angles_refuted | Only rotation_beta is selected; alpha and beta of the DUT are zero and gamma is 90 degrees: alpha = arctan2(R21, R22) is changed (to 36.9 degrees) and beta = - arcsin(R20) is not. |
| C73_larger_distance_refuted | A larger quality distance can remove the quality flag, since the shape changes from the rectangle to the ellipse, and it changes the isolation of hits. |
| C75_more_events_refuted | If the chunk size does not divide the number of events, there are more events than requested. |
| C77_double_charge_refuted | Hence the charge is not preserved, and in the last column the hits are in the neighbouring column. |
| C77_last_column_refuted | Charge sharing of simulated hits: see the statement of C77 |
| C77_loss_refuted | Charge sharing of simulated hits: see the statement of C77 |
| C78_negative_charge_refuted | With a threshold of zero hits can have a negative charge. |
| C79_more_duts_refuted | Setting the number twice, first lower, changes nothing of this. |
| C80_one_dut_refuted | For one selected DUT all lines through its position are equally good. If the fit returns the x axis (the first right singular vector of a zero matrix in LAPACK), the call fails for a DUT without rotation about y. |
| C82_extra_rows_refuted | An empty table is equal to any table, and further rows of the second file are not noticed behind full chunks; the result depends on the order of the files. |
| C82_empty_refuted | Comparison of result files decides equality of headers and rows, with named blind spots: see the statement of C82 |
| C82_strings_refuted | Behind a column of strings nothing is compared. |
| C82_symmetry_refuted | The comparison with tolerance is not symmetric. |
| C84_scattering_planes_refuted | With scattering planes no track is fitted: fit_tracks and the alignment give one annealing factor per DUT, but one per plane is read. |
| C85_order_refuted | Reference trajectory of the Kalman filter: see the statement of C85 |
| C87_range_refuted | A selection that contains the number of DUTs, or a DUT twice: files are ignored or used for another DUT. |
| C87_order_refuted | Wrappers pair the selected DUTs with their files only if the selection is in telescope order: see the statement of C87 |
| C88_pixel_refuted | The stored index is not the one of the pixel, and may even be outside of the sensor. |
| C88_output_refuted | Conversion between pixel indices and local positions: see the statement of C88 |
| C89_square_refuted | The last bin counts two patterns. |
| C90_border_refuted | The peaks at the ends are not rejected: the reported range can be the gap between two peaks, without the maximum. |
| C90_first_chunk_refuted | A first chunk without such a track is an error, whatever is in the others. |
| C91_border_refuted | A point on the border is its own image: its cell is not cut off there. |
| C93_none_refuted | The documented default "None: align all DUTs" is an error. |
| C93_single_dut_refuted | Without select_hit_duts a group with one DUT is an error, also the example of the documentation. |
| C93_telescope_none_refuted | Without select_telescope_duts (the default) the alignment fails; also with quality_distances None, documented as infinite. |
| C93_quality_none_refuted | The alignment of the DUTs accepts exactly consistent selections, fits with the required hits, and leaves no temporary files: see the statement of C93 |
| C93_name_refuted | The default name changes all occurrences, also in the name of the folder. |
| C95_outside_refuted | Otherwise the limit is ignored: with a lower limit above all bins, or an upper limit below all bins, the selection is the one without this limit. |
| C95_uniform_refuted | If all populated bins have the same number of entries, none is selected and there is no line. |
| C97_inverse_refuted | but not on the diamond, for any position of it: pixels of the hexagonal and of the square region are given back as another one |
| C97_even_refuted | The position of the diamond is not checked: with an even first column the electrodes are up to 325 um from the center of their pixels, thus in another column |
| C97_cluster_refuted | A cluster of two pixels is not between its pixels: the index of the cluster is fractional and selects no electrode. Indices and positions in halves of pixels and nm. |
| C98_cut_refuted | The arguments of an analysis function are stored in its output files: see the statement of C98 |
| C98_defaults_refuted | The arguments of a function are not complete: defaults are not stored |
| C98_date_refuted | A date given as struct_time is not stored |
| C99_inclined_refuted | An inclined track is scattered by another angle; a track along x is not scattered at all by a kick along x. |
| C99_small_budget_refuted | With less material the sigma is negative, and the simulation fails. |
| C99_y_refuted | The spread of y is that of x if the sigma of y is not zero. |
| C99_redraw_refuted | New samples of theta take the beam angle and its sigma in mrad as rad: as soon as one first sample is too large, the simulation fails unless a random number is more than 100 sigma away. |

Further observations made while reading the code, without a theorem:

* calculate_residual_correlation: the inner loop `for index, arr in enumerate(x_res)` overwrites the index of the loop over the DUTs; correlate_n_tracks shrinks from DUT to DUT.
* calculate_efficiency: `cut_distance[0] = np.inf` is a TypeError if cut_distance is a tuple with None; a chunk with valid hits but no track in the histogram is a ValueError;
  the condition in L1082 is always true; the range of the angle histograms is the one of the first chunk.
* find_tracks with align_to_beam rotates the hits but not the positions and normals of the DUTs used for the extrapolation.
* open_configuation uses the Python 2 name `file`; create_folder uses `errno` without importing it; create_results_array with keep_data=True is a NameError.
* simulate_data: beam_position_sigma[1] and digitization_sigma_cc are ignored; redrawn angles are not divided by 1000; n_events=0 is a ValueError.
* cluster_hits with use_positions truncates seed positions to uint16.
* fit_residuals_vs_position weights the bins with the square of the counts (errors proportional to 1/count instead of 1/sqrt(count)).
* align changes the lists track_chi2 and alignment_parameters of the caller; the annealed quality distances are computed but not used.
* SMC: align_at is ignored; a func returning None is an error with one core only.
* calculate_residual_correlation calls geometry_utils.apply_alignment, which does not exist (AttributeError); actual_dut is used both as an index and as an object (actual_dut.column_size), and binned_statistic fails
  for a value at the upper end of its range: the function can never run (C120).
* Diamond sensors: index_to_local_position with scalar indices assigns items of a numpy scalar.
* align_kalman: chunk_size is not used (neither by find_tracks nor by the loop, which reads 10000 tracks at once), C103; the parameters plot and max_iterations (documentation) have no effect.
* calculate_residuals: the title of the stored array of y residuals against the x position names the wrong coordinates (C125).
* efficiency_plots uses np.int (removed in numpy 1.24) for the rectangles of the in-pixel maps: with efficiency regions and plots the call fails with newer versions of numpy, which requirements.txt allows. The bin
  centres of the figure of effective pixels of a region are calculated from the plot range, which is not extended by whole bins as the histograms are.
* efficiency_plots: the density pages of the whole sensor have no protection against an empty map (the in-pixel pages of the regions have one): for a DUT without associated hits the plots end with an exception, so an efficiency
  of zero is the case in which the pages with the efficiencies are missing (C154).
* efficiency_plots: the page of residual arrows shows only every fourth bin in both directions, without averaging the others, and bins without residuals have arrows of length 0 (C155).
* _fit_tracks_kalman_loop: the returned covariances contain the scattering planes, the other arrays do not; the errors of the fit are returned but fit_tracks stores those of the hits (C157).
* peak_detect takes half of the largest value, not half of the height above the background: with a flat background above the height of the peak no peak is found and calculate_residuals uses its replacement (C158).
* plot_2d_pixel_hist: the guard against equal limits of the colours has no effect if both are 0 and inverts the range of a constant negative map; with plot_projection (not used by the package) the two projections are exchanged (C159).
