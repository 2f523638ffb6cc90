# Formal model of beam_telescope_analysis – design

(Sections 5 to 7 are generated by scripts/gen_design.py.)

## 1. Layout

* `rocq/theories/<Topic>Model.v`: definitions only; every definition cites the file and the lines of `/repo/beam_telescope_analysis/` it models and
  states its simplifications.
* `rocq/theories/<Topic>Proofs.v`: lemmas.
* `rocq/theories/<Topic>Props.v`: independent specifications, the property theorems (`CNN_...`), `Example`s which show that the hypotheses can be met, and
  `Print Assumptions`.  Theorems `..._refuted` prove that a statement one would expect is false; theorems `..._partial` prove a part of a statement.
* `properties.jsonl`: the properties; `MANIFEST.json`: status and theorems of each; `seeded/LOG.jsonl`: the mutations of the model and the theorems that failed.

## 2. Conventions of the model

* Integer arrays are `list Z` (`list nat`, `list N` for indices and bit patterns); exceptions are values (`inr`, `None` or a constructor of an error type).
* Loops over arrays are structural recursion; `while` loops with a data dependent exit have fuel with an explicit out-of-fuel value, which the theorems exclude
  (termination is then part of the theorem).
* Floating point numbers are real numbers (`R`), elements of an arbitrary real field (mathcomp) or rational numbers: rounding is *not* modelled.  `nan` is `None` where
  the code tests for it.
* Integer overflow is modelled where the code depends on it: indices of the compiled histograms, the correlation histograms, 32 bit population count, 64 bit Morton codes, flag words,
  uint16 indices.
* External calls (function of SMC, random numbers, median filter, SVD, splines, curve_fit, Voronoi diagram, nearest neighbour search, clusterizer, numpy's order of equal elements) are
  universally quantified, if necessary with their documented specification as hypothesis.
* Threads (smc.py) are a labelled transition system; theorems are about all interleavings.

## 3. Trusted base

* The kernel of Coq 8.16.1 (with vm_compute/native casts as used by the libraries) and the axioms of the standard library listed in section 5; no own axioms.
* That the definitions of the Model files describe the code: they were written by reading the source, the code itself has not been run.  Parts that are not modelled are in section 4.
* That the hypotheses on external functions (SVD, KD tree, Voronoi diagram, sorting) are true of the implementations.
* That the behaviour of libraries written into the models, as documented by them, is that of the installed versions: e.g. bins of numpy's histograms, extents of matplotlib's images, typed lists of numba
  (an empty one is refused by compiled functions, C144).

## 4. What is modelled and what is not

Modelled (file: functions):

* cpp/AnalysisFunctions.h, analysis_functions.pyx: all functions.
* tools/analysis_utils.py: all functions except the gauss variants without own use (gauss2, gauss_offset, gauss_offset_slope, double_gauss, double_gauss_offset), the splines inside fwhm (scipy; given
  functions) and scipy's minimisation inside get_mean_efficiency (its result is given; the interval it looks for is in EffIntervalModel).
* tools/geometry_utils.py: all functions.  tools/kalman.py: all functions; check_covariance_matrix and _make_matrix_psd in NearestPsdModel, with the results of np.linalg.svd and eigvalsh as given functions.
* tools/smc.py: class SMC (reader, worker, writer, combination of results, input and output nodes); not modelled: the choice of n_cores and of the chunk size, pickling (dill), func returning None, align_at.
* tools/data_selection.py: combine_files, reduce_events, select_tracks (arguments, selection by flags, queries as arbitrary predicates), table_where (names in queries).
* tools/simulate_data.py: events, shuffling, charge sharing with the charge fractions, digitisation, tracks, scattering, settings; not modelled: distributions of random numbers (each random number is universally quantified).
* tools/storage_utils.py: save_configuration_dict (with the name of a file), save_arguments.
* tools/test_tools.py: nan_equal, nan_close, compare_h5_files, compare_yaml_files (on loaded documents), _call_function_with_args, get_array_differences and the messages of compare_h5_files; create_fixture, check_with_fixture (functions with single return values) and nan_to_num; not modelled: create_folder, return values which are arrays, in fixtures.
* telescope/dut.py, telescope/telescope.py: attributes, geometry, load and save, open_configuation, the text of a telescope, diamond sensors; the conversion of rectangular pixels also in double precision (FloatModel, with Flocq).
* hit_analysis.py: convert, convert_coordinates, check, check_file, mask, mask_pixels, cluster (wrapper), cluster_hits (set-up, conversion and copying of columns, call-back functions, histograms, errors of positions, the passes over the output file and its nodes), correlate, merge_cluster_data.
  pixel_clusterizer is an external package.
* Default names of output files (FileNamesModel): os.path.splitext, dirname, join and commonprefix of the standard library (posix, ASCII), the endings of all steps; temporary names of the alignments are not modelled.
* track_analysis.py: find_tracks, fit_tracks (with its arguments, method and names), store_track_data, create_results_array, line_fit_3d, _fit_tracks_kalman_loop, _kalman_fit_3d (states and errors of the planes), _find_small_distance.
* dut_alignment.py: apply_alignment, prealign (with hough transform; RANSAC functions), align and _duts_alignment (arguments and order of the steps), align_telescope, calculate_transformation,
  Kalman alignment (arguments and selections, groups and passes, chunks and tables, loop, update, Jacobian, annealing).
* result_analysis.py: calculate_residuals (histograms, stored arrays with their names, edges and choice of fit, means; range and number of bins also in double precision), calculate_efficiency (arguments for resolutions and names of regions, valid hits, counts, regions, pixels, the stored groups and arrays, pixel hits around the intersections, in-pixel maps with their size, extension, hits and cluster shapes, distributions of charge, frame, cluster size and track angles, number of bins also in double precision), calculate_purity (counts), get_angles, histogram_track_angle (histograms, order and selection of DUTs, nodes of the file; not: fits), calculate_residuals (also: its two maps and the pages with residuals, see plot_utils), calculate_residual_correlation (types of the DUTs, index, pairs, bins, rows written; not: limits, transformations).
* converter/: format_hit_table of both converters and the names of their files (process_dut of pybar_fei4_converter); not modelled: the external interpreters.

* tools/plot_utils.py: the numbers shown by plot_tracks_per_event and plot_cluster_hists, the maps of track density and charge, the density pages, residual arrows and labels of regions of efficiency_plots, the limits and the upper projection of plot_2d_pixel_hist, the pages of correlations, of track angles and of check_file, the distributions of chi2, the figures of events, the pages of masked pixels and of the statistics of fits, the pairs, correlations and weights of plot_residual_correlation, the padded polygons of the efficiency plot and its effective pixels (bins, colours, markers), its pages of the efficiency per pixel, the ranges of its maps of mean residuals and charges, its pages of track angles, its distributions of efficiencies, cluster sizes and cluster shapes, its in-pixel densities of cluster shapes, the efficiencies of the fixed rectangles of its in-pixel maps, the pages of prealign and align_kalman, the pages with residuals of calculate_residuals.

Not modelled: other plots (plot_utils), logging, pytables (files are their contents), tools/residuals.py, examples, tests.
