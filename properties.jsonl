{"id": "C01", "title": "Common events of two event arrays", "statement": "For two non-decreasing arrays of non-negative event numbers (second non-empty) get_events_in_both_arrays returns a strictly increasing array that contains an event number if and only if it occurs in both inputs.", "quantifier": "all pairs of sorted non-negative integer arrays of any length, with any duplication pattern", "why_tests_cant": "The scan keeps a cursor into the second array; which elements are skipped depends on the interleaving of both arrays, an unbounded set of patterns.", "anchors": ["beam_telescope_analysis/cpp/AnalysisFunctions.h:getEventsInBothArrays", "beam_telescope_analysis/tools/analysis_utils.py:get_events_in_both_arrays"]}
{"id": "C02", "title": "Maximum multiplicity merge of event arrays", "statement": "get_max_events_in_both_arrays of two non-empty non-decreasing arrays returns a non-decreasing array in which every event number occurs exactly max(occurrences in first, occurrences in second) times, and the wrapper's result buffer of size n1+n2 is never exceeded.", "quantifier": "all pairs of non-empty sorted integer arrays", "why_tests_cant": "Two-pointer merge with four exits; correctness depends on every interleaving of runs.", "anchors": ["beam_telescope_analysis/cpp/AnalysisFunctions.h:getMaxEventsInBothArrays", "beam_telescope_analysis/tools/analysis_utils.py:get_max_events_in_both_arrays"]}
{"id": "C03", "title": "Event membership mask", "statement": "in1d_events(ar1, ar2) on sorted arrays returns a mask of the length of ar1 whose i-th entry is true if and only if ar1[i] occurs in ar2.", "quantifier": "all pairs of sorted arrays", "why_tests_cant": "The cursor into the second array is never rewound; only an invariant shows that no element is missed.", "anchors": ["beam_telescope_analysis/cpp/AnalysisFunctions.h:in1d_sorted", "beam_telescope_analysis/tools/analysis_utils.py:in1d_events"]}
{"id": "C04", "title": "Integer histograms are exact or fail", "statement": "hist_1d_index, hist_2d_index and hist_3d_index either raise (an index outside the shape, or a bin count beyond the counter type) or return an array whose every bin equals the number of input entries with that index; in the second case the bin contents sum up to the number of entries.", "quantifier": "all index arrays, shapes and counter limits", "why_tests_cant": "Row-major flattening and saturation must be right for every shape and every multiset of indices.", "anchors": ["beam_telescope_analysis/cpp/AnalysisFunctions.h:histogram_1d", "beam_telescope_analysis/cpp/AnalysisFunctions.h:histogram_2d", "beam_telescope_analysis/cpp/AnalysisFunctions.h:histogram_3d", "beam_telescope_analysis/tools/analysis_utils.py:hist_1d_index"]}
{"id": "C05", "title": "Event-wise pairing of two data sets is complete", "statement": "merge_on_event_number returns two equally long arrays that, row by row, list exactly the Cartesian product of the hits of both inputs within each common event: every pair (row of first, row of second) with equal event number occurs exactly as often as the product of its multiplicities and no pair mixes events.", "quantifier": "all pairs of arrays sorted by event number", "why_tests_cant": "Quantifies over all event/multiplicity patterns.", "anchors": ["beam_telescope_analysis/tools/analysis_utils.py:merge_on_event_number"]}
{"id": "C06", "title": "Clusters are mapped to the event axis without loss inside an event", "statement": "map_cluster(event_numbers, clusters) returns an array aligned with the event axis in which each cluster is placed, in order, on an entry with its own event number; positions without cluster stay empty; if every event offers at least as many axis entries as it has clusters then every cluster with an event on the axis is placed exactly once.", "quantifier": "all sorted event axes and cluster arrays", "why_tests_cant": "Two cursors move at data dependent speed; losing a cluster depends on a particular multiplicity pattern.", "anchors": ["beam_telescope_analysis/tools/analysis_utils.py:map_cluster"]}
{"id": "C07", "title": "Chunked reading neither loses, duplicates nor splits", "statement": "data_aligned_at_events over a whole table that is sorted by event number yields, for every chunk size, a sequence of non-empty chunks whose concatenation is the table and in which no event is split over two chunks, unless one event fills a whole chunk in which case it raises; the second yielded value is the index of the next row. It always terminates. With a column index (try_speedup) and both the start and the stop event in the table, the rows of the events in between are read at once if they are at most chunk_size rows; otherwise they are delivered without the last event before the stop event. If the first chunk_size rows are all before the start event, fail_on_missing_events has no effect.", "quantifier": "all sorted tables and chunk sizes >= 1", "why_tests_cant": "Chunk borders depend on event sizes; a lost or split event only shows up for particular size/event constellations.", "anchors": ["beam_telescope_analysis/tools/analysis_utils.py:data_aligned_at_events"]}
{"id": "C08", "title": "Chunk-size independence of chunked processing", "statement": "Any row-wise or event-wise processing that is applied chunk by chunk with data_aligned_at_events gives the same result as applying it to the whole table in one go, for any two chunk sizes for which no error is raised.", "quantifier": "all sorted tables, all event-local functions, all pairs of chunk sizes", "why_tests_cant": "Relational property over two unbounded executions.", "anchors": ["beam_telescope_analysis/tools/analysis_utils.py:data_aligned_at_events"]}
{"id": "C09", "title": "Event range selection", "statement": "get_data_in_event_range(array, event_start, event_stop) of an array sorted by event number returns exactly the rows with event_start <= event_number < event_stop, in order (either bound may be absent). Exceptions found: only event 0 in the data, or a start event behind the data without a stop event.", "quantifier": "all sorted arrays and bounds", "why_tests_cant": "The no-match cases hide behind argmin/argmax conventions that only show for particular values.", "anchors": ["beam_telescope_analysis/tools/analysis_utils.py:get_data_in_event_range"]}
{"id": "C10", "title": "Morton index round trip", "statement": "xy2d_morton interleaves the bits of the two coordinates, so that different coordinate pairs below 2^32 get different indices; d2xy_morton inverts it for the 16 bit coordinates that columns and rows have (for larger coordinates it returns wrong upper bits).", "quantifier": "all coordinate pairs in [0,2^32) resp. [0,2^16)", "why_tests_cant": "2^64 inputs.", "anchors": ["beam_telescope_analysis/tools/analysis_utils.py:xy2d_morton", "beam_telescope_analysis/tools/analysis_utils.py:d2xy_morton", "beam_telescope_analysis/tools/analysis_utils.py:morton_1"]}
{"id": "C11", "title": "Cluster shape identifies the hit pattern", "statement": "calculate_cluster_shape of a cluster whose bounding box fits in the array gives a number whose set bits are exactly the Morton indices of the hit pixels relative to the lower left corner of the bounding box; it depends neither on the order of the hits nor on the position of the cluster, and two clusters have the same number iff they are translates of each other.", "quantifier": "all hit lists", "why_tests_cant": "Combinatorially many pixel patterns, orders and positions.", "anchors": ["beam_telescope_analysis/tools/analysis_utils.py:calculate_cluster_shape", "beam_telescope_analysis/tools/analysis_utils.py:calculate_cluster_array", "beam_telescope_analysis/hit_analysis.py:cluster_hits"]}
{"id": "C12", "title": "Population count", "statement": "number_of_set_bits(i) equals the number of one bits of i for every 32 bit value; it is the quantity the minimum-number-of-hits cut of the track fit relies on.", "quantifier": "all 32 bit values", "why_tests_cant": "2^32 values; the parallel-add trick needs a proof.", "anchors": ["beam_telescope_analysis/tools/analysis_utils.py:number_of_set_bits", "beam_telescope_analysis/track_analysis.py:fit_tracks"]}
{"id": "C13", "title": "Merging clusters of all DUTs", "statement": "If no event has chunk_size or more clusters in a file, merge_cluster_data succeeds and writes a table sorted by event number in which every event up to the last event of DUT0 has as many rows as the largest number of clusters a DUT has in it; the clusters of every DUT fill the first rows of their event in order, so that each cluster up to the last event of DUT0 occurs exactly once and in a row of its own event; bit d of the hit flag is set iff the row has a cluster of DUT d (d < 32). The result does not depend on chunk_size. Clusters of other DUTs behind the last event of DUT0 are lost (counterexample).", "quantifier": "all sorted cluster tables of any number of DUTs and all chunkings", "why_tests_cant": "Loss of clusters depends on the interleaving of chunk borders of several files.", "anchors": ["beam_telescope_analysis/hit_analysis.py:merge_cluster_data"]}
{"id": "C14", "title": "Noisy/disabled pixel masking terminates and is consistent", "statement": "The masking loop of mask_pixels terminates for every occupancy map and filter, the resulting mask is contained in the set of pixels with occupancy, and a pixel once masked stays masked.", "quantifier": "all occupancy maps, all filters", "why_tests_cant": "Iteration until a fix point that depends on data.", "anchors": ["beam_telescope_analysis/hit_analysis.py:mask_pixels"]}
{"id": "C15", "title": "Parallel map keeps chunk order under every schedule", "statement": "For every interleaving of the reader, worker and writer threads of SMC, and every completion order of the pool jobs, the results written so far are always those of the first chunks in order; when the writer ends normally they are func(chunk) for all chunks in chunk order. For a func that works event by event the written table is func(input table), independent of schedule, n_cores and chunk_size. Exception found: for an input without rows every run ends with a dead writer thread that the caller does not notice.", "quantifier": "all interleavings, all chunk sequences, all n_cores", "why_tests_cant": "Number of schedules is unbounded; tests only observe a few.", "anchors": ["beam_telescope_analysis/tools/smc.py:SMC"]}
{"id": "C16", "title": "Parallel map always makes progress and buffers a bounded amount", "statement": "In SMC, if func does not raise, no reachable state is stuck before completion: from every reachable state the run can be completed, and at no time more than n_cores+1 results and one data chunk are buffered (plus end markers).", "quantifier": "all interleavings", "why_tests_cant": "Deadlock freedom is a statement about all schedules.", "anchors": ["beam_telescope_analysis/tools/smc.py:SMC"]}
{"id": "C17", "title": "What happens when the function of a parallel map raises", "statement": "SMC does not report an exception of func: with n_cores=1 the constructor never returns when func raises on some chunk; with more cores there are runs in which it returns without an exception although results are missing and runs in which it blocks for ever. Whenever it returns, either all results were written in order, or the writer thread died because the input had no chunk or because func raised on one of the chunks.", "quantifier": "all chunk sequences, failing positions, schedules", "why_tests_cant": "Depends on schedule and position of failure.", "anchors": ["beam_telescope_analysis/tools/smc.py:SMC"]}
{"id": "C18", "title": "Combining histograms of chunks", "statement": "The histogram stored by SMC is the bin-wise sum of the histograms returned for the chunks, where missing bins count as zero: for one-dimensional histograms of any lengths, and for two-dimensional histograms that all have the same number of columns. For two-dimensional histograms with different numbers of columns this is false (counterexample).", "quantifier": "all sequences of histograms of any shapes", "why_tests_cant": "Resizing semantics depends on the shapes.", "anchors": ["beam_telescope_analysis/tools/smc.py:SMC._writer"]}
{"id": "C19", "title": "Combining files keeps events apart", "statement": "combine_files concatenates the tables of the same name of all files, every part moved by the reported offset (subtracting it gives back the input), for every chunk size; offsets given by the caller are used for their file; with automatic offsets and non-empty sorted tables, all events of a file come before those of the next one and the output is sorted. The call fails only for a too short list of offsets or if the first table is empty. With an empty table of a name in some later file the separation is lost: the last event number is taken from the rows of another table (counterexample).", "quantifier": "all lists of sorted files", "why_tests_cant": "Offsets accumulate over an unbounded number of files and chunks.", "anchors": ["beam_telescope_analysis/tools/data_selection.py:combine_files"]}
{"id": "C20", "title": "max_events is respected", "statement": "With max_events=N the event selection of reduce_events, find_tracks, fit_tracks and select_tracks selects over all chunks at most N different events that have tracks passing the other criteria, stores exactly these tracks of the selected events in table order, and, if fewer than N events are selected, has selected all events of the last chunk; a table read in one chunk gives min(N, number of events) events, no limit keeps everything. With several chunks events can be lost although N is not smaller than the number of events (counterexample).", "quantifier": "all chunk sequences, all random choices", "why_tests_cant": "Depends on chunk sizes, rounding and random choices.", "anchors": ["beam_telescope_analysis/tools/data_selection.py:reduce_events", "beam_telescope_analysis/track_analysis.py:find_tracks", "beam_telescope_analysis/track_analysis.py:fit_tracks", "beam_telescope_analysis/tools/data_selection.py:select_tracks"]}
{"id": "C21", "title": "max_events selection never fails", "statement": "The event selection with max_events never raises for any table, chunk size, mask, rounding and random choice, provided the row count is a numpy integer (as PyTables delivers), whose division by zero gives infinity; with Python integers it would raise ZeroDivisionError when all events are taken before the last chunk (counterexample).", "quantifier": "all chunk sequences and max_events >= 1", "why_tests_cant": "Division by quantities which become zero only for special sequences.", "anchors": ["beam_telescope_analysis/tools/data_selection.py:reduce_events", "beam_telescope_analysis/track_analysis.py:fit_tracks"]}
{"id": "C22", "title": "Track selection keeps exactly the requested tracks", "statement": "select_tracks keeps, in order, a track if and only if it matches the query, all DUTs in select_hit_duts have a hit, no DUT in select_no_hit_duts has one, every DUT of the quality and isolated hit selections that has a hit carries the flag, and all DUTs of the isolated track selection carry the flag (with or without hit). The call ends normally if a flag selection is given and a track passes; with only a query the summary raises ZeroDivisionError (counterexample). In all other cases the call ends with a ZeroDivisionError after the first DUT.", "quantifier": "all flag words and all DUT selections", "why_tests_cant": "2^(4*32) flag combinations times all DUT subsets.", "anchors": ["beam_telescope_analysis/tools/data_selection.py:select_tracks"]}
{"id": "C23", "title": "Track finding only permutes hits inside an event", "statement": "For every input, find_tracks assigns to the rows of an event exactly the hits of that event: per event and DUT the multiset of hits is unchanged, no hit crosses an event border or changes DUT, and x, y, z and the index column are permuted together. The algorithm terminates. The hit chosen for a track is the closest candidate to its prediction. Complete, well separated tracks whose hits are shuffled within the events of all but the first DUT are restored.", "quantifier": "all hit arrays including missing hits, all geometries", "why_tests_cant": "Recursive swapping algorithm on arbitrary floating point data.", "anchors": ["beam_telescope_analysis/track_analysis.py:_find_tracks_loop", "beam_telescope_analysis/track_analysis.py:_find_tracks", "beam_telescope_analysis/track_analysis.py:find_tracks"]}
{"id": "C24", "title": "Columns follow their DUT after track finding (up to 10 DUTs)", "statement": "With at most 10 DUTs, find_tracks rearranges every column of a DUT (name <quantity>_dut_<n>) with the index column of this DUT, so all columns of a DUT in a row come from the same cluster, and leaves columns without DUT unchanged; bit d of hit_flag tells whether DUT d has a hit. With 11 or more DUTs this is false: the columns of DUT 10 are rearranged again with the indices of DUT 1 (counterexample proved).", "quantifier": "all numbers of DUTs and all permutations", "why_tests_cant": "Only fails for particular DUT numbers (column name matching).", "anchors": ["beam_telescope_analysis/track_analysis.py:find_tracks"]}
{"id": "C25", "title": "Isolation flag means isolation", "statement": "A track/hit is flagged as not isolated by _find_small_distance iff another row of the same event lies within the distance limits (rectangle, or ellipse if requested), and the flagging is symmetric.", "quantifier": "all rows, positions and limits", "why_tests_cant": "Quadratic loop with early exit over arbitrary data.", "anchors": ["beam_telescope_analysis/track_analysis.py:_find_small_distance"]}
{"id": "C26", "title": "Each selected DUT is fitted exactly once with its own requested DUT set", "statement": "In fit_tracks the grouping of DUTs with identical fit configuration partitions the selected DUTs: each selected DUT is contained in exactly one fit, and this fit uses the fit DUTs, hit DUTs and minimum hit requirement of that DUT (if no fit DUT is listed twice; otherwise a counterexample is proved).", "quantifier": "all selections", "why_tests_cant": "Combinatorics of configurations.", "anchors": ["beam_telescope_analysis/track_analysis.py:fit_tracks"]}
{"id": "C27", "title": "Rotation matrices are proper rotations", "statement": "rotation_matrix(alpha,beta,gamma) is orthogonal with determinant one for all angles and global_to_local/local_to_global transformation matrices with equal parameters are inverses of each other, hence Dut.global_to_local_position inverts Dut.local_to_global_position and distances and angles are preserved.", "quantifier": "all real angles, translations and points", "why_tests_cant": "Continuum of inputs.", "anchors": ["beam_telescope_analysis/tools/geometry_utils.py:rotation_matrix", "beam_telescope_analysis/tools/geometry_utils.py:global_to_local_transformation_matrix", "beam_telescope_analysis/tools/geometry_utils.py:local_to_global_transformation_matrix", "beam_telescope_analysis/telescope/dut.py:Dut.global_to_local_position"]}
{"id": "C28", "title": "Line-plane intersections", "statement": "get_line_intersections_with_dut returns for every line that is not parallel to the DUT plane the unique common point of the line and the plane, so that its local z coordinate is zero; for parallel lines it reports an error.", "quantifier": "all lines and planes", "why_tests_cant": "Continuum of inputs.", "anchors": ["beam_telescope_analysis/tools/geometry_utils.py:get_line_intersections_with_dut", "beam_telescope_analysis/tools/geometry_utils.py:get_line_intersections_with_plane"]}
{"id": "C29", "title": "Euler angles reproduce the rotation matrix", "statement": "For every proper rotation matrix R whose entry R[2,0] is not +-1, the angles of euler_angles(R) rebuild R (angles of at most the machine epsilon are reported as zero), and angles in the principal range are recovered from their matrix. A matrix with an entry of R^T R off by more than the tolerance is refused. At gimbal lock (R[2,0] = +-1) no result is assigned, and mirror images pass the check but are not reproduced.", "quantifier": "all 3x3 matrices, all angles", "why_tests_cant": "Continuum of inputs with special cases at gimbal lock.", "anchors": ["beam_telescope_analysis/tools/geometry_utils.py:euler_angles"]}
{"id": "C30", "title": "Spherical coordinates round trip", "statement": "spherical_to_cartesian(cartesian_to_spherical(v)) = v for every v with x != 0 or y = 0 that is not on the negative z axis; conversely spherical coordinates with r > 0, 0 < theta < pi, 0 <= phi < 2 pi and cos(phi) != 0 are recovered. For (0,1,0) the round trip gives (1,0,0), and for (0,0,-1) it fails.", "quantifier": "all vectors", "why_tests_cant": "Continuum with branch cases.", "anchors": ["beam_telescope_analysis/tools/geometry_utils.py:cartesian_to_spherical", "beam_telescope_analysis/tools/geometry_utils.py:spherical_to_cartesian"]}
{"id": "C31", "title": "Pixel index and position are inverse", "statement": "For rectangular pixel sensors local_position_to_index inverts index_to_local_position on the whole index range and vice versa, a position has an index within 1/2 of pixel k exactly if it lies within half a pitch of its centre, the extents are those of the sensor area, indices and positions outside raise an error, and the round trip also holds through global coordinates of a DUT at any position and rotation.", "quantifier": "all pixel sizes > 0, numbers of pixels, positions", "why_tests_cant": "Continuum of inputs.", "anchors": ["beam_telescope_analysis/telescope/dut.py:RectangularPixelDut.index_to_local_position", "beam_telescope_analysis/telescope/dut.py:RectangularPixelDut.local_position_to_index"]}
{"id": "C32", "title": "Primitive cell mapping", "statement": "map_to_primitive_cell returns coordinates in [0, pitch) that differ from the distance to the sensor edge by an integer number of pixel pitches; two positions are mapped to the same point exactly if they differ by whole pitches, and pixel centres are mapped to the centre of the cell. For double columns this holds with twice the pitch only if the number of columns is even; for an odd number the cell is shifted by one pitch.", "quantifier": "all positions, pitches", "why_tests_cant": "Continuum of inputs.", "anchors": ["beam_telescope_analysis/telescope/dut.py:RectangularPixelDut.map_to_primitive_cell"]}
{"id": "C33", "title": "Telescope configuration round trip", "statement": "For every telescope that can be built by setting attributes, adding DUTs of the known classes, changing their attributes and loading files: save_configuration into a new file, or with keep_others into a file with other content, and load_configuration in a new Telescope gives the same attributes, DUT ids, DUT types and DUT attributes; other content of the file is kept; iterating yields each DUT once in increasing id order. Loading in a telescope that is not new adds the DUTs of the file and keeps those with other ids (so the result is not the saved telescope). keep_others with an empty file is an exception, and a DUT of a user-defined class can be saved but not loaded.", "quantifier": "all telescopes (any number of DUTs, ids, types, attribute values)", "why_tests_cant": "Quantifies over all object states and insertion histories.", "anchors": ["beam_telescope_analysis/telescope/telescope.py:Telescope.save_configuration", "beam_telescope_analysis/telescope/telescope.py:Telescope.load_configuration", "beam_telescope_analysis/telescope/telescope.py:Telescope.__iter__"]}
{"id": "C34", "title": "Extrapolated Kalman state describes the same track", "statement": "_extrapolate_state returns the state, in the local frame of the target plane, of the point where the very same global straight line crosses the target plane, with the correct direction: the points of the track are the same set, its position is the crossing point, the state is unique, extrapolating step by step equals extrapolating at once, and back and forth restores the state.", "quantifier": "all states, plane positions and orientations with the line not parallel to the plane", "why_tests_cant": "Continuum of inputs.", "anchors": ["beam_telescope_analysis/tools/kalman.py:_extrapolate_state"]}
{"id": "C35", "title": "Track Jacobian is the derivative of the extrapolation", "statement": "The transition matrix of _calculate_track_jacobian is the exact derivative (in every direction of the state space) of _extrapolate_state with respect to the local state (x, y, x', y'), and the matrices of consecutive steps multiply to the matrix of the whole step.", "quantifier": "all states and plane orientations", "why_tests_cant": "Derivatives cannot be tested exactly.", "anchors": ["beam_telescope_analysis/tools/kalman.py:_calculate_track_jacobian"]}
{"id": "C36", "title": "Kalman update", "statement": "_filter_correct leaves state and covariance unchanged where no hit takes part in the fit. Otherwise the filtered state is the unique minimum of the sum of the weighted squares of the distances from the predicted state and from the hit, chi2 is the value of the minimum, the inverse covariance is the sum of the information of prediction and hit, and the covariance never grows. Over all planes, the last filtered state of the forward (backward) filter is the end of the best track through all planes, where each scattering kick and each hit is weighted by its errors, and the sum of the chi2 is its cost. All covariances are positive semi-definite and no chi2, neither filtered nor smoothed, is negative, so the repairs of check_covariance_matrix and the RuntimeErrors never happen in exact arithmetic.", "quantifier": "all numbers of planes, dimensions, states, hits, positive definite measurement errors and scattering covariances, invertible Jacobians", "why_tests_cant": "Matrix identities and optimality over a continuum of tracks and any number of planes.", "anchors": ["beam_telescope_analysis/tools/kalman.py:_filter_correct", "beam_telescope_analysis/tools/kalman.py:_filter_f", "beam_telescope_analysis/tools/kalman.py:_filter_b", "beam_telescope_analysis/tools/kalman.py:KalmanFilter.smooth"]}
{"id": "C37", "title": "Parameters not to be aligned never move; the others move slowly", "statement": "In align_kalman, a parameter that is not to be aligned (DUT or parameter not selected, or first/last telescope plane and not rotation_gamma) keeps its initial value through every sequence of tracks with a hit in each DUT. Every other parameter moves by at most 0.05 initial errors for each track processed, covariances stay positive semi-definite, errors never grow, and no exception is raised.", "quantifier": "all track sequences, fit results, Jacobians, residuals, selections, numbers of DUTs", "why_tests_cant": "Invariant over unbounded histories and all matrices.", "anchors": ["beam_telescope_analysis/dut_alignment.py:_update_alignment_parameters", "beam_telescope_analysis/dut_alignment.py:_calculate_alignment_parameters", "beam_telescope_analysis/dut_alignment.py:_calculate_initial_alignment", "beam_telescope_analysis/dut_alignment.py:_duts_alignment_kalman"]}
{"id": "C38", "title": "Annealing", "statement": "The annealing factor lies between 1 and the configured factor if that is >= 1, does not increase with the number of tracks, shrinks by a constant ratio, starts with the configured factor and equals 1 from the configured number of tracks on.", "quantifier": "all track indices and parameters", "why_tests_cant": "Continuum / unbounded.", "anchors": ["beam_telescope_analysis/dut_alignment.py:_calculate_annealing"]}
{"id": "C39", "title": "Pre-alignment line model", "statement": "find_intercept_point returns the foot of the perpendicular, the nearest point of the line. The model of find_line_model goes through the second point, and its distance to the first one is below machine epsilon. For each sequence of random numbers find_ransac returns a line through two of the points, exactly those other points with a distance to the line below the threshold, and their share; no line that was tried has a larger share, and lines are tried until the requested ratio is exceeded. It fails if no line has an inlier among the other points (so always with two points), and the share is never above 1 - 2/n. find_inliers selects by the distance along y: the selected points are within the threshold of the line, but not all of the points within the threshold are selected.", "quantifier": "all points, lines and random choices", "why_tests_cant": "Continuum and randomness.", "anchors": ["beam_telescope_analysis/dut_alignment.py:find_intercept_point", "beam_telescope_analysis/dut_alignment.py:find_line_model", "beam_telescope_analysis/dut_alignment.py:find_inliers", "beam_telescope_analysis/dut_alignment.py:find_ransac"]}
{"id": "C40", "title": "Running average of per-bin means", "statement": "The per-bin mean residual which calculate_residuals accumulates over chunks (weighted average of previous mean and chunk mean with the counts as weights) equals, for given bins and for each bin with at least one entry, the mean over all entries of all chunks, and its count the number of entries (nan and 0 otherwise), so it does not depend on the chunking. Every position in the range of the first chunk is in exactly one bin; however entries of later chunks outside of the range of the first chunk are lost, so the result depends on the chunk size, and a first chunk with a single position gives no bin at all.", "quantifier": "all data, all chunkings", "why_tests_cant": "Relational over all chunkings.", "anchors": ["beam_telescope_analysis/result_analysis.py:calculate_residuals", "beam_telescope_analysis/result_analysis.py:calculate_efficiency"]}
{"id": "C41", "title": "Chunks of the alignment and their combination", "statement": "calculate_transformation splits the rows into chunks which cover every row exactly once, are never empty, have at most chunk_size rows and differ by at most one row. The stored translation is the track-number-weighted average of the translations of all chunks; a single chunk is returned unchanged. The stored rotation is the rotation of the LAST chunk only: counterexample with two chunks where the average over the chunks is a different rotation. Without any chunk the function raises an exception.", "quantifier": "all tables, chunk sizes and chunk results", "why_tests_cant": "The result for a single chunk does not reveal it.", "anchors": ["beam_telescope_analysis/dut_alignment.py:calculate_transformation"]}
{"id": "C42", "title": "Correlation histograms count each pair once", "statement": "The correlation of two devices counts each pair of a hit of the device and a hit of the reference device of the same event exactly once in the bin of their two indices, for each chunk size larger than the number of hits of an event and also if events are missing in one of the tables. The counts are signed integers with 32 bits: they are exact below 2^31 and negative at 2^31. An index outside of the histogram is not checked.", "quantifier": "all cluster tables sorted by event number, all chunk sizes", "why_tests_cant": "Chunk borders and event matching; overflow needs 2^31 pairs.", "anchors": ["beam_telescope_analysis/hit_analysis.py:correlate", "beam_telescope_analysis/hit_analysis.py:_correlate_position", "beam_telescope_analysis/tools/analysis_utils.py:correlate_position_on_event_number"]}
{"id": "C43", "title": "Index look-up", "statement": "in1d_index(ar1, ar2) returns the indices of exactly those elements of ar1 that occur in ar2, in order, and for each of them the index of an equal element of ar2; with fill_invalid there is one entry per element of ar1, masked/invalid if the element does not occur.", "quantifier": "all integer arrays", "why_tests_cant": "Sorting based algorithm with special cases.", "anchors": ["beam_telescope_analysis/tools/analysis_utils.py:in1d_index"]}
{"id": "C44", "title": "Unique/neighbour counting", "statement": "unique_in_array counts the distinct values along axis 0; count_unique_neighbors counts for each array cell the distinct values among the cells inside the array that are at most extent rows and columns away (the cell itself included), the reflected padding adds none. A negative value counts as the same value as the one maxn larger, where maxn is one more than the largest value: -1 and the largest value are counted once.", "quantifier": "all arrays", "why_tests_cant": "Unbounded inputs.", "anchors": ["beam_telescope_analysis/tools/analysis_utils.py:unique_loop", "beam_telescope_analysis/tools/analysis_utils.py:count_unique_neighbors"]}
{"id": "C45", "title": "Histogram statistics", "statement": "get_mean_from_histogram equals the mean of the bin positions weighted with the counts; mean, rms and median of the histogram made by hist_1d_index from integer data equal mean, rms and median of the data.", "quantifier": "all histograms", "why_tests_cant": "Unbounded inputs.", "anchors": ["beam_telescope_analysis/tools/analysis_utils.py:get_mean_from_histogram", "beam_telescope_analysis/tools/analysis_utils.py:get_rms_from_histogram", "beam_telescope_analysis/tools/analysis_utils.py:get_median_from_histogram"]}
{"id": "C46", "title": "Formatting of converted hit tables", "statement": "format_hit_table of the converters (pyMOSA Mimosa26, pyBAR FE-I4) ends normally if and only if the event numbers of the interpreted hits are not negative and do not decrease, for any chunk size and also across chunk borders; then every output table has exactly the hits of its plane in the same order (columns and rows of Mimosa26 planes counted from 1). Event numbers in the written tables never decrease, also after a failure. Hits of planes which are not in the list of header IDs are lost silently.", "quantifier": "all hit tables, header IDs and chunk sizes", "why_tests_cant": "Unbounded data and all chunk sizes; a decrease exactly at a chunk border.", "anchors": ["beam_telescope_analysis/converter/pybar_fei4_converter.py:format_hit_table", "beam_telescope_analysis/converter/pymosa_converter.py:format_hit_table"]}
{"id": "C47", "title": "Alignment update composes transformations", "statement": "_update_alignment with zero corrections returns the initial alignment; for all corrections the updated rotation is again a proper rotation, the sensor is moved rigidly (its centre by (dx, dy, dz), its directions by the inverse of the rotation by the correction angles, about the global axes), and a correction about one axis of a sensor rotated about this axis only changes its angle by minus the correction.", "quantifier": "all alignments and corrections", "why_tests_cant": "Continuum of inputs.", "anchors": ["beam_telescope_analysis/dut_alignment.py:_update_alignment"]}
{"id": "C48", "title": "Applying and reverting the alignment", "statement": "apply_alignment local->global followed by global->local restores positions and track offsets/slopes of every row, for every geometry with or without alignment to the beam, and leaves the columns of other DUTs and missing hits unchanged, if the table name contains at most one DUT name (true for up to 10 DUTs). A hit off the sensor plane is an error. It does not hold for the error columns of rotated DUTs (x error 1, y error 0 becomes x error 0, y error 1), nor with 11 DUTs: the offsets of the table of DUT 10 are also converted with DUT 1.", "quantifier": "all hits, all geometries, any number of DUTs", "why_tests_cant": "Continuum, DUT number dependent column matching.", "anchors": ["beam_telescope_analysis/dut_alignment.py:apply_alignment"]}
{"id": "C49", "title": "Cluster shape to array and back", "statement": "calculate_cluster_array and calculate_cluster_shape are inverse to each other between 8x8 boolean arrays and 64 bit numbers.", "quantifier": "all 2^64 arrays and numbers", "why_tests_cant": "2^64 inputs.", "anchors": ["beam_telescope_analysis/tools/analysis_utils.py:calculate_cluster_array", "beam_telescope_analysis/tools/analysis_utils.py:calculate_cluster_shape"]}
{"id": "C50", "title": "Closest value", "statement": "find_closest(arr, v) of a sorted array returns the index of an element with minimal distance to v.", "quantifier": "all sorted arrays (signed or float) and values", "why_tests_cant": "Values outside of the array range and ties; unsigned arrays fail.", "anchors": ["beam_telescope_analysis/tools/analysis_utils.py:find_closest"]}
{"id": "C51", "title": "Histogram quantiles", "statement": "hist_quantiles cuts off less than the fraction prob[0] on the left and less than 1 - prob[1] on the right, and the cut is the largest with this property (prob[1] < 1).", "quantifier": "all histograms with non-negative entries, all limits", "why_tests_cant": "Unbounded inputs, empty bins at the borders.", "anchors": ["beam_telescope_analysis/tools/analysis_utils.py:hist_quantiles"]}
{"id": "C52", "title": "Tracks stored by fit_tracks", "statement": "fit_tracks stores a track candidate of a DUT iff every DUT of the hit DUTs has a hit and the number of fit DUTs with a hit is at least the requested minimum and at least 2 (3 for the Kalman filter). With exclude_dut_hit the hit in the DUT itself does not count.", "quantifier": "all hit flags, configurations, methods; DUT numbers below 32", "why_tests_cant": "2^32 hit patterns times all configurations.", "anchors": ["beam_telescope_analysis/track_analysis.py:fit_tracks"]}
{"id": "C53", "title": "Parallel fit keeps the order of the tracks", "statement": "Splitting the track hits with np.array_split, fitting the slices in a pool and concatenating the results gives for every number of cores the result of fitting the tracks one by one, in order; the slices differ by at most one track.", "quantifier": "all numbers of tracks and cores", "why_tests_cant": "All sizes including fewer tracks than cores.", "anchors": ["beam_telescope_analysis/track_analysis.py:fit_tracks"]}
{"id": "C54", "title": "Skew matrices and plane normals", "statement": "skew(v) applied to w is the cross product of v and w and is antisymmetric; get_plane_normal(a, b) is orthogonal to a and b, has the squared length |a|^2|b|^2-(a.b)^2 and vanishes exactly if a and b are linearly dependent.", "quantifier": "all real vectors", "why_tests_cant": "Continuum of inputs; roll and transpose index arithmetic is easily transposed.", "anchors": ["beam_telescope_analysis/tools/geometry_utils.py:skew", "beam_telescope_analysis/tools/geometry_utils.py:get_plane_normal"]}
{"id": "C55", "title": "Alignment Jacobian", "statement": "_jacobian_alignment is the derivative of the predicted hit position with respect to the corrections applied by _update_alignment: exactly for translations of any DUT, for all corrections of an unrotated DUT and for rotations about the beam of a DUT rotated about the beam. For other DUTs the rotation columns are wrong, since the chain rule to global axes is applied to the translations only: for a sensor rotated by 180 degrees about y the derivative by the rotation about the beam has the wrong sign, for a sensor rotated by 90 degrees about the beam the rotations about x and y are mixed up. The true derivative is proved for every DUT.", "quantifier": "all DUT positions and rotations, all tracks, all corrections", "why_tests_cant": "Derivatives over a continuum of orientations cannot be tested exactly.", "anchors": ["beam_telescope_analysis/dut_alignment.py:_jacobian_alignment", "beam_telescope_analysis/dut_alignment.py:_update_alignment"]}
{"id": "C56", "title": "Scatter gain matrix", "statement": "The track frame of _calculate_scatter_gain_matrix is orthonormal with the third axis along the track; the matrix is the derivative of the state by the scattering angles about this frame, and scattering leaves the position unchanged; the resulting slope covariance is (1+a^2+b^2) times ((1+a^2, ab), (ab, 1+b^2)) for slopes a and b.", "quantifier": "all track states", "why_tests_cant": "Continuum of states.", "anchors": ["beam_telescope_analysis/tools/kalman.py:_calculate_scatter_gain_matrix"]}
{"id": "C57", "title": "DUTs outside of the fit do not influence the track", "statement": "Hits of DUTs which are not in select_fit_duts influence no predicted, filtered or smoothed state, covariance or gain of any plane: replacing, adding or removing such hits leaves all of them unchanged. This makes the residuals of these DUTs unbiased.", "quantifier": "all plane lists, hits and states", "why_tests_cant": "Non-interference for all hits.", "anchors": ["beam_telescope_analysis/tools/kalman.py:_filter_f", "beam_telescope_analysis/tools/kalman.py:_filter_b", "beam_telescope_analysis/tools/kalman.py:KalmanFilter.smooth"]}
{"id": "C58", "title": "Kalman smoother", "statement": "The smoothed state of the first and the last plane, and of every plane whose hit does not take part in the fit, is that of the best track through all planes. For a plane in between whose hit takes part, this is false: forward and backward filtered states both contain the hit of the plane, so it is counted twice; the inverse covariance is too large by the information of this hit, and the state is pulled from the best track towards the hit.", "quantifier": "all plane lists, hits and states", "why_tests_cant": "Optimality over a continuum of tracks and any number of planes.", "anchors": ["beam_telescope_analysis/tools/kalman.py:KalmanFilter.smooth"]}
{"id": "C59", "title": "Optimality of the alignment update", "statement": "The change of the alignment parameters calculated from one track minimises the weighted square of the change plus the weighted square of the remaining residual, among all changes allowed by the errors of the parameters (also if some of the errors are zero).", "quantifier": "all covariances (singular ones included), residuals, Jacobians, dimensions", "why_tests_cant": "Optimality over a continuum of changes.", "anchors": ["beam_telescope_analysis/dut_alignment.py:_calculate_alignment_parameters"]}
{"id": "C60", "title": "Loop of the Kalman alignment", "statement": "No DUT gets more tracks than there are, and the loop ends as soon as every DUT has more than max_tracks tracks, so that max_tracks + 1 are used. The saved configuration is the alignment before the last track. False: that DUTs without a hit are left alone (their alignment becomes nan, also if they are not selected, and the next track raises an exception); that alignment_parameters has one item for each selected DUT, with None for all parameters (it is looked up by the index of the DUT; a missing item or None is an exception).", "quantifier": "all track sequences, selections, fit results", "why_tests_cant": "Unbounded histories.", "anchors": ["beam_telescope_analysis/dut_alignment.py:_duts_alignment_kalman", "beam_telescope_analysis/dut_alignment.py:_update_alignment_parameters", "beam_telescope_analysis/dut_alignment.py:_calculate_initial_alignment"]}
{"id": "C61", "title": "Correlation of consecutive events", "statement": "Within a chunk, correlate_hits_on_event_range counts each pair of hits with an event number difference between 1 and the range exactly once. Over several chunks (check_file) the pairs that cross a chunk border are not counted, so that the histograms depend on the chunk size. For a file read in chunks, the histograms are the sums over the chunks of the numbers of pairs within each chunk, all chunks with the same range of events.", "quantifier": "all hit tables sorted by event number, all event ranges", "why_tests_cant": "The loss at chunk borders is not seen with files that fit in a chunk.", "anchors": ["beam_telescope_analysis/tools/analysis_utils.py:correlate_hits_on_event_range", "beam_telescope_analysis/hit_analysis.py:check_file"]}
{"id": "C62", "title": "Correlation histograms cover the sensor", "statement": "For a sensor with any placement (except edge-on), each position inside of the sensor has a bin index within the histogram of the correlation, and the bin with this index contains the position. Positions exactly on the edge of the sensor, which are accepted as well, have an index outside of the histogram.", "quantifier": "all sensors, placements, resolutions and positions", "why_tests_cant": "All rotations and resolutions; tests use a few sensors.", "anchors": ["beam_telescope_analysis/hit_analysis.py:correlate", "beam_telescope_analysis/hit_analysis.py:check_file", "beam_telescope_analysis/telescope/dut.py:x_extent"]}
{"id": "C63", "title": "Hough transform finds the correlation line", "statement": "The angles of hough_transform are equally spaced from -90 to 90 degree with at most the requested step. For each angle each pixel of the image votes exactly once, for the nearest of the rho bins, which is at most half of a bin away; so for pixels on a straight line in one of the directions all votes are in one bin and no bin has more. prealign takes the line with the most votes among those with a slope of 1 or -1 within 0.1, for any order of equal numbers of votes, and fails if and only if no such line has a vote.", "quantifier": "all images, resolutions and orders of ties", "why_tests_cant": "All images and angles; ties are broken by the partial sort.", "anchors": ["beam_telescope_analysis/tools/analysis_utils.py:hough_transform", "beam_telescope_analysis/dut_alignment.py:prealign"]}
{"id": "C64", "title": "Pre-alignment maps the device on the reference", "statement": "After prealign each point of the sensor is at the position the correlation line predicts for the reference: exactly for slopes 1 and -1 (the sensor is turned around for negative slopes), and with an error of at most a tenth of the distance to the sensor center for the accepted slopes. The limits are the range of the selected pixels; existing limits are narrowed to the common range. Without a common range the new limits are the gap between both ranges. The search for the range of the correlation assumes a reference centered at zero, otherwise no position is found even if all of the maxima are on the line.", "quantifier": "all placements away from gimbal lock, all lines, bin sizes and limits", "why_tests_cant": "Continuum of placements and lines.", "anchors": ["beam_telescope_analysis/dut_alignment.py:prealign", "beam_telescope_analysis/telescope/dut.py:x_limit"]}
{"id": "C65", "title": "Efficiency counts do not depend on the chunking", "statement": "If the first chunk of tracks has a valid hit, the numbers of tracks and of tracks with hit per bin of calculate_efficiency are those of all chunks together, the efficiency is the fraction of the tracks through the histogram area (which covers the sensor and the extension) with valid hit, between 0 and 1, and depends neither on the chunking nor on other DUTs. A first chunk without valid hit however makes the analysis fail for the first DUT; for the other DUTs the counts of the previous DUT are used, so that a DUT without any hit can be reported as 100 % efficient.", "quantifier": "all track tables, all chunkings, all bins and cuts, all sequences of DUTs", "why_tests_cant": "Relational over all chunkings; state leaking between DUTs shows only for particular data.", "anchors": ["beam_telescope_analysis/result_analysis.py:calculate_efficiency", "beam_telescope_analysis/tools/analysis_utils.py:get_mean_efficiency"]}
{"id": "C66", "title": "Distance cut of the efficiency", "statement": "A track counts as efficient only if it has a hit not farther away than cut_distance in both directions: in the rectangle if the cut is below 2.5 pixels in one direction, else in the ellipse; without cut every hit counts. A wider cut of the same kind never loses hits, but a wider cut can lose hits where the rectangle turns into an ellipse.", "quantifier": "all hits, tracks, pixel sizes and cuts", "why_tests_cant": "Monotonicity is a relation between two runs over all real positions.", "anchors": ["beam_telescope_analysis/result_analysis.py:calculate_efficiency"]}
{"id": "C67", "title": "Efficiency of regions", "statement": "The running average of the efficiency of a region is the fraction of all tracks inside of the region with valid hit, and the efficiency per chunk that of the chunk, provided every chunk has a track in the region; one chunk without track in the region makes the analysis fail with ZeroDivisionError, and tracks on the border of two regions belong to none of them.", "quantifier": "all track tables, chunkings and regions", "why_tests_cant": "Relational over all chunkings.", "anchors": ["beam_telescope_analysis/result_analysis.py:calculate_efficiency"]}
{"id": "C68", "title": "Purity histograms", "statement": "For any number of chunks the total histogram of calculate_purity has all hits per bin, and if every chunk has a pure hit away from the sensor centre the pure histogram has all hits per bin with a fitted track inside the local ranges and closer than the cut distance; the pure hits never exceed all hits. The purity of a bin is rounded down to full percent (0 for 1 of 200). Counterexamples: a chunk whose pure hits are all at (0, 0) is skipped; a hit exactly at the cut distance is not pure although documented; with at least one DUT the function never returns and makes no figure: its call of purity_plots lacks the telescope, which Python rejects, and the log message which follows could not be formatted either. The bins of the histograms cover the sensor from edge to edge and have at least the asked size and less than twice of it.", "quantifier": "all tracks, chunks, ranges and cuts", "why_tests_cant": "Unbounded data and any chunking; the rejected call occurs for all inputs.", "anchors": ["beam_telescope_analysis/result_analysis.py:calculate_purity"]}
{"id": "C69", "title": "Track angles and their histograms", "statement": "For a slope which is not parallel to the plane get_angles gives tan(alpha) = dy/|dz|, tan(beta) = -dx/|dz|, cos(total) = |dz|/length, so tan^2(total) = tan^2(alpha) + tan^2(beta), independent of the length of the slope; the global angles do not depend on the DUT whose table is used; a beam along z has the local alpha of the rotation of the DUT (beta too without alpha). The histograms count every angle of all chunks inside of a range of at least mean +- 5 std of the first chunk, in exactly one bin, and at least 96% of the first chunk. Counterexamples: reversing the direction of a track (DUTs mounted against the beam) flips the signs of alpha and beta; the histogram depends on the chunk size.", "quantifier": "all slopes, DUT rotations, tables and chunkings", "why_tests_cant": "Real-valued geometry for all directions and rotations; any data and chunking.", "anchors": ["beam_telescope_analysis/result_analysis.py:get_angles", "beam_telescope_analysis/result_analysis.py:histogram_track_angle"]}
{"id": "C70", "title": "A step of the alignment is the best linear step", "statement": "If all parameters are selected, the direction of a step of calculate_transformation is the least squares solution: no other infinitesimal rotation and translation of the DUT has a smaller sum of the squared distances of the hits to their tracks. The step adds step size times this translation; the new rotation is the orthogonal (polar) factor of (1 + step size times infinitesimal rotation) times the old rotation.", "quantifier": "all tracks with unit slopes, hits, start values and right singular value decompositions", "why_tests_cant": "Optimality over all rotations and translations.", "anchors": ["beam_telescope_analysis/dut_alignment.py:calculate_transformation"]}
{"id": "C71", "title": "Results of the alignment iterations", "statement": "From a rotation (orthogonal, determinant 1) the iterations give a rotation for any number of iterations; a translation which is not selected is unchanged, and without any selected rotation the rotation is unchanged; tracks through all hits keep translation and rotation; a chunk without tracks keeps them. The iterations end after the given number or with the first step after the first two that changes the translation by at most 1e-4 and the entries of the rotation by at most 1e-5. One or two tracks, or tracks which are all parallel, have a zero singular value and no result, even if only parameters are selected which are determined. Counterexample: with only rotation_beta selected for a DUT turned by gamma = 90 degrees the step changes alpha and not beta.", "quantifier": "all tracks, selections, numbers of iterations and right singular value decompositions", "why_tests_cant": "Any number of iterations over real-valued data.", "anchors": ["beam_telescope_analysis/dut_alignment.py:calculate_transformation"]}
{"id": "C72", "title": "Line fit of tracks", "statement": "line_fit_3d returns a slope of length one whose z component is not negative. It fails only if there is no hit at all. No other line has a smaller sum of squared distances to the hits; hits on a line are reproduced exactly, with the direction of the line if two hits differ. If the first singular value is larger than the others, every line with the minimal sum passes through the mean of the hits and has the direction of the slope up to sign. Hits that are NaN are ignored.", "quantifier": "for all numbers of DUTs, hits and hit patterns, and all singular value decompositions", "why_tests_cant": "A test compares with a few example lines; optimality against every other line and uniqueness quantify over all lines and all decompositions.", "anchors": ["beam_telescope_analysis/track_analysis.py:line_fit_3d", "beam_telescope_analysis/track_analysis.py:_fit_tracks_loop"]}
{"id": "C73", "title": "Rows and flags of the stored tracks", "statement": "fit_tracks stores one table for each DUT of the fit, with one row for each selected track candidate, in order, containing the hits of this candidate and the intersection of its own track. Bit i of quality_flag is set iff DUT i has a hit within the limits whose residual lies within the quality distance (ellipse if the distance is at least 2.5 pixel in x and y, else rectangle), bit i of isolated_track_flag iff no other fitted track of the event is within the isolation distance (ellipse), bit i of isolated_hit_flag iff no other hit of the event is (shape of the quality distance); bits above the number of DUTs and above 31 are zero. A missing hit is flagged as isolated. It fails for negative distances, and always with keep_data. Counterexample: a larger quality distance can remove the quality flag and changes the isolation of hits.", "quantifier": "for all track candidates sorted by event number, selections, tracks, numbers of DUTs, limits and distances", "why_tests_cant": "Row alignment under two nested masks and the flag of every DUT depend on all combinations of masks, missing hits and neighbours in an event.", "anchors": ["beam_telescope_analysis/track_analysis.py:store_track_data", "beam_telescope_analysis/track_analysis.py:create_results_array", "beam_telescope_analysis/track_analysis.py:_find_small_distance"]}
{"id": "C74", "title": "chi2 of fitted tracks", "statement": "With the line fit, track_chi2 of a stored track is the sum over the fit DUTs of the squared x and y residuals divided by the squared errors; missing hits, other DUTs and hits with an error of 0 do not contribute. It is never negative, and zero iff the track passes through all contributing hits. The reduced value is chi2 / (2 (n - 2)) for n fit DUTs with hit, 0 if chi2 is 0 and infinite for two hits with chi2 not 0.", "quantifier": "for all track candidates, tracks, fit DUTs, errors and selections", "why_tests_cant": "A test fixes a few tracks; the formula must hold for every hit pattern, mask and row position.", "anchors": ["beam_telescope_analysis/track_analysis.py:store_track_data"]}
{"id": "C75", "title": "Event numbers of simulated tracks", "statement": "SimulateData.create_data_and_store creates tracks sorted by event number over all chunks; with the chunk size c = min(chunk_size, n_events) the events are 0 .. total-1 where total is the smallest multiple of c that is at least n_events, and event e has exactly max(0, draw) tracks for the number drawn for it. It is defined iff n_events and chunk_size are positive. Counterexample: if the chunk size does not divide the number of events, more events than requested are created.", "quantifier": "for all numbers of events, chunk sizes and drawn numbers of tracks", "why_tests_cant": "The tests use a number of events below the chunk size, where the chunks cannot go wrong; the property concerns every combination and every random draw.", "anchors": ["beam_telescope_analysis/tools/simulate_data.py:create_data_and_store", "beam_telescope_analysis/tools/simulate_data.py:_create_tracks"]}
{"id": "C76", "title": "Shuffling of simulated hits within an event", "statement": "The shuffling of the hit positions of a DUT only permutes hits within an event: the table of pairs (event number, hit) is a permutation of the one before.", "quantifier": "for all drawn numbers of tracks, hits and permutations by the random generator", "why_tests_cant": "The index jumps over blocks of equal events; a wrong step would only mix events for some sequences of track numbers.", "anchors": ["beam_telescope_analysis/tools/simulate_data.py:_create_hits_from_tracks", "beam_telescope_analysis/tools/simulate_data.py:shuffle_event_hits"]}
{"id": "C77", "title": "Charge sharing of simulated hits", "statement": "The hits created from one charge are in pairwise different pixels with column 1 .. max_column-1 and row 1 .. max_row-1, each has the fraction of its pixel times the charge, with a fraction of at least 1%; if the fractions are the integrals of a distribution the sum of the charges is at most the charge. The seed pixel is the first hit if its fraction is at least 1% and it is neither in the last column nor in the last row; there it is never hit. Counterexamples: without diffusion the full charge is given twice (to the seed and the pixel below, except in the first row) and in the last column to the neighbouring column; a wide distribution gives no hit although the comment promises at most 1% loss.", "quantifier": "for all charge fractions, seed pixels, charges and sensor sizes", "why_tests_cant": "Charge conservation and the seed depend on every position on the sensor, including its last column and row, and every distribution.", "anchors": ["beam_telescope_analysis/tools/simulate_data.py:_create_cs_hits", "beam_telescope_analysis/tools/simulate_data.py:_calc_charge_fraction"]}
{"id": "C78", "title": "Digitised hits of the simulation", "statement": "A position belongs to the pixel c with (c-1) pitch <= x <= c pitch, unique in the inside, on a border k pitch it is pixel k+1 for even k and k for odd k; the relative position is at most half a pitch. The stored hits are sorted by event number over all chunks, each lies on the sensor, belongs to a track of its event and has at least the threshold charge if the threshold is not zero. The inefficiency removes exactly the given number of hits. Counterexample: with the threshold 0 hits with negative charge are stored. Without a threshold the part of the hits on the sensor given by the efficiency is kept, rounded up.", "quantifier": "for all tracks, sensors, thresholds, efficiencies, noise values and random permutations", "why_tests_cant": "Tests check one seed of the random generator; the claims hold for each outcome and each position, including borders.", "anchors": ["beam_telescope_analysis/tools/simulate_data.py:_digitize_hits", "beam_telescope_analysis/tools/simulate_data.py:create_data_and_store"]}
{"id": "C79", "title": "Number of simulated DUTs", "statement": "After setting n_duts to a number not above the present one, the files of the first DUTs are created. Counterexample: with a larger number the settings are reset with the old number of DUTs, so that the simulation raises an IndexError.", "quantifier": "for all old and new numbers of DUTs", "why_tests_cant": "A test checks one number of DUTs; the tests of the repository never increase it.", "anchors": ["beam_telescope_analysis/tools/simulate_data.py:n_duts", "beam_telescope_analysis/tools/simulate_data.py:set_std_settings"]}
{"id": "C80", "title": "Alignment of the telescope to the beam", "statement": "align_telescope keeps the z position and the angles of every DUT and moves the DUTs in x and y such that a beam parallel to the z axis hits each DUT at exactly the local position where the line fitted through the selected DUTs has hit it before. The reference DUT (the given one, else a selected DUT with the smallest z) ends at x = y = 0, and if all DUTs are on the fitted line all of them do. The alpha and beta rotation of the telescope are reduced by the angles of the line, so that no rotation is left if it was the rotation of the line. It succeeds iff the selected DUTs and the reference exist and the line is parallel to none of the DUTs. Counterexample: with a single selected DUT the fit may return the x axis and the call fails.", "quantifier": "for all telescopes, rotations of the DUTs, selections, references and fitted lines", "why_tests_cant": "Tests use a few nearly unrotated geometries; the preserved local position must hold for every rotation of every plane and for the moved reference in the loop.", "anchors": ["beam_telescope_analysis/dut_alignment.py:align_telescope"]}
{"id": "C81", "title": "Track seed of the Kalman filter", "statement": "The seed (x, y, slope_x, slope_y) of the Kalman filter describes the fitted line in the local system of the first DUT: a point is on the fitted line iff its local position is (x + z slope_x, y + z slope_y, z) for some z. It exists iff the line is not parallel to the DUT and does not depend on length and sign of the direction.", "quantifier": "for all lines, positions and rotations of the first DUT", "why_tests_cant": "The conversion uses two different transformations (of a position and of a direction), sign flips and normalisations whose agreement must hold for all rotations.", "anchors": ["beam_telescope_analysis/track_analysis.py:_calculate_track_seed"]}
{"id": "C82", "title": "Comparison of result files decides equality of headers and rows, with named blind spots", "statement": "compare_h5_files(exact=True) reports two tables/arrays with rows as equal exactly if their kind, shape of a row, column names and types agree and the rows are equal value by value (NaN equal to NaN, strings as strings), for every chunk size; with exact=False and no string columns exactly if all values are within atol + rtol*|second|. All nodes (or all required nodes with a leading slash added) have to exist in both files except the ignored ones, and a file equals itself. Not noticed are: any rows of the second file when the first table is empty, further rows of the second file behind full chunks of the first, and with exact=False everything in columns behind a string column; so the result depends on the order of the files.", "quantifier": "for all files, node lists, chunk sizes, tolerances, tables and values", "why_tests_cant": "The tool is the oracle of all other tests; the chunk sizes and tables for which differences are missed are unbounded.", "anchors": ["beam_telescope_analysis/tools/test_tools.py:compare_h5_files", "beam_telescope_analysis/tools/test_tools.py:nan_equal", "beam_telescope_analysis/tools/test_tools.py:nan_close"]}
{"id": "C83", "title": "Test helper calls a function with every combination of the looped arguments exactly once", "statement": "_call_function_with_args calls the function once for every combination of the looped arguments, in the order of nested loops with the first looped argument slowest, every fixed argument at its own position; the number of calls is the product of the numbers of values.", "quantifier": "for all lists of fixed and looped arguments", "why_tests_cant": "Number and position of arguments are unbounded.", "anchors": ["beam_telescope_analysis/tools/test_tools.py:_call_function_with_args"]}
{"id": "C84", "title": "Set-up of the Kalman fit of tracks", "statement": "Without additional scattering planes, fit_tracks(method='kalman') and align_kalman give the filter the DUTs in the order in which the z axis crosses them, refuse DUTs parallel to the z axis and DUTs without material except the last along z, and use as variance of a hit the square of the intrinsic resolution or else of the cluster error, times the annealing factor (zero without hit). chi2 of a track depends on the DUTs of the fit only, not on their order; the reduced chi2 is its ratio to 2*hits-4, infinite for two hits. With any additional scattering plane no track can be fitted at all: an annealing factor is read for every plane but given for every DUT only, so the call always raises.", "quantifier": "for all telescopes, scattering planes, hit errors, annealing factors and sorting orders", "why_tests_cant": "No test fits tracks with scattering planes; positions, rotations and numbers of planes are unbounded.", "anchors": ["beam_telescope_analysis/track_analysis.py:_fit_tracks_kalman_loop", "beam_telescope_analysis/track_analysis.py:fit_tracks", "beam_telescope_analysis/dut_alignment.py:_duts_alignment_kalman"]}
{"id": "C85", "title": "Reference trajectory of the Kalman filter", "statement": "The reference states around which the Kalman filter is linearised all describe one straight line, the one of the seed, each at its own plane. This holds for the first pass with every order of the planes, and for the second pass (improved seed) if the DUTs are numbered along z. For any other order the second pass stores the state of the i-th plane along z as the state of DUT i and takes the state of DUT 0 as the one of the first plane: the reference states then do not describe the seed track even if the filter corrects nothing.", "quantifier": "for all telescopes, orders, seeds and filter corrections", "why_tests_cant": "The fixtures only contain telescopes whose DUTs are numbered along z.", "anchors": ["beam_telescope_analysis/tools/kalman.py:KalmanFilter.smooth"]}
{"id": "C86", "title": "Multiple scattering in the Kalman filter", "statement": "The scattering angle is positive for material budgets above the accepted minimum, grows strictly with the material and with the inclination of the track and shrinks with the momentum, which together with the mass gives the beam energy; the scattering in the last plane along z influences no result, the one in other planes does.", "quantifier": "for all energies, masses, material budgets, track slopes, planes and hits", "why_tests_cant": "Monotonicity over all reals cannot be sampled.", "anchors": ["beam_telescope_analysis/tools/kalman.py:KalmanFilter.smooth", "beam_telescope_analysis/track_analysis.py:_fit_tracks_kalman_loop"]}
{"id": "C87", "title": "Wrappers pair the selected DUTs with their files only if the selection is in telescope order", "statement": "For every telescope and every select_duts accepted by hit_analysis.convert/check/mask/cluster, exactly the selected DUTs are processed, in telescope order. Each processed DUT gets its own input file and settings if select_duts is strictly increasing; every other selection of distinct DUTs processes some DUT with the file of another DUT, without an error. An index equal to the number of DUTs and repeated indices pass the range check.", "quantifier": "all telescopes, all selections, all file and settings lists", "why_tests_cant": "The tests call the wrappers with all DUTs in ascending order; the iff over all selections needs a proof.", "anchors": ["beam_telescope_analysis/hit_analysis.py:convert", "beam_telescope_analysis/hit_analysis.py:check", "beam_telescope_analysis/hit_analysis.py:mask", "beam_telescope_analysis/hit_analysis.py:cluster"]}
{"id": "C88", "title": "Conversion between pixel indices and local positions", "statement": "In exact arithmetic (for doubles see C101) convert_coordinates of a table with indices on the sensor succeeds, and converting the result back restores the original table exactly, for every chunking in either direction. A position inside of a pixel but left of (below) its centre is converted to the index before the pixel, possibly to 0 which is not on the sensor. A hit outside of the sensor fails the conversion. With a given output file name the function always raises UnboundLocalError.", "quantifier": "all sensors, tables, chunk sizes and positions", "why_tests_cant": "A round trip for all indices and sensors and all positions of a pixel cannot be enumerated.", "anchors": ["beam_telescope_analysis/hit_analysis.py:convert_coordinates"]}
{"id": "C89", "title": "Histograms of cluster sizes and cluster shapes", "statement": "For every list of clusters and every division into non-empty chunks, bin k of HistClusterSize is the number of clusters with k hits and the histogram ends at the largest cluster. HistClusterShape counts exactly the clusters whose hits fit into 4x4 pixels; each bin counts exactly the clusters with one pattern of pixels, except the last bin, which counts the full 4x4 square and the square without the lower left pixel together. The stored position errors do not depend on the cluster: 1/sqrt(12) of a pixel. An empty chunk is an error.", "quantifier": "all clusters, all chunk divisions", "why_tests_cant": "Fixtures contain small clusters only; the last bin and the clusters beyond 4x4 pixels are not seen by the tests.", "anchors": ["beam_telescope_analysis/hit_analysis.py:cluster_hits"]}
{"id": "C90", "title": "Residual histograms count every selected track once, in bins tied to the pixel size, and the fallback peak finder", "statement": "calculate_residuals with npixels-based binning (n bins per pixel, n a positive integer, pixel size > 0): if the first chunk has at least one track with a hit inside limit_x and limit_y and a fit, the residual histogram has n*k bins of width pixel size / n for an even k >= 6, centred on the detected peak and covering 3 FWHM on both sides (less than one pixel more, or k = 6); bin i is the number of the tracks of all chunks with hit, fit and hit inside both limits whose residual lies in bin i, and the sum over the bins is the number of those tracks with a residual inside of the range. Without bins per pixel: 200 bins covering 6 FWHM on both sides. If the first chunk has no such track the function fails (np.min of an empty array) whatever the later chunks contain. simple_peak_detect: reported width and centre belong to the first and the last crossing of half the maximum, the maximum position is the position of the maximum, and if the values at both ends are at most half the maximum then all values above it (and the maximum) lie strictly between the borders. The guard against peaks touching the end does not work ('greater[0] is True' is false for a numpy bool): there are histograms with peaks at both ends where the reported peak is the gap between them and does not contain the maximum.", "quantifier": "all chunked track tables, limits (also with one open side), pixel sizes, numbers of bins per pixel, results of the spline peak finder with non-negative width; all histograms", "why_tests_cant": "The range depends on floor/ceil/parity of a data-dependent width and on the first chunk only; tests compare one file with a stored result and cannot show that no track is lost or counted twice.", "anchors": ["beam_telescope_analysis/result_analysis.py:calculate_residuals", "beam_telescope_analysis/tools/analysis_utils.py:simple_peak_detect"]}
{"id": "C91", "title": "Tracks are assigned to the pixel they cross; mirrored points close the cells at the sensor border", "statement": "voronoi_finite_polygons_2d adds, for every point with an infinite region or a vertex outside of the extent, the reflections at the four borders (for both orders of the borders). For points strictly inside: inside of the extent the set of positions closest to a point is not changed; no position strictly inside is closest to a mirrored point; the cell of a selected point ends at the border; every cell ends at the border up to the tolerance of np.isclose. A point on the border is its own image and its cell is not cut there. In calculate_efficiency, for a sensor with n_columns x n_rows rectangular pixels, a track is assigned to pixel (c, r) (entry c * n_rows + r) only if its intersection is in the area of that pixel, and always if it is in the area off the pixel border; hence tracks outside of the sensor are in no pixel, and each entry of the per-pixel histograms is between the number of intersections in the open and in the closed pixel area; a mask of disabled pixels keeps the tracks in enabled pixels only.", "quantifier": "all extents, point sets, pixel sizes, numbers of columns and rows, tracks, masks; all Voronoi diagrams in which a region without -1 is the hull of its vertices; all nearest-neighbour searches", "why_tests_cant": "Tests compare stored efficiency arrays of one sensor; whether border pixels collect tracks from outside of the sensor depends on the mirrored points for every geometry.", "anchors": ["beam_telescope_analysis/tools/analysis_utils.py:voronoi_finite_polygons_2d", "beam_telescope_analysis/result_analysis.py:calculate_efficiency"]}
{"id": "C92", "title": "Polygon areas", "statement": "polygon_area does not depend on the first corner or on the direction, is multiplied with |det| by affine maps (so unchanged by translations and rotations), is 0 for fewer than 3 corners, width * height for rectangles, the sum of the triangles between the sides and a point from which the polygon is seen in one direction (e.g. any point in a convex polygon), and adds up if a polygon is cut along a chord. The pixel sizes of the efficiency plots, computed from regions padded to equal length with their last corner, are the areas of the unpadded regions.", "quantifier": "all polygons, affine maps, lists of non-empty regions", "why_tests_cant": "Tests check single polygons; the padding depends on the largest region in the file.", "anchors": ["beam_telescope_analysis/tools/analysis_utils.py:polygon_area", "beam_telescope_analysis/tools/analysis_utils.py:polygon_area_multi", "beam_telescope_analysis/tools/plot_utils.py:efficiency_plots"]}
{"id": "C93", "title": "The alignment of the DUTs accepts exactly consistent selections, fits with the required hits, and leaves no temporary files", "statement": "align(): a list of DUTs is one group, a list of non-empty lists is the list of groups, everything else is an error (also None, although it is documented as 'align all DUTs'). The hit DUTs are one list for all groups or one list per group with at least 2 DUTs; the fit DUTs are among the hit DUTs; without select_hit_duts a group with one DUT is an error (also the example of the documentation). Chi2 cuts, cluster shapes and alignment parameters have one entry for every DUT; scalars are used for all DUTs. The query for every DUT is well-formed and selects the tracks with a chi2 below its cut (unless the cut is None or 0) and with a selected cluster shape (unless there are none; the default for None). All track fits of a group require hits in the hit DUTs and the DUT to align, and use the fit DUTs; the parameters are those asked for, or all except translation_z for telescope DUTs; there are max_iterations updates. Every file which is read exists, and at the end all temporary files are removed and nothing else is. An existing output configuration keeps the DUTs which are not aligned. With the default of select_telescope_duts, or with a quality distance None (documented as infinite), the alignment fails. The default output name replaces 'prealigned' also in folder names. The cluster shapes of a group, max_iterations, max_events and the quality and isolation distances are accepted exactly in the documented forms and expanded to one entry per DUT or per group. The telescope is aligned with the beam only for DUTs which are aligned and belong to the telescope, and every file is there when it is read.", "quantifier": "for all selections, groups, numbers of iterations, configurations and sets of existing files", "why_tests_cant": "tests run one selection of DUTs; the structure of the steps must hold for all groupings and all numbers of iterations", "anchors": ["beam_telescope_analysis/dut_alignment.py:align", "beam_telescope_analysis/dut_alignment.py:_duts_alignment"]}
{"id": "C94", "title": "The Gaussian fit functions are what they claim to be", "statement": "gauss has the value A at the mean and A/2 at a distance of sigma*sqrt(2 ln 2) on both sides. gauss_box_erf, the closed form with error functions which is fitted to residuals of hits with box-shaped resolution, is equal to the convolution integral of the Gaussian function and a rectangle of width a (gauss_box) for every sigma other than 0. It is symmetric around the mean, positive, and strictly decreasing on the right side of the mean.", "quantifier": "for all real amplitudes, means, non-zero widths, box widths and positions", "why_tests_cant": "a closed form and an integral agree for all reals only by a proof; tests compare sampled values within a tolerance", "anchors": ["beam_telescope_analysis/tools/analysis_utils.py:gauss", "beam_telescope_analysis/tools/analysis_utils.py:gauss_box_non_vec", "beam_telescope_analysis/tools/analysis_utils.py:gauss_box_erf"]}
{"id": "C95", "title": "Moments of a histogram describe its data, and the line of the residuals is fitted to the selected bins", "statement": "The mean of a histogram is defined if there are entries, balances the deviations and is between the populated positions; the rms is zero iff all entries are in the same position; both differ from those of the binned data by at most half of the widest bin. At least one half of the entries are not above and one half not below the median. A histogram with one populated bin gives its entries, center and width 0 without a fit. fit_residuals_vs_position fits the line to the centers and mean residuals of exactly the selected bins, if there are at least two: with limits the populated bins with a center inside of the limits, without limits those above the percentile, so bins with more entries than a selected bin are selected. The mean residual of a bin is nan iff it has no entries, the center of its only populated bin, otherwise the result of the Gaussian fit or, if this fails, the mean of the histogram. The error of a bin is proportional to 1/entries, not to 1/sqrt(entries). Counterexamples: a limit outside of all bins is ignored without notice, and if all populated bins have the same number of entries, no bin is selected and there is no line.", "quantifier": "for all histograms, binnings, data, limits, fit results and ways of sorting", "why_tests_cant": "tests use a few histograms; the bounds and the selection must hold for all binnings and contents", "anchors": ["beam_telescope_analysis/tools/analysis_utils.py:get_mean_from_histogram", "beam_telescope_analysis/tools/analysis_utils.py:get_rms_from_histogram", "beam_telescope_analysis/tools/analysis_utils.py:get_median_from_histogram", "beam_telescope_analysis/tools/analysis_utils.py:fit_residuals_gauss", "beam_telescope_analysis/tools/analysis_utils.py:fit_residuals_vs_position"]}
{"id": "C96", "title": "Covariances are replaced by the nearest positive semi-definite matrix, or refused", "statement": "check_covariance_matrix keeps every positive semi-definite covariance of a chunk and replaces exactly the others. If the singular value decomposition is exact, the replacement is positive semi-definite, no other positive semi-definite matrix is as close to the input (sum of squared differences of the entries), and a RuntimeError is raised if and only if an entry changes by more than 1e-5 + 1e-8 * |entry|; a positive semi-definite matrix is returned unchanged. Whatever the decomposition gives, the loop that shifts the eigenvalues ends after at most one shift, and the result is positive semi-definite and within the tolerance, or a RuntimeError is raised.", "quantifier": "for all matrices of all dimensions, all decompositions, spacings and chunks", "why_tests_cant": "optimality compares with all positive semi-definite matrices; numeric tests only see a few", "anchors": ["beam_telescope_analysis/tools/kalman.py:check_covariance_matrix", "beam_telescope_analysis/tools/kalman.py:_make_matrix_psd"]}
{"id": "C97", "title": "The pixels of the diamond sensors are at the positions of their electrodes", "statement": "index_to_local_position of Diamond3DpCVD and DiamondPseudo3DpCVD gives different positions to different pixels, wherever the diamond is on the chip. If the first column of the diamond is odd: the positions are at least 50 um apart and within half of a column of the center of the pixel; square electrodes are on a grid of 125 um x 100 um, hexagonal ones on a hexagonal lattice of pitch 115.47 um (within 10 nm), and all other pixels (without electrode, defect or outside of the diamond) at their bump bond 100 um from the center. A ValueError is raised exactly for indices outside of the sensor. Outside of the diamond local_position_to_index gives the pixel back. Counterexamples: on the diamond the inherited local_position_to_index returns another pixel; with an even first column the electrodes are up to 325 um from the center of their pixels (no error is raised); the position of a cluster of two pixels is outside of the range of its pixels, because a fractional index selects no electrode.", "quantifier": "for all positions of the diamond, all pixels and pairs of pixels, both classes, all fractional indices for the limits", "why_tests_cant": "all pairs of pixels for all positions of the diamond; the project has no test of these classes", "anchors": ["beam_telescope_analysis/telescope/dut.py:Diamond3DpCVD.index_to_local_position", "beam_telescope_analysis/telescope/dut.py:DiamondPseudo3DpCVD.index_to_local_position"]}
{"id": "C98", "title": "The arguments of an analysis function are stored in its output files", "statement": "A function decorated with save_arguments returns the same value (or raises the same error). If the value names existing files (a name, a sequence of names, or a sequence beginning with one of these), each of these files gets in the group arguments, under the name of the function, the names and texts of exactly the arguments that were passed (positional ones with the names of the parameters) and the time of the call; other groups, other tables and other files are unchanged, and the record of an earlier call of the same function is replaced, so in a sequence of calls the record is that of the last one. Otherwise nothing is stored and a warning is given. Names up to 256 and texts up to 32768 bytes are complete. Counterexamples: longer texts are cut, so calls with different arguments have the same record; the defaults that were used are not stored; save_configuration_dict does not store a date given as struct_time.", "quantifier": "for all functions, arguments, returned values, files and sequences of calls", "why_tests_cant": "the decorator wraps every analysis function; tests check a few output files and not what is kept", "anchors": ["beam_telescope_analysis/tools/storage_utils.py:save_arguments", "beam_telescope_analysis/tools/storage_utils.py:save_configuration_dict"]}
{"id": "C99", "title": "Tracks of the simulation pass through the sensors as particles do", "statement": "SimulateData._create_hits_from_tracks returns one point per DUT and track: the point lies in the plane of the DUT (given by offset, z position and rotations, consistent with the transformations of geometry_utils) and on the line from the previous point (the track position at z = 0 for the first DUT) along the current unit direction. Only DUTs with a material budget that is not zero, and never the last, change the direction: the new direction is the normalised sum of the old one and the transverse kick (2 pi u, |theta_0 z|), theta_0 from Highland's formula, which is zero without material, grows with the material and is inversely proportional to the momentum. Without material all points are on the straight track; then the call succeeds if and only if all angles are in range and no track is parallel to a DUT. _create_tracks gives theta in [0, pi], the first sample whenever that is in range, and refuses a beam angle outside [0, pi]. A track along the axis is deflected by arctan(sin(theta)), less than the drawn theta. Not as documented: the drawn angle is not the angle of deflection for inclined tracks; a tiny material budget gives a negative sigma and an error; y is spread with the sigma of x; new samples of theta use mrad as rad, so the simulation fails.", "quantifier": "all beams, planes, budgets, tracks and random numbers", "why_tests_cant": "Tests run a few seeds with default settings (equal sigmas for x and y, small angles) and check means within tolerances; they cannot show the geometry for all rotations and random numbers.", "anchors": ["beam_telescope_analysis/tools/simulate_data.py:SimulateData._create_tracks", "beam_telescope_analysis/tools/simulate_data.py:SimulateData._create_hits_from_tracks", "beam_telescope_analysis/tools/simulate_data.py:SimulateData._scattering_angle_sigma"]}
{"id": "C100", "title": "Charge fractions of the simulation are a probability distribution over the pixels", "statement": "_calc_charge_fraction of a pixel (index relative to the seed) is the integral of two independent normal distributions around the position of the charge, with the sigma cc * z * sqrt(2 k T / V), over the area of the pixel. For positive depth, temperature, bias, correction and pitches every fraction is in ]0, 1[, the fractions of every block of pixels sum up to less than 1, and the sum over growing blocks tends to 1. Of two pixels in one row or column the one nearer to the charge gets more; for a charge inside of the seed pixel the fractions never increase away from the seed and the pixel in the row of the seed has the largest fraction of its column, as the abort conditions of _create_cs_hits assume. Without diffusion (temperature 0) every pixel gets the full charge, so the fractions of n x m pixels sum up to n m. The comment that at most 1% of the charge is lost is wrong: with a wide cloud every pixel has less than 1% and all charge is lost.", "quantifier": "all positions, pixel indices, pitches, depths, temperatures, bias voltages and corrections", "why_tests_cant": "Sums over infinitely many pixels and monotonicity of integrals of the normal distribution cannot be settled by samples with tolerances.", "anchors": ["beam_telescope_analysis/tools/simulate_data.py:_calc_sigma_diffusion", "beam_telescope_analysis/tools/simulate_data.py:_bivariante_normal_cdf", "beam_telescope_analysis/tools/simulate_data.py:_calc_charge_fraction", "beam_telescope_analysis/tools/simulate_data.py:_create_cs_hits"]}
{"id": "C101", "title": "Indices and local positions in double precision", "statement": "In IEEE double precision, index_to_local_position of a RectangularPixelDut followed by local_position_to_index never fails for an index on the sensor and returns the index up to 2^-49 (n + 1), so the nearest integer is the index again. If the pitch is a whole number of micrometres, the result is exact. convert_coordinates however stores the result in an unsigned integer by truncation, not by rounding: for the predefined Mimosa26 (18.4 um, 1152 columns) the column 69 is converted to a position and back to the column 68. An index that is not on the sensor is an error.", "quantifier": "all pitches above 2^-100, numbers of pixels up to 2^50 and indices (also of clusters)", "why_tests_cant": "The rounding errors depend on the pitch and the index; a test with whole or special pitches does not see the truncated column.", "anchors": ["beam_telescope_analysis/telescope/dut.py:RectangularPixelDut.index_to_local_position", "beam_telescope_analysis/telescope/dut.py:RectangularPixelDut.local_position_to_index", "beam_telescope_analysis/hit_analysis.py:convert_coordinates"]}
{"id": "C102", "title": "Pixel hits around the track intersections are counted once, if at all", "statement": "With input_cluster_files calculate_efficiency counts every hit of a cluster of a valid track exactly once, in the bin of the intersection of the track and at its column and row relative to the nearest pixel of the bin, for every chunking of the cluster hits; the array has an odd shape and contains all pixels up to 500 um away. This holds only if all clusters of valid tracks have one hit. Counterexamples: a cluster of two or more hits is a ValueError (one bin per hit is repeated once more for each hit), a track on a disabled pixel is an IndexError, a chunk of cluster hits without a hit of a valid track is an error, and a valid track outside of the histogram is a ValueError.", "quantifier": "for all tracks, cluster hits, chunkings, bins, nearest pixels, ways of sorting and pixel sizes", "why_tests_cant": "tests do not give input_cluster_files, and single cases do not show which clusters fail", "anchors": ["beam_telescope_analysis/result_analysis.py:calculate_efficiency"]}
{"id": "C103", "title": "Passes, tables and arguments of the Kalman alignment", "statement": "The tables of the output file of align_kalman have one row for each DUT and each track with the required hits, in the order of the tracks, until every DUT has more than max_tracks tracks; the row of a track is the alignment before this track, and the saved configuration is the alignment of the last row. Tables, chi2 and p-values always have the same number of entries, also after an exception. The chunks in which tracks are read do not matter. Tracks above track_chi2 change nothing. Every track used has a hit in each fit DUT, so that min_track_hits is met without being applied. Without exclude_dut_hit there is one pass over the tracks of a group; with exclude_dut_hit=True one for each selected fit DUT and one for the others, every one aligning the whole group again. No temporary file is left after success. False: that track_chi2 can be a number (TypeError, also for the default; a temporary file is left), that 0 switches the cut off, and that exclude_dut_hit and min_track_hits can be lists if groups differ in size.", "quantifier": "all track sequences, chunks, groups, selections, fits, updates", "why_tests_cant": "Unbounded track sequences and all partitions into chunks.", "anchors": ["beam_telescope_analysis/dut_alignment.py:align_kalman", "beam_telescope_analysis/dut_alignment.py:_duts_alignment_kalman"]}
{"id": "C104", "title": "In-pixel maps of the efficiency analysis", "statement": "For the regions of calculate_efficiency, the in-pixel maps of tracks and of tracks with valid hit contain for every bin of the primitive cell the number of tracks of the region (with valid hit) of all chunks in the bin, also those filled before the maps were enlarged; no track is lost or counted twice for any positions and any chunks. If the in-pixel resolution divides the pixel size and no track is exactly on an edge, the maps depend neither on the chunks nor on the order of the tracks, and their size is the least number of whole pixels that contains all tracks; otherwise size and counts depend on the chunks. The in-pixel efficiency is the percentage of the tracks of the bin with valid hit, from 0 to 100. The extension of the maps (extend_in_pixel_areas) is their periodic continuation, but with the period of the map, which is not a number of pixels if the resolution does not divide the pixel size. The map of hits contains all hits of the tracks, not only the valid ones, and skips chunks without valid hit. The map of cluster shapes counts the eight analysed shapes, but also counts two diagonal pixels (shape 6) as shape 11; the selection of small clusters has no effect; bins without analysed cluster show the shape 1. In double precision the number of bins is right for whole micrometers; for the pitch 18.4 um and the resolution 0.6 um one bin is missing and all bins are too wide.", "quantifier": "all tracks, chunks, regions, pixel sizes, resolutions, mappings to the primitive cell, selections of valid hits, cluster shapes and extensions", "why_tests_cant": "The size of the maps changes with the data, and the counts have to be right for every division into chunks, every position of the tracks in the cell and every resolution; tests use one chunk and one sensor.", "anchors": ["beam_telescope_analysis/result_analysis.py:calculate_efficiency"]}
{"id": "C105", "title": "Confidence interval of the efficiency", "statement": "get_mean_efficiency uses for k tracks with hit of n tracks the density of the efficiency with uniform prior, which is a probability density on [0, 1] with its maximum at k/n. The problem posed to the optimizer has for every probability between 0 and 1 exactly one solution, and it is the shortest of all intervals in [0, 1] with this probability (the bounds on the limits exclude nothing shorter). The limits are inside of (0, 1) with equal densities for 0 < k < n; for k = 0 the lower limit is 0, for k = n the upper limit is 1, and the other limit is that of (1 - probability)^(1/(n+1)). The returned lower error is not positive, the upper error not negative, both limits are possible efficiencies, an error is zero only for k = 0 or k = n. Tracks with and without hit play symmetric roles, and the square of the length is at most 1/((n+3)(1-probability)). The returned 'mean' efficiency k/n is not the mean of the density, which is (k+1)/(n+2), unless n = 2k. Without tracks or with k > n there is an exception; for probabilities outside of [0, 1] there is no interval. The start values of the optimizer always exist, are ordered, and are within 20 % of k/n.", "quantifier": "all numbers of tracks and of tracks with hit, all probabilities, all numbers of grid points and levels of the start values", "why_tests_cant": "Tests compare a few numerical results of the optimizer with stored numbers; that these are the shortest intervals with the given probability for all numbers of tracks is a statement of analysis.", "anchors": ["beam_telescope_analysis/tools/analysis_utils.py:get_mean_efficiency"]}
{"id": "C106", "title": "Distributions of charge, frame and cluster size in the efficiency analysis", "statement": "The histograms of charge, frame and cluster size of calculate_efficiency, for the DUT (if the first chunk has a valid hit) and for a region, contain every track with valid hit (of the region) of all chunks exactly once in the bin of its value, although the arrays are enlarged from chunk to chunk; they do not depend on the chunks and end with the largest value. Charges are truncated: bin i has the charges from i to below i + 1, the first bin also those between -1 and 0, and a charge of -1 or below stops the analysis. The mean charge of a region never fails; it is nan for a region without valid hit and otherwise, for charges above zero, less than 1 below the mean of the charges. In the histograms of cluster size against track angle the last bin counts clusters of 8 and of 9 pixels together, larger clusters are not counted. No angle is outside of the angle histogram if the first chunk has at most 26 tracks and is the only one.", "quantifier": "all chunkings, tracks, values", "why_tests_cant": "Relational over all chunkings and values; the enlargement of the arrays depends on the order of the values.", "anchors": ["beam_telescope_analysis/result_analysis.py:calculate_efficiency"]}
{"id": "C107", "title": "Output nodes of the split-map-combine class", "statement": "For results which fit to the node descriptions (same number of items, each always a table or always a histogram, at least one chunk), distinct names and unused temporary names, the output file has for each name the rows of all chunks in their order, or the sum of the histograms, also if a node of this name existed; all other nodes are as before and no temporary node is left; other results are never written. A table can be replaced in its own file (mode 'r+'). A new file has exactly the named nodes. A run that is stopped leaves all nodes except the temporary ones as they were; but its temporary table stays and no later run can write this node. The input table is the given node, the first existing node of a list or the only table of the file. A single output without name gets the name of the input table, several outputs without names are refused. With the default mode 'w' and the same file for input and output the file is emptied and the call returns without exception. A second run with the same node description writes to a node with '_tmp' at the end of its name.", "quantifier": "all files, names, chunkings and results", "why_tests_cant": "All files, names and interruptions; the tests use new files and fresh node descriptions.", "anchors": ["beam_telescope_analysis/tools/smc.py:SMC"]}
{"id": "C108", "title": "Column names in the query of select_tracks", "statement": "In a query whose names are letters or underscores followed by digits (x_dut_0, track_chi2) and which has no other letters, the names are found exactly; the tracks that fulfil the query are selected if every name is a column of the table, otherwise (also for names of functions like abs) the selection fails. A number with exponent (1e3) makes every query fail. A name with a digit before a letter is cut into two names and so the column cannot be used.", "quantifier": "all queries, tables and columns", "why_tests_cant": "All texts of queries; the tests use simple queries.", "anchors": ["beam_telescope_analysis/tools/data_selection.py:table_where"]}
{"id": "C109", "title": "Number of bins of the efficiency histogram in double precision", "statement": "calculate_efficiency divides the sensor (and an extended area around it) into bins of the given resolution, by default the pitch. Computed in double precision, the number of bins is exact if pitch, resolution and extended area are whole micrometres (number of bins which cover the sensor plus twice the number which covers the extended area), and for the default resolution if the product of the mantissas of pitch and number of pixels is below two (e.g. MIMOSA26, powers of two). In general it differs from the quotient of size and resolution by hardly more than one. With the default resolution there can be one bin less or one bin more than pixels: 999 bins for 1000 pixels of 17.1 um, 1001 bins for 1000 pixels of 16.4 um, so that bins and pixels do not match.", "quantifier": "all pitches, numbers of pixels, resolutions and extended areas", "why_tests_cant": "The result depends on the rounding of three products and quotients; tests use a few sensors with whole numbers.", "anchors": ["beam_telescope_analysis/result_analysis.py:calculate_efficiency", "beam_telescope_analysis/telescope/dut.py:RectangularPixelDut.x_extent"]}
{"id": "C110", "title": "Groups of binned_statistic", "statement": "If all numbers x are in [r0, r1), binned_statistic(x, values, func, nbins, (r0, r1)) returns for every bin func of the values whose x is in the bin, in their order; every value is in exactly one group. A number at the upper end r1 or above makes the whole call fail, although histograms include the upper edge; a number less than one bin below r0 is counted in the first bin, numbers further below fail.", "quantifier": "all numbers, values, functions, numbers of bins and ranges", "why_tests_cant": "Arbitrary data and edges; the truncation of negative numbers is easily missed.", "anchors": ["beam_telescope_analysis/tools/analysis_utils.py:binned_statistic"]}
{"id": "C111", "title": "Filling of invalid cells", "statement": "fill(arr) leaves the valid cells unchanged and gives every invalid cell the value of a valid cell such that no valid cell is nearer; by default the cells with nan are invalid, then no nan is left and filling again changes nothing. With an own mask a nan outside the mask is spread.", "quantifier": "all arrays of any dimension and all masks with a valid cell", "why_tests_cant": "All shapes and patterns of invalid cells.", "anchors": ["beam_telescope_analysis/tools/analysis_utils.py:fill"]}
{"id": "C112", "title": "Plot of tracks per event", "statement": "plot_tracks_per_event draws, at increasing numbers of tracks, one bar for every number of tracks that an event of the table has; its height is the number of events with this number of tracks. The heights sum up to the number of different event numbers, which is the number of events of the title; weighted with the number of tracks they sum up to the number of tracks. Events without tracks have no bar and are not counted.", "quantifier": "all tables, in any order of event numbers", "why_tests_cant": "Plots are not tested; all distributions of event numbers.", "anchors": ["beam_telescope_analysis/tools/plot_utils.py:plot_tracks_per_event"]}
{"id": "C113", "title": "Plots of cluster sizes and shapes", "statement": "If every chunk has a row with a hit in the DUT, plot_cluster_hists shows for the rows with a hit the number of clusters of every size up to the largest, the numbers of clusters of 15 shapes and the number of all other clusters, and the numbers of hits and clusters; independent of the chunks and of the previous DUTs, and the same for the histograms stored by the clustering. A chunk without a hit in the DUT makes the function fail. A DUT with an empty table is shown with the bars of the previous DUT and 0 clusters in the title. The last bin of the shapes holds both 65534 and 65535. The label of every bar of the cluster shape plot is the picture of the clusters counted in it.", "quantifier": "all tables, chunks and DUTs", "why_tests_cant": "Plots are not tested; all divisions into chunks with growing cluster sizes.", "anchors": ["beam_telescope_analysis/tools/plot_utils.py:plot_cluster_hists"]}
{"id": "C114", "title": "Range and number of bins of the residual histogram in double precision", "statement": "With nbins_per_pixel = n, calculate_residuals histograms the residuals over a range that is, up to rounding, a whole number k of pixels, at least 6 pixels and 3 FWHM on both sides of the peak, less than two pixels more than needed, and has n * k bins or one less; the limits are symmetric around the peak up to rounding. With a pitch of whole micrometers k is even and there are exactly n * k bins; with narrow residuals and a pitch below 4/3 of a power of 2 the range is 6 pixels. For other pitches the documented even number of pixels is not kept: with the 18.4 um of Mimosa26 30 pixels become 31, and 21 bins per pixel on 6 pixels give 125 bins.", "quantifier": "all pixel pitches, widths of the residuals and bins per pixel", "why_tests_cant": "Whether the rounded width divided by the pitch gives back the number of pixels depends on the last bit of the pitch; the tests use a few pitches, mostly whole numbers.", "anchors": ["beam_telescope_analysis/result_analysis.py:calculate_residuals"]}
{"id": "C115", "title": "Track finding: order of the DUTs and extrapolation", "statement": "find_tracks orders the DUTs by the height at which the z axis crosses them (for any tie order of argsort). It fails exactly if a DUT is parallel to the z axis or if the local z of a hit differs from zero by more than 1e-8. The reference position of a row at a DUT is the extrapolation from the last two DUTs in front of it that are in select_extrapolation_duts and have a hit in the row; with less than two of them it is the hit of the first DUT. If the hits are on a straight line that is not parallel to the DUT, the reference position is the x and y of the point where the line crosses the plane of the DUT, so that without align_to_beam the distance of the own hit of a straight track is zero. With align_to_beam the hits are transformed to the system of the beam, but the planes are not: at an unrotated DUT the reference position is off by the slope of the track times the distance in z of the hit to the plane. It is exact for tracks parallel to the beam; for a telescope rotated by 30 degrees and a track along the z axis the third hit is off by more than 15 percent of the distance of two DUTs. The track finding starts with the hits of the table at their own rows.", "quantifier": "all telescope configurations, hits, rows and selections of extrapolation DUTs, exact arithmetic", "why_tests_cant": "The fixtures are nearly unrotated telescopes with small track slopes, for which the offset is much smaller than the pixels.", "anchors": ["beam_telescope_analysis/track_analysis.py:find_tracks", "beam_telescope_analysis/track_analysis.py:_find_tracks"]}
{"id": "C116", "title": "fit_tracks fits every selected DUT with the DUTs and requirements asked for, or rejects its arguments", "statement": "The arguments select_duts, select_fit_duts, select_hit_duts, exclude_dut_hit and min_track_hits of fit_tracks are accepted iff they have one of the documented shapes (None, one list for all DUTs, or one list or None for each selected DUT; at least two fit DUTs; no DUT selected twice; booleans). If the call is not rejected and no list of fit DUTs has a repetition, every selected DUT is in exactly one fit, and this fit uses the fit DUTs asked for that DUT (without the DUT itself if its hits are excluded), requires hits in the DUTs asked for and the number of hits asked for (by default all fit DUTs), which is at least two and not more than the number of fit DUTs, so that a track with hits in all DUTs is stored. By default tracks are fitted once with all DUTs, with exclude_dut_hit once for every DUT with the other DUTs. Repetitions in select_fit_duts are not rejected, although then no track can be stored; with the Kalman filter two fit DUTs are not rejected, although at least three hits are required; None in a list is replaced in the list of the caller, so that a list used again asks for other DUTs (counterexamples proved).", "quantifier": "all arguments and numbers of DUTs", "why_tests_cant": "Combinations of shapes of five arguments; the tests use few of them.", "anchors": ["beam_telescope_analysis/track_analysis.py:fit_tracks"]}
{"id": "C117", "title": "calculate_efficiency uses the resolution asked for each DUT", "statement": "The arguments resolutions and in_pixel_resolutions of calculate_efficiency are accepted iff there is one item for each selected DUT (or a tuple or None for all DUTs), items are None or have two components, tuples have two numbers and lists two numbers or None. If no list object is given twice, the resolution used for a DUT is the one asked for, with the pixel size of this DUT in place of None; the in-pixel resolution is used only for DUTs with regions and is by default the smaller one of the resolution and a tenth of the pixel size. Names of regions are those given, one for each region, or none. Lists are completed in place: all DUTs that share a list object have the same resolution, that of the first one, also if their pixel sizes differ, and a list that is used for a second call asks for the resolution of the first call; None in a tuple and a tuple with one pair for each of two DUTs fail after the checks (counterexamples proved).", "quantifier": "all arguments, list objects and pixel sizes", "why_tests_cant": "Aliasing of lists and combinations of shapes; tests use one DUT with numbers.", "anchors": ["beam_telescope_analysis/result_analysis.py:calculate_efficiency"]}
{"id": "C118", "title": "Arguments of select_tracks", "statement": "select_tracks accepts exactly: a non-empty list of DUTs without repetition; for each of the five selections None, a non-empty list of DUTs (used for all selected DUTs), or for each selected DUT a list of DUTs or None (no selection); a query that is None, a string or one string for each selected DUT; and no DUT that is required both with and without a hit. Then each selected DUT is selected once, in the order given, with the selections and the query asked for, and its requirements can be met by some track; without selections all tracks are kept. An empty list for all DUTs is rejected although a list of an empty list is accepted and asks for the same, and a repeated DUT is not found by the checks: the run fails with a NodeError when the second table is created.", "quantifier": "for all arguments (DUTs, five selections in all nested shapes, query)", "why_tests_cant": "The nested shapes of five selections and a query multiply; a test fixes one combination and cannot show that the accepted ones are exactly those described.", "anchors": ["beam_telescope_analysis/tools/data_selection.py:234-386"]}
{"id": "C119", "title": "Set-up of cluster_hits and end of clusters and events", "statement": "At the end of a cluster of pixels its shape is the one of C11, its sizes are the differences of the largest and the smallest column and row and its frame is the smallest frame of its hits, whatever follows the mark -1 in the array of hit indices; a cluster of positions has shape -1 and the largest distances of its hits in x and y as sizes. At the end of an event exactly the clusters of the event get the number of clusters of its first hit. With use_positions=True and a file of columns and rows each clustered hit carries its own column and row and the local position of this pixel; with positions in the file these are clustered, and columns and rows are copied if present. Masks are rejected exactly if one is in the file and positions are clustered. Columns and rows that the clusterizer already returns (they are handed over as additional columns whenever they are to be copied) make the copying fail, and another true value than True leaves the columns and rows unconverted.", "quantifier": "for all hits, index arrays, events, column names, masks, tables and any clusterizer that keeps the order of the hits", "why_tests_cant": "Fixtures use small clusters of one detector and one kind of file; the claims are about all clusters, all combinations of columns, masks and arguments, and any behaviour of the external clusterizer.", "anchors": ["beam_telescope_analysis/hit_analysis.py:841-885", "beam_telescope_analysis/hit_analysis.py:889-969", "beam_telescope_analysis/hit_analysis.py:1051-1098"]}
{"id": "C120", "title": "Correlation of residuals", "statement": "calculate_residual_correlation returns only if no DUT is selected: an integer has no pixel size and a DUT object cannot be formatted as integer; moreover the loops over the bins overwrite the index of the DUT, so that for one DUT only one bin in x, and one bin in y or a single reference track, avoid an IndexError. What its parts do is: a reference track is correlated with exactly the tracks of later events in the chunk that are not further away than the limit in one direction and closer than 5 um in the other, each residual enters one bin, and a track exactly at the limit ends in an error. plot_residual_correlation uses for each bin exactly the pairs of reference residual and residual that were written, independent of the chunk size; the correlation lies in [-1, 1] and is 1 or -1 for linearly related residuals. In the fit a bin with more pairs has a smaller weight.", "quantifier": "for all selections of DUTs, tracks, reference tracks, bins, limits, chunk sizes and residuals (over the reals)", "why_tests_cant": "No test calls the function; a test of one file could not establish that no selection works, nor the claims for all tracks and chunk sizes.", "anchors": ["beam_telescope_analysis/result_analysis.py:2558-2862", "beam_telescope_analysis/tools/plot_utils.py:2606-2640"]}
{"id": "C121", "title": "Checks and event numbers of check_file", "statement": "check_file accepts a table of hits exactly if the event numbers are not negative and never decrease and all hits are on the sensor (columns and rows from 1 to their numbers, or positions within the extents), independent of the chunks. EventNumber then holds each event with hits once, increasing, and EventDelta the differences of consecutive ones, if no chunk but the last ends with event 0; otherwise a difference is missing. Accepted hits fall into the histograms, except positions exactly at the upper border, whose bin is outside if the size is a multiple of the resolution. A table of clusters as written by cluster_hits can never be checked, and a position outside of the sensor raises a TypeError instead of the intended RuntimeError. A table with mean_x but without x is always refused.", "quantifier": "for all sensors, tables, chunks and resolutions (exact arithmetic)", "why_tests_cant": "The effects appear only for certain chunk borders, border positions and kinds of tables; tests use one valid file of hits in a single chunk.", "anchors": ["beam_telescope_analysis/hit_analysis.py:291-395"]}
{"id": "C122", "title": "Noise level, threshold and files of pixel masks", "statement": "mask_pixels compares each pixel with the value in the middle of the window around it (positions past the edges count as 0) and marks it if the difference exceeds threshold times the standard deviation of the normalised differences times the square root of its hits. One iteration marks at most N/t^2 (1 + (mean/noise)^2) of the N pixels with hits, and each has more hits than the filtered image. The clustering reads exactly the masked pixels, with columns and rows from 1, ordered by column, and the disabled pixels as given. Counterexamples: on a sensor in which every pixel has the same number of hits the four corners, and only they, are masked with filter size 3 whenever t^2 p (1-p) < 1 with p = 4/pixels (threshold 10: 396 pixels or more); with few hits (equal numbers, less than half of the positions around each with hits) every pixel with a hit is masked for every threshold; the name DisabledPixelMask together with disable_mask fails with a node error after the mask is written.", "quantifier": "for all sensor sizes, filter sizes, thresholds, occupancies, iterations and masks", "why_tests_cant": "Tests run one occupancy; the claims relate the filter, the noise level and the mask for every occupancy and size.", "anchors": ["beam_telescope_analysis/hit_analysis.py:521-643", "beam_telescope_analysis/hit_analysis.py:868-880"]}
{"id": "C123", "title": "Parameters and tracks of calculate_transformation", "statement": "calculate_transformation accepts select_alignment_parameters exactly if it is None, or has one item per selected DUT which is a list of names out of the six alignment parameters or (in a list, not in a tuple) None; every DUT is then aligned with exactly the parameters asked for it (all six for None), the others are held. A call replaces the None items in the list of the caller, even if it fails because of a later item. The tracks of a chunk which are fitted are exactly the tracks with chi2 and with a hit of the DUT inside of its finite limits (bounds included; all of them without limits), once each and in their order, given as the same straight line in the global system with the hit in the local system, so that slopes keep their length and distances between hit and track are kept. A RuntimeError is raised exactly if one of the fitted tracks with hit, inside of the limits or not, has an offset or hit which is not in the plane of the sensor.", "quantifier": "all arguments, all numbers of DUTs, all placements and limits, all rows of the table, all chunks", "why_tests_cant": "tests run one alignment with one selection and compare the result within tolerances; they cannot show which tracks were used for every table or that the argument of the caller changes", "anchors": ["beam_telescope_analysis/dut_alignment.py:1744-1757", "beam_telescope_analysis/dut_alignment.py:1765-1831", "beam_telescope_analysis/dut_alignment.py:1914-1925"]}
{"id": "C124", "title": "Comparison of yaml files", "statement": "compare_yaml_files raises an exception exactly if a document of one of the files is no mapping (for example an empty document). Otherwise it is True exactly if both files have the same top-level keys and, for each key, the last item with this key (in whichever document) has the same content: equal strings, numbers of equal value whatever their type (1, 1.0 and true are equal), nan, lists entry by entry, mappings with the same keys in any order. The comparison is reflexive, symmetric and transitive and does not depend on the order of the keys. It is blind to documents whose keys all come again later in the file.", "quantifier": "all files of mappings of any depth and size", "why_tests_cant": "the function is itself the oracle of the tests; which differences it cannot see needs a statement about all files", "anchors": ["beam_telescope_analysis/tools/test_tools.py:310-325"]}
{"id": "C125", "title": "Histograms stored by calculate_residuals", "statement": "For every selected DUT calculate_residuals stores six histograms, in fixed order and with fixed names. Each entry of local_x_residuals and local_y_residuals is the number of tracks, over all chunks, with a hit and a chi2, whose hit is inside of the limits in x and y and whose residual in the direction is in the bin (the last bin includes its upper edge). Each entry of a histogram of residuals against a position is the number of tracks whose intersection and residual are in the bin and whose hit is inside of the limits of the other coordinate only; the limits of the position restrict the fit of the line, not the entries, so hits which are left out of the residual histogram can be counted there. If the limits of the position exclude no hit and the positions are within the edges, the sum over the positions is the residual histogram. A Gauss function is fitted for pixel sizes below 80 um in the direction, a box of the pixel size with a Gauss function otherwise. With given edges the result does not depend on the chunks. The file is written exactly if no DUT is selected twice and each selected DUT has a chunk.", "quantifier": "for all tracks, chunks, limits, edges, pixel sizes and selections of DUTs", "why_tests_cant": "The tests compare one stored file; they cannot show which tracks are counted for other limits, edges and chunk sizes.", "anchors": ["beam_telescope_analysis/result_analysis.py:83-125", "beam_telescope_analysis/result_analysis.py:218-312", "beam_telescope_analysis/result_analysis.py:326-541"]}
{"id": "C126", "title": "Content of the file of calculate_efficiency", "statement": "Called with plot=False, calculate_efficiency writes its file exactly if no DUT is selected twice and each DUT has a bin with at least minimum_track_density tracks and a hit, or such a bin without any track. For every selected DUT the file then contains all maps, histograms and edges under their names, the percentage of tracks with hit for each bin and each pixel (nan without track, from 0 to 100, 100 exactly if all tracks have a hit), the mask of the bins with fewer tracks than minimum_track_density, and for each region its attributes, histograms and percentages; it contains nothing else. With the stored numbers of tracks the numbers of tracks with hit can be recovered. Counterexamples: with minimum_track_density 0 a DUT without any hit is accepted if a bin has no track (nan counts as an efficiency); apart from the mask of stat_2d_efficiency_hist no array depends on minimum_track_density, the masks of the pixels, regions and other maps are lost; the number of tracks of a pixel is not stored, one track and a hundred tracks per pixel give the same file.", "quantifier": "for all results of all DUTs and regions, all selections of DUTs and all values of minimum_track_density", "why_tests_cant": "The tests compare a stored file for one set of arguments; they cannot show that everything can be read back, nor that different results give the same file.", "anchors": ["beam_telescope_analysis/result_analysis.py:1479-1489", "beam_telescope_analysis/result_analysis.py:1604-1605", "beam_telescope_analysis/result_analysis.py:1676-2091"]}
{"id": "C127", "title": "Content of the file of histogram_track_angle", "statement": "histogram_track_angle succeeds exactly if a DUT of the telescope is selected, no DUT of the telescope is selected twice, n_bins is positive, the selected DUT with the smallest position along the beam has tracks and every selected DUT with tracks has for each angle a track with that angle in its first chunk. The nodes without suffix then hold the global angles of the selected DUT with the smallest position along the beam; the nodes of a selected DUT with tracks hold the global and local angles of its own tracks; there are no nodes of other DUTs. Neither the order of the selection nor selected DUTs which are not in the telescope have an effect. Counterexample: a selected DUT without tracks gets nodes as well, with the histograms of the last DUT before it along the beam which has tracks.", "quantifier": "for all telescopes, orders along the beam, tables of tracks, divisions into chunks, selections of DUTs and numbers of bins", "why_tests_cant": "The tests compare a stored file of a telescope in which all DUTs are selected and have tracks; they cannot show which tracks the histograms of any other selection are made of.", "anchors": ["beam_telescope_analysis/result_analysis.py:2341-2533"]}
{"id": "C128", "title": "Content of the file of cluster_hits", "statement": "For a clusterizer which clusters events independently (clusters in the order of the events, not more clusters than hits in an event), hits sorted by event number, a chunk_size above the number of hits of each event and below 2^32 and masks that are accepted, cluster_hits succeeds if there is a cluster. Its file then has exactly these nodes: ClusterHits and Clusters with the result of the clusterizer for the whole table, the two columns of errors replaced by the intrinsic resolution; HistClusterSize, which has in bin k the number of clusters with k hits and ends at the largest cluster; HistClusterShape with the number of clusters of each shape from 0 to 65533 and both 65534 and 65535 in the last of 65535 bins; and the masks of the mask file, unchanged. The file does not depend on chunk_size. If no cluster is found the run does not end normally. Counterexample: the extents of the clusters which the end of cluster functions calculate (C119) are lost, clusters which differ in them only give the same file. The stored errors of the clusters are the pixel size over sqrt 12, or 1 / sqrt 12 in units of pixels; all other columns are those of the clusterizer.", "quantifier": "for all clusterizers of independent events, tables of hits, chunk sizes, masks, pixel sizes and old output files", "why_tests_cant": "The tests compare a stored file of one data set for one chunk size; they cannot show that the four passes over the file give the same content for every chunk size, nor what is lost on the way.", "anchors": ["beam_telescope_analysis/hit_analysis.py:868-884", "beam_telescope_analysis/hit_analysis.py:1099-1240", "beam_telescope_analysis/tools/smc.py:SMC"]}
{"id": "C129", "title": "Maps of track density, hit density and mean charge", "statement": "For tables sorted by event number, which are not empty and have fewer rows per event than chunk_size, plot_track_density makes for each selected DUT two pages, in the order of the selection: at each pixel the number of track intersections (of hits) in the area of this pixel, nothing for zero, and in the title their number on the sensor; it fails if one of the DUTs has no track or no hit on the sensor. plot_charge_distribution makes two pages for each selected DUT with the mean charge of the tracks with charge whose intersection (hit) is in the area of the pixel, nothing if there is none, and their number in the title. The hit position of a pixel belongs to this pixel. The pages do not depend on chunk_size. Counterexamples: the map is drawn mirrored in y, the point (x, y) of the axes shows the pixel at (x, -y); a DUT with an empty table gets the pages of the DUT before it under its own name (an exception if it is the first).", "quantifier": "all sensors, tables, chunk sizes and selections", "why_tests_cant": "The pages are pictures which the tests do not read; that the merged mean over chunks is the mean over all tracks holds for all ways to cut the table.", "anchors": ["beam_telescope_analysis/tools/plot_utils.py:1033-1215", "beam_telescope_analysis/tools/plot_utils.py:64-100"]}
{"id": "C130", "title": "Distributions of the track chi2", "statement": "For tables named after their DUT, not empty, sorted by event number, with fewer rows per event than chunk_size and with chi2 that are not negative, plot_track_chi2 makes five pages for each table, titled with the name of its DUT: chi2 with 250 bars from 0 to the 99th percentile of the first chunk rounded up, chi2 with 100 bars from 0 to 20, the same divided by the number of tracks and the bar width, reduced chi2 with 50 bars from 0 to 10 and p-value with 50 bars from 0 to 1; each bar shows the number of tracks of the table with a value in its bin, values which are not finite do not count. The area of the third page is 1 if there is a track with chi2 between 0 and 20. The last four pages do not depend on chunk_size. Counterexamples: the first page depends on chunk_size and leaves out tracks of later chunks; a node whose name has no number ends the function with an exception instead of being left out; an empty table gets the bars of the table before it.", "quantifier": "all files, chunk sizes and lists of DUT names", "why_tests_cant": "The bars are in pictures which the tests do not read, and the statement is about all tables and all ways to cut them into chunks.", "anchors": ["beam_telescope_analysis/tools/plot_utils.py:847-955"]}
{"id": "C131", "title": "Figures of plot_events: every track of the range is drawn once at its positions; the drawn lines lie on the fitted tracks but do not cover the telescope", "statement": "plot_events (plot_utils.py L669-811) makes one figure for every selected DUT. The figure contains exactly the rows of the table with start <= event_number < stop, in the order of the table and with the colors of the cycle in this order, whatever the chunk size is. A hit is drawn at its global position in mm (going back to local coordinates of its DUT gives the stored hit), a missing hit is not drawn. A row without fit has crosses and no line; a fitted row has squares if hit_flag and quality_flag are equal, otherwise circles, and a line of which every point lies on the fitted track. The numbers of the title are the number of fitted tracks and of different event numbers in the range. The planes are drawn at translation_z of each DUT, perpendicular to z, with the four corners of the sensor. With z_first and z_last, the z positions in mm of the track in the first and the last DUT, and s, the global z component of the slope, the line ends at z_first + s (10 - z_first) and z_first - s (z_last + 10). It is therefore not true that the line covers the telescope: for s = 1 it covers first and last DUT only if -10 <= z_last <= 10, and for 0 < s <= 1 and a telescope from z >= 0 to more than 10 mm the line never reaches the last DUT.", "quantifier": "for all telescopes, placements, tables with non-decreasing event numbers, ranges of events and chunk sizes", "why_tests_cant": "the tests only check that the pdf file exists; positions, counts and the ends of the lines for all placements, slopes and chunk sizes are not compared", "anchors": ["beam_telescope_analysis/tools/plot_utils.py:669-811"]}
{"id": "C132", "title": "Pages of masked pixels show every masked pixel once and count the hits of the others", "statement": "plot_masked_pixels makes two pages, and a third one if the mask file has a mask of noisy or of disabled pixels; it fails if and only if the sensor has no pixel or a mask sets a pixel outside of the occupancy histogram. The first page marks every noisy and every disabled pixel exactly once, at its column and row, and the numbers in its title are the numbers of these marks. Each point of the image within half a pixel of (column, row) shows the entry of HistOcc of this pixel; on the third page it shows zero if the pixel is noisy or disabled. If HistOcc is the histogram of the hits, the bars of the second page are the numbers of hits of each column and row, and the bars of the third page the numbers of hits outside of noisy and disabled pixels; in both cases the bars of the columns and of the rows sum up to the same total.", "quantifier": "for all mask files (arrays of any size, with and without each mask), all lists of hits and all points of the image", "why_tests_cant": "the masks are transposed, shifted by one and transposed back; a test on a square or symmetric sensor cannot see exchanged axes, and no set of examples covers all masks", "anchors": ["beam_telescope_analysis/tools/plot_utils.py:plot_masked_pixels"]}
{"id": "C133", "title": "The figures of fit_tracks show true shares of tracks; the last share and the title do not say what their labels say", "statement": "For every chunk of track candidates and every DUT fit_tracks collects five shares between 0 and 1: of the tracks to be stored those with hit and track position in the DUT; of these those with quality, with isolated track and with isolated hit (as the flags of C73); and, of all candidates, the tracks with quality, isolated track and isolated hit. They exist if and only if no distance is negative and the chunk is not empty. The page of each DUT shows, for each chunk, the share of candidates selected for storage and these five shares times 1, 10 or 100, the largest factor with which no point exceeds 1; the page is made for all chunks with candidates and valid distances. The last share counts also tracks that do not fulfil the hit requirements, against its label: it can be 1 when no track is selected. The title lists as Fit DUTs the DUTs whose tracks are stored; with exclude_dut_hit and otherwise default arguments this is, on every page, exactly the one DUT that is not used in the fit.", "quantifier": "all chunks of track candidates with consistent masks, tracks, settings of DUTs, shifts and numbers of DUTs; for the title all telescopes with at least three DUTs", "why_tests_cant": "The shares are only drawn, for arbitrary selections of tracks, and never compared with the flags of the stored tracks.", "anchors": ["beam_telescope_analysis/track_analysis.py:867-868", "beam_telescope_analysis/track_analysis.py:1012-1021", "beam_telescope_analysis/track_analysis.py:1111-1121", "beam_telescope_analysis/track_analysis.py:1180-1238", "beam_telescope_analysis/tools/plot_utils.py:814-844"]}
{"id": "C134", "title": "The message of compare_h5_files names every difference; sums and strings spoil it", "statement": "compare_h5_files decides the same with and without detailed_comparison. With it the message is empty if and only if the check is passed; it names exactly the nodes which are in one file only (or which are required and missing) and exactly the nodes of both files which differ, and the report of each of these nodes (get_array_differences) has at least one difference. In an exact comparison of tables each common column is reported once, without difference if and only if types, numbers of rows and entries (NaN equals NaN) agree; this fails only for columns with both infinities, which are always reported since their sum is NaN. With tolerances a column whose entries are all close is nevertheless reported if the sums differ, and if a table which differs has a column of strings, the detailed comparison raises an exception instead of returning False. Of two arrays the type, the shape and the content are each reported if and only if they differ; arrays of different shape with equally many entries are compared entry by entry.", "quantifier": "all files, chunk sizes, tolerances, lists of required and ignored nodes, tables and arrays", "why_tests_cant": "The comparison is itself the oracle of the tests; its message is only read by a user when a test fails.", "anchors": ["beam_telescope_analysis/tools/test_tools.py:131-198", "beam_telescope_analysis/tools/test_tools.py:201-307"]}
{"id": "C135", "title": "The file of correlate has every pair of DUTs once, and its figures show the bins of the hits", "statement": "For different DUTs with readable files, correlate stores for every reference, every other DUT, both directions, with and without background exactly one histogram: its name is unique and its resolution, extents, shape and entries are those of this pair, with the hits taken from the files at the positions of the DUTs in select_duts. The histogram with reduced background is the histogram minus background and a constant such that its smallest entry is 0. plot_correlations gives one page for each stored histogram with a positive entry, labelled with reference, DUT and direction, and the image at the point (x, y) is the entry of the bins in which hits at x in the DUT and y in the reference are counted. A reference without file is an error; a reference that is given twice ends with a NodeError, the number of DUTs of the telescope passes the check of select_duts, and a node whose name has fewer than two numbers stops all figures although other nodes are meant to be skipped.", "quantifier": "all telescopes, files of hits, lists of DUTs and references, resolutions, chunk sizes, backgrounds, names of DUTs and points of the axes", "why_tests_cant": "The tests compare one file with a fixture; figures are not looked at, and neither other orders of DUTs nor repeated references are tried.", "anchors": ["beam_telescope_analysis/hit_analysis.py:1268-1468", "beam_telescope_analysis/tools/plot_utils.py:537-594"]}
{"id": "C136", "title": "The figures of track angles show the stored histograms and fits of each DUT, in mrad", "statement": "For the file of histogram_track_angle, plot_track_angle gives three pages of the telescope and six pages of each selected DUT, in the order of the selection. Each page has system, angle and name of its DUT in the title; its bars are the entries of the stored histogram of this DUT and angle, from edge to edge in mrad without gaps, the limits of the axis are the outer edges, and the drawn curve at 1000 x mrad is the fitted Gaussian at x rad; mean and sigma of the legend are those of the fit in mrad, and nan if there is no fit. A DUT which the telescope does not have is ignored by histogram_track_angle, but the figures of the same call end with an exception.", "quantifier": "all telescopes, tracks, selections of DUTs, numbers of bins, results of fits and names of DUTs", "why_tests_cant": "Figures are not looked at by the tests.", "anchors": ["beam_telescope_analysis/tools/plot_utils.py:2517-2574", "beam_telescope_analysis/result_analysis.py:2503-2538"]}
{"id": "C137", "title": "File and figures of check_file", "statement": "For every table of hits which check_file accepts (with no chunk but the last one ending with event 0) the file has four nodes: the numbers of the events with hits, each once and increasing; their differences; and two arrays with the number of pairs of hits by column and by row, the first hit in one of the event_range events in front of the second and in the same chunk. For any order of the nodes plot_checks makes a page of the event numbers if and only if an event has a positive number, of the differences if and only if there are hits of two events, and of the pairs if and only if two hits of one chunk are at most event_range events apart; the pixel with centre (i, j) shows the entry (i, j). Counterexample: with hits of event 0 only there is no page although the event is stored.", "quantifier": "all sensors, resolutions, event ranges, tables, chunks and orders of the nodes (less than 2^31 pairs per bin)", "why_tests_cant": "Unbounded tables in any chunks; presence of pages is a statement about all entries of the arrays.", "anchors": ["beam_telescope_analysis/hit_analysis.py:check_file", "beam_telescope_analysis/tools/plot_utils.py:plot_checks"]}
{"id": "C138", "title": "Effective pixels of the efficiency plots", "statement": "In the figure of the effective pixels each bin with a track with hit shows the colour of the pixel which is nearest to the centre of the bin plus the mean residuals, other bins are masked. Every pixel has one of the k colours, and not that of a pixel with smaller number which is seen in its area, unless these have all colours. A pixel has a marker if and only if a bin with a track with hit has its centre in the pixel and is not the first such bin of the map. Counterexamples: for every k two pixels seen in the area of a third one may have the same colour; the pixel of the first bin with hits has no marker if it has no other bin with hits; with the hits of the pixels (files of clusters) and at most 10^5 pixels the figures end with an exception behind the second one (a module is indexed instead of the array of the colours). The page with the effective pixels shows the colour of every bin and the markers; more than 100000 pixels omit it.", "quantifier": "all pixel centres, nearest-neighbour searches, maps of residuals and hits, and numbers of colours (markers: fewer than 2^16 bins)", "why_tests_cant": "The figures are not read back by tests; the colours depend on a loop over all pixels and bins.", "anchors": ["beam_telescope_analysis/tools/plot_utils.py:efficiency_plots"]}
{"id": "C139", "title": "File and pages of align_kalman", "statement": "The file of align_kalman gets for every DUT of the telescope one row per track with the required hits, in the order of the tracks and independent of the chunks, up to the track at which the numbers of used tracks of all DUTs are above max_tracks: the alignment and its errors in front of the track, the annealing factor, and the change of each parameter in units of its error (nan behind the first parameter which changes by more than 5 % of its error, and for tracks without fit or with chi2 above track_chi2); chi2 and p-value of each track are stored. The pages are complete (36 per DUT and four more) if and only if each parameter of each DUT has a deviation which is not nan, that is (without nan) if every DUT, selected or not, has a track with accepted chi2 whose first five parameters change by at most 5 % of their errors; otherwise align_kalman ends with an exception although the alignment is finished. Counterexamples: the chi2 of a track whose fit fails is stored as 0; what the last track changes is in none of the tables; the argument plot is ignored. The pages of changes show the stored values minus the first one, the pages of errors the stored errors.", "quantifier": "all states, updates, fits, tracks, chunks, contents of the file and limits", "why_tests_cant": "The file depends on the whole sequence of tracks and chunks; the exception depends on all tracks of all DUTs.", "anchors": ["beam_telescope_analysis/dut_alignment.py:_duts_alignment_kalman", "beam_telescope_analysis/dut_alignment.py:_update_alignment_parameters", "beam_telescope_analysis/tools/plot_utils.py:plot_kf_alignment"]}
{"id": "C140", "title": "Ranges of the colours of the maps of mean residuals and charges", "statement": "On the pages of calculate_efficiency the range of the map of the mean 2D residuals is derived from a histogram of the mean residuals with bins of 1 um from 0 to n - 1, where n is the largest mean residual rounded up. If no mean residual is larger than 1 um there is no bin and the call ends with an IndexError. Otherwise the range ends at n if all values are above n - 1; if not, it ends at a number from 1 to n - 1 with fewer than 5 % of the values up to n - 1 above it, so that the largest mean residual is always outside the range. The page of the charges shows, for hits with integer charges, one bar with the exact number of hits for every charge from 0 to a charge which is not above the largest one, and fewer than 5 % of the hits have a larger charge.", "quantifier": "for all non-empty lists of mean residuals that are not negative, and for all non-empty lists of charges of hits", "why_tests_cant": "The end of the range depends on the maximum, on rounding and on the cumulative distribution of all values; the exception and the value outside the range appear for particular distributions only, which no finite set of samples covers.", "anchors": ["beam_telescope_analysis/tools/plot_utils.py:efficiency_plots", "beam_telescope_analysis/tools/analysis_utils.py:hist_quantiles"]}
{"id": "C141", "title": "Pages of prealign", "statement": "prealign with plots shows for each DUT and direction the accumulator of the Hough transform and the maxima of the correlation with the found line. On the second page every bin is drawn at its own position on both axes, with 1 at the maximum of each bin of the DUT and 0 elsewhere, and the line goes through the centre of every bin that lies on the line of the accumulator. The first page shows the votes of the line at distance rho and angle theta at the distance -rho and the angle -theta of the axes (the image is flipped in both directions, the axes are not). Counterexample for the votes at their own position: a single hit. If the correlation has only one bin the call ends with an IndexError.", "quantifier": "for all resolutions, sizes of the correlation, sets of hits, votes, positions and lines", "why_tests_cant": "The pages are images: a test that the file is written cannot see where a value is drawn; the position depends on the number of bins and on the edges of all bins.", "anchors": ["beam_telescope_analysis/tools/plot_utils.py:plot_hough", "beam_telescope_analysis/tools/analysis_utils.py:hough_transform", "beam_telescope_analysis/dut_alignment.py:prealign"]}
{"id": "C142", "title": "Maps of calculate_residuals", "statement": "calculate_residuals with plots draws two maps for each DUT with tracks: the mean distance of hit and intersection, and the number of tracks, for the pixel of the intersection. The contents are those of all tracks, whatever the chunks; a pixel without tracks is empty. Counterexamples: the values of the pixel at (x, y) are drawn at the point (x, -y) of the axes; a pixel whose distances are all zero is drawn as a pixel without tracks on the map of residuals.", "quantifier": "for all sensors with positive pitches, all chunks of tracks, pixels and points on the sensor", "why_tests_cant": "The maps are images in a PDF file; tests compare files of histograms and do not see at which point of the axes a value is drawn. The means depend on all chunks.", "anchors": ["beam_telescope_analysis/result_analysis.py:calculate_residuals", "beam_telescope_analysis/tools/plot_utils.py:plot_2d_map", "beam_telescope_analysis/tools/plot_utils.py:plot_2d_pixel_hist"]}
{"id": "C143", "title": "Pages with the distributions of residuals", "statement": "The pages of calculate_residuals with the distribution of residuals have one bar per bin, exactly over the bin and with the number of residuals as height; the legend shows the number of residuals and an RMS within half a bin of that of the residuals; the curve is the fitted Gaussian. The image of residuals against positions shows the number of tracks of each cell whatever the chunks; the blue points are those of the line fit, blue and red points are the means of all populated bins. Counterexamples: on the logarithmic page a bin with one residual is not seen; if all residuals are in one bin the drawn curve is zero; without residuals plot_residuals raises an exception. The curve of a fitted box has the fitted height inside and 0 outside the box.", "quantifier": "for all histograms, edges, residuals, fits, chunks of tracks, limits and points of the axes", "why_tests_cant": "The pages are figures in a PDF file which no test reads. What is seen depends on limits of the axes, scale and histogram together.", "anchors": ["beam_telescope_analysis/tools/plot_utils.py:plot_residuals", "beam_telescope_analysis/tools/plot_utils.py:plot_residuals_vs_position", "beam_telescope_analysis/result_analysis.py:calculate_residuals"]}
{"id": "C144", "title": "DUTs for the extrapolation of find_tracks", "statement": "find_tracks accepts as select_extrapolation_duts exactly None and lists of DUTs of the telescope. Order and repetitions of the DUTs have no influence on the tracks; all DUTs is the same as None. With a single DUT the extrapolation is disabled: the reference is the hit in the first DUT, whichever DUT is given. Counterexample: an empty list, which is documented to disable the extrapolation, raises an exception.", "quantifier": "for all values of the argument, all telescopes with distinct DUTs, all arrays of hits and any arithmetic", "why_tests_cant": "Tests run find_tracks for one or two selections and one telescope; independence of order and the disabled extrapolation concern all selections and all hits.", "anchors": ["beam_telescope_analysis/track_analysis.py:find_tracks", "beam_telescope_analysis/track_analysis.py:_find_tracks"]}
{"id": "C145", "title": "Reading of a configuration and text of a telescope", "statement": "open_configuation returns the mapping of a YAML file given by name, or of a YAML text; nothing, an empty text and an empty dictionary give an empty configuration. The text of a telescope has one line per DUT in the order of the indices and a last line with all attributes. Counterexamples: in Python 3 a dictionary or an open file is a NameError; the name of a missing file is a ValueError of the dictionary; a list of texts with two characters is accepted as configuration. An empty document or a number is a TypeError, another kind of argument a ValueError (Python 2) or NameError (Python 3); of a sequence of pairs the last value of a key counts and the first entry which is not a pair decides the exception.", "quantifier": "for all arguments, files, YAML parsers, DUTs and attributes", "why_tests_cant": "No test calls the function; the result for every kind of argument and document needs a case analysis over all YAML values.", "anchors": ["beam_telescope_analysis/telescope/telescope.py:open_configuation", "beam_telescope_analysis/telescope/telescope.py:Telescope.__str__"]}
{"id": "C146", "title": "Histograms of track angles of the efficiency analysis", "statement": "calculate_efficiency stores for each DUT and each region histograms of the total, alpha and beta track angle: entry i is the number of tracks with hit (of the region) of all chunks whose angle is in bin i of the stored edges; the edges of the DUT are in rad. The pages show a bar in mrad from edge to edge for each bin. Counterexamples: the pages of a region change the lists of the caller, so that the stored edges of all regions are in mrad with plots and in rad without; the second page of the total angle is labelled in mrad but its bars are at 1000 times the angle in mrad; with one bin the plots raise an exception; a region without track with hit in the first chunk raises an exception.", "quantifier": "for all chunks of tracks, angles (including nan), regions, numbers of bins and with or without plots", "why_tests_cant": "A test compares one file with stored results and does not look at the pages; the meaning of the stored edges for all inputs and the influence of the plots on the stored data need a proof over all chunks.", "anchors": ["beam_telescope_analysis/result_analysis.py:calculate_efficiency", "beam_telescope_analysis/tools/plot_utils.py:efficiency_plots"]}
{"id": "C147", "title": "Efficiencies of fixed rectangles in the in-pixel maps", "statement": "In the in-pixel efficiency map of each region efficiency_plots writes into each of three fixed rectangles the mean of the efficiencies of the unmasked bins of the rectangle: exactly the bins inside of the rectangle if it is on the grid of the bins, otherwise bins up to one bin before and two bins after it. Counterexample: for a rectangle which starts before the map the index of the first bin is negative and counts from the end, the text is nan whatever the efficiencies are; without extend_in_pixel_areas this is so for two of the three rectangles in every map which is at least two bins wider than 10 um.", "quantifier": "for all maps, extents, numbers of bins, masks and rectangles", "why_tests_cant": "No test looks at the text of the pages; the selected bins depend on extent, binning and position of the rectangle, which need a proof over all real values.", "anchors": ["beam_telescope_analysis/tools/plot_utils.py:efficiency_plots"]}
{"id": "C148", "title": "Distributions of efficiencies", "statement": "In the pages 'Efficiency per bin' and 'Efficiency per pixel' of a DUT bar i is the number of bins or pixels with at least minimum_track_density tracks whose efficiency is in the i-th percent (100 % in the last bar), and the logged numbers of efficient pixels count the same pixels with at least 97, 95, 80 and 50 %. Counterexample: the page of a region and the number of pixels in its titles ignore the mask and count every pixel with a track, so that a pixel with too few tracks makes a bar higher than in the page of the DUT.", "quantifier": "for all counts of tracks and hits of bins and pixels and all minimum track densities", "why_tests_cant": "No test looks at the pages; that masked arrays lose their mask in some numpy and matplotlib functions has no effect with the default minimum_track_density of 1.", "anchors": ["beam_telescope_analysis/tools/plot_utils.py:efficiency_plots", "beam_telescope_analysis/result_analysis.py:calculate_efficiency"]}
{"id": "C149", "title": "Pages of cluster sizes and cluster shapes of a region", "statement": "For every region of calculate_efficiency and any chunks of tracks, the page of cluster sizes has one bar for each size from 1 to the largest size of the tracks of the region with valid hit, as high as the number of these tracks, the next pages show the bars up to the size 10, and the page of cluster shapes has one bar for each of 15 shapes and a last bar with exactly the remaining tracks. The six pages of in-pixel densities show in each bin the share of the tracks of the region with valid hit in the bin whose cluster is counted as one of the shapes of the page, between 0 and 1, and nothing in bins without such a track; the page of the shapes 3 and 5 is the sum of the pages of 3 and of 5, and the pages of one, two, three and four pixels together give at most 1. But the page of the clusters of three pixels also shows clusters of two diagonal pixels (shape 6).", "quantifier": "all tracks, divisions into chunks, regions, selections of valid hits, cluster sizes and shapes, pixel sizes, resolutions and bins (tracks not exactly on an edge between two bins)", "why_tests_cant": "Bars and shares are differences and quotients of histograms which are made independently of each other and added over chunks; that they fit together has to hold for all data, the tests of the project do not look at pages.", "anchors": ["beam_telescope_analysis/tools/plot_utils.py:efficiency_plots", "beam_telescope_analysis/result_analysis.py:calculate_efficiency"]}
{"id": "C150", "title": "Pages \"Efficiency per pixel\" colour every pixel with its own efficiency", "statement": "If every pixel has a closed Voronoi polygon, each of the five pages \"Efficiency per pixel\" of a DUT shows exactly one polygon for each pixel, with the corners of the polygon of this pixel and the colour of the efficiency of this pixel; pixels with masked efficiency are white. The colour is the number of the interval, of 256 equal intervals between the limits of the page, which contains the efficiency; values up to the lower limit have the first colour, so that on the pages with the lower limits 90, 95, 97 and 98 a dead pixel can not be told from one with the efficiency of the limit. Without given upper limit the range contains all values: the limit is the least whole number not below them, 1 if there is no value or all are 0. A polygon which is not closed is skipped but its efficiency is not, then the following pixels have the colours of their predecessors.", "quantifier": "all numbers of columns and rows, Voronoi diagrams, efficiencies and masks, limits", "why_tests_cant": "Polygons and efficiencies are two lists which are only matched by their order; that no pixel gets the colour of another one has to hold for all diagrams and all efficiencies, and no test reads the colours of the figures.", "anchors": ["beam_telescope_analysis/tools/plot_utils.py:pixels_plot_2d", "beam_telescope_analysis/tools/plot_utils.py:efficiency_plots"]}
{"id": "C151", "title": "Fixtures of the unit tests: stored values, comparison and replacement of nan", "statement": "create_fixture calls the function for every combination of the values of its keyword arguments (lists are looped, the last list runs fastest) and stores the return values in this order, if all arguments of the function have a value, there is a call and no call raises; missing arguments (RuntimeError) and exceptions of the function leave the file of the fixture as it is. check_with_fixture with as many calls as stored values is True exactly if every return value is close to the stored value of its call; the function agrees with its own fixture exactly if none of its return values is nan. A missing file, a missing node, an exception of a call and numbers of calls which do not fit are exceptions. Numbers of calls are not always compared: one call is compared with all stored values, one stored value with all calls, and no call at all agrees with a single stored value. An empty list of values erases the old fixture. The order of the keyword arguments matters: the same calls in another order do not agree. nan_to_num keeps numbers, replaces nan by 0 and infinite entries by the largest number of the type with their sign, in every column, and changes the given array exactly if no copy is wanted.", "quantifier": "all functions with single return values, all lists of keyword arguments (fixed or looped), all stored fixtures, all record arrays", "why_tests_cant": "The fixtures are what the tests themselves rely on; agreement for all functions, argument lists and numbers of calls, and the cases in which a comparison is silently weaker, cannot be enumerated.", "anchors": ["beam_telescope_analysis/tools/test_tools.py:create_fixture", "beam_telescope_analysis/tools/test_tools.py:check_with_fixture", "beam_telescope_analysis/tools/test_tools.py:nan_to_num"]}
{"id": "C152", "title": "Default names of output files", "statement": "The default output of a step (coordinates, check, mask, cluster, residuals, efficiency, purity, angles, combine, reduce, select, alignment, figures) is the input name without its extension, followed by the ending of the step; the extension is what follows the last dot of the last part of the name, unless only dots are in front of it. No step writes to its own input, no file of a chain of steps is written twice, inputs with the same extension have different outputs, and different steps on one input have different outputs, except the two conversions to local coordinates, which share the name. Inputs which differ only after the last dot share their outputs. The figures of a file have its name with the extension pdf. correlate, merge_cluster_data, find_tracks and fit_tracks write to fixed, different names in the directory of the (first) input, so all inputs of a directory share their outputs. fit_tracks accepts the methods fit and kalman in upper and lower case (Tracks_Fit.h5, Tracks_Kalman.h5), other methods, a Kalman filter without beam energy or particle mass and scattering planes with the straight line fit are ValueErrors. The default output of combine_files starts with the longest common start of all inputs; it can be one of the inputs if a further file is added to a combined one.", "quantifier": "all file names (any characters, directories, dots), all steps and all chains of steps, all option values", "why_tests_cant": "Tests use a few fixed names; that no default output ever overwrites an input or another file of the chain is a statement about all names and all chains.", "anchors": ["beam_telescope_analysis/track_analysis.py:fit_tracks", "beam_telescope_analysis/result_analysis.py:calculate_residuals", "beam_telescope_analysis/hit_analysis.py:convert_coordinates", "beam_telescope_analysis/hit_analysis.py:merge_cluster_data", "beam_telescope_analysis/dut_alignment.py:apply_alignment", "beam_telescope_analysis/tools/data_selection.py:select_tracks"]}
{"id": "C153", "title": "Names of the files of the converters", "statement": "format_hit_table of the pyMOSA converter writes, without given names, one file for each header ID whose name is that of the input without extension, followed by _header_id_, the ID and .h5; the files of different IDs are different and none is the input. Given names are used as they are if there is one for each ID, otherwise ValueError. process_dut of the FE-I4 converter takes of a list of raw data files the first name in the order of characters, independent of the order of the list (an empty list is an IndexError), reads <root>_interpreted.h5 and returns the given name or <root>_interpreted_formatted_fei4.h5. This is not always the file with the lowest index, as the code says: of the files 9 and 10 it is that of 10.", "quantifier": "all file names, all lists of header IDs, all lists of raw data files and given names", "why_tests_cant": "Collisions and the order of names depend on all possible names and indices; tests use one or two fixed names with one digit.", "anchors": ["beam_telescope_analysis/converter/pymosa_converter.py:format_hit_table", "beam_telescope_analysis/converter/pybar_fei4_converter.py:process_dut"]}
{"id": "C154", "title": "Pages with the densities of hits and tracks of the efficiency plots", "statement": "The pages of efficiency_plots with the density of hits, of tracks and of tracks with associated hit show the number of entries of every bin of their map, and leave bins without entries white. The upper limit of the colours is a whole number of at least 1: of n bins with entries at most about 5 % of n - 1 (rounded up) have more entries and share the last colour, at least 5 % of n - 1 and at least one reach it; if all bins with entries have the same number of entries, the limit is that number. The in-pixel pages of a region are always drawn, with the limit 1 for an empty map. It is not true that the pages of every sensor are drawn: if the DUT has no hit, no density page is written, and if tracks exist but none has an associated hit (an efficiency of zero), the plots end with an exception after the page of the tracks.", "quantifier": "for all maps of hits, tracks and tracks with hit of a sensor and of a region", "why_tests_cant": "The limit is a percentile of the bins with entries, so its quality is a statement about all maps; tests compare numbers of stored histograms and never read the limits of the colours of a page or plot a DUT without associated hits.", "anchors": ["beam_telescope_analysis/tools/plot_utils.py:efficiency_plots"]}
{"id": "C155", "title": "Page with the arrows of the residuals of the efficiency plots", "statement": "The page of efficiency_plots with the arrows of the residuals has one arrow for every bin whose two indices are multiples of 4 and whose centre is within the plotted range, in whatever order the ends of the range are given, and no other arrow: it starts at the centre of the bin and its vector is the pair of mean residuals of the bin, or 0 if the bin has none. Of n x m bins at most ceil(n / 4) x ceil(m / 4) have an arrow, and exactly so many if all centres are within the range. The page is omitted exactly if the sensor has more than 100000 pixels. It is not true that the arrows show the residuals of the sensor: two maps of residuals which agree in the selected bins give the same page, whatever the other bins contain, and a bin without residual looks like a bin with the residual 0.", "quantifier": "for all edges of bins, plotted ranges, maps of mean residuals and numbers of pixels", "why_tests_cant": "The claim is about every bin of every map and about what the page leaves out; tests do not read the arrows of a page and a single map can not show that the other bins never matter.", "anchors": ["beam_telescope_analysis/tools/plot_utils.py:efficiency_plots"]}
{"id": "C156", "title": "Frames and labels of the efficiency regions", "statement": "With efficiency regions, efficiency_plots writes two pages with the same labels, one for each region in their order: the frame contains exactly the points of the region, in whatever order the ends of the region are given; the text is in its middle and vertical exactly if the region is more than twice as high as wide; it gives the efficiency in percent (or nan), below a heading with the number of the region counted from 1 in decimal digits, followed by the name in parentheses if it is not empty. Headings of different regions are different whatever their names are. Without regions there are no such pages, and a missing name or efficiency ends the plots with an IndexError. It is not true that the labels do not cover each other: different regions with the same middle have their texts at the same place.", "quantifier": "for all lists of regions, names and efficiencies", "why_tests_cant": "Frames, rotation and headings depend on regions with arbitrary ends and names; tests do not read the pages, and that two headings never agree is a statement about all names.", "anchors": ["beam_telescope_analysis/tools/plot_utils.py:efficiency_plots"]}
{"id": "C157", "title": "States and errors of the planes of a Kalman fit", "statement": "_fit_tracks_kalman_loop returns the tracks in their order and for each track the planes of the telescope in their order, without the scattering planes, which follow them: offset and slope are the components of the smoothed state, the errors x_err and y_err are the non-negative numbers whose squares are the variances of the position, and not a number exactly for a negative variance; correlations of the state do not change them. It ends with a RuntimeError exactly if a plane of the telescope has a negative chi2 for one of the tracks; scattering planes and planes without chi2 do not matter. It is not true that all returned arrays have the same planes: the covariances also contain the scattering planes.", "quantifier": "for all numbers of DUTs, tracks, smoothed states, covariances and chi2", "why_tests_cant": "The claim is about every result the smoother can give, including negative variances, missing chi2 and scattering planes; tests fit a few tracks of one telescope.", "anchors": ["beam_telescope_analysis/track_analysis.py:_kalman_fit_3d", "beam_telescope_analysis/track_analysis.py:_fit_tracks_kalman_loop"]}
{"id": "C158", "title": "Peak and full width at half maximum", "statement": "peak_detect searches the values of a histogram, reduced by half of the largest value, for zeros of their spline. If there are exactly two, it returns the first position of the largest value, the middle of the zeros, their distance and the zeros; any other number of zeros and a TypeError of the spline (too few points) are a RuntimeError, for which calculate_residuals has a replacement, while a ValueError, also that of an empty histogram, is not changed. The number of entries does not matter: multiplying all values by a positive number gives the same result if the spline routine has this property. It is not true that the width is that of the peak above its background: with a constant background above the height of the peak, all reduced values are positive, and if the spline has no zeros for positive values, no peak is found.", "quantifier": "for all positions and values and all spline routines", "why_tests_cant": "The claim is about all histograms and separates the code from the spline routine of scipy, which is arbitrary; tests use a few peaks without background.", "anchors": ["beam_telescope_analysis/tools/analysis_utils.py:peak_detect", "beam_telescope_analysis/tools/analysis_utils.py:fwhm"]}
{"id": "C159", "title": "Limits of the colours and projections of the maps", "statement": "plot_2d_pixel_hist without upper limit uses a whole number which is not below any entry and not above any whole number of at least 1 with this property, and 1 for a map which is empty or zero; a given upper limit is used, and the lower limit is the given one unless both agree. The k-th point of the projection above the map is the mean of the central columns of the k-th row, at the middle of the k-th of as many equal parts of the x range as the map has rows. It is not true that the limits are always different: they are the same exactly if both are 0, and equal limits below 0 give a range which is upside down. It is not true that the projection above the map shows the map along x: a map whose values depend only on the column has a constant projection.", "quantifier": "for all maps, limits, ranges and numbers of bins of the projection", "why_tests_cant": "The claim is about the limits of every map, also masked, negative and constant ones, and about what the projections of every map show; tests do not read colours or curves of a figure.", "anchors": ["beam_telescope_analysis/tools/plot_utils.py:plot_2d_pixel_hist"]}
