
Further observations made while reading the code, without a theorem:

* calculate_residual_correlation: the inner loop `for index, arr in enumerate(x_res)` overwrites the index of the loop over the DUTs; correlate_n_tracks shrinks from DUT to DUT.
* calculate_efficiency: `cut_distance[0] = np.inf` is a TypeError if cut_distance is a tuple with None; a chunk with valid hits but no track in the histogram is a ValueError;
  the condition in L1082 is always true; the range of the angle histograms is the one of the first chunk.
* find_tracks with align_to_beam rotates the hits but not the positions and normals of the DUTs used for the extrapolation.
* open_configuation uses the Python 2 name `file`; create_folder uses `errno` without importing it; create_results_array with keep_data=True is a NameError.
* simulate_data: beam_position_sigma[1] and digitization_sigma_cc are ignored; redrawn angles are not divided by 1000; n_events=0 is a ValueError.
* cluster_hits with use_positions truncates seed positions to uint16.
* fit_residuals_vs_position weights the bins with the square of the counts (errors proportional to 1/count instead of 1/sqrt(count)).
* align changes the lists track_chi2 and alignment_parameters of the caller; the annealed quality distances are computed but not used.
* SMC: align_at is ignored; a func returning None is an error with one core only.
* calculate_residual_correlation calls geometry_utils.apply_alignment, which does not exist (AttributeError); actual_dut is used both as an index and as an object (actual_dut.column_size), and binned_statistic fails
  for a value at the upper end of its range: the function can never run (C120).
* Diamond sensors: index_to_local_position with scalar indices assigns items of a numpy scalar.
* align_kalman: chunk_size is not used (neither by find_tracks nor by the loop, which reads 10000 tracks at once), C103; the parameters plot and max_iterations (documentation) have no effect.
* calculate_residuals: the title of the stored array of y residuals against the x position names the wrong coordinates (C125).
* efficiency_plots uses np.int (removed in numpy 1.24) for the rectangles of the in-pixel maps: with efficiency regions and plots the call fails with newer versions of numpy, which requirements.txt allows. The bin
  centres of the figure of effective pixels of a region are calculated from the plot range, which is not extended by whole bins as the histograms are.
* efficiency_plots: the density pages of the whole sensor have no protection against an empty map (the in-pixel pages of the regions have one): for a DUT without associated hits the plots end with an exception, so an efficiency
  of zero is the case in which the pages with the efficiencies are missing (C154).
* efficiency_plots: the page of residual arrows shows only every fourth bin in both directions, without averaging the others, and bins without residuals have arrows of length 0 (C155).
* _fit_tracks_kalman_loop: the returned covariances contain the scattering planes, the other arrays do not; the errors of the fit are returned but fit_tracks stores those of the hits (C157).
* peak_detect takes half of the largest value, not half of the height above the background: with a flat background above the height of the peak no peak is found and calculate_residuals uses its replacement (C158).
* plot_2d_pixel_hist: the guard against equal limits of the colours has no effect if both are 0 and inverts the range of a constant negative map; with plot_projection (not used by the package) the two projections are exchanged (C159).
