(** Model of the pages of calculate_residuals with distributions of residuals: tools/plot_utils.py plot_residuals (L958-996) and plot_residuals_vs_position (L999-1030), result_analysis.py L219-256, L264-306, L336-343, L369-376, L392-412.
    Simplifications: real numbers instead of doubles; titles, colours, labels and the printed parameters of the fits are not modelled; an exception is None. *)
From Coq Require Import List Arith ZArith Reals Bool.
From Verif Require Import GeometryModel CorrelateModel PrealignModel RunningMeanModel TrackAngleModel ResidualsModel FitResidualsModel DensityModel Chi2PlotModel.
Import ListNotations.
Local Open Scope R_scope.

(** *** plot_residuals *)
(** scipy's erf of z / 0: erf is 1 at infinity, nan for 0 / 0 [for tools/analysis_utils.py L690-694] *)
Definition erf_infinite (z : R) : option R := if Rltb 0 z then Some 1 else if Rltb z 0 then Some (-1) else None.
(** gauss(x, *fit) or gauss_box_erf(x, *fit); None: nan; with sigma 0 the exponent is - infinity, or nan at the mean; tools/plot_utils.py L988-992, tools/analysis_utils.py L642-643, L690-694 *)
Definition curve_value (fit : list R) (x : R) : option R :=
  match fit with
  | [A; mu; sigma] => if Reqb sigma 0 then (if Reqb x mu then None else Some 0) else Some (gauss A mu sigma x)
  | [A; mu; sigma; w] =>
      if Reqb sigma 0 then match erf_infinite (x - mu + w * (1 / 2)), erf_infinite (mu + w * (1 / 2) - x) with Some a, Some b => Some (1 / 2 * A * a + 1 / 2 * A * b) | _, _ => None end
      else Some (gauss_box_erf A mu sigma w x)
  | _ => None
  end.
(** np.arange(np.floor(np.min(edges)), np.ceil(np.max(edges)), step=0.1) [for tools/plot_utils.py L988] *)
Definition curve_positions (edges : list R) : list R :=
  match edges with
  | [] => []
  | e :: es => let lo := IZR (Int_part (list_min e es)) in let hi := IZR (ceil (list_max e es)) in
      map (fun k => lo + INR k * (1 / 10)) (seq 0 (Z.to_nat (ceil ((hi - lo) / (1 / 10)))))
  end.
(** np.any(fit) [for tools/plot_utils.py L982] *)
Definition any (fit : list R) : bool := existsb (fun v => negb (Reqb v 0)) fit.
(** a page: scale of the y axis, bars with centre, width and height, limits of the axes (None: those of matplotlib), entries and RMS of the legend, points of the curve *)
Record residual_page := ResidualPage { on_log_scale : bool; page_bars : list (R * R * option R); x_limits : R * R; y_limits : option (R * R); legend : option (nat * R); curve : list (R * option R) }.
(** int(ceil(np.amax(histogram) / 10.0)) * 100 [for tools/plot_utils.py L975] *)
Definition log_top (counts : list nat) : R := IZR (ceil (INR (List.list_max counts) / 10) * 100).
(** tools/plot_utils.py L962-996: one page; the limits of L967-969 are replaced in L995, but limits which are nan raise ValueError *)
Definition residual_page_of (counts : list nat) (edges : list R) (fit : list R) (plot_log : bool) : option residual_page :=
  match get_mean_from_histogram counts (bin_centers edges), get_rms_from_histogram counts (bin_centers edges) with
  | Some _, Some rms =>
      Some (ResidualPage plot_log (hist_bars (counts, edges)) (nth 0 edges 0, last edges 0) (if plot_log then Some (1, log_top counts) else None)
        (if any fit then Some (list_sum counts, rms) else None) (if any fit then map (fun x => (x, curve_value fit x)) (curve_positions edges) else []))
  | _, _ => None
  end.
(** tools/plot_utils.py L958-996 *)
Definition plot_residuals (counts : list nat) (edges : list R) (fit : list R) : option (residual_page * residual_page) :=
  match residual_page_of counts edges fit false, residual_page_of counts edges fit true with Some a, Some b => Some (a, b) | _, _ => None end.

(** *** plot_residuals_vs_position *)
(** np.histogram2d(position, residual, bins=(xedges, yedges)) of one chunk, a list of rows [for result_analysis.py L219-222] *)
Definition histogram2d (xedges yedges : list R) (pairs : list (R * R)) : list (list nat) :=
  map (fun i => map (fun j => length (filter (fun p => in_bin xedges i (fst p) && in_bin yedges j (snd p)) pairs)) (seq 0 (n_edge_bins yedges))) (seq 0 (n_edge_bins xedges)).
(** result_analysis.py L219-222, L264-306: the histograms of the chunks are added *)
Definition add_hist2d (h g : list (list nat)) : list (list nat) := map (fun p => add_hist (fst p) (snd p)) (combine h g).
(** result_analysis.py L219-222, L264-306 *)
Definition position_hist (xedges yedges : list R) (first : list (R * R)) (chunks : list (list (R * R))) : list (list nat) :=
  fold_left (fun h c => add_hist2d h (histogram2d xedges yedges c)) chunks (histogram2d xedges yedges first).
(** a page: image, blue and red points, line (offset and slope), vertical lines *)
Record position_page := PositionPage { image : picture; blue : list (R * R); red : list (R * R); fit_line : option (R * R); limit_lines : list R }.
(** ax.scatter(res_pos[select], residuals_mean[select]): a masked mean is not drawn [for tools/plot_utils.py L1015-1016] *)
Definition scatter (select : list bool) (centers : list R) (means : list (option R)) : list (R * R) :=
  flat_map (fun q => match q with (true, (c, Some m)) => [(c, m)] | _ => [] end) (combine select (combine centers means)).
(** tools/plot_utils.py L1011: np.ma.masked_equal(hist, 0).T *)
Definition masked_count (n : nat) : option R := if (n =? 0)%nat then None else Some (INR n).
(** tools/plot_utils.py L1020-1024; None: the limit is not finite *)
Definition lines_of (limit : option (option R * option R)) : list R :=
  match limit with None => [] | Some (lo, hi) => match lo with Some a => [a] | None => [] end ++ match hi with Some b => [b] | None => [] end end.
(** tools/plot_utils.py L999-1030 *)
Definition plot_residuals_vs_position (hist : list (list nat)) (xedges yedges : list R) (means : list (option R)) (select : list bool) (fit : option (R * R)) (limit : option (option R * option R)) : position_page :=
  PositionPage (Picture 0 0 (n_edge_bins yedges) (n_edge_bins xedges) (fun j i => masked_count (nth j (nth i hist []) 0%nat)) (nth 0 xedges 0, last xedges 0, nth 0 yedges 0, last yedges 0))
    (scatter select (bin_centers xedges) means) (scatter (map negb select) (bin_centers xedges) means) fit (lines_of limit).
Section Pages.
  Variable sort : list R -> list R.
  Variable curve_fit_gauss : list R -> list nat -> R * R * R -> option (R * R * R).
  Variable curve_fit_line : list (R * R * R) -> R * R.
  (** result_analysis.py L392-412 (also L429-449, L466-486, L503-523): fit and page of residuals against positions; [count]: tracks of each bin of the position *)
  Definition vs_position (hist : list (list nat)) (xedges yedges : list R) (count : list nat) (limit : option (option R * option R)) : option position_page :=
    match fit_residuals_vs_position sort curve_fit_gauss curve_fit_line hist xedges yedges count limit with
    | Some (f, select, means) => Some (plot_residuals_vs_position hist xedges yedges means select f limit)
    | None => None
    end.
  (** result_analysis.py L322-343, L355-376: fit (sensors with small pixels) and pages of the residuals *)
  Definition residual_pages (counts : list nat) (edges : list R) : option (residual_page * residual_page) :=
    match fit_residuals_gauss curve_fit_gauss counts edges with Some (A, mu, sigma) => plot_residuals counts edges [A; mu; sigma] | None => None end.
End Pages.
