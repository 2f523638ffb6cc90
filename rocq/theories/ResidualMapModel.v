(** Model of the two maps of calculate_residuals: result_analysis.py L213-217, L256-262, L308-314, L316-317, L541-567.
    Simplifications: real numbers instead of doubles; the range of the colours (median and standard deviation) and the titles are not modelled; an exception is None. *)
From Coq Require Import List Arith ZArith Reals Bool.
From Verif Require Import GeometryModel PrealignModel RunningMeanModel DensityModel.
Import ListNotations.
Local Open Scope R_scope.

(** a selected track: position of the intersection, distance of hit and intersection [for result_analysis.py L256] *)
Definition track := ((R * R) * R)%type.
(** result_analysis.py L213-217 *)
Definition map_edges (extent : R * R) (n : nat) : list R := linspace (fst extent) (snd extent) (n + 1).
(** a bin of stats.binned_statistic_2d [for result_analysis.py L256-261] *)
Definition in_map_bin (s : sensor) (i j : nat) (p : R * R) : bool := in_bin (map_edges (x_extent s) (n_columns s)) i (fst p) && in_bin (map_edges (y_extent s) (n_rows s)) j (snd p).
(** stat_2d_residuals_hist: means and weights of all chunks [for result_analysis.py L256-258, L308-311] *)
Definition mean_2d (s : sensor) (chunks : list (list track)) (i j : nat) : R := match running (in_map_bin s i j) chunks with Some (m, _) => m | None => 0 end.
(** count_2d_hist [for result_analysis.py L261, L314] *)
Definition count_2d (s : sensor) (chunks : list (list track)) (i j : nat) : R := match counts (in_map_bin s i j) chunks with Some n => n | None => 0 end.
(** np.ma.masked_equal(hist, 0) [for result_analysis.py L541, L555] *)
Definition masked_zero (v : R) : option R := if Reqb v 0 then None else Some v.
(** plot_2d_map(hist2d=hist.T, plot_range=[x[0], x[1], y[1], y[0]]) [for result_analysis.py L544-552, L558-566] *)
Definition map_page (s : sensor) (d : nat) (hist : nat -> nat -> R) : picture :=
  Picture d 0 (n_rows s) (n_columns s) (fun j i => masked_zero (hist i j)) (fst (x_extent s), snd (x_extent s), snd (y_extent s), fst (y_extent s)).
(** result_analysis.py L316-317 (no chunk: RuntimeError), L541-567: the map of the mean residuals and the map of the tracks *)
Definition residual_maps (s : sensor) (d : nat) (chunks : list (list track)) : option (picture * picture) :=
  match chunks with [] => None | _ => Some (map_page s d (mean_2d s chunks), map_page s d (count_2d s chunks)) end.
