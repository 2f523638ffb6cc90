(** Models what the Kalman fit of tracks returns for each plane: track_analysis.py L1779-1802 (_kalman_fit_3d, after the smoother) and L1696-1717, L1726 (_fit_tracks_kalman_loop).
    Simplifications: the smoother is that of KalmanFilterModel, here its result is any list of planes for each track; numbers are real, None is not a number; the warning of L1799-1800 is not modelled; chi2 is summed up in FitKalmanModel. *)
From Coq Require Import List Bool Reals.
Import ListNotations.
Local Open Scope R_scope.

(** the smoothed state, its covariance and chi2 for one plane [for track_analysis.py L1779-1791] *)
Record smoothed := Smoothed { state : option R * option R * option R * option R; covariance : nat -> nat -> R; chi2 : option R }.
(** np.sqrt: nan below 0 [for track_analysis.py L1795-1796] *)
Definition np_sqrt (v : R) : option R := if Rlt_dec v 0 then None else Some (sqrt v).
(** np.diagonal(...)[:, :, i] [for track_analysis.py L1795-1796] *)
Definition state_error (i : nat) (p : smoothed) : option R := np_sqrt (covariance p i i).
(** what is returned for one plane: offset, slope, errors and chi2 [for track_analysis.py L1710-1714] *)
Record plane_result := PlaneResult { offset : option R * option R; slope : option R * option R; x_err : option R; y_err : option R; plane_chi2 : option R }.
(** track_analysis.py L1795-1802, L1713-1714 *)
Definition plane_of_state (p : smoothed) : plane_result :=
  let '(a, b, c, d) := state p in PlaneResult (a, b) (c, d) (state_error 0 p) (state_error 1 p) (chi2 p).
(** [:, :len(telescope)]: without the scattering planes, which follow those of the telescope [for track_analysis.py L1710-1715] *)
Definition track_result (n_duts : nat) (planes : list smoothed) : list plane_result := map plane_of_state (firstn n_duts planes).
(** chi2_s[~np.isnan(chi2_s)] < 0.0 [for track_analysis.py L1717] *)
Definition is_negative (p : plane_result) : bool := match plane_chi2 p with Some c => if Rlt_dec c 0 then true else false | None => false end.
(** track_analysis.py L1710-1718, L1726: the planes of the tracks and the covariances; None: RuntimeError *)
Definition kalman_result (n_duts : nat) (tracks : list (list smoothed)) : option (list (list plane_result) * list (list (nat -> nat -> R))) :=
  let r := map (track_result n_duts) tracks in
  if existsb (existsb is_negative) r then None else Some (r, map (map covariance) tracks).
