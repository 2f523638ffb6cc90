(* Model of the track angles: result_analysis.get_angles (L2541-2555) for one slope, and the histograms of histogram_track_angle (L2364-2427). *)
From Coq Require Import List Arith ZArith Lia Reals Bool.
From Verif Require Import GeometryModel PrealignModel RunningMeanModel.
Import ListNotations.
Local Open Scope R_scope.

(** np.cross [for result_analysis.py L2546-2551] *)
Definition cross (a b : vec) : vec := (vy a * vz b - vz a * vy b, vz a * vx b - vx a * vz b, vx a * vy b - vy a * vx b).
(** Division by the length; None for the nans of a division by zero. [for result_analysis.py L2546-2551] *)
Definition normalized (v : vec) : option vec := if Reqb (vdot v v) 0 then None else Some (vscale (/ sqrt (vdot v v)) v).
(** result_analysis.py L2546-2551: part of [v] in the plane with the given normal. *)
Definition onto_plane (normal v : vec) : vec := vsub v (vscale (vdot normal v) normal).
(** result_analysis.py L2553, L2554 *)
Definition projected_angle (plane_normal dut_normal slope : vec) : option R :=
  let n := onto_plane plane_normal dut_normal in
  match normalized (onto_plane plane_normal slope) with
  | None => None
  | Some t => Some (arctan2 (vdot plane_normal (cross t n)) (vdot n t))
  end.
(** result_analysis.py L2541-2555: total, alpha and beta angle; None is nan. *)
Definition get_angles (slope xz_plane_normal yz_plane_normal dut_plane_normal : vec) : option R * option R * option R :=
  match normalized (vx slope, vy slope, Rabs (vz slope)) with
  | None => (None, None, None)
  | Some s => (Some (acos (vdot dut_plane_normal s)), projected_angle yz_plane_normal dut_plane_normal s, projected_angle xz_plane_normal dut_plane_normal s)
  end.
(** The normals of both callers, result_analysis.py L2387-2397. *)
Definition angles (slope : vec) : option R * option R * option R := get_angles slope (0, 1, 0) (1, 0, 0) (0, 0, 1).
(** result_analysis.py L2375-2385: slopes of the table of a DUT in the global system. *)
Definition global_slope (p : placement) (slope : vec) : vec := to_global (Placement 0 0 0 (r_alpha p) (r_beta p) (r_gamma p)) slope.

(** np.nanmean and np.nanstd [for result_analysis.py L2364-2427] *)
Definition not_nan (l : list (option R)) : list R := flat_map (fun x => match x with Some x => [x] | None => [] end) l.
(** result_analysis.py L2364-2427 *)
Definition mean (l : list R) : R := sum l / INR (length l).
(** result_analysis.py L2364-2427 *)
Definition std (l : list R) : R := sqrt (sum (map (fun x => (x - mean l) ^ 2) l) / INR (length l)).
(** np.histogram(bins=n, range=(lo, hi)): ValueError for no bins or a range which is not finite; a range of length zero is extended by 0.5 on both sides. [for result_analysis.py L2364-2427] *)
Definition hist_range (lo hi : R) : R * R := if Reqb lo hi then (lo - 1 / 2, hi + 1 / 2) else (lo, hi).
(** result_analysis.py L2364-2427 *)
Definition angle_edges (n_bins : nat) (first : list (option R)) : option (list R) :=
  match n_bins, not_nan first with
  | O, _ | _, [] => None
  | _, l => let r := hist_range (mean l - 5 * std l) (mean l + 5 * std l) in Some (linspace (fst r) (snd r) (n_bins + 1))
  end.
(** np.histogram(bins=edges): nans are in no bin. [for result_analysis.py L2364-2427] *)
Definition histogram (edges : list R) (l : list (option R)) : list nat := map (fun i => length (filter (in_bin edges i) (not_nan l))) (seq 0 (n_edge_bins edges)).
(** result_analysis.py L2364-2427: histogram and edges of one angle; [None]: exception; no chunk at all: UnboundLocalError. *)
Definition angle_histogram (n_bins : nat) (chunks : list (list (option R))) : option (list nat * list R) :=
  match chunks with
  | [] => None
  | c :: cs =>
      match angle_edges n_bins c with
      | None => None
      | Some edges => Some (fold_left (fun h c => map (fun p => (fst p + snd p)%nat) (combine h (histogram edges c))) cs (histogram edges c), edges)
      end
  end.
