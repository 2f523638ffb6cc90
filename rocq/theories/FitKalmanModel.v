(** Model of the set-up of the Kalman fit of tracks: track_analysis._fit_tracks_kalman_loop (L1590-1727) as called by
    fit_tracks (L949-964) and by dut_alignment._duts_alignment_kalman (L1470, L1534), and of the reference trajectory and the
    multiple scattering in tools/kalman.py KalmanFilter.smooth (L775-867), for one track.
    Simplifications: real numbers instead of doubles; nan is None; the track seed (BeamAlignModel.track_seed), the filters and
    the smoothing (KalmanFilterModel) are modelled elsewhere.  The cdf of chi2 is not modelled. *)
From Coq Require Import Reals List Bool Arith.
From Verif Require Import GeometryModel BeamAlignModel KalmanTrackModel.
Import ListNotations.
Local Open Scope R_scope.

(** a DUT or a ScatteringPlane [for track_analysis.py L1602-1613] *)
Record dut_plane := DutPlane { location : placement; material_budget : R; intrinsic_resolution : option (R * R) }.

(** track_analysis.py L1602-1613 *)
Inductive error := RaiseError | MaterialBudgetIsZero | IndexOutOfRange | NotPositiveSemiDefinite.

(** L1602-1613: the z of the intersection of the z axis with each plane.  None: the bare raise in geometry_utils L131-132 *)
Definition z_axis : line := ((0, 0, 0), (0, 0, 1)).
(** track_analysis.py L1602-1613 *)
Definition intersection_z (p : dut_plane) : option R :=
  match beam_intersection z_axis (location p) with Some q => Some (vz q) | None => None end.
(** track_analysis.py L1614 np.argsort: which of the sorting orders is returned for equal values is not specified *)
Definition sorted_by (z : nat -> R) (order : list nat) : Prop :=
  forall i j, (i < j < length order)%nat -> z (nth i order O) <= z (nth j order O).

(** track_analysis.py L1627: np.isclose(budget, 0.0); the last plane is left out *)
Definition material_missing (planes : list dut_plane) (order : list nat) : bool :=
  existsb (fun i => match nth_error planes i with Some p => close_to_zero (material_budget p) | None => false end) (removelast order).

(** track_analysis.py L1669-1677: the diagonal of the covariance of the hit at plane i; None: IndexError of alpha[i].
    [err]: the errors of the cluster (columns 3 and 4 of track_hits), nan without hit *)
Definition hit_variance (resolution err : option R) (alpha : R) : R :=
  match resolution with
  | Some r => r * r * alpha
  | None => match err with Some e => e * e * alpha | None => 0 end
  end.
(** track_analysis.py L1669-1677 *)
Definition hit_covariance (p : dut_plane) (err : option (R * R)) (alpha : R) : R * R :=
  (hit_variance (option_map fst (intrinsic_resolution p)) (option_map fst err) alpha,
   hit_variance (option_map snd (intrinsic_resolution p)) (option_map snd err) alpha).
(** track_analysis.py L1669-1677 *)
Fixpoint hit_covariances (planes : list dut_plane) (errs : list (option (R * R))) (alpha : list R) : option (list (R * R)) :=
  match planes with
  | [] => Some []
  | p :: planes =>
      match errs, alpha with
      | e :: errs, a :: alpha =>
          match hit_covariances planes errs alpha with Some l => Some (hit_covariance p e a :: l) | None => None end
      | _, _ => None
      end
  end.

(** track_analysis.py L1590-1692: what is given to the Kalman filter: planes, their order and the covariances of the hits.
    [errs]: the errors of the hits in the DUTs; the scattering planes have none (L1617). *)
Definition set_up (argsort : list R -> list nat) (telescope scattering_planes : list dut_plane) (errs : list (option (R * R))) (alpha : list R) : error + list dut_plane * list nat * list (R * R) :=
  let planes := telescope ++ scattering_planes in
  match map_error intersection_z planes with
  | None => inl RaiseError
  | Some zs =>
      let order := argsort zs in
      match order with
      | [] => inl IndexOutOfRange
      | _ =>
          if material_missing planes order then inl MaterialBudgetIsZero
          else
            match hit_covariances planes (errs ++ repeat None (length scattering_planes)) alpha with
            | None => inl IndexOutOfRange
            | Some covs =>
                (* L1690-1693: the eigenvalues of a diagonal matrix *)
                if forallb (fun c => Rleb 0 (fst c) && Rleb 0 (snd c)) covs then inr (planes, order, covs) else inl NotPositiveSemiDefinite
            end
      end
  end.
(** fit_tracks track_analysis.py L949: np.ones(shape=(len(telescope))) *)
Definition no_annealing (telescope : list dut_plane) : list R := repeat 1 (length telescope).

(** track_analysis.py L1715-1725: sum of chi2 and its ratio to the degrees of freedom, for one track; chi2 of the planes, None: nan.
    The outer None: IndexError.  The ratio is None for inf or nan. *)
Fixpoint pick {A} (l : list A) (indices : list nat) : option (list A) :=
  match indices with
  | [] => Some []
  | i :: indices => match nth_error l i, pick l indices with Some x, Some m => Some (x :: m) | _, _ => None end
  end.
(** track_analysis.py L1715-1725 *)
Definition is_number (x : option R) : bool := match x with Some _ => true | None => false end.
(** track_analysis.py L1715-1725 *)
Definition nansum (l : list (option R)) : R := fold_right (fun x s => match x with Some v => v + s | None => s end) 0 l.
(** track_analysis.py L1715-1725 *)
Definition chi2_of_track (n_telescope : nat) (chi2s : list (option R)) (select_fit_duts : list nat) : option (R * option R) :=
  match pick (firstn n_telescope chi2s) select_fit_duts with
  | None => None
  | Some l =>
      let n_dof := 2 * INR (length (filter is_number l)) - 4 in
      Some (nansum l, if Reqb n_dof 0 then None else Some (nansum l / n_dof))
  end.

(** *** KalmanFilter.smooth tools/kalman.py L775-867 *)
(** L1623-1625 of track_analysis *)
Definition momentum (beam_energy particle_mass : R) : R := sqrt (beam_energy * beam_energy - particle_mass * particle_mass).
(** track_analysis.py L1623-1625 *)
Definition beta (beam_energy particle_mass : R) : R := momentum beam_energy particle_mass / beam_energy.
(** kalman.py L812-817, L862-867 *)
Definition path_length (s : state) : R := sqrt (1 + s_du s * s_du s + s_dv s * s_dv s).
(** kalman.py L812-817, L862-867 *)
Definition theta (p b budget : R) : R := 136 / 10 / p / b * sqrt budget * (1 + 38 / 1000 * ln budget).
(** kalman.py L812-817, L862-867 *)
Definition scattering_variance (p b : R) (s : state) (plane : dut_plane) : R :=
  let t := theta p b (material_budget plane * path_length s) in t * t.

(** kalman.py L812-817, L862-867 *)
Fixpoint update {A} (l : list A) (i : nat) (x : A) : list A :=
  match l, i with
  | [], _ => []
  | _ :: l, O => x :: l
  | y :: l, S i => y :: update l i x
  end.
(** kalman.py L812-817, L862-867 *)
Definition zero_state : state := State 0 0 0 0.
(** kalman.py L812-817, L862-867 *)
Definition plane_of (planes : list dut_plane) (i : nat) : placement := nth i (map location planes) (Placement 0 0 0 0 0 0).
(** kalman.py L812-817, L862-867 *)
Definition extrapolate_seed (planes : list dut_plane) (seed : state) (from to : nat) : state :=
  extrapolate_state seed (pos (plane_of planes from)) (pos (plane_of planes to)) (rot (plane_of planes from)) (rot (plane_of planes to)).
(** One step of the loops at position [i] of the order, DUT [d]; [target]: the index that is written.
    The arrays of the reference states and of the variances of the scattering angle [for tools/kalman.py L784-817] *)
Definition reference_step (planes : list dut_plane) (p b : R) (seed : state) (first i d target : nat) (a : list state * list R) : list state * list R :=
  let refs := update (fst a) target (if (i =? 0)%nat then seed else extrapolate_seed planes seed first d) in
  (refs, update (snd a) d (match nth_error planes d with Some q => scattering_variance p b (nth d refs zero_state) q | None => 0 end)).
(** tools/kalman.py L784-817: the reference state of DUT d is stored at d *)
Fixpoint first_pass_from (planes : list dut_plane) (p b : R) (seed : state) (first i : nat) (order : list nat) (a : list state * list R) : list state * list R :=
  match order with
  | [] => a
  | d :: order => first_pass_from planes p b seed first (S i) order (reference_step planes p b seed first i d d a)
  end.
(** tools/kalman.py L784-817 *)
Definition first_pass (planes : list dut_plane) (p b : R) (seed : state) (order : list nat) (a : list state * list R) : list state * list R :=
  first_pass_from planes p b seed (hd O order) 0 order a.
(** tools/kalman.py L836-867: the reference state of the i-th plane in the order is stored at i *)
Fixpoint second_pass_from (planes : list dut_plane) (p b : R) (seed : state) (first i : nat) (order : list nat) (a : list state * list R) : list state * list R :=
  match order with
  | [] => a
  | d :: order => second_pass_from planes p b seed first (S i) order (reference_step planes p b seed first i d i a)
  end.
(** tools/kalman.py L836-867 *)
Definition add_state (s t : state) : state := State (s_u s + s_u t) (s_v s + s_v t) (s_du s + s_du t) (s_dv s + s_dv t).
(** tools/kalman.py L833: [filtered0]: the filtered state of the backward filter of DUT 0 *)
Definition improved_seed (a : list state * list R) (filtered0 : state) : state := add_state (nth 0 (fst a) zero_state) filtered0.
(** tools/kalman.py L820-867 *)
Definition second_pass (planes : list dut_plane) (p b : R) (order : list nat) (filtered0 : state) (a : list state * list R) : list state * list R :=
  second_pass_from planes p b (improved_seed a filtered0) (hd O order) 0 order a.
