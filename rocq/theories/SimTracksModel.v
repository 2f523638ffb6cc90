(** Model of the tracks of tools/simulate_data.py: _create_tracks (L505-562), _create_hits_from_tracks (L564-687) and _scattering_angle_sigma (L853-867).
    Simplifications: real numbers instead of doubles; the random numbers are given: a normal variable with mean m and sigma s is m + s * z with a given z, a uniform
    variable in [a, b[ is a + (b - a) * u; self.offsets, self.rotations, self.z_positions and self.dut_material_budget are one list of planes. *)
From Coq Require Import List Arith Reals Bool.
From Verif Require Import GeometryModel.
Import ListNotations.
Local Open Scope R_scope.

(** np.random.normal with a sigma that is not negative [for tools/simulate_data.py L524, L530, L536, L543-550, L655] *)
Definition normal (m s z : R) : R := m + s * z.
(** np.random.uniform [for tools/simulate_data.py L557, L649] *)
Definition uniform (a b u : R) : R := a + (b - a) * u.

(** Settings of the beam; angles in mrad (angle, angle_sigma) and rad (direction) [for tools/simulate_data.py L394-405] *)
Record beam := Beam { position_x : R; position_y : R; sigma_x : R; sigma_y : R; angle : R; angle_sigma : R; direction_lo : R; direction_hi : R; momentum : R }.

(** Random numbers of one track: x, y, theta, phi [for tools/simulate_data.py L523-560] *)
Record draw := Draw { d_x : R; d_y : R; d_theta : R; d_phi : R }.

(** Errors [for tools/simulate_data.py L520-521, L551-554] *)
Inductive create_error := AngleValueError | ThetaRuntimeError.

(** tools/simulate_data.py L523-527 *)
Definition track_x (b : beam) (d : draw) : R := if Reqb (sigma_x b) 0 then position_x b else normal (position_x b) (sigma_x b) (d_x d).
(** tools/simulate_data.py L529-533: with the sigma of x *)
Definition track_y (b : beam) (d : draw) : R := if Reqb (sigma_y b) 0 then position_y b else normal (position_y b) (sigma_x b) (d_y d).
(** tools/simulate_data.py L535-538 *)
Definition first_theta (b : beam) (d : draw) : R :=
  if Reqb (angle_sigma b) 0 then angle b / 1000 else Rabs (normal (angle b / 1000) (angle_sigma b / 1000) (d_theta d)).
(** tools/simulate_data.py L556-560 *)
Definition track_phi (b : beam) (d : draw) : R :=
  if Reqb (direction_lo b) (direction_hi b) then direction_lo b else uniform (direction_lo b) (direction_hi b) (d_phi d).

(** tools/simulate_data.py L542 *)
Definition out_of_range (t : R) : bool := Rltb PI t || Rltb t 0.
(** tools/simulate_data.py L543-550: one iteration for one track with the random numbers z; mean and sigma in mrad are used as rad *)
Definition redraw (b : beam) (z : R * R) (t : R) : R :=
  let t := if Rltb PI t then normal (angle b) (angle_sigma b) (fst z) else t in
  if Rltb t 0 then normal (angle b) (angle_sigma b) (snd z) else t.
(** one iteration for all tracks; track number i has the random numbers z i [for tools/simulate_data.py L543-550] *)
Definition redraws (b : beam) (z : nat -> R * R) (thetas : list R) : list R :=
  map (fun it => redraw b (z (fst it)) (snd it)) (combine (seq 0 (length thetas)) thetas).
(** tools/simulate_data.py L540-554; more: number of iterations that are allowed; zs: the random numbers of the iterations; None: RuntimeError.
    After the iteration number 1001 the error is raised without a look at the values. *)
Fixpoint cut_theta (b : beam) (more : nat) (zs : nat -> nat -> R * R) (thetas : list R) : option (list R) :=
  if existsb out_of_range thetas then
    match more with
    | O => None
    | S more => cut_theta b more zs (redraws b (zs more) thetas)
    end
  else Some thetas.

(** tools/simulate_data.py L505-562 with a limit for the iterations; the result: x, y, phi, theta of each track *)
Definition create_tracks_limit (limit : nat) (b : beam) (zs : nat -> nat -> R * R) (draws : list draw) : create_error + list (R * R * R * R) :=
  if Rltb PI (angle b / 1000) || Rltb (angle b / 1000) 0 then inl AngleValueError
  else match cut_theta b limit zs (map (first_theta b) draws) with
       | None => inl ThetaRuntimeError
       | Some thetas => inr (map (fun dt => (track_x b (fst dt), track_y b (fst dt), track_phi b (fst dt), snd dt)) (combine draws thetas))
       end.
(** tools/simulate_data.py L505-562 *)
Definition create_tracks (b : beam) (zs : nat -> nat -> R * R) (draws : list draw) : create_error + list (R * R * R * R) := create_tracks_limit 1000 b zs draws.

(** tools/simulate_data.py L853-867 *)
Definition scattering_angle_sigma (beam_momentum material_budget charge_number : R) : R :=
  if Reqb material_budget 0 then 0
  else 136 / 10 / beam_momentum * charge_number * sqrt material_budget * (1 + 38 / 1000 * ln material_budget).

(** A DUT of the simulation [for tools/simulate_data.py L590-605] *)
Record sim_plane := SimPlane { plane : placement; material_budget : R }.
(** tools/simulate_data.py L598-605: row 2 of the transposed rotation matrix *)
Definition plane_normal (p : placement) : vec :=
  let basis_global := dot 3 (transpose (rot p)) eye in (basis_global 2%nat 0%nat, basis_global 2%nat 1%nat, basis_global 2%nat 2%nat).

(** all values or None [for the errors of tools/geometry_utils.py L184-189] *)
Fixpoint all_some {A} (l : list (option A)) : option (list A) :=
  match l with
  | [] => Some []
  | Some a :: l => option_map (cons a) (all_some l)
  | None :: _ => None
  end.
(** tools/simulate_data.py L611-614, L625-628: the directions of all tracks; an error for one track is an error for all *)
Definition directions (angles : list (R * R)) : option (list vec) := all_some (map (fun a => spherical_to_cartesian (fst a, snd a, 1)) angles).
(** tools/simulate_data.py L645-646, L660-664: the angles phi and theta of one track after scattering with the angles s *)
Definition scatter (s : R * R) (a : R * R) : option (R * R) :=
  match spherical_to_cartesian (fst a, snd a, 1), spherical_to_cartesian (fst s, snd s, 1) with
  | Some v, Some d => Some (fst (cartesian_to_spherical (vx v + vx d, vy v + vy d, vz v)))
  | _, _ => None
  end.
(** tools/simulate_data.py L648-655: the scattering angles phi and theta from the random numbers u and z *)
Definition scattering (theta_0 : R) (uz : R * R) : R * R := (uniform 0 (2 * PI) (fst uz), Rabs (normal 0 theta_0 (snd uz))).
(** tools/simulate_data.py L636-664; us: the random numbers of the tracks; a negative sigma is a ValueError of np.random.normal *)
Definition scatter_all (b : beam) (p : sim_plane) (us : nat -> R * R) (angles : list (R * R)) : option (list (R * R)) :=
  let theta_0 := scattering_angle_sigma (momentum b) (material_budget p) 1 in
  if Rltb theta_0 0 then None
  else all_some (map (fun ia => scatter (scattering theta_0 (us (fst ia))) (snd ia)) (combine (seq 0 (length angles)) angles)).

(** tools/simulate_data.py L588-667: loop over the DUTs; uss: the random numbers for each number of remaining planes; the intersections of each plane; None: an error *)
Fixpoint loop_planes (b : beam) (planes : list sim_plane) (uss : nat -> nat -> R * R) (origins : list vec) (angles : list (R * R)) : option (list (list vec)) :=
  match planes with
  | [] => Some []
  | p :: planes =>
      match directions angles with
      | None => None
      | Some ds =>
          match intersections_with_plane (combine origins ds) (pos (plane p)) (plane_normal (plane p)) with
          | None => None
          | Some hits =>
              match (if negb (Reqb (material_budget p) 0) && negb (length planes =? 0)%nat then scatter_all b p (uss (length planes)) angles else Some angles) with
              | None => None
              | Some angles => option_map (cons hits) (loop_planes b planes uss hits angles)
              end
          end
      end
  end.
(** tools/simulate_data.py L564-687: the tracks x, y, phi, theta begin at z = 0 *)
Definition create_hits (b : beam) (planes : list sim_plane) (uss : nat -> nat -> R * R) (tracks : list (R * R * R * R)) : option (list (list vec)) :=
  loop_planes b planes uss (map (fun t => let '(x, y, _, _) := t in (x, y, 0)) tracks) (map (fun t => let '(_, _, phi, theta) := t in (phi, theta)) tracks).
