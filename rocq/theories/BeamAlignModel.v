(** Model of the alignment of the telescope to the beam: dut_alignment.align_telescope (L1668-1722), and of the
    seed of the Kalman filter: track_analysis._calculate_track_seed (L1540-1588).
    Simplification: real numbers instead of doubles.  The fitted line is the result of line_fit_3d (see
    LineFitModel.v) and here a parameter. *)
From Coq Require Import Reals List Bool Arith.
From Verif Require Import GeometryModel TrackAngleModel.
Import ListNotations.
Local Open Scope R_scope.

(** np.argmin: the first index of the smallest entry; None: ValueError without entry [for dut_alignment.py L1679-1683] *)
Fixpoint argmin_from (best : R) (best_index index : nat) (l : list R) : nat :=
  match l with
  | [] => best_index
  | x :: l => if Rltb x best then argmin_from x index (S index) l else argmin_from best best_index (S index) l
  end.
(** dut_alignment.py L1679-1683 *)
Definition argmin (l : list R) : option nat := match l with [] => None | x :: l => Some (argmin_from x 0 1 l) end.

(** telescope[index] for each index; None: IndexError [for dut_alignment.py L1679-1683] *)
Fixpoint select_duts (duts : list placement) (indices : list nat) : option (list placement) :=
  match indices with
  | [] => Some []
  | i :: indices =>
      match nth_error duts i, select_duts duts indices with
      | Some d, Some l => Some (d :: l)
      | _, _ => None
      end
  end.
(** dut_alignment.py L1679-1683 *)
Definition reference_index (select : list nat) (selected : list placement) (reference_dut : option nat) : option nat :=
  match reference_dut with
  | Some r => Some r
  | None => match argmin (map t_z selected) with Some k => nth_error select k | None => None end
  end.
(** get_line_intersections_with_dut for one line [for dut_alignment.py L1700-1711] *)
Definition beam_intersection (l : line) (p : placement) : option vec :=
  match intersections_with_dut [l] p with Some [q] => Some q | _ => None end.
(** dut_alignment.py L1700-1711: one DUT; the DUT of the reference is moved in the loop as well, but its position and
    intersection are stored before *)
Definition shift_dut (l : line) (reference_translation : R * R) (reference_intersection : vec) (p : placement) : option placement :=
  match beam_intersection l p with
  | None => None
  | Some q =>
      Some (Placement (t_x p - (vx q - vx reference_intersection + fst reference_translation))
                      (t_y p - (vy q - vy reference_intersection + snd reference_translation))
                      (t_z p) (r_alpha p) (r_beta p) (r_gamma p))
  end.
(** dut_alignment.py L1700-1711 *)
Fixpoint map_error {A B} (f : A -> option B) (l : list A) : option (list B) :=
  match l with
  | [] => Some []
  | x :: l => match f x, map_error f l with Some y, Some m => Some (y :: m) | _, _ => None end
  end.
(** the configuration: DUTs and the alpha and beta rotation of the telescope; None: nan [for dut_alignment.py L1668-1722] *)
Record telescope := Telescope { duts : list placement; tel_alpha : option R; tel_beta : option R }.
(** dut_alignment.py L1668-1722 *)
Definition minus_angle (a b : option R) : option R := match a, b with Some a, Some b => Some (a - b) | _, _ => None end.
(** dut_alignment.py L1668-1722.  [fit]: line_fit_3d.  None: exception, no configuration is saved *)
Definition align_telescope (fit : list vec -> option line) (t : telescope) (select : list nat) (reference_dut : option nat) : option telescope :=
  match select_duts (duts t) select with
  | None => None
  | Some selected =>
      match reference_index select selected reference_dut with
      | None => None
      | Some r =>
          match fit (map pos selected), nth_error (duts t) r with
          | Some l, Some ref =>
              match beam_intersection l ref with
              | None => None
              | Some ref_q =>
                  match map_error (shift_dut l (t_x ref, t_y ref) ref_q) (duts t) with
                  | None => None
                  | Some moved =>
                      let a := angles (snd l) in
                      Some (Telescope moved (minus_angle (tel_alpha t) (snd (fst a))) (minus_angle (tel_beta t) (snd a)))
                  end
              end
          | _, _ => None
          end
      end
  end.

(** *** track_analysis L1540-1588 for one track, given the fitted line *)
(** track_analysis.py L1574: in the direction of the local z axis *)
Definition forward (v : vec) : vec := if Rltb (vz v) 0 then vscale (-1) v else v.
(** track_analysis.py L1574 *)
Definition unit_vector (v : vec) : vec := vscale (/ sqrt (vdot v v)) v.
(** the local state x, y, slope_x, slope_y [for track_analysis.py L1540-1588] *)
Definition track_seed (first_dut : placement) (l : line) : option (R * R * R * R) :=
  match beam_intersection l first_dut with
  | None => None
  | Some q =>
      let s := to_local (Placement 0 0 0 (r_alpha first_dut) (r_beta first_dut) (r_gamma first_dut)) (snd l) in
      let s := unit_vector (forward s) in
      let q := to_local first_dut q in
      Some (vx q, vy q, vx s / vz s, vy s / vz s)
  end.
