(** Model of the set-up of the track finding: track_analysis.find_tracks L168-179 (order of the DUTs along the z axis) and
    L233-283 (hits in global coordinates, planes of the DUTs), for one chunk of the merged table.
    Simplifications: real numbers instead of doubles; nan is None; the division by zero gives nan (an exception in compiled code). *)
From Coq Require Import Reals List Bool Arith.
From Verif Require Import GeometryModel BeamAlignModel FindTracksModel.
Import ListNotations.
Local Open Scope R_scope.

(** track_analysis.py L171-172: the z axis *)
Definition axis : line := ((0, 0, 0), (0, 0, 1)).
(** track_analysis.py L168-178: the z of the point where the z axis crosses the DUT.  None: the bare raise in geometry_utils.py L131-132 *)
Definition z_crossing (p : placement) : option R :=
  match intersections_with_dut [axis] p with
  | Some (q :: _) => Some (vz q)
  | _ => None
  end.

(** telescope/dut.py L334-336: local z that differs from zero; nan counts as zero *)
Definition off_plane (v : option vec) : bool := match v with Some v => negb (close_to_zero (vz v)) | None => false end.
(** track_analysis.py L240-255: a column of hits of one DUT, in local coordinates.  None: RuntimeError of dut.py L336.
    The second call gives the placement of the telescope, so that the z are not checked *)
Definition global_hits (align_to_beam : bool) (telescope p : placement) (column : list (option vec)) : option (list (option vec)) :=
  if existsb off_plane column then None
  else
    let hits := map (option_map (to_global p)) column in
    Some (if align_to_beam then map (option_map (to_global telescope)) hits else hits).

(** what is given to _find_tracks_loop, track_analysis.py L276-283 *)
Record loop_arguments := LoopArguments {
  z_sorted : list nat;
  positions : arrays (option R);
  translations : nat -> nat -> option R;
  normals : nat -> nat -> option R
}.
(** np.column_stack of L268-270 and the indices of L233 *)
Definition stack (columns : list (list (option vec))) : arrays (option R) :=
  let hit row d := nth row (nth d columns []) None in
  Arrays (fun row d => option_map vx (hit row d)) (fun row d => option_map vy (hit row d)) (fun row d => option_map vz (hit row d)) (fun row _ => row).
(** L259-267, L271-272: np.row_stack of the translations and normals (of the DUTs, also with align_to_beam) *)
Definition stack_rows (f : placement -> vec) (duts : list placement) : nat -> nat -> option R :=
  fun d k => option_map (fun p => comp (f p) k) (nth_error duts d).

(** track_analysis.py L168-179 and L233-283.  [argsort]: np.argsort.  None: exception *)
Definition find_setup (argsort : list R -> list nat) (align_to_beam : bool) (telescope : placement) (duts : list placement) (columns : list (list (option vec)))
  : option loop_arguments :=
  match map_error z_crossing duts, map_error (fun pc => global_hits align_to_beam telescope (fst pc) (snd pc)) (combine duts columns) with
  | Some zs, Some hits => Some (LoopArguments (argsort zs) (stack hits) (stack_rows pos duts) (stack_rows dut_normal duts))
  | _, _ => None
  end.

(** arithmetic with nan [for track_analysis.py L389-409] *)
Definition lift2 (f : R -> R -> R) (a b : option R) : option R := match a, b with Some a, Some b => Some (f a b) | _, _ => None end.
(** track_analysis.py L392-400 *)
Definition odiv (a b : option R) : option R :=
  match a, b with Some a, Some b => if Reqb b 0 then None else Some (a / b) | _, _ => None end.
(** np.isnan [for track_analysis.py L405] *)
Definition is_nan (a : option R) : bool := match a with None => true | Some _ => false end.
(** the reference position of a row at a DUT (FindTracksModel.reference: track_analysis.py L367-403) and the distance of a hit to it (L409) *)
Definition reference_position (c : loop_arguments) (select : list nat) (row dut first_dut : nat) : option (option R * option R) :=
  reference (option R) is_nan (lift2 Rplus) (lift2 Rminus) (lift2 Rmult) odiv (option_map Ropp) (option_map sqrt)
    (z_sorted c) select (translations c) (normals c) (positions c) row dut first_dut.
(** track_analysis.py L409 *)
Definition hit_distance (hx hy rx ry : option R) : option R :=
  distance (option R) (lift2 Rplus) (lift2 Rminus) (lift2 Rmult) (option_map sqrt) hx hy rx ry.
