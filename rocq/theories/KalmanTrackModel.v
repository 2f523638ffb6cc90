(** Model of the track model of tools/kalman.py (L568-726), for one track.
    Simplification: real numbers instead of doubles; a division by zero (track parallel to the plane, inf or nan in the code)
    has no meaning here and is excluded by the theorems. *)
From Coq Require Import Reals List Arith.
From Verif Require Import GeometryModel.
Import ListNotations.
Local Open Scope R_scope.

(** track_state: position and slopes in the local system of a plane [for tools/kalman.py L568-726] *)
Record state := State { s_u : R; s_v : R; s_du : R; s_dv : R }.

(** tools/kalman.py L468-479 _vec_mul with matrices of 3 columns; L438-447 _vec_vec_mul is [vdot]; L482-491 _mat_trans is [transpose];
    L450-465 _mat_mul is [dot 3] *)
Definition vec_mul (M : mat) (v : vec) : vec := of_column (dot 3 M (column3 v)).

(** tools/kalman.py L568-596 *)
Definition extrapolate_state (s : state) (dut_position target_dut_position : vec) (rotation rotation_target : mat) : state :=
  let x_point : vec := (s_u s, s_v s, 0) in
  let direc : vec := (s_du s, s_dv s, 1) in
  let R := dot 3 (transpose rotation_target) rotation in
  let x0 := vec_mul (transpose rotation) (vsub target_dut_position dut_position) in
  let target_direc := vec_mul R direc in
  let w : vec := (0, 0, 1) in
  let step := vdot (vec_mul R (vsub x0 x_point)) w / vz target_direc in
  let target_point := vec_mul R (vsub (vadd x_point (vscale step direc)) x0) in
  State (vx target_point) (vy target_point) (vx target_direc / vz target_direc) (vy target_direc / vz target_direc).

(** tools/kalman.py L656-726.  The callers (L227-246, L368-387) pass the transposed rotation matrices. *)
Definition track_jacobian (s : state) (dut_position target_dut_position : vec) (rotation rotation_target : mat) : mat :=
  let R := dot 3 rotation_target (transpose rotation) in
  let x0 := vec_mul rotation (vsub target_dut_position dut_position) in
  let x_point : vec := (s_u s, s_v s, 0) in
  let direc : vec := (s_du s, s_dv s, 1) in
  let target_direc := vec_mul R direc in
  let w : vec := (0, 0, 1) in
  let step := vdot (vec_mul R (vsub x0 x_point)) w / vz target_direc in
  let up := vx target_direc / vz target_direc in
  let vp := vy target_direc / vz target_direc in
  let r i j := R i j in
  let j00 := r 0%nat 0%nat - r 2%nat 0%nat * up in
  let j01 := r 0%nat 1%nat - r 2%nat 1%nat * up in
  let j10 := r 1%nat 0%nat - r 2%nat 0%nat * vp in
  let j11 := r 1%nat 1%nat - r 2%nat 1%nat * vp in
  np_array
    [[j00; j01; step * j00; step * j01];
     [j10; j11; step * j10; step * j11];
     [0; 0;
      (r 0%nat 0%nat * vz target_direc - vx target_direc * r 2%nat 0%nat) / (vz target_direc * vz target_direc);
      (r 0%nat 1%nat * vz target_direc - vx target_direc * r 2%nat 1%nat) / (vz target_direc * vz target_direc)];
     [0; 0;
      (r 1%nat 0%nat * vz target_direc - vy target_direc * r 2%nat 0%nat) / (vz target_direc * vz target_direc);
      (r 1%nat 1%nat * vz target_direc - vy target_direc * r 2%nat 1%nat) / (vz target_direc * vz target_direc)]].

(** tools/kalman.py L600-652.  The unit vectors of the track frame *)
Definition normalize (v : vec) : vec := (vx v / sqrt (vdot v v), vy v / sqrt (vdot v v), vz v / sqrt (vdot v v)).
(** tools/kalman.py L600-652 *)
Definition track_n (s : state) : vec := normalize (s_du s, s_dv s, 1).
(** tools/kalman.py L600-652 *)
Definition track_v (s : state) : vec := normalize (get_plane_normal (track_n s) (1, 0, 0)).
(** tools/kalman.py L600-652 *)
Definition track_u (s : state) : vec := normalize (get_plane_normal (track_v s) (track_n s)).
(** the 4 x 2 matrix G [for tools/kalman.py L600-652] *)
Definition scatter_gain_matrix (s : state) : mat :=
  let n := track_n s in let v := track_v s in let u := track_u s in
  let a1 := vx u in let a2 := vx v in let a3 := vx n in
  let b1 := vy u in let b2 := vy v in let b3 := vy n in
  let g1 := vz u in let g2 := vz v in let g3 := vz n in
  np_array
    [[0; 0]; [0; 0];
     [(a1 * g3 - a3 * g1) / (g3 * g3); (a2 * g3 - a3 * g2) / (g3 * g3)];
     [(b1 * g3 - b3 * g1) / (g3 * g3); (b2 * g3 - b3 * g2) / (g3 * g3)]].
