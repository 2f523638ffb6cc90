(** Model of the geometry: tools/geometry_utils.py and the position functions of telescope/dut.py.
    Simplification: real numbers instead of doubles; nan only where stated. *)
From Coq Require Import Reals List Bool Arith ZArith.
Import ListNotations.
Local Open Scope R_scope.

(** *** Arrays *)
(** np.array(rows): a matrix is a function of row and column, zero outside [for tools/geometry_utils.py L10-519] *)
Definition mat : Type := nat -> nat -> R.
(** tools/geometry_utils.py L10-519 *)
Definition np_array (rows : list (list R)) : mat := fun i j => nth j (nth i rows []) 0.
(** tools/geometry_utils.py L10-519 *)
Definition transpose (A : mat) : mat := fun i j => A j i.
(** tools/geometry_utils.py L10-519 *)
Definition eye : mat := fun i j => if (i =? j)%nat then 1 else 0.
(** np.dot of matrices with n columns and n rows [for tools/geometry_utils.py L10-519] *)
Fixpoint sum_n (n : nat) (f : nat -> R) : R := match n with O => 0 | S k => sum_n k f + f k end.
(** tools/geometry_utils.py L10-519 *)
Definition dot (n : nat) (A B : mat) : mat := fun i j => sum_n n (fun k => A i k * B k j).

(** a point or direction: x, y, z [for tools/geometry_utils.py L10-519] *)
Definition vec : Type := (R * R * R)%type.
(** tools/geometry_utils.py L10-519 *)
Definition vx (p : vec) : R := fst (fst p).
(** tools/geometry_utils.py L10-519 *)
Definition vy (p : vec) : R := snd (fst p).
(** tools/geometry_utils.py L10-519 *)
Definition vz (p : vec) : R := snd p.
(** np.column_stack((x, y, z)).T, one column [for tools/geometry_utils.py L10-519] *)
Definition column3 (p : vec) : mat := fun i _ => match i with 0%nat => vx p | 1%nat => vy p | 2%nat => vz p | _ => 0 end.
(** np.column_stack((x, y, z, ones)).T [for tools/geometry_utils.py L10-519] *)
Definition column4 (p : vec) : mat := fun i _ => match i with 0%nat => vx p | 1%nat => vy p | 2%nat => vz p | 3%nat => 1 | _ => 0 end.
(** tools/geometry_utils.py L10-519 *)
Definition of_column (A : mat) : vec := (A 0%nat 0%nat, A 1%nat 0%nat, A 2%nat 0%nat).

(** tools/geometry_utils.py L10-519 *)
Definition vdot (a b : vec) : R := vx a * vx b + vy a * vy b + vz a * vz b.
(** tools/geometry_utils.py L10-519 *)
Definition vsub (a b : vec) : vec := (vx a - vx b, vy a - vy b, vz a - vz b).
(** tools/geometry_utils.py L10-519 *)
Definition vadd (a b : vec) : vec := (vx a + vx b, vy a + vy b, vz a + vz b).
(** tools/geometry_utils.py L10-519 *)
Definition vscale (t : R) (a : vec) : vec := (t * vx a, t * vy a, t * vz a).

(** *** geometry_utils.py *)
(** tools/geometry_utils.py L25-41 get_plane_normal: np.cross *)
Definition get_plane_normal (a b : vec) : vec :=
  (vy a * vz b - vz a * vy b, vz a * vx b - vx a * vz b, vx a * vy b - vy a * vx b).

(** tools/geometry_utils.py L10-22 skew of one vector: matr = diag(v), rolled by one along axis 1 and by minus one along axis 0,
    minus the transposed.  Rolled entry (i, j) is entry ((i+1) mod 3, (j-1) mod 3). *)
Definition comp (v : vec) (i : nat) : R := match i with 0%nat => vx v | 1%nat => vy v | 2%nat => vz v | _ => 0 end.
(** tools/geometry_utils.py L10-22 *)
Definition skew (v : vec) : mat :=
  let matr : mat := fun i j => if (i =? j)%nat then comp v i else 0 in
  let rolled : mat := fun i j => matr ((i + 1) mod 3)%nat ((j + 2) mod 3)%nat in
  fun i j => rolled i j - rolled j i.

(** tools/geometry_utils.py L197-260 *)
Definition rotation_matrix_x (alpha : R) : mat :=
  np_array [[1; 0; 0]; [0; cos alpha; - sin alpha]; [0; sin alpha; cos alpha]].
(** tools/geometry_utils.py L197-260 *)
Definition rotation_matrix_y (beta : R) : mat :=
  np_array [[cos beta; 0; sin beta]; [0; 1; 0]; [- sin beta; 0; cos beta]].
(** tools/geometry_utils.py L197-260 *)
Definition rotation_matrix_z (gamma : R) : mat :=
  np_array [[cos gamma; - sin gamma; 0]; [sin gamma; cos gamma; 0]; [0; 0; 1]].
(** tools/geometry_utils.py L263-295 *)
Definition rotation_matrix (alpha beta gamma : R) : mat :=
  dot 3 (dot 3 (rotation_matrix_z gamma) (rotation_matrix_y beta)) (rotation_matrix_x alpha).

(** position and angles of a plane [for tools/geometry_utils.py L361-389] *)
Record placement := Placement { t_x : R; t_y : R; t_z : R; r_alpha : R; r_beta : R; r_gamma : R }.
(** tools/geometry_utils.py L361-389 *)
Definition rot (p : placement) : mat := rotation_matrix (r_alpha p) (r_beta p) (r_gamma p).
(** tools/geometry_utils.py L361-389 *)
Definition pos (p : placement) : vec := (t_x p, t_y p, t_z p).

(** tools/geometry_utils.py L361-389 *)
Definition translation_matrix (x y z : R) : mat :=
  transpose (fun i j => if (i =? 3)%nat && (j <? 3)%nat then comp (x, y, z) j else eye i j).
(** R = np.eye(4); R[:3, :3] = M (tools/geometry_utils.py L424-425, L464-465) *)
Definition extend4 (M : mat) : mat := fun i j => if (i <? 3)%nat && (j <? 3)%nat then M i j else eye i j.
(** tools/geometry_utils.py L392-431 *)
Definition global_to_local_matrix (p : placement) : mat :=
  dot 4 (extend4 (transpose (rot p))) (translation_matrix (- t_x p) (- t_y p) (- t_z p)).
(** tools/geometry_utils.py L434-471 *)
Definition local_to_global_matrix (p : placement) : mat :=
  dot 4 (translation_matrix (t_x p) (t_y p) (t_z p)) (extend4 (rot p)).
(** tools/geometry_utils.py L474-496, L499-519; one position *)
Definition apply_transformation_matrix (v : vec) (M : mat) : vec := of_column (dot 4 M (column4 v)).
(** tools/geometry_utils.py L474-496, L499-519 *)
Definition apply_rotation_matrix (v : vec) (M : mat) : vec := of_column (dot 3 M (column3 v)).

(** tools/geometry_utils.py L474-496, L499-519 *)
Definition to_global (p : placement) (v : vec) : vec := apply_transformation_matrix v (local_to_global_matrix p).
(** tools/geometry_utils.py L474-496, L499-519 *)
Definition to_local (p : placement) (v : vec) : vec := apply_transformation_matrix v (global_to_local_matrix p).

(** decidable comparisons of the reals [for tools/geometry_utils.py L91-142] *)
Definition Rltb (a b : R) : bool := if Rlt_dec a b then true else false.
(** tools/geometry_utils.py L91-142 *)
Definition Rleb (a b : R) : bool := if Rle_dec a b then true else false.
(** tools/geometry_utils.py L91-142 *)
Definition Reqb (a b : R) : bool := if Req_EM_T a b then true else false.

(** tools/geometry_utils.py L91-142.  A line is its origin and direction.  None: the bare raise of L131-132 (no active exception). *)
Definition line : Type := (vec * vec)%type.
(** tools/geometry_utils.py L91-142 *)
Definition intersection (l : line) (position normal : vec) : vec :=
  let norm_dot_off := vdot normal (vsub position (fst l)) in
  let norm_dot_dir := vdot normal (snd l) in
  vadd (fst l) (vscale (norm_dot_off / norm_dot_dir) (snd l)).
(** tools/geometry_utils.py L91-142 *)
Definition intersections_with_plane (lines : list line) (position normal : vec) : option (list vec) :=
  if existsb (fun l => Reqb (vdot normal (snd l)) 0) lines then None
  else Some (map (fun l => intersection l position normal) lines).

(** tools/geometry_utils.py L44-88 *)
Definition dut_normal (p : placement) : vec :=
  let basis_global := dot 3 (transpose (rot p)) eye in
  let n : vec := (basis_global 2%nat 0%nat, basis_global 2%nat 1%nat, basis_global 2%nat 2%nat) in
  let n := vscale (/ sqrt (vdot n n)) n in
  if Rltb (vz n) 0 then vscale (-1) n else n.
(** tools/geometry_utils.py L44-88 *)
Definition intersections_with_dut (lines : list line) (p : placement) : option (list vec) :=
  intersections_with_plane lines (pos p) (dut_normal p).

(** np.arctan2 [for tools/geometry_utils.py L145-167] *)
Definition arctan2 (y x : R) : R :=
  if Rltb 0 x then atan (y / x)
  else if Rltb x 0 then (if Rleb 0 y then atan (y / x) + PI else atan (y / x) - PI)
  else if Rltb 0 y then PI / 2
  else if Rltb y 0 then - (PI / 2)
  else 0.

(** tools/geometry_utils.py L145-167 *)
Definition cartesian_to_spherical (v : vec) : R * R * R :=
  let r := sqrt (vx v * vx v + vy v * vy v + vz v * vz v) in
  let phi := if Reqb (vx v) 0 then 0 else arctan2 (vy v) (vx v) in
  let phi := if Rltb phi 0 then phi + 2 * PI else phi in
  let theta := if Reqb r 0 then 0 else acos (vz v / r) in
  (phi, theta, r).
(** tools/geometry_utils.py L170-194; None: RuntimeError *)
Definition spherical_to_cartesian (s : R * R * R) : option vec :=
  let '(phi, theta, r) := s in
  if Rltb r 0 then None
  else if Rltb theta 0 || Rleb PI theta then None
  else if Rltb phi 0 || Rleb (2 * PI) phi then None
  else Some (r * cos phi * sin theta, r * sin phi * sin theta, r * cos theta).

(** tools/geometry_utils.py L298-358.  [tol]: the tolerance of np.isclose(0.0, norm), atol = 1e-8; [eps]: machine epsilon. *)
Inductive euler_result := Angles (alpha beta gamma : R) | NotARotation | Unbound.
(** tools/geometry_utils.py L298-358 *)
Definition frobenius_defect (M : mat) : R :=
  sqrt (sum_n 3 (fun i => sum_n 3 (fun j => (eye i j - dot 3 (transpose M) M i j) * (eye i j - dot 3 (transpose M) M i j)))).
(** tools/geometry_utils.py L298-358 *)
Definition snap (eps a : R) : R := if Rleb a eps && Rleb (- eps) a then 0 else a.
(** tools/geometry_utils.py L298-358 *)
Definition euler_angles (tol eps : R) (M : mat) : euler_result :=
  if negb (Rleb (frobenius_defect M) tol) then NotARotation
  else if Reqb (M 2%nat 0%nat) (-1) then Unbound     (* alpha_1 is never assigned *)
  else if Reqb (M 2%nat 0%nat) 1 then Unbound
  else
    let beta_1 := snap eps (- asin (M 2%nat 0%nat)) in
    let alpha_1 := snap eps (arctan2 (M 2%nat 1%nat / cos beta_1) (M 2%nat 2%nat / cos beta_1)) in
    let gamma_1 := snap eps (arctan2 (M 1%nat 0%nat / cos beta_1) (M 0%nat 0%nat / cos beta_1)) in
    Angles alpha_1 beta_1 gamma_1.

(** *** telescope/dut.py *)
(** RectangularPixelDut (telescope/dut.py L209-259) *)
Record sensor := Sensor { column_size : R; row_size : R; n_columns : nat; n_rows : nat; place : placement }.

(** telescope/dut.py L285-302; one entry of the arrays.  None: ValueError *)
Definition index_to_local (s : sensor) (column row : R) : option vec :=
  if Rleb (1/2) column && Rleb column (INR (n_columns s) + (1/2)) && (Rleb (1/2) row && Rleb row (INR (n_rows s) + (1/2)))
  then Some (column_size s * (column - (1/2) - (1/2) * INR (n_columns s)), row_size s * (row - (1/2) - (1/2) * INR (n_rows s)), 0)
  else None.
(** np.allclose(z, 0.0): absolute tolerance 1e-8 [for telescope/dut.py L304-324] *)
Definition close_to_zero (z : R) : bool := Rleb (Rabs z) (1 / 100000000).
(** telescope/dut.py L304-324; None: ValueError or RuntimeError *)
Definition local_to_index (s : sensor) (p : vec) : option (R * R) :=
  if close_to_zero (vz p) &&
     (Rleb (- (1/2) * INR (n_columns s) * column_size s) (vx p) && Rleb (vx p) ((1/2) * INR (n_columns s) * column_size s) &&
      (Rleb (- (1/2) * INR (n_rows s) * row_size s) (vy p) && Rleb (vy p) ((1/2) * INR (n_rows s) * row_size s)))
  then Some (vx p / column_size s + (1/2) + (1/2) * INR (n_columns s), vy p / row_size s + (1/2) + (1/2) * INR (n_rows s))
  else None.
(** telescope/dut.py L326-349 without override: the local z must vanish.  None: RuntimeError *)
Definition dut_to_global (p : placement) (vs : list vec) : option (list vec) :=
  if forallb (fun v => close_to_zero (vz v)) vs then Some (map (to_global p) vs) else None.
(** telescope/dut.py L351-372 *)
Definition dut_to_local (p : placement) (vs : list vec) : option (list vec) :=
  let r := map (to_local p) vs in
  if forallb (fun v => close_to_zero (vz v)) r then Some r else None.
(** telescope/dut.py L374-378; one entry *)
Definition index_to_global (s : sensor) (column row : R) : option vec :=
  match index_to_local s column row with
  | None => None
  | Some v => match dut_to_global (place s) [v] with Some [g] => Some g | _ => None end
  end.
(** telescope/dut.py L374-378 *)
Definition global_to_index (s : sensor) (g : vec) : option (R * R) :=
  match dut_to_local (place s) [g] with Some [v] => local_to_index s v | _ => None end.

(** telescope/dut.py L261-275 x_extent and y_extent in local coordinates: minimum and maximum over the corners *)
Definition x_extent (s : sensor) : R * R :=
  let a := column_size s * ((1/2) - (1/2) - (1/2) * INR (n_columns s)) in
  let b := column_size s * (INR (n_columns s) + (1/2) - (1/2) - (1/2) * INR (n_columns s)) in (Rmin a b, Rmax a b).
(** telescope/dut.py L261-275 *)
Definition y_extent (s : sensor) : R * R :=
  let a := row_size s * ((1/2) - (1/2) - (1/2) * INR (n_rows s)) in
  let b := row_size s * (INR (n_rows s) + (1/2) - (1/2) - (1/2) * INR (n_rows s)) in (Rmin a b, Rmax a b).

(** np.mod(a, b), b > 0 [for telescope/dut.py L380-388] *)
Definition np_mod (a b : R) : R := a - b * IZR (Int_part (a / b)).
(** telescope/dut.py L380-388 *)
Definition primitive_cell (s : sensor) (p : vec) : R * R :=
  (np_mod (vx p + fst (x_extent s)) (column_size s), np_mod (vy p + fst (y_extent s)) (row_size s)).
(** telescope/dut.py L394-403, double columns *)
Definition primitive_cell_double (s : sensor) (p : vec) : R * R :=
  (np_mod (vx p + fst (x_extent s)) (column_size s * 2), np_mod (vy p + fst (y_extent s)) (row_size s)).
