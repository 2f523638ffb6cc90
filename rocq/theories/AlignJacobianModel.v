(** Model of dut_alignment.py: _calculate_annealing (L2103-2111) and _jacobian_alignment (L2131-2160).
    Simplification: real numbers instead of doubles. *)
From Coq Require Import Reals List Arith Bool.
From Verif Require Import GeometryModel KalmanTrackModel.
Import ListNotations.
Local Open Scope R_scope.

(** dut_alignment.py L2103-2111.  The number of tracks is an integer; the power is the one of positive bases. *)
Definition calculate_annealing (k : nat) (annealing_factor : R) (annealing_tracks : nat) : R :=
  if (k <? annealing_tracks)%nat then Rpower annealing_factor ((INR annealing_tracks - INR k) / INR annealing_tracks) else 1.

(** dut_alignment.py L2131-2160.  The matrix jaq of the local derivatives *)
Definition jaq (p0 : state) : mat :=
  let u := s_u p0 in let v := s_v p0 in let tu := s_du p0 in let tv := s_dv p0 in
  np_array [[-1; 0; tu; - v * tu; u * tu; - v]; [0; -1; tv; - v * tv; u * tv; u]].
(** A = np.eye(6); A[:3, :3] = R; the caller passes the transposed rotation matrix of the DUT as R (dut_alignment.py L2027-2034) *)
Definition jacobian_alignment (p0 : state) (R : mat) : mat := dot 6 (jaq p0) (extend4 R).
