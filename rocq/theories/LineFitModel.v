(** Model of track_analysis.py line_fit_3d (L1462-1482) and _fit_tracks_loop (L1433-1459).
    Simplifications: a real closed field instead of doubles.  The result of np.linalg.svd is an input (the theorems ask that it is a singular value decomposition
    with decreasing singular values); a position is None if it contains a NaN.  LinAlgError (NaN slope and offset) is None. *)
From mathcomp Require Import all_ssreflect all_algebra.
Set Implicit Arguments.
Unset Strict Implicit.
Unset Printing Implicit Defensive.
Import GRing.Theory Num.Theory.
Local Open Scope ring_scope.

Section Model.
Variable F : rcfType.
Notation vec := 'rV[F]_3.

(** track_analysis.py L1467 *)
Definition valid_positions (positions : seq (option vec)) : seq vec := pmap id positions.
(** rows of an array [for track_analysis.py L1470] *)
Definition rows (p : seq vec) : 'M[F]_(size p, 3) := \matrix_(i, j) (nth 0 p i) 0 j.
(** track_analysis.py L1470 positions.mean(axis=0) *)
Definition mean (p : seq vec) : vec := (size p)%:R^-1 *: \sum_(v <- p) v.
(** track_analysis.py L1472 positions - offset *)
Definition centered (p : seq vec) : 'M[F]_(size p, 3) := rows p - \matrix_(i, j) mean p 0 j.

(** np.linalg.svd(..., full_matrices=False) of a matrix with m rows [for track_analysis.py L1472-1478] *)
Record svd m := SVD { s_u : 'M[F]_(m, minn m 3); s_s : 'rV[F]_(minn m 3); s_v : 'M[F]_(minn m 3, 3) }.

(** track_analysis.py L1472-1478; without any row there is no first row of v (IndexError) *)
Definition slope_of m (d : svd m) : option vec :=
  if insub 0%N is Some i then
    let slope := row i (s_v d) in
    let slope_mag := Num.sqrt ((slope *m slope^T) 0 0) in
    let slope := slope_mag^-1 *: slope in
    Some (if slope 0 (inord 2) < 0 then - slope else slope)
  else None.
(** track_analysis.py L1462-1482 *)
Definition line_fit_3d (positions : seq (option vec)) (d : svd (size (valid_positions positions))) : option (vec * vec) :=
  let p := valid_positions positions in omap (fun slope => (mean p, slope)) (slope_of d).
End Model.
Arguments line_fit_3d {F} positions d.
