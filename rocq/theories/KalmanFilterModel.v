(** Model of the Kalman filter of tools/kalman.py (L11-512 and the smoothing loop L898-936), for one track.
    Simplifications: an arbitrary ordered field instead of doubles; the dimensions of state and observation are arbitrary.
    check_covariance_matrix (L515-525, modelled in NearestPsdModel) changes nothing if the matrix is positive semi-definite and is left out:
    that all matrices are positive semi-definite is theorem C36_invariant.  The RuntimeError for a negative chi2 (L291-292) is left out:
    C36_chi2_positive.  The Jacobians, gain matrices and reference states are inputs; they are modelled in KalmanTrackModel. *)
From mathcomp Require Import all_ssreflect all_algebra.
Set Implicit Arguments.
Unset Strict Implicit.
Unset Printing Implicit Defensive.
Import GRing.Theory Num.Theory.
Local Open Scope ring_scope.

Section Model.
Variable F : realFieldType.
Variables n m q : nat.

(** tools/kalman.py L494-512 _mat_inverse: a singular matrix is returned as it is *)
Definition mat_inverse k (X : 'M[F]_k) : 'M[F]_k := if \det X == 0 then X else invmx X.

(** tools/kalman.py L11-50 *)
Definition predict_f (J : 'M[F]_n) (G : 'M[F]_(n, q)) (Q : 'M[F]_q) (x : 'cV[F]_n) (P : 'M[F]_n) : 'cV[F]_n * 'M[F]_n :=
  let K := J *m G in (J *m x, J *m (P *m J^T) + K *m (Q *m K^T)).
(** tools/kalman.py L54-93 *)
Definition predict_b (J : 'M[F]_n) (G : 'M[F]_(n, q)) (Q : 'M[F]_q) (x : 'cV[F]_n) (P : 'M[F]_n) : 'cV[F]_n * 'M[F]_n :=
  (J *m x, J *m (P *m J^T) + G *m (Q *m G^T)).

(** _vec_vec_mul(r, _vec_mul(M, r)) [for tools/kalman.py L97-154] *)
Definition quad k (M : 'M[F]_k) (r : 'cV[F]_k) : F := (r^T *m (M *m r)) 0 0.

(** What is stored for one plane; None: nan [for tools/kalman.py L97-154] *)
Record result := Result {
  predicted : 'cV[F]_n; predicted_cov : 'M[F]_n; gain : 'M[F]_(n, m);
  filtered : 'cV[F]_n; filtered_cov : 'M[F]_n; chi2 : option F }.

(** tools/kalman.py L97-154; the observation is None where its first entry is nan *)
Definition filter_correct (ref : 'cV[F]_n) (H : 'M[F]_(m, n)) (V : 'M[F]_m) (x : 'cV[F]_n) (P : 'M[F]_n) (obs : option 'cV[F]_m) : result :=
  let S := H *m (P *m H^T) + V in
  let K := P *m (H^T *m mat_inverse S) in
  match obs with
  | None => Result x P 0 x P None
  | Some z =>
    let xf := x + K *m (z - H *m (x + ref)) in
    let Pf := P - K *m (H *m P) in
    Result x P K xf Pf (Some (quad (mat_inverse (V - H *m (Pf *m H^T))) (z - H *m (xf + ref))))
  end.

(** What the filter knows about a plane: whether it is in select_fit_duts, its hit, the observation matrix and covariance, the reference state,
    the Jacobians into it from its neighbours, and its scattering [for tools/kalman.py L261-288 and L401-428] *)
Record plane := Plane {
  fit : bool; obs : option 'cV[F]_m; H : 'M[F]_(m, n); V : 'M[F]_m; ref : 'cV[F]_n;
  Jf : 'M[F]_n; Jb : 'M[F]_n; G : 'M[F]_(n, q); Q : 'M[F]_q }.
(** tools/kalman.py L261-288 and L401-428 *)
Definition visit (p : plane) (x : 'cV[F]_n) (P : 'M[F]_n) : result :=
  if fit p then filter_correct (ref p) (H p) (V p) x P (obs p)
  else Result x P 0 x P
    match obs p with
    | None => None
    | Some z => Some (quad (mat_inverse (V p + H p *m (P *m (H p)^T))) (z - H p *m (x + ref p)))
    end.

(** tools/kalman.py L207-294: the planes in the order of z; [prev] has been visited last *)
Fixpoint filter_f_from (prev : plane) (x : 'cV[F]_n) (P : 'M[F]_n) (planes : seq plane) : seq result :=
  if planes is p :: ps then
    let xP := predict_f (Jf p) (G prev) (Q prev) x P in
    let r := visit p xP.1 xP.2 in
    r :: filter_f_from p (filtered r) (filtered_cov r) ps
  else [::].
(** tools/kalman.py L207-294 *)
Definition filter_f (x : 'cV[F]_n) (P : 'M[F]_n) (planes : seq plane) : seq result :=
  if planes is p :: ps then let r := visit p x P in r :: filter_f_from p (filtered r) (filtered_cov r) ps else [::].
(** tools/kalman.py L347-434: the planes in the opposite order *)
Fixpoint filter_b_from (x : 'cV[F]_n) (P : 'M[F]_n) (planes : seq plane) : seq result :=
  if planes is p :: ps then
    let xP := predict_b (Jb p) (G p) (Q p) x P in
    let r := visit p xP.1 xP.2 in
    r :: filter_b_from (filtered r) (filtered_cov r) ps
  else [::].
(** tools/kalman.py L347-434 *)
Definition filter_b (x : 'cV[F]_n) (P : 'M[F]_n) (planes : seq plane) : seq result :=
  if rev planes is p :: ps then let r := visit p x P in rev (r :: filter_b_from (filtered r) (filtered_cov r) ps) else [::].

(** tools/kalman.py L911-919 *)
Definition weighted_mean (xf : 'cV[F]_n) (Cf : 'M[F]_n) (xb : 'cV[F]_n) (Cb : 'M[F]_n) : 'cV[F]_n * 'M[F]_n :=
  let C := mat_inverse (mat_inverse Cf + mat_inverse Cb) in
  (C *m (mat_inverse Cf *m xf + mat_inverse Cb *m xb), C).
(** tools/kalman.py L902-919: state and covariance of plane number i of [planes] *)
Definition smoothed (x : 'cV[F]_n) (P : 'M[F]_n) (planes : seq plane) (i : nat) : 'cV[F]_n * 'M[F]_n :=
  let dflt := Result 0 0 0 0 0 None in
  let f := nth dflt (filter_f x P planes) i in
  let b := nth dflt (filter_b x P planes) i in
  if i == 0%N then (filtered b, filtered_cov b)
  else if i == (size planes).-1 then (filtered f, filtered_cov f)
  else weighted_mean (filtered f) (filtered_cov f) (filtered b) (filtered_cov b).
(** tools/kalman.py L921-936 *)
Definition smoothed_chi2 (p : plane) (x : 'cV[F]_n) (C : 'M[F]_n) : option F :=
  match obs p with
  | None => None
  | Some z =>
    let cov := if fit p then V p - H p *m (C *m (H p)^T) else V p + H p *m (C *m (H p)^T) in
    Some (quad (mat_inverse cov) (z - H p *m (x + ref p)))
  end.
End Model.
