(** Model of tools/kalman.py check_covariance_matrix (L515-525) and _make_matrix_psd (L528-564).
    Simplifications: an arbitrary ordered field instead of doubles; nan is not modelled.  The results of np.linalg.svd (singular values s and V), of np.linalg.eigvalsh and of
    np.spacing(np.linalg.norm(...)) are given functions. *)
From mathcomp Require Import all_ssreflect all_algebra.
Set Implicit Arguments.
Unset Strict Implicit.
Unset Printing Implicit Defensive.
Import Order.Theory GRing.Theory Num.Theory.
Local Open Scope ring_scope.

Section Model.
Variable F : realFieldType.
Variable n : nat.
Variable svd : 'M[F]_n -> 'rV[F]_n * 'M[F]_n.
Variable eigvalsh : 'M[F]_n -> seq F.
Variable spacing : 'M[F]_n -> F.

(** tools/kalman.py L529 *)
Definition atol : F := 10%:R ^- 5.
(** tools/kalman.py L529 *)
Definition rtol : F := 10%:R ^- 8.

(** tools/kalman.py L548, L557: np.all(np.linalg.eigvalsh(...) >= 0.0) *)
Definition no_negative (A : 'M[F]_n) : bool := all (fun e => 0 <= e) (eigvalsh A).
(** tools/kalman.py L558: np.min(np.real(np.linalg.eigvalsh(...))); the eigenvalues are never an empty list here *)
Definition min_eigenvalue (A : 'M[F]_n) : F :=
  if eigvalsh A is e :: es then foldr Order.min e es else 0.
(** tools/kalman.py L549-551, L561-563 *)
Definition differs_too_much (A A3 : 'M[F]_n) : bool :=
  [exists i, exists j, atol + rtol * `|A3 i j| < `|A i j - A3 i j|].

(** tools/kalman.py L542-546 *)
Definition closest (A : 'M[F]_n) : 'M[F]_n :=
  let B := 2%:R^-1 *: (A + A^T) in
  let: (s, V) := svd B in
  let H := V^T *m (diag_mx s *m V) in
  let A2 := 2%:R^-1 *: (B + H) in
  2%:R^-1 *: (A2 + A2^T).

(** Result for one matrix; OutOfFuel: the loop did not end [for tools/kalman.py L528-564] *)
Inductive outcome := Matrix (A : 'M[F]_n) | RuntimeError | OutOfFuel.

(** tools/kalman.py L557-560 *)
Fixpoint shift_loop (fuel : nat) (sp : F) (k : nat) (A3 : 'M[F]_n) : option 'M[F]_n :=
  if no_negative A3 then Some A3
  else if fuel is S fuel then shift_loop fuel sp k.+1 (A3 + (- min_eigenvalue A3 * k%:R ^+ 2 + sp)%:M)
  else None.

(** tools/kalman.py L541-563, for one matrix *)
Definition make_matrix_psd (fuel : nat) (A : 'M[F]_n) : outcome :=
  let A3 := closest A in
  let check A3 := if differs_too_much A A3 then RuntimeError else Matrix A3 in
  if no_negative A3 then check A3
  else if shift_loop fuel (spacing A) 1 A3 is Some A3 then check A3 else OutOfFuel.

(** tools/kalman.py L541: the loop over the matrices ends at the first error *)
Fixpoint make_matrices_psd (fuel : nat) (As : seq 'M[F]_n) : option (seq 'M[F]_n) :=
  if As is A :: As then
    if make_matrix_psd fuel A is Matrix A3 then omap (cons A3) (make_matrices_psd fuel As) else None
  else Some [::].

(** assignment cov[selection] = values [for tools/kalman.py L525] *)
Fixpoint assign (covs : seq 'M[F]_n) (selection : seq bool) (values : seq 'M[F]_n) : seq 'M[F]_n :=
  match covs, selection, values with
  | c :: covs, true :: selection, v :: values => v :: assign covs selection values
  | c :: covs, false :: selection, _ => c :: assign covs selection values
  | _, _, _ => covs
  end.

(** tools/kalman.py L515-525; None: RuntimeError (or the loop does not end) *)
Definition check_covariance_matrix (fuel : nat) (covs : seq 'M[F]_n) : option (seq 'M[F]_n) :=
  if all no_negative covs then Some covs
  else
    let non_psd_selection := map (fun c => has (fun e => e < 0) (eigvalsh c)) covs in
    omap (assign covs non_psd_selection) (make_matrices_psd fuel (mask non_psd_selection covs)).
End Model.
