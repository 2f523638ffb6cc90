(** Model of the confidence interval of the efficiency: tools/analysis_utils.py L709-802 (get_mean_efficiency).
    Exact arithmetic.  [k] tracks with hit of [n] tracks.  Simplification: the result of scipy.optimize.minimize is given (any pair of limits); the theorems are about
    the pairs of limits that solve the problem that is posed to the optimizer. *)
From Coq Require Import List Arith Reals Bool.
From Coquelicot Require Import Coquelicot.
From Verif Require Import GeometryModel PrealignModel BeamAlignModel EfficiencyModel.
Import ListNotations.
Local Open Scope R_scope.

(** tools/analysis_utils.py L723-738: scipy.stats.beta.pdf(eff, k + 1, N - k + 1), which is zero outside of the interval from 0 to 1; the gamma functions of whole numbers
    in the comment (L736) are factorials *)
Definition eff_pdf (k n : nat) (x : R) : R :=
  if Rltb x 0 || Rltb 1 x then 0 else INR (fact (n + 1)) / (INR (fact k) * INR (fact (n - k))) * x ^ k * (1 - x) ^ (n - k).
(** tools/analysis_utils.py L740-742: the integral of the density up to [x], for x >= 0 *)
Definition eff_cdf (k n : nat) (x : R) : R := RInt (eff_pdf k n) 0 x.
(** tools/analysis_utils.py L744-747 *)
Definition interval_integ (a b : R) (k n : nat) : R := eff_cdf k n b - eff_cdf k n a.
(** tools/analysis_utils.py L754-756 *)
Definition minimize_me (x : R * R) : R := snd x - fst x.

(** tools/analysis_utils.py L760-761 with [num] = 1000000 points *)
Definition start_grid (num k n : nat) : list R :=
  let e := INR k / INR n in filter (fun x => Rleb x 1) (linspace (8 / 10 * e) (12 / 10 * e) num).
(** tools/analysis_utils.py L767-775: indices for the level [y] of the density *)
Definition level_indices (p : list R) (max_i : nat) (y : R) : option (nat * nat) :=
  let near := fun l => argmin (map (fun v => Rabs (y - v)) l) in
  match (if (0 <? max_i)%nat then near (firstn max_i p) else Some 0%nat), near (skipn max_i p) with
  | Some l, Some r => Some (l, (r + max_i)%nat)
  | _, _ => None
  end.
(** tools/analysis_utils.py L766-778: the indices of the first level with more than [interval] in between, of the last level otherwise *)
Fixpoint level_loop (p : list R) (step interval : R) (max_i : nat) (last : option (nat * nat)) (ys : list R) : option (nat * nat) :=
  match ys with
  | [] => last
  | y :: ys =>
    match level_indices p max_i y with
    | None => None
    | Some (l, r) =>
      if Rltb interval (fold_right Rplus 0 (firstn (r - l) (skipn l p)) * step) then Some (l, r) else level_loop p step interval max_i (Some (l, r)) ys
    end
  end.
(** tools/analysis_utils.py L758-779 with [levels] = 1000; None: exception *)
Definition start_values (num levels k n : nat) (interval : R) : option (R * R) :=
  let eff := start_grid num k n in
  let p := map (eff_pdf k n) eff in
  match argmin (map (fun x => Rabs (x - INR k / INR n)) eff) with
  | None => None
  | Some max_i =>
    match level_loop p (nth 1 eff 0 - nth 0 eff 0) interval max_i None (linspace (nth max_i p 0 * (9 / 10)) 0 levels) with
    | None => None
    | Some (l, r) => Some (nth l eff 0, nth r eff 0)
    end
  end.

(** tools/analysis_utils.py L781-783, L787 and L791: the limits that fulfil bounds and constraints *)
Definition allowed (k n : nat) (interval : R) (x : R * R) : Prop :=
  0 <= fst x <= INR k / INR n /\ INR k / INR n <= snd x <= 1 /\ Rabs (interval_integ (fst x) (snd x) k n - interval) = 0.
(** tools/analysis_utils.py L790-794: the problem that is posed to the optimizer *)
Definition solution (k n : nat) (interval : R) (x : R * R) : Prop :=
  allowed k n interval x /\ forall y, allowed k n interval y -> minimize_me x <= minimize_me y.
(** tools/analysis_utils.py L796-802 with the result [x] of the optimizer; None: exception (no tracks, or more tracks with hit than tracks) *)
Definition efficiency_errors (pass all : list nat) (x : R * R) : option (R * R * R) :=
  match mean_efficiency pass all with
  | None => None
  | Some eff => Some (eff, fst x - eff, snd x - eff)
  end.
