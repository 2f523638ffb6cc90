(** Model of the pre-alignment: tools/analysis_utils.py L930-969 (hough_transform) and dut_alignment.py L189-386 (prealign).
    Simplification: real numbers instead of doubles, votes are not limited to 32 bits. *)
From Coq Require Import Reals List Bool Arith ZArith.
From Verif Require Import GeometryModel CorrelateModel RansacModel.
Import ListNotations.
Local Open Scope R_scope.

(** ** Hough transform *)
(** np.linspace(start, stop, num) [for analysis_utils.py L931-933] *)
Definition linspace (start stop : R) (num : nat) : list R :=
  match num with
  | O => []
  | S O => [start]
  | S n => map (fun i => start + INR i * ((stop - start) / INR n)) (seq 0 num)
  end.
(** analysis_utils.py L931-933, degrees: thetas[len(thetas) - 2::-1] is the array without the last entry, in the opposite order *)
Definition thetas (theta_res : R) : list R :=
  let t := linspace (-90) 0 (Z.to_nat (ceil (90 / theta_res)) + 1) in
  map (fun d => d * (PI / 180)) (t ++ map Ropp (rev (removelast t))).
(** tools/analysis_utils.py L934-938 *)
Definition diag_len (width height : nat) : R := sqrt ((INR width - 1) ^ 2 + (INR height - 1) ^ 2).
(** tools/analysis_utils.py L934-938 *)
Definition n_q (width height : nat) (rho_res : R) : nat := Z.to_nat (ceil (diag_len width height / rho_res)).
(** tools/analysis_utils.py L934-938 *)
Definition rhos (width height : nat) (rho_res : R) : list R :=
  let q := n_q width height rho_res in linspace (- INR q * rho_res) (INR q * rho_res) (2 * q + 1).
(** np.argmin: the first index of the smallest value [for tools/analysis_utils.py L954-956] *)
Fixpoint argmin_from (l : list R) (i best : nat) (v : R) : nat :=
  match l with
  | [] => best
  | a :: l => if Rltb a v then argmin_from l (S i) i a else argmin_from l (S i) best v
  end.
(** tools/analysis_utils.py L954-956 *)
Definition argmin (l : list R) : nat := match l with [] => 0 | a :: l => argmin_from l 1 0 a end.
(** tools/analysis_utils.py L954-956 *)
Definition rho_index (rhos : list R) (x y : nat) (theta : R) : nat :=
  argmin (map (fun r => Rabs (r - (INR x * cos theta + INR y * sin theta))) rhos).
(** tools/analysis_utils.py L943-957; the accumulator as a function of the indices rho and theta.  [pixels]: the indices (x, y) of np.nonzero(img) *)
Definition accumulate (acc : nat -> nat -> nat) (i j : nat) : nat -> nat -> nat := fun a b => if (a =? i)%nat && (b =? j)%nat then S (acc a b) else acc a b.
(** tools/analysis_utils.py L943-957 *)
Definition vote (rhos thetas : list R) (acc : nat -> nat -> nat) (pixel : nat * nat) : nat -> nat -> nat :=
  fold_left (fun acc k => accumulate acc (rho_index rhos (fst pixel) (snd pixel) (nth k thetas 0)) k) (seq 0 (length thetas)) acc.
(** tools/analysis_utils.py L943-957 *)
Definition hough_transform (rhos thetas : list R) (pixels : list (nat * nat)) : nat -> nat -> nat :=
  fold_left (vote rhos thetas) pixels (fun _ _ => O).

(** ** Selection of the line: dut_alignment.py L282-308 *)
(** slope and offset, dut_alignment.py L297-301; None: sin(theta) is zero, slope and offset are inf or nan *)
Definition line_of (bin_size ref_start : R) (rho theta : R) : option (R * R) :=
  if Reqb (sin theta) 0 then None
  else Some (- cos theta / sin theta, rho / sin theta * bin_size + ref_start + 1/2 * bin_size).
(** dut_alignment.py L303 *)
Definition proper_slope (slope : R) : bool := Rleb (Rabs (slope - 1)) (1/10) || Rleb (Rabs (slope - -1)) (1/10).
(** dut_alignment.py L296-306.  [indices]: the result of largest_indices; None: RuntimeError *)
Fixpoint find_correlation (bin_size ref_start : R) (rhos thetas : list R) (indices : list (nat * nat)) : option (nat * nat * (R * R)) :=
  match indices with
  | [] => None
  | (i, j) :: indices =>
    match line_of bin_size ref_start (nth i rhos 0) (nth j thetas 0) with
    | Some (slope, offset) => if proper_slope slope then Some (i, j, (slope, offset)) else find_correlation bin_size ref_start rhos thetas indices
    | None => find_correlation bin_size ref_start rhos thetas indices
    end
  end.

(** ** Translation and rotation: dut_alignment.py L307-310, L348-357, L373-379 *)
Definition offset_center (slope offset dut_hist_size bin_size : R) : R := offset + slope * (1/2 * dut_hist_size - 1/2 * bin_size).
(** dut_alignment.py L307-310, L348-357, L373-379 *)
Definition offset_plot (slope offset dut_hist_start bin_size : R) : R := offset - slope * (dut_hist_start + bin_size / 2).
(** [tol] and [eps]: tolerance and epsilon of euler_angles.  None: error in euler_angles [for dut_alignment.py L307-310, L348-357, L373-379] *)
Definition prealigned (tol eps : R) (p : placement) (slope_x center_x slope_y center_y : R) : option placement :=
  let M := rot p in
  let M := if Rltb slope_x 0 then dot 3 (rotation_matrix_y PI) M else M in
  let M := if Rltb slope_y 0 then dot 3 (rotation_matrix_x PI) M else M in
  match euler_angles tol eps M with
  | Angles a b g => Some (Placement center_x center_y (t_z p) a b g)
  | _ => None
  end.

(** dut_alignment.py L311-317: the columns with correlation.  [max_select]: the index of the maximum for each of the bins of the DUT *)
Definition correlated (dut_pos : list R) (max_select : list nat) (bin_size ref_hist_size slope offset_plot threshold : R) : list R :=
  find_inliers
    (map (fun p => (fst p, INR (snd p) * bin_size - ref_hist_size / 2 + bin_size / 2)) (filter (fun p => negb (snd p =? 0)%nat) (combine dut_pos max_select)))
    slope offset_plot threshold.

(** ** Limits: L358-372, and the setter of the limits (telescope/dut.py L111-116) *)
Definition list_min (a : R) (l : list R) : R := fold_left Rmin l a.
(** dut_alignment.py L358-372, telescope/dut.py L111-116 *)
Definition list_max (a : R) (l : list R) : R := fold_left Rmax l a.
(** dut_alignment.py L358-372, telescope/dut.py L111-116 *)
Definition set_limit (a b : R) : R * R := (Rmin a b, Rmax a b).
(** [selected]: the local coordinates of the selected pixels; None: ValueError of min() for an empty array [for dut_alignment.py L358-372, telescope/dut.py L111-116] *)
Definition new_limit (old : option (R * R)) (selected : list R) : option (R * R) :=
  match selected with
  | [] => None
  | a :: l =>
    Some match old with
    | None => set_limit (list_min a l) (list_max a l)
    | Some (lower, upper) => set_limit (Rmax (list_min a l) lower) (Rmin (list_max a l) upper)
    end
  end.
