(** Model of the line models of the pre-alignment: dut_alignment.py L389-525 (find_inliers, find_line_model, find_intercept_point, find_ransac).
    Simplification: real numbers instead of doubles. *)
From Coq Require Import Reals List Bool.
From Verif Require Import GeometryModel.
Import ListNotations.
Local Open Scope R_scope.

(** dut_alignment.py L389-409 *)
Definition point : Type := (R * R)%type.

(** dut_alignment.py L389-409; the arrays x and y are one list of points *)
Definition find_inliers (points : list point) (m c threshold : R) : list R :=
  map fst (filter (fun p => Rltb (Rabs (m * fst p + c - snd p)) threshold) points).

(** sys.float_info.epsilon [for dut_alignment.py L412-425] *)
Definition epsilon : R := / 2 ^ 52.
(** dut_alignment.py L412-425.  None: division by zero, the slope is inf or nan *)
Definition find_line_model (p0 p1 : point) : option (R * R) :=
  let d := fst p1 - fst p0 + epsilon in
  if Reqb d 0 then None
  else let m := (snd p1 - snd p0) / d in Some (m, snd p1 - m * fst p1).
(** dut_alignment.py L428-442 *)
Definition find_intercept_point (m c x0 y0 : R) : point :=
  ((x0 + m * y0 - m * c) / (1 + m ^ 2), (m * x0 + m ^ 2 * y0 - m ^ 2 * c) / (1 + m ^ 2) + c).

(** dut_alignment.py L495-507: the test points that are inliers.  With an undefined slope each distance is nan and no point is an inlier *)
Definition model_inliers (model : option (R * R)) (threshold : R) (test_points : list point) : list point :=
  match model with
  | None => []
  | Some (m, c) =>
    filter (fun p =>
      let '(x1, y1) := find_intercept_point m c (fst p) (snd p) in
      let dist := sqrt ((x1 - fst p) ^ 2 + (y1 - snd p) ^ 2) in
      Rltb dist threshold) test_points
  end.
(** model_ratio, model_m, model_c, and model_x_list with model_y_list if they are set [for dut_alignment.py L484-523] *)
Record model := Model { model_ratio : R; model_m : R; model_c : R; model_list : option (list point) }.
(** dut_alignment.py L484-523 *)
Inductive ransac_result := Found (m : model) (points : list point) | IndexError | UnboundLocalError.

(** dut_alignment.py L484-523.  [shuffles]: the data in the order of all_indices, for each of the iterations (np.random.shuffle) *)
Fixpoint ransac_loop (n_samples : nat) (threshold ratio : R) (shuffles : list (list point)) (best : model) : option model :=
  match shuffles with
  | [] => Some best
  | (p0 :: p1 :: test_points) :: shuffles =>
    let l := find_line_model p0 p1 in
    let inliers := model_inliers l threshold test_points in
    let num := INR (length inliers) in
    let best :=
      if Rltb (model_ratio best) (num / INR n_samples)
      then match l with Some (m, c) => Model (num / INR n_samples) m c (Some inliers) | None => best end
      else best in
    if Rltb (INR n_samples * ratio) num then Some best else ransac_loop n_samples threshold ratio shuffles best
  | _ :: _ => None  (* IndexError in find_line_model *)
  end.
(** dut_alignment.py L445-525 *)
Definition find_ransac (data : list point) (threshold ratio : R) (shuffles : list (list point)) : ransac_result :=
  match ransac_loop (length data) threshold ratio shuffles (Model 0 0 0 None) with
  | None => IndexError
  | Some best => match model_list best with None => UnboundLocalError | Some points => Found best points end
  end.
