(** Model of the pages of prealign: the edges returned by tools/analysis_utils.py hough_transform (L960-967) and tools/plot_utils.py plot_hough (L597-627).
    Simplifications: real numbers instead of doubles; titles, labels and legends are not modelled; an exception is None. *)
From Coq Require Import List Arith ZArith Reals Bool.
From Verif Require Import PrealignModel DensityModel.
Import ListNotations.
Local Open Scope R_scope.

(** tools/analysis_utils.py L962, L965: (a[1:] + a[:-1]) / 2 *)
Definition midpoints (l : list R) : list R := map (fun k => (nth (S k) l 0 + nth k l 0) / 2) (seq 0 (length l - 1)).
(** tools/analysis_utils.py L961-966: None: IndexError of an array with less than two entries *)
Definition center_edges (l : list R) : option (list R) :=
  match l with
  | a :: b :: _ => Some ((nth 0 (midpoints l) 0 - (b - a)) :: midpoints l ++ [last (midpoints l) 0 + (b - a)])
  | _ => None
  end.
(** np.rad2deg [for tools/plot_utils.py L607] *)
Definition rad2deg (x : R) : R := x * (180 / PI).
(** tools/plot_utils.py L607: the image is flipped in both directions; [rh], [th]: positions of the bins *)
Definition accumulator_page (rh th : list R) (accumulator : nat -> nat -> nat) : option picture :=
  match center_edges rh, center_edges th with
  | Some re, Some te =>
      Some (Picture 0 0 (length rh) (length th) (fun i j => Some (INR (accumulator (length rh - 1 - i)%nat (length th - 1 - j)%nat)))
        (rad2deg (nth 0 te 0), rad2deg (last te 0), nth 0 re 0, last re 0))
  | _, _ => None
  end.
(** the first page of a DUT and direction: the transform of the image with [height] columns and [width] rows [for dut_alignment.py L280, tools/plot_utils.py L607] *)
Definition hough_page (theta_res rho_res : R) (width height : nat) (pixels : list (nat * nat)) : option picture :=
  accumulator_page (rhos width height rho_res) (thetas theta_res) (hough_transform (rhos width height rho_res) (thetas theta_res) pixels).
(** dut_alignment.py L275-279, tools/plot_utils.py L621: the image of the second page has the value 1 at the maximum of each bin of the DUT, its rows are the bins of the reference *)
Definition data_page (n_ref : nat) (max_select : list nat) (dut_extent ref_extent : R * R) : picture :=
  Picture 0 0 n_ref (length max_select) (fun j i => Some (if (j =? nth i max_select 0)%nat then 1 else 0)) (fst dut_extent, snd dut_extent, fst ref_extent, snd ref_extent).
(** dut_alignment.py L272 *)
Definition dut_pos (dut_extent : R * R) (bin_size : R) (n : nat) : list R := linspace (fst dut_extent + bin_size / 2) (snd dut_extent - bin_size / 2) n.
(** tools/plot_utils.py L618, dut_alignment.py L310: the points of the line *)
Definition line_points (dut_extent : R * R) (bin_size : R) (n : nat) (slope offset : R) : list (R * R) :=
  map (fun x => (x, offset - slope * nth 0 (dut_pos dut_extent bin_size n) 0 + slope * x)) (dut_pos dut_extent bin_size n).
