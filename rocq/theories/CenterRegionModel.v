(** Model of the efficiencies of fixed rectangles which efficiency_plots writes into the in-pixel map of each efficiency region (tools/plot_utils.py L1305-1306, L2278-2289; the same again in L2315-2326).
    Simplifications: exact real numbers; np.int exists (numpy < 1.24); the text is the number which is formatted. *)
From Coq Require Import List ZArith Reals Bool.
From Verif Require Import CorrelateModel.
Import ListNotations.
Local Open Scope R_scope.

(** efficiency_regions_in_pixel_hist_extent: lower and upper end of x, of y [for tools/plot_utils.py L2278] *)
Record extent := Extent { x_lo : R; x_hi : R; y_lo : R; y_hi : R }.
(** the map: number of bins in x and in y, efficiency in percent (None: masked) [for tools/plot_utils.py L2278, L2288] *)
Record pixel_map := PixelMap { x_bins : nat; y_bins : nat; efficiency_of : nat -> nat -> option R }.
(** tools/plot_utils.py L2278: np.diff(extent)[::2] / shape, for one axis *)
Definition resolution (lo hi : R) (n : nat) : R := Rabs (hi - lo) / INR n.
(** tools/plot_utils.py L2280-2285: first index and index after the last, for one axis *)
Definition selection (lo hi : R) (n : nat) (loc w : R) : Z * Z :=
  let center_region_indices := IZR (ceil ((loc - lo) / resolution lo hi n)) in
  let center_region_extent := w / resolution lo hi n in
  ((ceil center_region_indices - ceil (center_region_extent / 2))%Z, (ceil center_region_indices + ceil (center_region_extent / 2))%Z).
(** bound of a slice of an array with n items: a negative one counts from the end [for tools/plot_utils.py L2288] *)
Definition bound (n : nat) (z : Z) : nat := if (z <? 0)%Z then Z.to_nat (Z.max 0 (z + Z.of_nat n)) else Nat.min (Z.to_nat z) n.
(** indices of array[a:b] [for tools/plot_utils.py L2288] *)
Definition sliced (n : nat) (ab : Z * Z) : list nat := seq (bound n (fst ab)) (bound n (snd ab) - bound n (fst ab)).
(** compressed() [for tools/plot_utils.py L2288] *)
Definition compressed (m : pixel_map) (xs ys : list nat) : list R := flat_map (fun x => flat_map (fun y => match efficiency_of m x y with Some e => [e] | None => [] end) ys) xs.
(** np.mean; None: nan [for tools/plot_utils.py L2288] *)
Definition np_mean (l : list R) : option R := match l with [] => None | _ => Some (fold_right Rplus 0 l / INR (length l)) end.
(** a rectangle: position of the centre, widths [for tools/plot_utils.py L1305-1306, L2286] *)
Record rectangle := Rectangle { x_loc : R; y_loc : R; x_width : R; y_width : R }.
(** tools/plot_utils.py L2280-2289: the number which is written in the rectangle *)
Definition shown (e : extent) (m : pixel_map) (r : rectangle) : option R :=
  np_mean (compressed m (sliced (x_bins m) (selection (x_lo e) (x_hi e) (x_bins m) (x_loc r) (x_width r))) (sliced (y_bins m) (selection (y_lo e) (y_hi e) (y_bins m) (y_loc r) (y_width r)))).
(** tools/plot_utils.py L1305-1306 *)
Definition rectangles : list rectangle := [Rectangle 25 25 20 20; Rectangle 0 25 10 20; Rectangle 0 50 10 10].
(** tools/plot_utils.py L2279-2289 *)
Definition texts (e : extent) (m : pixel_map) : list (option R) := map (shown e m) rectangles.
