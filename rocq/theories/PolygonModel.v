(** Model of analysis_utils.polygon_area and polygon_area_multi (L1144-1168) and of the padded regions of plot_utils.efficiency_plots (L1538-1545).
    Simplification: real numbers instead of doubles. *)
From Coq Require Import List Arith Reals.
Import ListNotations.
Local Open Scope R_scope.

(** np.dot, for arrays of the same length [for tools/analysis_utils.py L1162] *)
Fixpoint dot (a b : list R) : R := match a, b with x :: a, y :: b => x * y + dot a b | _, _ => 0 end.
(** np.roll(a, 1) [for tools/analysis_utils.py L1162] *)
Definition roll (a : list R) : list R := match a with [] => [] | _ => last a 0 :: removelast a end.
(** tools/analysis_utils.py L1162; None: ValueError for arrays of different length *)
Definition polygon_area (x y : list R) : option R :=
  if (length x =? length y)%nat then Some (1 / 2 * Rabs (dot x (roll y) - dot y (roll x))) else None.
(** tools/analysis_utils.py L1168: the same for every row; None: arrays of different shape *)
Fixpoint polygon_area_multi (x y : list (list R)) : option (list R) :=
  match x, y with
  | [], [] => Some []
  | a :: x, b :: y => match polygon_area a b, polygon_area_multi x y with Some r, Some l => Some (r :: l) | _, _ => None end
  | _, _ => None
  end.
(** plot_utils.py L1538-1543: all regions get the length of the longest one; region[-1] raises IndexError for an empty region (None) *)
Definition pad {A} (n : nat) (region : list A) (default : A) : option (list A) :=
  match region with [] => None | _ => Some (region ++ repeat (last region default) (n - length region)) end.
(** plot_utils.py L1538-1543 *)
Definition max_region_size {A} (regions : list (list A)) : nat := fold_left (fun m r => Nat.max m (length r)) regions 0%nat.
(** plot_utils.py L1538-1543 *)
Fixpoint region_array {A} (n : nat) (regions : list (list A)) (default : A) : option (list (list A)) :=
  match regions with
  | [] => Some []
  | r :: rs => match pad n r default, region_array n rs default with Some a, Some l => Some (a :: l) | _, _ => None end
  end.
(** tools/plot_utils.py L1544-1545: vertices of the regions and their areas *)
Definition pixel_sizes (vertices : list (R * R)) (regions : list (list nat)) : option (list R) :=
  match region_array (max_region_size regions) regions 0%nat with
  | None => None
  | Some a => polygon_area_multi (map (map (fun k => fst (nth k vertices (0, 0)))) a) (map (map (fun k => snd (nth k vertices (0, 0)))) a)
  end.
