(** Models the page of efficiency_plots with the arrows of the residuals: tools/plot_utils.py L1366-1394.
    Simplifications: numbers are rational; the two maps of mean residuals are functions of the indices of the bins, None is not a number; the mesh of the pixels, the frame and the widths of the arrows are not modelled. *)
From Coq Require Import List Bool Arith ZArith QArith Qminmax.
Import ListNotations.

(** (edges[1:] + edges[:-1]) / 2 [for tools/plot_utils.py L1373-1374] *)
Fixpoint bin_centers (edges : list Q) : list Q := match edges with a :: ((b :: _) as r) => (b + a) / 2 :: bin_centers r | _ => [] end.
(** >= min(plot_range) and <= max(plot_range) [for tools/plot_utils.py L1380-1383] *)
Definition in_range (range : Q * Q) (x : Q) : bool := Qle_bool (Qmin (fst range) (snd range)) x && Qle_bool x (Qmax (fst range) (snd range)).
(** select_bins[::4, ::4] = 1 with the range, along one axis [for tools/plot_utils.py L1376-1383] *)
Definition selected (range : Q * Q) (centers : list Q) (i : nat) : bool := (i mod 4 =? 0)%nat && in_range range (nth i centers 0).
(** np.nan_to_num [for tools/plot_utils.py L1385] *)
Definition nan_to_num (v : option Q) : Q := match v with Some x => x | None => 0 end.
(** an arrow: start and vector [for tools/plot_utils.py L1385] *)
Record arrow := Arrow { start_x : Q; start_y : Q; vector_x : Q; vector_y : Q }.
(** tools/plot_utils.py L1372-1385: the arrows, bin by bin along the rows of the map *)
Definition arrows (edges_x edges_y : list Q) (range_x range_y : Q * Q) (res_x res_y : nat -> nat -> option Q) : list arrow :=
  let cx := bin_centers edges_x in let cy := bin_centers edges_y in
  flat_map (fun i => flat_map (fun j => if selected range_x cx i && selected range_y cy j then [Arrow (nth i cx 0) (nth j cy 0) (nan_to_num (res_x i j)) (nan_to_num (res_y i j))] else []) (seq 0 (length cy))) (seq 0 (length cx)).
(** tools/plot_utils.py L1366-1394: None: the page is omitted *)
Definition arrows_page (n_pixels : Z) (edges_x edges_y : list Q) (range_x range_y : Q * Q) (res_x res_y : nat -> nat -> option Q) : option (list arrow) :=
  if (100000 <? n_pixels)%Z then None else Some (arrows edges_x edges_y range_x range_y res_x res_y).
