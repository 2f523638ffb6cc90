(** Model of the pages "Efficiency per pixel" of a DUT (tools/plot_utils.py L1812-1865) with pixels_plot_2d (L1242-1270).
    Simplifications: exact real numbers; the number of a colour of the colour map (viridis, 256 colours) stands for the colour, None for the colour of masked values (white);
    PolyCollection gives the polygon k the colour of the value k, and starts again with the first value behind the last; IndexError is None. *)
From Coq Require Import List Arith ZArith Reals Bool.
From Verif Require Import GeometryModel CorrelateModel VoronoiModel.
Import ListNotations.
Local Open Scope R_scope.

(** -1 not in region [for tools/plot_utils.py L1256] *)
Definition finite_region (r : list Z) : bool := negb (existsb (fun k => (k =? -1)%Z) r).
(** vertices[k]: a negative number counts from the end [for tools/plot_utils.py L1257] *)
Definition vertex (vertices : list point) (k : Z) : option point :=
  if (k <? 0)%Z then (if (- k <=? Z.of_nat (length vertices))%Z then nth_error vertices (Z.to_nat (Z.of_nat (length vertices) + k)) else None) else nth_error vertices (Z.to_nat k).
(** list of results, None as soon as one of them is None [for tools/plot_utils.py L1254-1258] *)
Fixpoint every {A} (l : list (option A)) : option (list A) :=
  match l with [] => Some [] | Some x :: l => option_map (cons x) (every l) | None :: _ => None end.
(** tools/plot_utils.py L1254-1258 *)
Definition polygons (vertices : list point) (regions : list (list Z)) : option (list (list point)) :=
  every (map (fun r => every (map (vertex vertices) r)) (filter finite_region regions)).
(** np.allclose(0, values): the masked values do not count [for tools/plot_utils.py L1250] *)
Definition close_to_zero (v : R) : bool := Rleb (Rabs v) (1 / 100000000 + 1 / 100000 * Rabs v).
(** the values which are not masked [for tools/plot_utils.py L1250-1253] *)
Definition shown_values (values : list (option R)) : list R := flat_map (fun v => match v with Some x => [x] | None => [] end) values.
(** tools/plot_utils.py L1249-1253 *)
Definition upper_limit (z_max : option R) (values : list (option R)) : R :=
  match z_max with
  | Some z => z
  | None => match shown_values values with
            | [] => 1
            | x :: l => if forallb close_to_zero (x :: l) then 1 else IZR (ceil (fold_left Rmax l x))
            end
  end.
(** colors.Normalize(vmin, vmax) and the colour map with 256 colours; values outside get the first and the last colour [for tools/plot_utils.py L1259-1266] *)
Definition colour (z_min z_max v : R) : Z := Z.max 0 (Z.min 255 (Int_part ((v - z_min) / (z_max - z_min) * 256))).
(** a polygon on the page: corners and colour [for tools/plot_utils.py L1262-1267] *)
Record polygon := Polygon { corners : list point; fill_colour : option Z }.
(** tools/plot_utils.py L1249-1270; without values the polygons have no colour *)
Definition pixels_plot_2d (vertices : list point) (regions : list (list Z)) (values : list (option R)) (z_min : R) (z_max : option R) : option (list polygon) :=
  match polygons vertices regions with
  | None => None
  | Some verts =>
      let z := upper_limit z_max values in
      Some (map (fun p => Polygon (snd p) (option_map (colour z_min z) (nth (fst p mod length values) values None))) (combine (seq 0 (length verts)) verts))
  end.
(** tools/plot_utils.py L1815, L1826, L1837, L1848, L1859: the lower limits of the five pages *)
Definition lower_limits : list R := [0; 90; 95; 97; 98].
(** tools/plot_utils.py L1812-1865 *)
Definition efficiency_per_pixel (vertices : list point) (regions : list (list Z)) (efficiencies : list (option R)) : list (option (list polygon)) :=
  map (fun z_min => pixels_plot_2d vertices regions efficiencies z_min (Some 100)) lower_limits.
