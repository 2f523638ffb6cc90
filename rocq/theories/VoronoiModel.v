(** Model of the mirrored points of analysis_utils.voronoi_finite_polygons_2d (L1064-1141) and of the assignment of tracks to pixels in
    result_analysis.calculate_efficiency (L974-984, L1034-1038, L1265-1269).
    Simplifications: real numbers instead of doubles; the diagram of scipy.spatial.Voronoi (vertices and the region of every point, -1 for the vertex at
    infinity) is given; the closest point of cKDTree is a given function. *)
From Coq Require Import List Arith ZArith Reals Bool.
From Verif Require Import GeometryModel.
Import ListNotations.
Local Open Scope R_scope.

(** tools/analysis_utils.py L1064-1141 *)
Definition point : Type := R * R.
(** tools/analysis_utils.py L1064-1141 *)
Definition sq_dist (p q : point) : R := (fst p - fst q) * (fst p - fst q) + (snd p - snd q) * (snd p - snd q).
(** dut_extent: [x0, x1, y0, y1] [for tools/analysis_utils.py L1064-1141] *)
Definition extent : Type := (R * R) * (R * R).
(** tools/analysis_utils.py L1064-1141 *)
Definition low (e : R * R) : R := Rmin (fst e) (snd e).
(** tools/analysis_utils.py L1064-1141 *)
Definition high (e : R * R) : R := Rmax (fst e) (snd e).
(** np.isclose: relative tolerance 1e-5, absolute 1e-8 [for tools/analysis_utils.py L1097-1100] *)
Definition isclose (a b : R) : bool := Rleb (Rabs (a - b)) (1 / 100000000 + 1 / 100000 * Rabs b).
(** tools/analysis_utils.py L1097-1100 *)
Definition vertex_outside (e : extent) (v : point) : bool :=
  Rleb (high (fst e)) (fst v) && negb (isclose (fst v) (high (fst e))) ||
  Rleb (fst v) (low (fst e)) && negb (isclose (fst v) (low (fst e))) ||
  Rleb (snd v) (low (snd e)) && negb (isclose (snd v) (low (snd e))) ||
  Rleb (high (snd e)) (snd v) && negb (isclose (snd v) (high (snd e))).
(** tools/analysis_utils.py L1101-1105 *)
Definition region_outside (e : extent) (vertices : list point) (region : list Z) : bool :=
  existsb (fun k => (k =? -1)%Z) region ||
  existsb (fun k => if (k <? 0)%Z then false else match nth_error vertices (Z.to_nat k) with Some v => vertex_outside e v | None => false end) region.
(** tools/analysis_utils.py L1106-1108; [regions]: region of every point, vor.regions[vor.point_region[i]] *)
Definition selected_points (e : extent) (vertices : list point) (regions : list (list Z)) (points : list point) : list point :=
  map fst (filter (fun pr => region_outside e vertices (snd pr)) (combine points regions)).
(** tools/analysis_utils.py L1110-1125: np.ptp is the difference of the maximum and the minimum *)
Definition center (e : R * R) : R := (high e + low e) / 2.
(** tools/analysis_utils.py L1110-1125 *)
Definition ptp (e : R * R) : R := high e - low e.
(** tools/analysis_utils.py L1110-1125 *)
Definition mirror_low (e : R * R) (x : R) : R := (x - center e) * (Ropp 1) + (center e - ptp e).
(** tools/analysis_utils.py L1110-1125 *)
Definition mirror_high (e : R * R) (x : R) : R := (x - center e) * (Ropp 1) + (center e + ptp e).
(** tools/analysis_utils.py L1127: up, down, left, right *)
Definition mirrored_points (e : extent) (l : list point) : list point :=
  map (fun p => (fst p, mirror_high (snd e) (snd p))) l ++ map (fun p => (fst p, mirror_low (snd e) (snd p))) l ++
  map (fun p => (mirror_low (fst e) (fst p), snd p)) l ++ map (fun p => (mirror_high (fst e) (fst p), snd p)) l.
(** tools/analysis_utils.py L1128: vor.add_points appends; returned as the first result *)
Definition extended_points (e : extent) (vertices : list point) (regions : list (list Z)) (points : list point) : list point :=
  points ++ mirrored_points e (selected_points e vertices regions points).

(** *** calculate_efficiency *)
(** dut.py L299-300: index_to_local_position *)
Definition pixel_position (size : R) (n : nat) (index : R) : R := size * (index - 1 / 2 - 1 / 2 * INR n).
(** dut.py L261-275: extent of the sensor in local coordinates (pixels 0.5 .. n + 0.5) *)
Definition dut_extent (column_size row_size : R) (n_columns n_rows : nat) : extent :=
  ((pixel_position column_size n_columns (1 / 2), pixel_position column_size n_columns (INR n_columns + 1 / 2)),
   (pixel_position row_size n_rows (1 / 2), pixel_position row_size n_rows (INR n_rows + 1 / 2))).
(** result_analysis.py L974-978: np.indices((n_columns, n_rows)).reshape(2, -1).T, column by column *)
Definition pixel_centers (column_size row_size : R) (n_columns n_rows : nat) : list point :=
  flat_map (fun c => map (fun r => (pixel_position column_size n_columns (INR c + 1), pixel_position row_size n_rows (INR r + 1))) (seq 0 n_rows)) (seq 0 n_columns).
(** result_analysis.py L1265-1269: np.bincount(closest, minlength=n)[:n] *)
Definition pixel_hist (closest : point -> nat) (n : nat) (intersections : list point) : list nat :=
  map (fun i => length (filter (fun q => closest q =? i)%nat intersections)) (seq 0 n).
(** result_analysis.py L1034-1038: np.where(mask == False)[1] + np.where(mask == False)[0] * mask.shape[1]; mask as a list of columns *)
Definition enabled_indices (mask : list (list bool)) (shape_1 : nat) : list nat :=
  flat_map (fun ic : nat * list bool => flat_map (fun ir : nat * bool => if snd ir then [] else [(fst ir + fst ic * shape_1)%nat]) (combine (seq 0 (length (snd ic))) (snd ic))) (combine (seq 0 (length mask)) mask).
(** result_analysis.py L1034-1038 *)
Definition select_enabled (closest : point -> nat) (mask : list (list bool)) (shape_1 : nat) (q : point) : bool :=
  existsb (Nat.eqb (closest q)) (enabled_indices mask shape_1).
