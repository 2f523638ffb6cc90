(** Model of the in-pixel maps of result_analysis.calculate_efficiency: size of the primitive cell, maps of tracks, of tracks with hit, of hits
    and of cluster shapes over chunks of tracks, in-pixel efficiency and extension of the maps.
    Exact arithmetic, except for [n_bins_double] at the end.  Simplifications: one region (the code repeats the lines for every region; the size of the
    maps depends on the tracks of all regions); arrays are functions of the indices together with the axes (shape); the averages of residuals, charge, frame and cluster size
    are not repeated here (running mean: RunningMeanModel); all intersections are finite. *)
From Coq Require Import List Arith ZArith Lia Reals Bool.
From Verif Require Import GeometryModel CorrelateModel PrealignModel RunningMeanModel EfficiencyModel FloatModel.
Import ListNotations.
Local Open Scope R_scope.

(** size and number of bins in one direction: dut_in_pixel_hist_x_size and hist_in_pixel_x_n_bins [for result_analysis.py L913-918] *)
Record axis := Axis { a_size : R; a_bins : nat }.
(** result_analysis.py L913-916 with [size] = column_size or row_size *)
Definition axis_of (size res : R) : axis := let s := IZR (ceil (size / res)) * res in Axis s (Z.to_nat (Int_part (s / res))).
(** result_analysis.py L917-918 *)
Definition axis_edges (a : axis) : list R := linspace 0 (a_size a) (a_bins a + 1).
(** np.max [for result_analysis.py L1092] *)
Definition np_max (l : list R) : R := match l with [] => 0 | x :: l => fold_left Rmax l x end.
(** result_analysis.py L1090-1094 and L1095-1099 *)
Definition grow_axis (pitch res : R) (a : axis) (xs : list R) : axis :=
  if existsb (fun x => Rltb (a_size a) x) xs then axis_of (IZR (ceil (np_max xs / pitch)) * pitch) res else a.

(** The maps of one region: count_in_pixel_tracks_2d_hists, count_in_pixel_tracks_with_hit_2d_hists, count_in_pixel_hits_2d_hists and
    count_in_pixel_cluster_shape_2d_hists [for result_analysis.py L924-955] *)
Record maps := Maps { m_x : axis; m_y : axis; m_tracks : nat -> nat -> nat; m_with_hit : nat -> nat -> nat; m_hits : nat -> nat -> nat; m_shapes : nat -> nat -> nat -> nat }.
(** result_analysis.py L1107-1118 (the other arrays up to L1146 are enlarged in the same way): new zeros, the old entries in the lower corner *)
Definition enlarge (x y : axis) (h : nat -> nat -> nat) : nat -> nat -> nat := fun i j => if (i <? a_bins x)%nat && (j <? a_bins y)%nat then h i j else 0%nat.
(** stats.binned_statistic_2d(statistic='count') [for result_analysis.py L1226, L1228 and L1230] *)
Definition count_bins (x y : axis) (ps : list (R * R)) : nat -> nat -> nat :=
  fun i j => length (filter (fun p => in_bin (axis_edges x) i (fst p) && in_bin (axis_edges y) j (snd p)) ps).
(** result_analysis.py L1256-1258: relabelling of the shapes, one value after the other *)
Definition relabel (shapes : list Z) (s : Z) : Z :=
  fold_left (fun s p => if (s =? snd p)%Z then Z.of_nat (fst p) else s) (combine (seq 0 (length shapes)) shapes) s.
(** result_analysis.py L920: range(len(efficiency_regions_analyze_cluster_shapes) + 1) *)
Definition shape_edges (shapes : list Z) : list R := map INR (seq 0 (length shapes + 1)).
(** result_analysis.py L831 *)
Definition analyzed_shapes : list Z := [1; 3; 5; 13; 14; 7; 11; 15]%Z.
(** result_analysis.py L1080-1082: the loop compares each value with itself *)
Definition select_small (shapes : list Z) (s : Z) : bool := existsb (fun v => (v =? v)%Z) shapes.

Section Region.
  Variables (pitch res : R * R).
  (** actual_dut.map_to_primitive_cell, the selection of the region (L1148-1152), select_valid_hit and cluster_shape *)
  Variables (cell : R * R -> R * R) (region valid : track -> bool) (shape : track -> Z) (shapes : list Z).

  (** result_analysis.py L911-955 *)
  Definition first_maps : maps :=
    Maps (axis_of (fst pitch) (fst res)) (axis_of (snd pitch) (snd res)) (fun _ _ => 0%nat) (fun _ _ => 0%nat) (fun _ _ => 0%nat) (fun _ _ _ => 0%nat).
  (** result_analysis.py L1086-1087 *)
  Definition at_cell (t : track) : R * R := cell (intersection t).
  (** result_analysis.py L1086; tracks without hit are nan and in no bin *)
  Definition hits_at_cell (ts : list track) : list (R * R) := flat_map (fun t => match hit_position t with Some h => [cell h] | None => [] end) ts.
  (** result_analysis.py L1089-1146 *)
  Definition resize (m : maps) (ts : list track) : maps :=
    let x := grow_axis (fst pitch) (fst res) (m_x m) (map (fun t => fst (at_cell t)) ts) in
    let y := grow_axis (snd pitch) (snd res) (m_y m) (map (fun t => snd (at_cell t)) ts) in
    if existsb (fun t => Rltb (a_size (m_x m)) (fst (at_cell t))) ts || existsb (fun t => Rltb (a_size (m_y m)) (snd (at_cell t))) ts
    then Maps x y (enlarge (m_x m) (m_y m) (m_tracks m)) (enlarge (m_x m) (m_y m) (m_with_hit m)) (enlarge (m_x m) (m_y m) (m_hits m))
           (fun i j k => enlarge (m_x m) (m_y m) (fun i j => m_shapes m i j k) i j)
    else m.
  (** stats.binned_statistic_dd(statistic='count') of result_analysis.py L1256-1259 *)
  Definition count_shapes (x y : axis) (ts : list track) : nat -> nat -> nat -> nat :=
    fun i j k => length (filter (fun t => in_bin (axis_edges x) i (fst (at_cell t)) && in_bin (axis_edges y) j (snd (at_cell t)) &&
                                          in_bin (shape_edges shapes) k (IZR (relabel shapes (shape t)))) ts).
  (** result_analysis.py L1224-1262 *)
  Definition fill (m : maps) (ts : list track) : maps :=
    let sel := filter region ts in
    let hit := filter valid sel in
    let tracks := fun i j => (m_tracks m i j + count_bins (m_x m) (m_y m) (map at_cell sel) i j)%nat in
    if existsb valid sel then
      Maps (m_x m) (m_y m) tracks
        (fun i j => (m_with_hit m i j + count_bins (m_x m) (m_y m) (map at_cell hit) i j)%nat)
        (fun i j => (m_hits m i j + count_bins (m_x m) (m_y m) (hits_at_cell sel) i j)%nat)
        (fun i j k => (m_shapes m i j k + count_shapes (m_x m) (m_y m) (filter (fun t => select_small shapes (shape t)) hit) i j k)%nat)
    else Maps (m_x m) (m_y m) tracks (m_with_hit m) (m_hits m) (m_shapes m).
  (** the loop over the chunks [for result_analysis.py L1017-1262] *)
  Fixpoint in_pixel_chunks (m : maps) (chunks : list (list track)) : maps :=
    match chunks with
    | [] => m
    | ts :: chunks => in_pixel_chunks (fill (resize m ts) ts) chunks
    end.
  (** result_analysis.py L911-1262 *)
  Definition in_pixel_maps (chunks : list (list track)) : maps := in_pixel_chunks first_maps chunks.
End Region.

(** result_analysis.py L1502-1505: in percent, None is nan *)
Definition in_pixel_efficiency (m : maps) (i j : nat) : option R :=
  if (m_tracks m i j =? 0)%nat then None else Some (INR (m_with_hit m i j) / INR (m_tracks m i j) * 100).
(** result_analysis.py L1500-1501: true means hidden *)
Definition in_pixel_mask (density : nat) (m : maps) (i j : nat) : bool := (m_tracks m i j <? density)%nat.
(** np.argmax: the first of the largest entries [for result_analysis.py L1507] *)
Fixpoint argmax (l : list nat) : nat :=
  match l with
  | [] => 0%nat
  | x :: l => if forallb (fun y => (y <=? x)%nat) l then 0%nat else S (argmax l)
  end.
(** result_analysis.py L1506-1507 *)
Definition most_probable_shape (n : nat) (m : maps) (i j : nat) : nat := argmax (map (m_shapes m i j) (seq 0 n)).

(** np.pad(l, (n, n), 'wrap'): the last values before, the first values behind; None: more values than the array has (numpy repeats the array, not modelled)
    [for result_analysis.py L1509-1551] *)
Definition pad_wrap {A} (n : nat) (l : list A) : option (list A) :=
  if (n <=? length l)%nat then Some (skipn (length l - n) l ++ l ++ firstn n l) else None.
(** a map with nx x ny bins as array [for result_analysis.py L1509-1551] *)
Definition to_array {A} (nx ny : nat) (h : nat -> nat -> A) : list (list A) := map (fun i => map (h i) (seq 0 ny)) (seq 0 nx).
(** result_analysis.py L1511 and L1532; None in [extend]: not extended *)
Definition extend_bins (extend : option R) (res : R) : nat := match extend with None => 0%nat | Some e => Z.to_nat (ceil (e / res)) end.
(** list of results, None as soon as one of them is None [for result_analysis.py L1509-1551] *)
Fixpoint collect {A} (l : list (option A)) : option (list A) :=
  match l with
  | [] => Some []
  | Some x :: l => option_map (cons x) (collect l)
  | None :: _ => None
  end.
(** result_analysis.py L1510-1530 (x) and L1531-1551 (y), for one of the maps *)
Definition extend_map {A} (nx ny : nat) (res : R * R) (extend : option R * option R) (h : nat -> nat -> A) : option (list (list A)) :=
  match pad_wrap (extend_bins (fst extend) (fst res)) (to_array nx ny h) with
  | None => None
  | Some rows => collect (map (pad_wrap (extend_bins (snd extend) (snd res))) rows)
  end.
(** result_analysis.py L921, L1511-1514 and L1532-1535: in_pixel_hist_extent in one direction *)
Definition hist_extent (a : axis) (res : R) (extend : option R) : R * R :=
  let d := INR (extend_bins extend res) * res in (0 - d, a_size a + d).

(** result_analysis.py L913 and L915 in double precision: math.ceil(column_size / resolution) * resolution, int(size / resolution) *)
Definition n_bins_double (size res : R) : Z :=
  let s := fl (IZR (ceil (fl (size / res))) * res) in Flocq.Core.Raux.Ztrunc (fl (s / res)).
