(** Model of the pixel hits around the track intersections in calculate_efficiency: result_analysis.py L985-1007 and L1419-1453.
    Simplifications: the bin numbers of scipy's binned_statistic_2d (without the overflow bins: minus 1) and the nearest pixel of each bin (cKDTree) are given; the
    comparison of the fields event number and cluster ID is the comparison of one number (cluster IDs are in [0, 2^32[); np.argsort gives a permutation that sorts;
    integers do not overflow. *)
From Coq Require Import List ZArith Reals Bool.
From Verif Require Import ArrayUtilsModel.
Import ListNotations.
Local Open Scope Z_scope.

(** A track of the chunk with its event number, cluster ID and number of hits of the DUT, the bin numbers of its intersection; [enabled]: select_enabled_pixel_hit;
    [valid]: select_valid_hit [for result_analysis.py L1419-1453] *)
Record eff_track := EffTrack { t_event : Z; t_cluster : Z; t_n_hits : nat; t_bin : Z * Z; t_enabled : bool; t_valid : bool }.
(** A row of the table ClusterHits [for result_analysis.py L1426-1430] *)
Record cluster_hit := ClusterHit { h_event : Z; h_cluster : Z; h_column : Z; h_row : Z }.
(** Errors [for result_analysis.py L1419-1453] *)
Inductive hits_error := BinValueError | MaskIndexError | EmptyIndexError | ShapeValueError | SelectIndexError | ZeroDivision.

(** result_analysis.py L993-1002: the number of columns (rows) of the array for a pixel size in micrometres *)
Definition array_shape (size : R) : Z := let n := up (1000 / size) - (if Req_EM_T (IZR (up (1000 / size) - 1)) (1000 / size) then 1 else 0) in if n mod 2 =? 0 then n + 1 else n + 2.
(** result_analysis.py L1004-1005 *)
Definition valid_shape (sx sy : Z) : bool := negb ((sx <=? 1) || negb (sx mod 2 =? 1) || (sy <=? 1) || negb (sy mod 2 =? 1)).

(** the fields event_number and cluster_ID as one number [for result_analysis.py L1426-1428] *)
Definition key (event cluster : Z) : Z := event * 2 ^ 32 + cluster.
(** indexing with a boolean array; None: IndexError because of the length [for result_analysis.py L1427, L1451] *)
Definition bool_index {A} (l : list A) (mask : list bool) : option (list A) :=
  if (length l =? length mask)%nat then Some (map fst (filter snd (combine l mask))) else None.
(** np.ravel_multi_index in two dimensions; None: ValueError [for result_analysis.py L1423] *)
Definition ravel_bin (nx ny : Z) (b : Z * Z) : option Z :=
  if (0 <=? fst b) && (fst b <? nx) && (0 <=? snd b) && (snd b <? ny) then Some (fst b * ny + snd b) else None.
(** np.ravel_multi_index of all elements [for result_analysis.py L1423] *)
Fixpoint ravel_bins (nx ny : Z) (l : list (Z * Z)) : option (list Z) :=
  match l with
  | [] => Some []
  | b :: l => match ravel_bin nx ny b, ravel_bins nx ny l with Some i, Some r => Some (i :: r) | _, _ => None end
  end.
(** np.repeat [for result_analysis.py L1433] *)
Definition np_repeat {A} (l : list A) (counts : list nat) : list A := flat_map (fun p => repeat (fst p) (snd p)) (combine l counts).
(** an operation of two arrays with broadcasting; None: ValueError [for result_analysis.py L1441-1442] *)
Definition broadcast {A B} (a : list A) (b : list B) : option (list (A * B)) :=
  if (length a =? length b)%nat then Some (combine a b)
  else match a, b with
       | [x], _ => Some (map (fun y => (x, y)) b)
       | _, [y] => Some (map (fun x => (x, y)) a)
       | _, _ => None
       end.
(** result_analysis.py L1452-1453: the elements with the unique indices are increased by their counts *)
Definition add_at (hist : list nat) (ic : Z * nat) : list nat :=
  map (fun jv => if Z.of_nat (fst jv) =? fst ic then (snd jv + snd ic)%nat else snd jv) (combine (seq 0 (length hist)) hist).
(** result_analysis.py L1452-1453 *)
Definition add_unique (hist : list nat) (indices : list Z) : list nat :=
  fold_left add_at (map (fun i => (i, count_occ Z.eq_dec indices i)) (nodup Z.eq_dec indices)) hist.

Section Shape.
  (** number of bins, shape of the array of pixels, number of rows of the sensor, nearest pixel of each bin *)
  Variables nx ny sx sy n_rows : Z.
  Variable bin_center_to_pixel_center : list Z.
  (** result_analysis.py L1436-1437: column and row of the nearest pixel *)
  Definition nearest_pixel (bin : Z) : Z * Z := let p := nth (Z.to_nat bin) bin_center_to_pixel_center 0 in (p / n_rows, p mod n_rows).
  (** result_analysis.py L1438-1442: relative index *)
  Definition relative_index (h : cluster_hit) (bin : Z) : Z * Z :=
    (h_column h - 1 - fst (nearest_pixel bin) + sx / 2, h_row h - 1 - snd (nearest_pixel bin) + sy / 2).
  (** result_analysis.py L1443-1447 *)
  Definition inside (i : Z * Z) : bool := (0 <=? fst i) && (fst i <? sx) && (0 <=? snd i) && (snd i <? sy).
  (** result_analysis.py L1434, L1451 *)
  Definition ravel_pixel (bin : Z) (i : Z * Z) : Z := ((bin / ny * ny + bin mod ny) * sx + fst i) * sy + snd i.
  (** result_analysis.py L1425-1453: one chunk of the cluster hits *)
  Definition pixel_hits_chunk (argsort : list Z -> list nat) (tracks : list eff_track) (bins : list Z) (hist : list nat) (hits : list cluster_hit) : hits_error + list nat :=
    match bool_index tracks (map t_valid (filter t_enabled tracks)) with
    | None => inl MaskIndexError
    | Some selected =>
        let keys := map (fun t => key (t_event t) (t_cluster t)) selected in
        match in1d_index (map (fun h => key (h_event h) (h_cluster h)) hits) keys None (Some (argsort keys)) with
        | None => inl EmptyIndexError
        | Some (selected_hits, selected_indices) =>
            let actual_hits := map (fun i => nth i hits (ClusterHit 0 0 0 0)) selected_hits in
            let actual_bins := np_repeat (map (fun j => nth (Z.to_nat j) bins 0) selected_indices) (map (fun j => nth (Z.to_nat j) (map t_n_hits selected) O) selected_indices) in
            match broadcast actual_hits actual_bins with
            | None => inl ShapeValueError
            | Some pairs =>
                let relative := map (fun hb => relative_index (fst hb) (snd hb)) pairs in
                let select := map inside relative in
                if (length select =? 0)%nat then inl ZeroDivision
                else match bool_index actual_bins select with
                     | None => inl SelectIndexError
                     | Some bins => inr (add_unique hist (map (fun bi => ravel_pixel (fst bi) (snd bi)) (combine bins (filter inside relative))))
                     end
            end
        end
    end.
  (** result_analysis.py L1425-1453: loop over the chunks of the cluster hits *)
  Fixpoint pixel_hits_loop (argsort : list Z -> list nat) (tracks : list eff_track) (bins : list Z) (hist : list nat) (chunks : list (list cluster_hit)) : hits_error + list nat :=
    match chunks with
    | [] => inr hist
    | hits :: chunks => match pixel_hits_chunk argsort tracks bins hist hits with inl e => inl e | inr hist => pixel_hits_loop argsort tracks bins hist chunks end
    end.
  (** result_analysis.py L1419-1453 *)
  Definition count_pixel_hits (argsort : list Z -> list nat) (tracks : list eff_track) (hist : list nat) (chunks : list (list cluster_hit)) : hits_error + list nat :=
    match ravel_bins nx ny (map t_bin (filter t_valid (filter t_enabled tracks))) with
    | None => inl BinValueError
    | Some bins => pixel_hits_loop argsort tracks bins hist chunks
    end.
End Shape.
