(** Model of the pages of cluster sizes and cluster shapes of a region of calculate_efficiency: bars of sizes and shapes (result_analysis.py L1177-1185, L1207-1210, tools/plot_utils.py L2000-2048)
    and densities of cluster shapes in the pixel (tools/plot_utils.py L2425-2434).  Simplifications: exact arithmetic; one region; the maps are not extended (extend_in_pixel_areas: C104). *)
From Coq Require Import List Arith ZArith Reals Bool.
From Verif Require Import EfficiencyModel InPixelModel.
From Verif Require EffDistModel PlotHistModel.
Import ListNotations.

(** np.histogram of the shapes of the selected tracks, added over the chunks [for result_analysis.py L1207-1210] *)
Definition region_shape_hist {T} (sel : T -> bool) (shape : T -> Z) (chunks : list (list T)) (i : Z) : nat := list_sum (map (fun ts => PlotHistModel.shape_hist (map shape (filter sel ts)) i) chunks).
(** what is shown: bars (position, height) of all sizes, of the first sizes, heights for the shapes, height for the others [for tools/plot_utils.py L2003-2048] *)
Record cluster_pages := ClusterPages { all_sizes : list (nat * nat); first_sizes : list (nat * nat); shape_bars : list nat; others : Z }.
(** tools/plot_utils.py L2000-2048; an empty histogram has no bars *)
Definition pages_of (h : list nat) (g : Z -> nat) : cluster_pages :=
  let max_bins := Nat.min 10 (length h - 1) in
  let bars := map g PlotHistModel.analyze_cluster_shapes in
  ClusterPages (combine (seq 1 (length h - 1)) (tl h)) (combine (seq 1 max_bins) (firstn max_bins (tl h))) bars (Z.of_nat (list_sum h) - Z.of_nat (list_sum bars))%Z.
(** result_analysis.py L1177-1185, L1207-1210 and tools/plot_utils.py L2000-2048; None: exception *)
Definition region_pages {T} (valid region : T -> bool) (size shape : T -> Z) (chunks : list (list T)) : option cluster_pages :=
  match EffDistModel.region_distribution valid region size chunks with
  | Some (Some h) => Some (pages_of h (region_shape_hist (fun t => region t && valid t) shape chunks))
  | _ => None
  end.

Local Open Scope R_scope.
(** tools/plot_utils.py L2425 *)
Definition plot_cluster_shapes : list (list Z) := [[1]; [3]; [5]; [3; 5]; [13; 14; 7; 11]; [15]]%Z.
(** np.where(shape == analyzed)[0][0]; None: IndexError [for tools/plot_utils.py L2431] *)
Fixpoint position (s : Z) (l : list Z) : option nat :=
  match l with [] => None | a :: l => if (s =? a)%Z then Some 0%nat else option_map S (position s l) end.
(** tools/plot_utils.py L2429-2431: sum of the maps of the shapes *)
Fixpoint group_counts (analyzed : list Z) (m : maps) (shapes : list Z) (i j : nat) : option nat :=
  match shapes with
  | [] => Some 0%nat
  | s :: shapes => match position s analyzed, group_counts analyzed m shapes i j with Some k, Some n => Some (m_shapes m i j k + n)%nat | _, _ => None end
  end.
(** tools/plot_utils.py L2432-2433: Some None is masked; the division of a masked array masks a division by 0 *)
Definition density (analyzed : list Z) (m : maps) (shapes : list Z) (i j : nat) : option (option R) :=
  match group_counts analyzed m shapes i j with
  | None => None
  | Some n => Some (if (n =? 0)%nat || (m_with_hit m i j =? 0)%nat then None else Some (INR n / INR (m_with_hit m i j)))
  end.
(** tools/plot_utils.py L2426-2428: the groups with a page *)
Definition groups_shown (analyzed : list Z) : list (list Z) := filter (forallb (fun s => existsb (Z.eqb s) analyzed)) plot_cluster_shapes.
(** tools/plot_utils.py L2425-2434: the pages *)
Definition density_pages (m : maps) : list (list Z * (nat -> nat -> option (option R))) := map (fun g => (g, density analyzed_shapes m g)) (groups_shown analyzed_shapes).
