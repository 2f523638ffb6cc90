(** Model of the numbers shown by tools/plot_utils.py: plot_tracks_per_event (L328-331) and plot_cluster_hists (L422-516). *)
From Coq Require Import List Arith ZArith Bool.
Import ListNotations.

(** np.unique(l, return_counts=True): the different numbers in increasing order, with their numbers of occurrences [for tools/plot_utils.py L330-331] *)
Fixpoint insert_count (v : Z) (u : list (Z * nat)) : list (Z * nat) :=
  match u with
  | [] => [(v, 1)]
  | (w, n) :: u' => if (v =? w)%Z then (w, S n) :: u' else if (v <? w)%Z then (v, 1) :: u else (w, n) :: insert_count v u'
  end.
(** np.unique with return_counts=True [for tools/plot_utils.py L330-331] *)
Definition unique_counts (l : list Z) : list (Z * nat) := fold_right insert_count [] l.
(** tools/plot_utils.py L328-331: the bars of the plot (number of tracks, number of events) and the number of events of the title *)
Definition tracks_per_event (event_numbers : list Z) : list (Z * nat) * nat :=
  let events := unique_counts event_numbers in
  (unique_counts (map (fun e => Z.of_nat (snd e)) events), length events).

(** a row of the table for one DUT: n_hits, cluster_shape, and whether x is not nan [for tools/plot_utils.py L448-458] *)
Record row := Row { n_hits : nat; cluster_shape : Z; has_hit : bool }.
(** the rows with a hit; in a file with clusters all rows ([in_clusters]) [for tools/plot_utils.py L448-458] *)
Definition valid_rows (in_clusters : bool) (chunk : list row) : list row := if in_clusters then chunk else filter has_hit chunk.
(** numbers of occurrences [for tools/plot_utils.py L468-476] *)
Definition occurrences (l : list nat) (i : nat) : nat := length (filter (Nat.eqb i) l).
(** np.max, for arrays that are not empty [for tools/plot_utils.py L460] *)
Definition list_max (l : list nat) : nat := fold_right Nat.max 0 l.
(** np.bincount(l, minlength=minlength) [for tools/plot_utils.py L468-475] *)
Definition bincount (l : list nat) (minlength : nat) : list nat := map (occurrences l) (seq 0 (Nat.max minlength (match l with [] => 0 | _ => S (list_max l) end))).
(** np.histogram(shapes, bins=np.arange(2**16)): 2^16 - 1 bins, the last bin includes the last edge; the histogram as a function of the bin [for tools/plot_utils.py L464-476] *)
Definition shape_bin (i s : Z) : bool := ((0 <=? i) && (i <? 2 ^ 16 - 1) && ((s =? i) || ((i =? 2 ^ 16 - 2) && (s =? 2 ^ 16 - 1))))%Z.
(** tools/plot_utils.py L464-476 *)
Definition shape_hist (shapes : list Z) (i : Z) : nat := length (filter (shape_bin i) shapes).
(** += of two arrays, ValueError (None) for different lengths [for tools/plot_utils.py L471-476] *)
Definition add (a b : list nat) : option (list nat) := if length a =? length b then Some (map (fun p => fst p + snd p) (combine a b)) else None.
(** ndarray.resize to a larger size: filled with zeros [for tools/plot_utils.py L472] *)
Definition resize (a : list nat) (n : nat) : list nat := a ++ repeat 0 (n - length a).

(** the variables: histograms (None: not yet bound), initialize, total_n_hits and total_n_clusters [for tools/plot_utils.py L439-476] *)
Record state := State { hists : option (list nat * (Z -> nat)); initialize : bool; total_hits : nat; total_clusters : nat }.
(** tools/plot_utils.py L447-476: one chunk.  None: ValueError of np.max for an empty array *)
Definition chunk_step (in_clusters : bool) (s : state) (chunk : list row) : option state :=
  let rows := valid_rows in_clusters chunk in
  let sizes := map n_hits rows in
  let shapes := map cluster_shape rows in
  match sizes with
  | [] => None
  | _ =>
      let m := list_max sizes in
      let hits := total_hits s + fold_right Nat.add 0 sizes in
      let clusters := total_clusters s + length sizes in
      if initialize s then Some (State (Some (bincount sizes (m + 1), shape_hist shapes)) false hits clusters)
      else match hists s with
           | None => None
           | Some (h, g) =>
               let h' := if length h - 1 <? m then add (resize h (m + 1)) (bincount sizes (m + 1)) else add h (bincount sizes (length h)) in
               match h' with
               | None => None
               | Some h' => Some (State (Some (h', fun i => g i + shape_hist shapes i)) false hits clusters)
               end
           end
  end.
(** tools/plot_utils.py L447-476 *)
Fixpoint chunks_loop (in_clusters : bool) (s : state) (chunks : list (list row)) : option state :=
  match chunks with
  | [] => Some s
  | c :: cs => match chunk_step in_clusters s c with None => None | Some s' => chunks_loop in_clusters s' cs end
  end.
(** the shapes of the plot [for tools/plot_utils.py L513] *)
Definition analyze_cluster_shapes : list Z := [1; 3; 5; 6; 9; 13; 14; 7; 11; 19; 261; 15; 95; 783; 4959]%Z.
(** what is shown: the bars of the cluster sizes from size 1, the bars of the cluster shapes and of the remaining clusters, the numbers of hits and clusters of the title [for tools/plot_utils.py L478-516] *)
Record shown := Shown { size_bars : list nat; shape_bars : list nat; remaining : Z; title_hits : nat; title_clusters : nat }.
(** tools/plot_utils.py L478-516 *)
Definition show (s : state) : option shown :=
  match hists s with
  | None => None
  | Some (h, g) =>
      let bars := map g analyze_cluster_shapes in
      Some (Shown (tl h) bars (Z.of_nat (total_clusters s) - Z.of_nat (fold_right Nat.add 0%nat bars))%Z (total_hits s) (total_clusters s))
  end.
(** tools/plot_utils.py L422-516: one DUT, for a table without the histograms of the clustering; [previous] are the histograms of the previous DUT.  The result is None for an exception. *)
Definition plot_dut (in_clusters : bool) (previous : option (list nat * (Z -> nat))) (chunks : list (list row)) : option (shown * option (list nat * (Z -> nat))) :=
  match chunks_loop in_clusters (State previous true 0 0) chunks with
  | None => None
  | Some s => option_map (fun r => (r, hists s)) (show s)
  end.
(** tools/plot_utils.py L440-444, L478-516: a file with the histograms of the clustering *)
Definition plot_clusters (h : list nat) (g : Z -> nat) : option shown :=
  show (State (Some (h, g)) true (fold_right Nat.add 0 (map (fun p => fst p * snd p) (combine h (seq 0 (length h))))) (fold_right Nat.add 0 h)).
