(** Models the pages of efficiency_plots with the densities of hits, tracks and tracks with hit: tools/plot_utils.py L1289-1292, L1330-1364 (whole sensor) and L2207-2252 (in-pixel maps of a region).
    Simplifications: the image is the list of its bins (the transposition for drawing is that of DensityModel); the limit of the colours is calculated exactly; titles, axes and meshes are not modelled.
    np.percentile of an empty array is an IndexError, as the except clauses of L2216, L2232 and L2247 expect. *)
From Coq Require Import List Bool Arith.
Import ListNotations.

(** np.sort [for tools/plot_utils.py L1333, L1345, L1357, L2215, L2231, L2246] *)
Fixpoint insert (x : nat) (l : list nat) : list nat := match l with [] => [x] | y :: r => if x <=? y then x :: l else y :: insert x r end.
(** np.sort [for tools/plot_utils.py L1333, L1345, L1357, L2215, L2231, L2246] *)
Definition sort (l : list nat) : list nat := fold_right insert [] l.
(** count_..._2d_hist_masked: entries which are zero are masked [for tools/plot_utils.py L1290-1292, L2208-2210] *)
Definition masked (counts : list nat) : list (option nat) := map (fun c => if c =? 0 then None else Some c) counts.
(** compressed(): the entries which are not masked [for tools/plot_utils.py L1333, L1345, L1357, L2215, L2231, L2246] *)
Definition compressed (l : list (option nat)) : list nat := flat_map (fun o => match o with Some c => [c] | None => [] end) l.
(** np.ceil(np.percentile(..., q=95.0)): linear interpolation between the sorted entries at the position 95 (n - 1) / 100; None: IndexError [for tools/plot_utils.py L1333, L1345, L1357, L2215, L2231, L2246] *)
Definition colour_limit (l : list (option nat)) : option nat :=
  match sort (compressed l) with
  | [] => None
  | s => let h := 95 * (length s - 1) in let i := h / 100 in let a := nth i s 0 in let b := nth (S i) s 0 in Some (a + (h mod 100 * (b - a) + 99) / 100)
  end.
(** which of the maps a page shows [for tools/plot_utils.py L1330-1364] *)
Inductive kind := Hits | Tracks | TracksWithHit.
(** a page: its map, the bins (None: white) and the limit of the colours [for tools/plot_utils.py L1330-1364] *)
Record density_page := DensityPage { page_kind : kind; page_bins : list (option nat); page_limit : nat }.
(** the pages one after the other, and whether an exception ended them [for tools/plot_utils.py L1330-1364] *)
Fixpoint pages_until (maps : list (kind * list nat)) : list density_page * bool :=
  match maps with
  | [] => ([], false)
  | (k, counts) :: r =>
      match colour_limit (masked counts) with
      | None => ([], true)
      | Some z => let '(p, e) := pages_until r in (DensityPage k (masked counts) z :: p, e)
      end
  end.
(** tools/plot_utils.py L1330-1364: the three pages of the sensor *)
Definition sensor_pages (hits tracks with_hit : list nat) : list density_page * bool := pages_until [(Hits, hits); (Tracks, tracks); (TracksWithHit, with_hit)].
(** tools/plot_utils.py L2212-2252: the three in-pixel pages of a region; the limit is 1 after an IndexError *)
Definition region_pages (hits tracks with_hit : list nat) : list density_page :=
  map (fun km => DensityPage (fst km) (masked (snd km)) match colour_limit (masked (snd km)) with None => 1 | Some z => z end) [(Hits, hits); (Tracks, tracks); (TracksWithHit, with_hit)].
