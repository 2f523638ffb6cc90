(** Model of the distributions of efficiencies of efficiency_plots: per bin and per pixel of a DUT and per pixel of a region (tools/plot_utils.py L1757-1766, L1867-1881, L1940, L1966-1976).
    Simplifications: exact real numbers, nan is None; the percentages and their mask are those of EffStoreModel.  np.isfinite keeps the mask, np.count_nonzero and the histogram of
    matplotlib (np.histogram) use the data of a masked array without its mask. *)
From Coq Require Import List Arith Reals Bool.
From Verif Require Import GeometryModel RunningMeanModel TrackAngleModel Chi2PlotModel EffStoreModel.
Import ListNotations.
Local Open Scope R_scope.

(** compressed(), and array.ravel()[array.ravel().mask != 1]: the entries without mask [for tools/plot_utils.py L1766, L1867-1870, L1881] *)
Definition without_mask (a : list (option R * bool)) : list (option R) := map fst (filter (fun e => negb (snd e)) a).
(** ax.hist(bins=100, range=(0, 100)) [for tools/plot_utils.py L1766, L1881, L1976] *)
Definition percent_hist (l : list (option R)) : list nat := histogram (range_edges 0 100 100) l.
(** tools/plot_utils.py L1766, L1881: "Efficiency per bin" and "Efficiency per pixel" of a DUT *)
Definition dut_distribution (density : nat) (counts : list (nat * nat)) : list nat := percent_hist (without_mask (masked_percentages density counts)).
(** tools/plot_utils.py L1867-1870: comparison with nan is false *)
Definition efficient_pixels (threshold : R) (density : nat) (counts : list (nat * nat)) : nat :=
  length (filter (fun e => match e with Some v => Rleb threshold v | None => false end) (without_mask (masked_percentages density counts))).
(** tools/plot_utils.py L1940: region_n_pixels, the number in the titles *)
Definition region_n_pixels (density : nat) (counts : list (nat * nat)) : nat :=
  length (filter (fun e => match fst e with Some _ => true | None => false end) (masked_percentages density counts)).
(** tools/plot_utils.py L1976 *)
Definition region_distribution (density : nat) (counts : list (nat * nat)) : list nat := percent_hist (stored_data (masked_percentages density counts)).
