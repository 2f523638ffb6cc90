(** Model of the range of the colours of the maps of mean residuals and mean charges of efficiency_plots (tools/plot_utils.py L1555-1585).
    Simplifications: rational numbers instead of doubles (0.95 is 19/20); [values] are the entries of the map of the mean residuals which are not masked, they are not negative. *)
From Coq Require Import List Arith ZArith QArith Qround Bool.
From Verif Require Import ArrayUtilsModel.
Import ListNotations.
Local Open Scope list_scope.
Local Open Scope nat_scope.

(** np.max [for tools/plot_utils.py L1558] *)
Definition maximum (values : list Q) : Q := fold_right (fun a b => if Qle_bool a b then b else a) 0%Q values.
(** np.ceil(np.max()): the number of edges 0, 1, ... of np.arange [for tools/plot_utils.py L1558] *)
Definition n_edges (values : list Q) : nat := Z.to_nat (Qceiling (maximum values)).
(** The bin of a value for the edges 0, ..., n - 1: the last bin contains its upper edge; None: in no bin [for tools/plot_utils.py L1558] *)
Definition bin_of (n : nat) (v : Q) : option nat := if (Qle_bool v (inject_Z (Z.of_nat n - 1)) && (2 <=? n))%bool then Some (Nat.min (Z.to_nat (Qfloor v)) (n - 2)) else None.
(** tools/plot_utils.py L1558 *)
Definition residual_hist (values : list Q) : list Z :=
  map (fun i => Z.of_nat (length (filter (fun v => match bin_of (n_edges values) v with Some b => b =? i | None => false end) values))) (seq 0 (n_edges values - 1)).
(** tools/analysis_utils.py L224: cdf[-1] raises IndexError without bins (None); the last of the returned indices, and 1 more [for tools/plot_utils.py L1559-1560, L1572, L1582] *)
Definition z_max (hist : list Z) : option nat := match hist with [] => None | _ => Some (snd (hist_quantiles hist 0 (19 # 20)) + 1) end.
(** tools/plot_utils.py L1558-1560 *)
Definition residual_z_max (values : list Q) : option nat := z_max (residual_hist values).

(** np.bincount of the charges [for result_analysis.py L1300] *)
Definition bincount (charges : list nat) : list Z := map (fun i => Z.of_nat (count_occ Nat.eq_dec charges i)) (seq 0 (match charges with [] => 0 | _ => S (fold_right Nat.max 0 charges) end)).
(** tools/plot_utils.py L1572-1573: position and height of the bars (None: masked) *)
Definition charge_bars (hist : list Z) : list (nat * option Z) :=
  match z_max hist with
  | None => []
  | Some z => combine (seq 0 z) (map (fun e => if (fst (hist_quantiles hist 0 (19 # 20)) <=? fst e) then Some (snd e) else None) (combine (seq 0 (length hist)) hist))
  end.
