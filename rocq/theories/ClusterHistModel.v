(** Model of the part of hit_analysis.cluster_hits after the clustering: L1115-1230, the histograms of the cluster size and the
    cluster shape and the errors of the positions.  The pixel parameters of L1208-1214 (pxi, pyi, d) are not used by L1145-1176 and not modelled:
    divisions by zero of numpy numbers only warn.
    The clusterizer (pixel_clusterizer) is an external package: the clusters are given as their lists of hits.
    The SMC framework is modelled in SmcModel: here the chunks are given and the results of the chunks are combined by combine_hists. *)
From Coq Require Import ZArith Reals List Bool.
From Verif Require Import EventArraysModel HistModel SmcModel BitsModel.
Import ListNotations.
Local Open Scope Z_scope.

(** A cluster: the hits (column, row), at least one [for hit_analysis.py L933] *)
Definition pixels : Type := (Z * Z) * list (Z * Z).
(** the fields of the cluster table that are used: n_hits (of the clusterizer) and cluster_shape (hit_analysis.py L933) *)
Definition n_hits (c : pixels) : Z := 1 + Z.of_nat (length (snd c)).
(** hit_analysis.py L933 *)
Definition cluster_shape (c : pixels) : Z := fst (fst (end_of_cluster (fst c) (snd c))).

(** results of all chunks; an exception in a chunk is an exception of SMC [for hit_analysis.py L1116-1119] *)
Fixpoint all_chunks {T} (func : T -> outcome (list Z)) (chunks : list T) : outcome (list (list Z)) :=
  match chunks with
  | [] => Ok []
  | c :: cs =>
      match func c with
      | Ok r => match all_chunks func cs with Ok rs => Ok (r :: rs) | Raised => Raised | OutOfBounds => OutOfBounds | OutOfFuel => OutOfFuel end
      | Raised => Raised | OutOfBounds => OutOfBounds | OutOfFuel => OutOfFuel
      end
  end.

(** hit_analysis.py L1116-1119: np.max raises for an empty array *)
Definition cluster_size_hist_func (chunk : list pixels) : outcome (list Z) :=
  match map n_hits chunk with
  | [] => Raised
  | n :: ns => hist_1d_index (n :: ns) (fold_left Z.max ns n + 1)
  end.
(** hit_analysis.py L1116-1119 *)
Definition hist_cluster_size (chunks : list (list pixels)) : outcome (list Z) :=
  match all_chunks cluster_size_hist_func chunks with Ok rs => Ok (combine_hists rs) | Raised => Raised | OutOfBounds => OutOfBounds | OutOfFuel => OutOfFuel end.

(** np.histogram(a, bins) for increasing edges: bin i are the values from edge i up to but without edge i + 1, the last bin includes its upper edge [for hit_analysis.py L1131-1134] *)
Fixpoint np_histogram (edges a : list Z) : list Z :=
  match edges with
  | lo :: ((hi :: rest) as edges') =>
      Z.of_nat (length (filter (fun v => (lo <=? v) && match rest with [] => v <=? hi | _ => v <? hi end) a)) :: np_histogram edges' a
  | _ => []
  end.
(** np.arange(n) [for hit_analysis.py L1131-1134] *)
Definition arange (n : nat) : list Z := map Z.of_nat (seq 0 n).
(** hit_analysis.py L1131-1134 *)
Definition cluster_shape_hist_func (chunk : list pixels) : list Z := np_histogram (arange (Z.to_nat (2 ^ 16))) (map cluster_shape chunk).
(** hit_analysis.py L1131-1134 *)
Definition hist_cluster_shape (chunks : list (list pixels)) : list Z := combine_hists (map cluster_shape_hist_func chunks).

(** hit_analysis.py L1174-1175 and L1180-1181: the errors replace the values that the end of cluster function has stored *)
Local Open Scope R_scope.
(** hit_analysis.py L1174-1175 and L1180-1181 *)
Definition index_error (pixel_size : R) : R := pixel_size / sqrt 12 / pixel_size.
(** hit_analysis.py L1174-1175 and L1180-1181 *)
Definition position_error (pixel_size : R) : R := pixel_size / sqrt 12.
