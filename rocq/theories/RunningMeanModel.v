(* Model of the per-bin means which result_analysis.calculate_residuals and calculate_efficiency accumulate over the chunks of the track table. *)
From Coq Require Import List Arith ZArith Lia Reals Bool.
From Verif Require Import GeometryModel CorrelateModel PrealignModel.
Import ListNotations.
Local Open Scope R_scope.

(** np.arange(start, stop, step): ceil((stop - start) / step) numbers; the rounding of the floats is not modelled. [for result_analysis.py L183-188 and L206-211] *)
Definition arange (start stop step : R) : list R := map (fun k => start + INR k * step) (seq 0 (Z.to_nat (ceil ((stop - start) / step)))).

(** result_analysis.py L183-188 and L206-211: edges of the position histograms, from the track intersections [x :: xs] of the first chunk.
    The edges for npixels_per_bin = None (numpy's "sturges" rule) are not modelled. *)
Definition position_edges (width x : R) (xs : list R) : list R := arange (list_min x xs) (list_max x xs + width) width.

(** numpy / scipy histograms: bin i covers edges[i] <= x < edges[i + 1], the last bin also the last edge. [for result_analysis.py L224-226] *)
Definition n_edge_bins (edges : list R) : nat := (length edges - 1)%nat.
(** result_analysis.py L224-226 *)
Definition in_bin (edges : list R) (i : nat) (x : R) : bool :=
  (i <? n_edge_bins edges)%nat && Rleb (nth i edges 0) x &&
  (Rltb x (nth (S i) edges 0) || ((S i =? n_edge_bins edges)%nat && Reqb x (nth (S i) edges 0))).

(** result_analysis.py L224-226 *)
Definition sum (l : list R) : R := fold_right Rplus 0 l.

Section Bin.
  (** [inb x]: position [x] belongs to the bin. An entry is a position and a value. *)
  Context {P : Type} (inb : P -> bool).
  (** result_analysis.py L224-226 *)
  Definition values (entries : list (P * R)) : list R := map snd (filter (fun e => inb (fst e)) entries).

  (** stats.binned_statistic(statistic='count') for one bin. [for result_analysis.py L224-226] *)
  Definition chunk_count (entries : list (P * R)) : R := INR (length (values entries)).
  (** np.nan_to_num(stats.binned_statistic(statistic='mean')) for one bin: the mean of an empty bin is nan and becomes 0. [for result_analysis.py L224-226] *)
  Definition chunk_mean (entries : list (P * R)) : R :=
    match values entries with [] => 0 | l => sum l / INR (length l) end.

  (** np.ma.average(a=[a, b], weights=[n, m], returned=True): the division by a zero sum of weights is masked, the data of the masked
      element is the numerator, and np.stack drops the mask in the next chunk (numpy/ma/core.py domained division). [for result_analysis.py L224-226] *)
  Definition ma_average (a b n m : R) : R * R := if Reqb (n + m) 0 then (a * n + b * m, n + m) else ((a * n + b * m) / (n + m), n + m).

  (** result_analysis.py L224-226 (first chunk) and L272-275 (other chunks). *)
  Definition running (chunks : list (list (P * R))) : option (R * R) :=
    match chunks with
    | [] => None
    | c :: cs => Some (fold_left (fun s c => ma_average (fst s) (chunk_mean c) (snd s) (chunk_count c)) cs (chunk_mean c, chunk_count c))
    end.

  (** result_analysis.py L316-323: no chunk raises RuntimeError (None); bins without entry become nan (Some (None, 0)). *)
  Definition final (chunks : list (list (P * R))) : option (option R * R) :=
    match running chunks with None => None | Some (m, n) => Some (if Reqb n 0 then None else Some m, n) end.
End Bin.

(** result_analysis.py L267-276: counts are added up over the chunks. *)
Definition counts {P} (inb : P -> bool) (chunks : list (list (P * R))) : option R :=
  match chunks with [] => None | c :: cs => Some (fold_left (fun n c => n + chunk_count inb c) cs (chunk_count inb c)) end.

(** result_analysis.py L183-188, L224-226, L272-275 and L316-323: mean residual against position; the edges are those of the first chunk; here without limits
    on the hit position, such that the same entries are used for the edges and for the means. np.min of an empty chunk raises ValueError (None). *)
Definition residuals_against_position (width : R) (chunks : list (list (R * R))) (i : nat) : option (option R * R) :=
  match chunks with
  | ((x, _) :: es) :: _ => final (in_bin (position_edges width x (map fst es)) i) chunks
  | _ => None
  end.
