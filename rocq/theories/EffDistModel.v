(** Model of the one-dimensional distributions of result_analysis.calculate_efficiency: charge, frame and cluster size of the tracks with valid hit, for the
    whole DUT and for the regions, the mean charge of a region, and the histograms of the cluster size against the track angle.
    Exact arithmetic.  Simplifications: one region (the code repeats the lines for every region); charge, frame, cluster size and angle of a track are
    given functions of the track; all of them are finite for tracks with valid hit; counts are unbounded; a chunk without track in the region
    (ZeroDivisionError in L1155-1158) is the subject of EfficiencyModel.region_chunk. *)
From Coq Require Import List Arith ZArith Lia Reals Bool.
From Verif Require Import GeometryModel CorrelateModel PrealignModel RunningMeanModel TrackAngleModel FitResidualsModel.
Import ListNotations.
Local Open Scope R_scope.

(** charge.astype(np.int64): truncation towards zero [for result_analysis.py L1160, L1162, L1300 and L1367] *)
Definition trunc (x : R) : Z := if Rleb 0 x then Int_part x else (- Int_part (- x))%Z.
(** np.bincount: ValueError (None) for negative numbers, else as many bins as the largest number + 1 (none without numbers) [for result_analysis.py L1160, L1169 and L1178] *)
Definition bincount (l : list Z) : option (list nat) :=
  if existsb (fun z => (z <? 0)%Z) l then None
  else Some (map (fun i => length (filter (fun z => (z =? Z.of_nat i)%Z) l)) (seq 0 (Z.to_nat (fold_right (fun z m => Z.max (z + 1) m) 0%Z l)))).
(** ndarray.resize: the new entries are zero, superfluous entries are removed [for result_analysis.py L1164, L1166] *)
Definition resize (h : list nat) (n : nat) : list nat := firstn n h ++ repeat 0%nat (n - length h).
(** result_analysis.py L1163-1167 (charge), L1172-1176 (frame), L1181-1185 (cluster size), L1368-1372 and L1379-1383 (whole DUT) *)
Definition add_counts (h tmp : list nat) : list nat :=
  let (h, tmp) := if (length h <? length tmp)%nat then (resize h (length tmp), tmp) else (h, resize tmp (length h)) in
  map (fun p => (fst p + snd p)%nat) (combine h tmp).
(** result_analysis.py L1159-1167 for one chunk: [None] is the ValueError; the histogram is None before the first chunk *)
Definition count_chunk (h : option (list nat)) (values : list Z) : option (list nat) :=
  match bincount values with
  | None => None
  | Some tmp => Some (match h with None => tmp | Some h => add_counts h tmp end)
  end.
(** the loop over the chunks [for result_analysis.py L1159-1167] *)
Fixpoint count_chunks (h : option (list nat)) (chunks : list (list Z)) : option (option (list nat)) :=
  match chunks with
  | [] => Some h
  | c :: chunks => match count_chunk h c with None => None | Some h => count_chunks (Some h) chunks end
  end.

Section Tracks.
  Context {T : Type} (valid region : T -> bool).

  (** result_analysis.py L1159-1185: histogram of a region; [value] is trunc of the charge, the frame or the cluster size *)
  Definition region_distribution (value : T -> Z) (chunks : list (list T)) : option (option (list nat)) :=
    count_chunks None (map (fun ts => map value (filter (fun t => region t && valid t) ts)) chunks).
  (** result_analysis.py L1300, L1306 (first chunk) and L1367-1383 (other chunks): histogram of the whole DUT; chunks without valid hit are skipped.
      If the first chunk has no valid hit, the variable has no value (UnboundLocalError, [None]) *)
  Definition dut_distribution (value : T -> Z) (chunks : list (list T)) : option (list nat) :=
    match chunks with
    | [] => None
    | c :: cs =>
        if existsb valid c then
          match count_chunks None (map (fun ts => map value (filter valid ts)) (c :: filter (existsb valid) cs)) with Some (Some h) => Some h | _ => None end
        else None
    end.
  (** result_analysis.py L1595-1599 (analysis_utils.py get_mean_from_histogram): [None] is the ValueError of np.dot for different sizes, [Some None] is nan *)
  Definition mean_charge (dut_hist region_hist : list nat) : option (option R) :=
    let region_hist := if (length region_hist <? length dut_hist)%nat then resize region_hist (length dut_hist) else region_hist in
    if (length region_hist =? length dut_hist)%nat then Some (get_mean_from_histogram region_hist (map INR (seq 0 (length dut_hist)))) else None.

  (** result_analysis.py L1331-1334 and L1409-1410: bins=[range(1, 10), edges of the angles]; bin i, j *)
  Definition size_edges : list R := map INR (seq 1 9).
  (** result_analysis.py L1331-1334 and L1409-1410 *)
  Definition size_against_angle (size : T -> Z) (angle : T -> R) (edges : list R) (chunks : list (list T)) (i j : nat) : nat :=
    list_sum (map (fun ts => length (filter (fun t => valid t && (in_bin size_edges i (IZR (size t)) && in_bin edges j (angle t))) ts)) chunks).
End Tracks.
