(** Model of the correlation of residuals: result_analysis.calculate_residual_correlation (result_analysis.py L2558-2862) without reading, transformations and limits, and the numbers
    of plot_utils.plot_residual_correlation (tools/plot_utils.py L2606-2640). *)
From Coq Require Import List Arith ZArith Reals Bool.
From Verif Require Import ArrayUtilsModel BinStatModel GeometryModel RunningMeanModel TrackAngleModel.
Import ListNotations.
Local Open Scope R_scope.

(** an item of select_duts: an integer or an object with the attributes column_size and row_size [for result_analysis.py L2578-2584] *)
Inductive dut_item := DutIndex (n : nat) | DutObject (column_size row_size : R).
(** TypeError of '%d' % object, AttributeError of an integer, IndexError of a list [for result_analysis.py L2578-2584, L2795-2825] *)
Inductive corr_error := CorrTypeErr | CorrAttributeErr | CorrIndexErr.
(** result_analysis.py L2579: '%d' % actual_dut *)
Definition format_d (d : dut_item) : corr_error + nat := match d with DutIndex n => inr n | DutObject _ _ => inl CorrTypeErr end.
(** result_analysis.py L2582: actual_dut.column_size, actual_dut.row_size *)
Definition sizes (d : dut_item) : corr_error + (R * R) := match d with DutObject c r => inr (c, r) | DutIndex _ => inl CorrAttributeErr end.
(** result_analysis.py L2578-2582: the name of the node and the upper ends of the distances *)
Definition start_dut (plot_n_pixels : R * R) (d : dut_item) : corr_error + (nat * (R * R)) :=
  match format_d d with
  | inl e => inl e
  | inr n => match sizes d with inl e => inl e | inr (c, r) => inr (n, (fst plot_n_pixels * c, snd plot_n_pixels * r)) end
  end.
(** result_analysis.py L2578-2862: the loop over the selected DUTs; [process] is all that follows L2582 *)
Fixpoint correlate_duts (process : nat -> R * R -> corr_error + unit) (select : list (dut_item * (R * R))) : corr_error + unit :=
  match select with
  | [] => inr tt
  | (d, n_pixels) :: select =>
      match start_dut n_pixels d with
      | inl e => inl e
      | inr (n, stop) => match process n stop with inl e => inl e | inr _ => correlate_duts process select end
      end
  end.

(** the variable index of result_analysis.py L2792-2839 for the reference tracks of one DUT: the loops over the bins (L2815, L2832) use the same variable as the loop over the DUTs (L2578),
    so that after them index is the number of the last bin.  [n_bins]: argument plot_n_bins; None: IndexError.  Result: the numbers of bins used for each reference track. *)
Fixpoint bins_used (n_bins : list (nat * nat)) (n_refs : nat) (index : nat) : option (list (nat * nat)) :=
  match n_refs with
  | O => Some []
  | S n =>
      match nth_error n_bins index with
      | None => None
      | Some (_, _) =>
          let nx := fst (nth index n_bins (0, 0)%nat) in
          let index := if (nx =? 0)%nat then index else (nx - 1)%nat in
          match nth_error n_bins index with
          | None => None
          | Some (_, ny) =>
              let index := if (ny =? 0)%nat then index else (ny - 1)%nat in
              match bins_used n_bins n index with None => None | Some l => Some ((nx, ny) :: l) end
          end
      end
  end.

(** a track: number of the event, intersection and residual, both in x and y [for result_analysis.py L2757-2808] *)
Record ctrack := CTrack { c_event : Z; c_x : R; c_y : R; c_dx : R; c_dy : R }.
(** result_analysis.py L2797-2798 and L2806-2810: the tracks of the chunk that are correlated in x with the reference track *)
Definition valid_x (stop : R) (ref : ctrack) (chunk : list ctrack) : list ctrack :=
  let next := searchsorted (map c_event chunk) (c_event ref + 1) in
  map snd (filter (fun p => Rleb (Rabs (c_x ref - c_x (snd p))) stop && Rltb (Rabs (c_y ref - c_y (snd p))) 5 && negb (fst p <? next)%nat)
                  (combine (seq 0 (length chunk)) chunk)).
(** result_analysis.py L2812: the residuals in x for each bin of the distance *)
Definition groups_x (nbins : nat) (stop : R) (ref : ctrack) (chunk : list ctrack) : option (list (list R)) :=
  let v := valid_x stop ref chunk in
  binned_statistic (fun g => g) nbins 0 stop (map (fun t => Rabs (c_x ref - c_x t)) v) (map c_dx v).

Section Table.
Variable V : Type.
(** result_analysis.py L2813-2816: the array with one column for each bin; None is nan *)
Definition padded (groups : list (list V)) : list (list (option V)) :=
  map (fun k => map (fun g => nth_error g k) groups) (seq 0 (list_max (map (@length V) groups))).
(** result_analysis.py L2817-2821: the rows appended for the reference tracks, with the residual of the reference track in each row *)
Definition written (refs : list (V * list (list V))) : list (V * list (option V)) :=
  flat_map (fun p => map (fun row => (fst p, row)) (padded (snd p))) refs.
(** tools/plot_utils.py L2616-2629, one chunk: the finite residuals of the bin with the residuals of the reference tracks *)
Definition read_chunk (bin : nat) (rows : list (V * list (option V))) : list (V * V) :=
  flat_map (fun p => match nth bin (snd p) None with Some v => [(fst p, v)] | None => [] end) rows.
(** tools/plot_utils.py L2616-2629: the chunks of the file; [fuel] is the number of chunks np.arange(0, nrows, chunk_size) *)
Fixpoint read_chunks (bin chunk_size fuel : nat) (rows : list (V * list (option V))) : list (V * V) :=
  match fuel with
  | O => []
  | S fuel => read_chunk bin (firstn chunk_size rows) ++ read_chunks bin chunk_size fuel (skipn chunk_size rows)
  end.
(** tools/plot_utils.py L2611-2629 *)
Definition read_bin (bin chunk_size : nat) (rows : list (V * list (option V))) : list (V * V) :=
  read_chunks bin chunk_size ((length rows + chunk_size - 1) / chunk_size) rows.
End Table.

(** np.corrcoef(ref_res, res)[0, 1]; None is nan (a variance is zero) [for tools/plot_utils.py L2631] *)
Definition corrcoef (pairs : list (R * R)) : option R :=
  let x := map fst pairs in
  let y := map snd pairs in
  let vx := sum (map (fun v => (v - mean x) ^ 2) x) in
  let vy := sum (map (fun v => (v - mean y) ^ 2) y) in
  if Reqb vx 0 || Reqb vy 0 then None else Some (sum (map (fun p => (fst p - mean x) * (snd p - mean y)) pairs) / sqrt (vx * vy)).
(** tools/plot_utils.py L2636: sigma of a bin for curve_fit; the squared deviation of a bin has the weight 1 / sigma^2 *)
Definition sigma (count : nat) : R := sqrt (INR count).
(** the weight of a bin in curve_fit [for tools/plot_utils.py L2636] *)
Definition fit_weight (count : nat) : R := 1 / (sigma count) ^ 2.
