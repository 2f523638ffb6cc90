(** Model of the arrays which result_analysis.calculate_residuals stores for each DUT: the selection of the tracks for the histograms (L83-125), the
    histograms of residuals against positions (L218-222, L229-233, L240-244, L251-255 and L265-312) and the nodes of the output file (L326-541).
    Simplifications: real numbers instead of doubles, nan is None; the edges of the histograms, which are calculated from the first chunk, are given (they are
    modelled in ResidualsModel and RunningMeanModel); the results of the fits are not part of the model, only which fit is called with what. *)
From Coq Require Import Ascii String List Arith Reals Bool.
From Verif Require Import GeometryModel RunningMeanModel ResidualsModel.
Import ListNotations.
Local Open Scope R_scope.
Local Open Scope list_scope.

(** L83-85: tracks with hit and chi2, with hit and intersection [for result_analysis.py L83-91] *)
Definition usable_tracks (chunk : list track) : list ((R * R) * (R * R)) :=
  flat_map (fun t => match hit t, track_chi2 t with Some h, Some _ => [(h, intersection t)] | _, _ => [] end) chunk.
(** result_analysis.py L94-98 *)
Definition limit_x_sel (limit_x : limits) (t : (R * R) * (R * R)) : bool := in_limits limit_x (fst (fst t)).
(** result_analysis.py L100-104 *)
Definition limit_y_sel (limit_y : limits) (t : (R * R) * (R * R)) : bool := in_limits limit_y (snd (fst t)).
(** column 0 or 1 of hit - intersection [for result_analysis.py L123-125] *)
Definition difference (column : nat) (t : (R * R) * (R * R)) : R :=
  match column with O => fst (fst t) - fst (snd t) | _ => snd (fst t) - snd (snd t) end.

(** np.histogram: number of values in each bin [for result_analysis.py L181, L204, L264-265] *)
Definition hist1d (edges : list R) (v : list R) : list nat :=
  map (fun j => length (filter (in_bin edges j) v)) (seq 0 (n_edge_bins edges)).
(** np.histogram2d [for result_analysis.py L219-222] *)
Definition hist2d (xedges yedges : list R) (v : list (R * R)) : list (list nat) :=
  map (fun i => map (fun j => length (filter (fun p => in_bin xedges i (fst p) && in_bin yedges j (snd p)) v)) (seq 0 (n_edge_bins yedges))) (seq 0 (n_edge_bins xedges)).
(** hist += hist of the chunk [for result_analysis.py L264-312] *)
Definition add1d (h g : list nat) : list nat := map (fun p => (fst p + snd p)%nat) (combine h g).
(** result_analysis.py L264-312 *)
Definition add2d (h g : list (list nat)) : list (list nat) := map (fun p => add1d (fst p) (snd p)) (combine h g).
(** first chunk and the others; None: RuntimeError without chunk [for result_analysis.py L128-317] *)
Definition over_chunks {H C} (make : C -> H) (add : H -> H -> H) (chunks : list C) : option H :=
  match chunks with [] => None | c :: cs => Some (fold_left (fun h c => add h (make c)) cs (make c)) end.

(** the edges of a DUT: of the residuals and of the positions in x and y [for result_analysis.py L134-211] *)
Record edges := Edges { res_x : list R; res_y : list R; pos_x : list R; pos_y : list R }.
(** the entries of the six histograms of a chunk, L181, L204, L219-255 [for result_analysis.py L181-255] *)
Definition x_residuals (lx ly : limits) (c : list track) : list R := map (difference 0) (filter (fun t => limit_x_sel lx t && limit_y_sel ly t) (usable_tracks c)).
(** result_analysis.py L204 *)
Definition y_residuals (lx ly : limits) (c : list track) : list R := map (difference 1) (filter (fun t => limit_x_sel lx t && limit_y_sel ly t) (usable_tracks c)).
(** result_analysis.py L219-222: intersection_x_local_limit_y, difference_local_limit_y[:, 0] *)
Definition x_residuals_x_pos (ly : limits) (c : list track) : list (R * R) := map (fun t => (fst (snd t), difference 0 t)) (filter (limit_y_sel ly) (usable_tracks c)).
(** result_analysis.py L230-233: intersection_y_local_limit_x, difference_local_limit_x[:, 1] *)
Definition y_residuals_y_pos (lx : limits) (c : list track) : list (R * R) := map (fun t => (snd (snd t), difference 1 t)) (filter (limit_x_sel lx) (usable_tracks c)).
(** result_analysis.py L241-244: intersection_x_local_limit_y, difference_local_limit_y[:, 1] *)
Definition y_residuals_x_pos (ly : limits) (c : list track) : list (R * R) := map (fun t => (fst (snd t), difference 1 t)) (filter (limit_y_sel ly) (usable_tracks c)).
(** result_analysis.py L252-255: intersection_y_local_limit_x, difference_local_limit_x[:, 0] *)
Definition x_residuals_y_pos (lx : limits) (c : list track) : list (R * R) := map (fun t => (snd (snd t), difference 0 t)) (filter (limit_x_sel lx) (usable_tracks c)).

(** the fit of a histogram: Gauss, Gauss with box of the pixel size, or line in the limit of the position [for result_analysis.py L326-493] *)
Inductive fit_call := Gauss | GaussBox (w : R) | Line (limit : limits).
(** result_analysis.py L326-334, L359-367 *)
Definition residual_fit (pixel_size : R) : fit_call := if Rltb pixel_size 80 then Gauss else GaussBox pixel_size.
(** a carray with its attributes; a histogram of one dimension has one row here [for result_analysis.py L344-541] *)
Record node := Node { node_name : string; node_dut : nat; data : list (list nat); x_edges : option (list R); y_edges : option (list R); fit : fit_call }.
(** result_analysis.py L326-541: the nodes of a DUT in the order in which they are created *)
Definition dut_nodes (dut : nat) (column_size row_size : R) (lx ly : limits) (e : edges) (chunks : list (list track)) : option (list node) :=
  match over_chunks (fun c => hist1d (res_x e) (x_residuals lx ly c)) add1d chunks,
        over_chunks (fun c => hist1d (res_y e) (y_residuals lx ly c)) add1d chunks,
        over_chunks (fun c => hist2d (pos_x e) (res_x e) (x_residuals_x_pos ly c)) add2d chunks,
        over_chunks (fun c => hist2d (pos_y e) (res_y e) (y_residuals_y_pos lx c)) add2d chunks,
        over_chunks (fun c => hist2d (pos_x e) (res_y e) (y_residuals_x_pos ly c)) add2d chunks,
        over_chunks (fun c => hist2d (pos_y e) (res_x e) (x_residuals_y_pos lx c)) add2d chunks with
  | Some hx, Some hy, Some hxx, Some hyy, Some hyx, Some hxy =>
      Some [ Node "local_x_residuals" dut [hx] (Some (res_x e)) None (residual_fit column_size);
             Node "local_y_residuals" dut [hy] None (Some (res_y e)) (residual_fit row_size);
             Node "local_x_residuals_x_pos" dut hxx (Some (pos_x e)) (Some (res_x e)) (Line lx);
             Node "local_y_residuals_y_pos" dut hyy (Some (pos_y e)) (Some (res_y e)) (Line ly);
             Node "local_y_residuals_x_pos" dut hyx (Some (pos_x e)) (Some (res_y e)) (Line lx);
             Node "local_x_residuals_y_pos" dut hxy (Some (pos_y e)) (Some (res_x e)) (Line ly) ]
  | _, _, _, _, _, _ => None
  end.
(** create_carray: a node with the same name exists already: NodeError (None) [for result_analysis.py L344-541] *)
Fixpoint create_nodes (file : list node) (new : list node) : option (list node) :=
  match new with
  | [] => Some file
  | n :: t => if existsb (fun m => String.eqb (node_name m) (node_name n) && Nat.eqb (node_dut m) (node_dut n)) file then None else create_nodes (file ++ [n]) t
  end.
(** what a DUT is: sizes of a pixel, limits, edges and the chunks of its tracks; use_limits [for result_analysis.py L66-82] *)
Record residual_dut := ResidualDut { d_column_size : R; d_row_size : R; d_x_limit : limits; d_y_limit : limits; d_edges : edges; d_chunks : list (list track) }.
(** result_analysis.py L66-541; None: exception *)
Fixpoint residuals_file (use_limits : bool) (telescope : nat -> residual_dut) (file : list node) (select_duts : list nat) : option (list node) :=
  match select_duts with
  | [] => Some file
  | d :: select =>
      let dut := telescope d in
      let lx := if use_limits then d_x_limit dut else None in
      let ly := if use_limits then d_y_limit dut else None in
      match dut_nodes d (d_column_size dut) (d_row_size dut) lx ly (d_edges dut) (d_chunks dut) with
      | None => None
      | Some nodes => match create_nodes file nodes with None => None | Some file => residuals_file use_limits telescope file select end
      end
  end.
