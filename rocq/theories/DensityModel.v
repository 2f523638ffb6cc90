(** Model of tools/plot_utils.py: plot_track_density (L1049-1111) and plot_charge_distribution (L1130-1215), with the placing of an image on the axes (L64-83, L100).
    Simplifications: real numbers instead of doubles, nan is None; the colour scale (of charges: of their median) is not modelled; of the titles only the DUT and the number are modelled; an exception
    is None, also if some pictures have been saved before.  A position which is nan is in no bin (stats.binned_statistic_2d of the versions of scipy which accept it). *)
From Coq Require Import List Arith ZArith Reals Bool.
From Verif Require Import GeometryModel PrealignModel RunningMeanModel ChunksModel.
Import ListNotations.
Local Open Scope R_scope.

(** a row of Tracks_DUTn: event_number, x_dut_n and y_dut_n (None: no hit), offset_x and offset_y, charge_dut_n (None: nan) [for tools/plot_utils.py L1065-1066, L1145-1147] *)
Record row := Row { row_event : Z; row_hit : option (R * R); row_offset : R * R; row_charge : option R }.
(** tools/plot_utils.py L1062, L1142: the chunks of the table; None: ValueError of data_aligned_at_events *)
Definition row_chunks (chunk_size : nat) (rows : list row) : option (list (list row)) :=
  match data_aligned_at_events row_event rows (Params None None None None chunk_size false true true) with
  | (ys, GenDone) => Some (map fst ys)
  | _ => None
  end.

(** an array of two dimensions *)
Record array (A : Type) := Array { a_columns : nat; a_rows : nat; entry : nat -> nat -> A }.
Arguments Array {A}. Arguments a_columns {A}. Arguments a_rows {A}. Arguments entry {A}.
(** np.abs(np.diff(extent))[0] [for tools/plot_utils.py L1071-1072, L1159-1160] *)
Definition extent_size (e : R * R) : R := Rabs (snd e - fst e).
(** tools/plot_utils.py L1073-1074, L1161-1162 *)
Definition pixel_edges (size : R) (n : nat) : list R := linspace (- size / 2) (size / 2) (n + 1).
(** a bin of stats.binned_statistic_2d [for tools/plot_utils.py L1077-1081, L1165-1182] *)
Definition in_cell (xedges yedges : list R) (i j : nat) (p : option (R * R)) : bool :=
  match p with Some (x, y) => in_bin xedges i x && in_bin yedges j y | None => false end.

(** the variables of a DUT, which outlive the iteration: sizes and the two histograms [for tools/plot_utils.py L1056-1091, L1136-1194] *)
Record vars (A : Type) := Vars { v_x_size : R; v_y_size : R; v_tracks : array A; v_hits : array A }.
Arguments Vars {A}. Arguments v_x_size {A}. Arguments v_y_size {A}. Arguments v_tracks {A}. Arguments v_hits {A}.

(** stats.binned_statistic_2d(statistic='count') [for tools/plot_utils.py L1077-1081] *)
Definition count_array (xedges yedges : list R) (positions : list (option (R * R))) : array nat :=
  Array (n_edge_bins xedges) (n_edge_bins yedges) (fun i j => length (filter (in_cell xedges yedges i j) positions)).
(** hist += [for tools/plot_utils.py L1080-1081] *)
Definition add_array (a b : array nat) : array nat := Array (a_columns a) (a_rows a) (fun i j => (entry a i j + entry b i j)%nat).
(** tools/plot_utils.py L1061-1081; None: no chunk, nothing is assigned *)
Definition density_vars (s : sensor) (chunks : list (list row)) : option (vars nat) :=
  match chunks with
  | [] => None
  | c :: cs =>
      let x := extent_size (x_extent s) in
      let y := extent_size (y_extent s) in
      let count := count_array (pixel_edges x (n_columns s)) (pixel_edges y (n_rows s)) in
      let all f := fold_left (fun a c => add_array a (count (map f c))) cs (count (map f c)) in
      Some (Vars x y (all (fun r => Some (row_offset r))) (all row_hit))
  end.

(** tools/plot_utils.py L1149-1154: position and charge of the rows with a charge *)
Definition charged {P} (f : row -> P) (c : list row) : list (P * R) :=
  flat_map (fun r => match row_charge r with Some q => [(f r, q)] | None => [] end) c.
(** tools/plot_utils.py L1141-1188: mean charge (None: masked) and number of entries of each pixel; None: no chunk, nothing is assigned *)
Definition charge_vars (s : sensor) (chunks : list (list row)) : option (vars (option R * R)) :=
  match chunks with
  | [] => None
  | _ :: _ =>
      let x := extent_size (x_extent s) in
      let y := extent_size (y_extent s) in
      let xedges := pixel_edges x (n_columns s) in
      let yedges := pixel_edges y (n_rows s) in
      let all f := Array (n_edge_bins xedges) (n_edge_bins yedges)
        (fun i j => match final (in_cell xedges yedges i j) (map (charged f) chunks) with Some v => v | None => (None, 0) end) in
      Some (Vars x y (all (fun r => Some (row_offset r))) (all row_hit))
  end.

(** a page: DUT and number of the title, image (transposed: first index is the row; None: masked), left, right, bottom and top of the image [for tools/plot_utils.py L1093-1111, L1197-1215] *)
Record picture := Picture { p_dut : nat; p_number : R; p_rows : nat; p_columns : nat; p_image : nat -> nat -> option R; p_extent : R * R * R * R }.
(** np.sum of an array [for tools/plot_utils.py L1090-1091, L1191-1192] *)
Definition total {A} (weight : A -> R) (a : array A) : R := sum (map (fun i => sum (map (fun j => weight (entry a i j)) (seq 0 (a_rows a)))) (seq 0 (a_columns a))).
(** plot_2d_map(hist2d=hist.T, plot_range=[-x / 2, x / 2, y / 2, -y / 2], title with DUT and number) [for tools/plot_utils.py L1093-1111, L1197-1215] *)
Definition page {A} (shown : A -> option R) (weight : A -> R) (d : nat) (v : vars A) (a : array A) : picture :=
  Picture d (total weight a) (a_rows a) (a_columns a) (fun j i => shown (entry a i j)) (- v_x_size v / 2, v_x_size v / 2, v_y_size v / 2, - v_y_size v / 2).
(** np.ma.masked_equal(hist, 0) [for tools/plot_utils.py L1084-1085] *)
Definition not_zero (n : nat) : option R := match n with O => None | S _ => Some (INR n) end.
(** tools/plot_utils.py L1083-1111: the sum of an array which is completely masked is np.ma.masked, which cannot be formatted with %d (MaskError, None) *)
Definition density_pages (d : nat) (v : vars nat) : option (list picture) :=
  if Reqb (total INR (v_tracks v)) 0 || Reqb (total INR (v_hits v)) 0 then None
  else Some [page not_zero INR d v (v_tracks v); page not_zero INR d v (v_hits v)].
(** tools/plot_utils.py L1186-1215: the counts are not masked *)
Definition charge_pages (d : nat) (v : vars (option R * R)) : option (list picture) :=
  Some [page fst snd d v (v_tracks v); page fst snd d v (v_hits v)].

Section Plots.
  Context {A : Type} (vars_of : sensor -> list (list row) -> option (vars A)) (pages : nat -> vars A -> option (list picture)).
  (** tools/plot_utils.py L1056-1111, L1136-1215: [v] are the variables of the DUT before.  None: no node for the DUT, ValueError of the chunks, UnboundLocalError, or exception of the pages *)
  Fixpoint plot_duts (telescope : nat -> sensor) (file : nat -> option (list row)) (chunk_size : nat) (v : option (vars A)) (select_duts : list nat) : option (list picture) :=
    match select_duts with
    | [] => Some []
    | d :: ds =>
        match file d with
        | None => None
        | Some rows =>
            match row_chunks chunk_size rows with
            | None => None
            | Some chunks =>
                match (match vars_of (telescope d) chunks with Some w => Some w | None => v end) with
                | None => None
                | Some w =>
                    match pages d w, plot_duts telescope file chunk_size (Some w) ds with Some p, Some q => Some (p ++ q) | _, _ => None end
                end
            end
        end
    end.
End Plots.
(** tools/plot_utils.py L1049-1111 *)
Definition plot_track_density (telescope : nat -> sensor) (file : nat -> option (list row)) (chunk_size : nat) (select_duts : list nat) : option (list picture) :=
  plot_duts density_vars density_pages telescope file chunk_size None select_duts.
(** tools/plot_utils.py L1130-1215 *)
Definition plot_charge_distribution (telescope : nat -> sensor) (file : nat -> option (list row)) (chunk_size : nat) (select_duts : list nat) : option (list picture) :=
  plot_duts charge_vars charge_pages telescope file chunk_size None select_duts.

(** ax.imshow(image, origin='lower', extent=(left, right, bottom, top)): the entry [0, 0] is at the corner (left, bottom), the entries have the same size; the value which is
    drawn at the point (x, y) of the axes [for tools/plot_utils.py L100] *)
Definition drawn_at (p : picture) (x y : R) : option R :=
  match p_extent p with
  | (x0, x1, y0, y1) =>
      let i := Int_part ((x - x0) / (x1 - x0) * INR (p_columns p)) in
      let j := Int_part ((y - y0) / (y1 - y0) * INR (p_rows p)) in
      if ((0 <=? i) && (i <? Z.of_nat (p_columns p)) && (0 <=? j) && (j <? Z.of_nat (p_rows p)))%Z then p_image p (Z.to_nat j) (Z.to_nat i) else None
  end.
