(** Model of the figures of effective pixels of tools/plot_utils.py efficiency_plots (L1364-1461, L1524).
    Simplifications: real numbers instead of doubles; a map is the list of its bins (np.ravel), a bin has its centre, the mean residuals and the number of tracks with hit (bins with hits have mean
    residuals); cKDTree.query is any function (hypotheses in the Props file); int8 is not modelled for the colours, since their numbers are below 100; colours are numbers. *)
From Coq Require Import List Arith ZArith Reals Bool.
Import ListNotations.
Local Open Scope list_scope.

(** a bin of the maps [for tools/plot_utils.py L1370-1373, L1395-1397] *)
Record map_bin := MapBin { m_centre : R * R; m_residual : R * R; m_hits : nat }.
(** x_meshgrid + stat_2d_x_residuals_hist, and the same for y [for tools/plot_utils.py L1396-1398] *)
Definition moved (b : map_bin) : R * R := (fst (m_centre b) + fst (m_residual b), snd (m_centre b) + snd (m_residual b))%R.
(** a selected bin: its index, and the pixels which are found for the moved centre and for the centre [for tools/plot_utils.py L1395-1403] *)
Record sel_bin := SelBin { b_index : nat; b_moved : nat; b_centre : nat }.
(** tools/plot_utils.py L1395-1403 *)
Definition selected (query : R * R -> nat) (bins : list map_bin) : list sel_bin :=
  map (fun p => SelBin (fst p) (query (moved (snd p))) (query (m_centre (snd p)))) (filter (fun p => 0 <? m_hits (snd p)) (combine (seq 0 (length bins)) bins)).

(** color_index, color_index_array and effective_pixels_2d [for tools/plot_utils.py L1415-1418] *)
Record state := State { color_index : nat; colours : list Z; effective : nat -> Z }.
(** indexing of an array, where -1 is the last element [for tools/plot_utils.py L1432, L1450] *)
Definition at_index (l : list Z) (i : Z) : Z := nth (Z.to_nat (if (i <? 0)%Z then Z.of_nat (length l) + i else i)%Z) l 0%Z.
(** tools/plot_utils.py L1425, L1430-1432 *)
Definition other_colours (sel : list sel_bin) (s : state) (p : nat) : list Z := map (fun b => at_index (colours s) (effective s (b_index b))) (filter (fun b => b_centre b =? p) sel).
(** tools/plot_utils.py L1434-1437: at most num_colors - 1 repetitions *)
Fixpoint next_colour (k repeats : nat) (others : list Z) (c : nat) : nat :=
  match repeats with 0 => c | S r => if existsb (Z.eqb (Z.of_nat (c mod k))) others then next_colour k r others (S c) else c end.
(** array[i] = v [for tools/plot_utils.py L1440] *)
Definition set_nth (i : nat) (v : Z) (l : list Z) : list Z := firstn i l ++ match skipn i l with [] => [] | _ :: t => v :: t end.
(** tools/plot_utils.py L1422-1442: one pixel *)
Definition step (k : nat) (sel : list sel_bin) (s : state) (p : nat) : state :=
  let c := next_colour k (k - 1) (other_colours sel s p) (color_index s) in
  State (S c) (set_nth p (Z.of_nat (c mod k)) (colours s)) (fun i => if existsb (fun b => (b_moved b =? p) && (b_index b =? i)) sel then Z.of_nat p else effective s i).
(** tools/plot_utils.py L1415-1442: all pixels *)
Definition effective_pixels (k n : nat) (sel : list sel_bin) : state := fold_left (step k sel) (seq 0 n) (State 0 (repeat (-1)%Z n) (fun _ => (-1)%Z)).
(** tools/plot_utils.py L1450-1451: the colour of a bin; None: masked *)
Definition shown_colour (s : state) (i : nat) : option Z := if (effective s i =? -1)%Z then None else Some (at_index (colours s) (effective s i)).
(** tools/plot_utils.py L1425-1426 and L1446-1447: np.count_nonzero of the positions of the bins of a pixel in the list of selected bins, as uint16; the marker is drawn if it is not 0 *)
Definition marker_count (sel : list sel_bin) (p : nat) : nat :=
  length (filter (fun e => (b_centre (snd e) =? p) && negb (fst e =? 0)) (combine (seq 0 (length sel)) sel)) mod (2 ^ 16).
(** tools/plot_utils.py L1446-1447: the pixels with marker and the colours of the markers *)
Definition markers (k n : nat) (sel : list sel_bin) : list (nat * Z) :=
  map (fun p => (p, nth p (colours (effective_pixels k n sel)) 0%Z)) (filter (fun p => negb (marker_count sel p =? 0)) (seq 0 n)).

(** what is saved: the figure of the residuals and the figure of the effective pixels (colours of the bins, markers) [for tools/plot_utils.py L1364-1459] *)
Inductive figure := Arrows | Effective (bins : list (option Z)) (marks : list (nat * Z)).
(** An object which is indexed: an array, or a module, which raises TypeError (None) [for tools/plot_utils.py L22, L1450, L1524] *)
Inductive indexed := OfArray (l : list Z) | OfModule.
(** tools/plot_utils.py L1450, L1524 *)
Definition index_object (o : indexed) (is : list Z) : option (list Z) := match o with OfArray l => Some (map (at_index l) is) | OfModule => None end.
(** tools/plot_utils.py L1361-1535: the saved figures, and whether an exception is raised; with the hits of the pixels (count_pixel_hits_2d_hist, given if there are files of clusters) the third figure
    takes its colours from colors, which is the module imported at L22. [pixels] are the effective pixels of the bins by the numbers of hits. *)
Definition effective_figures (k n : nat) (query : R * R -> nat) (bins : list map_bin) (pixels : option (list Z)) : list figure * bool :=
  if (10 ^ 5 <? Z.of_nat n)%Z then ([], false)
  else
    let sel := selected query bins in
    let s := effective_pixels k n sel in
    let figures := [Arrows; Effective (map (shown_colour s) (seq 0 (length bins))) (markers k n sel)] in
    match pixels with
    | None => (figures, false)
    | Some l =>
        match index_object OfModule l with
        | None => (figures, true)
        | Some c => (figures ++ [Effective (map (fun p => if (fst p =? -1)%Z then None else Some (snd p)) (combine l c)) []], false)
        end
    end.
