(** Model of the file of correlate (hit_analysis.py L1268-1468) for several reference DUTs, and of its figures (tools/plot_utils.py plot_correlations L537-594).
    Simplifications: DUTs are natural numbers (negative numbers are rejected at L1278); a hit is its event number and its bins, as in CorrelateModel.v; real numbers instead of doubles; an exception is None; the order of the
    elements of a set is that of their first occurrence; the singular value decomposition is not modelled: its result is any array of integers; names are lists of ASCII characters. *)
From Coq Require Import Ascii String List Arith ZArith Reals Bool.
From Verif Require Import EventArraysModel GeometryModel FindTracksModel QueryModel FitTracksModel Chi2PlotModel CorrelateModel.
Import ListNotations.
Local Open Scope R_scope.
Local Open Scope list_scope.

(** one axis of a DUT: translation, lower and upper end of the extent [for hit_analysis.py L1313-1336] *)
Record axis := Axis { centre : R; low : R; high : R }.
(** a DUT: x and y axis *)
Record plane := Plane { axis_x : axis; axis_y : axis }.
(** hit_analysis.py L1324-1336: the bins of the histogram along an axis *)
Definition axis_bins (a : axis) (resolution : R) : Z := n_bins (low a) (high a) resolution.
(** hit_analysis.py L1324-1336: the range of the histogram *)
Definition axis_extent (a : axis) (resolution : R) : R * R :=
  (lower_edge (centre a) (low a) (high a) resolution, centre a + IZR (axis_bins a resolution) * resolution / 2).

(** select_reference_duts: None, a list (or tuple) or a number [for hit_analysis.py L1287-1292] *)
Inductive references := AllDuts | References (l : list nat) | Reference (d : nat).
(** hit_analysis.py L1287-1292 *)
Definition ref_duts (select_duts : list nat) (r : references) : list nat :=
  match r with AllDuts => select_duts | References l => l | Reference d => [d] end.
(** hit_analysis.py L1272-1282; None: ValueError.  max of an empty list is a ValueError as well *)
Definition selected_duts (n_duts n_files : nat) (select_duts : option (list nat)) : option (list nat) :=
  let l := match select_duts with Some l => l | None => seq 0 n_duts end in
  match l with
  | [] => None
  | _ => if existsb (fun d => (n_duts <? d)%nat) l then None else if (length l =? n_files)%nat then Some l else None
  end.
(** np.where(dut_index == np.array(select_duts))[0][0]; None: IndexError [for hit_analysis.py L1296, L1312, L1363] *)
Fixpoint file_index (d : nat) (select_duts : list nat) : option nat :=
  match select_duts with [] => None | e :: l => if (e =? d)%nat then Some O else option_map S (file_index d l) end.

(** a stored histogram: name, resolution, extents of reference and DUT, entries [for hit_analysis.py L1395-1463] *)
Record stored := Stored { s_name : list ascii; s_resolution : R; s_ref_extent : R * R; s_dut_extent : R * R; s_hist : hist }.
(** 'Correlation_x_%d_%d' and 'Correlation_x_%d_%d_reduced_background' [for hit_analysis.py L1397, L1410, L1425, L1438] *)
Definition corr_name (x reduced : bool) (ref dut : nat) : list ascii :=
  chars "Correlation_" ++ chars (if x then "x" else "y") ++ chars "_" ++ decimal ref ++ chars "_" ++ decimal dut ++ chars (if reduced then "_reduced_background" else "").
(** all entries of an array, row by row [for hit_analysis.py L1456-1461] *)
Definition entries (h : hist) : list Z := flat_map (fun i => map (fun j => bin h (Z.of_nat i) (Z.of_nat j)) (seq 0 (Z.to_nat (columns h)))) (seq 0 (Z.to_nat (rows h))).
(** correlation.min(); None: ValueError of an empty array [for hit_analysis.py L1461] *)
Definition minimum (l : list Z) : option Z := match l with [] => None | a :: l => Some (fold_left Z.min l a) end.
(** hit_analysis.py L1456-1461: one histogram, [background] is the truncated product of the first singular vectors *)
Definition reduce (background : Z -> Z -> Z) (h : hist) : option hist :=
  let without := Hist (rows h) (columns h) (fun i j => wrap32 (bin h i j - background i j)) in
  match minimum (entries without) with
  | None => None
  | Some m => Some (Hist (rows h) (columns h) (fun i j => wrap32 (bin without i j - m)))
  end.

Section Correlate.
  (** the configuration: DUTs, input files, resolution, chunk size, and the backgrounds [for hit_analysis.py L1244-1468] *)
  Variables (telescope : list plane) (files : list (list hit)) (res_x res_y : R) (chunk_size : nat) (background : hist -> Z -> Z -> Z).

  (** hit_analysis.py L1310-1384: the two histograms of a DUT; None: IndexError or an exception of _correlate_position *)
  Definition pair_hists (select_duts : list nat) (ref dut : nat) : option hists :=
    match nth_error telescope ref, nth_error telescope dut, file_index ref select_duts, file_index dut select_duts with
    | Some r, Some d, Some rf, Some df =>
        match correlate chunk_size (nth rf files []) (nth df files []) (zeros (axis_bins (axis_x d) res_x) (axis_bins (axis_x r) res_x), zeros (axis_bins (axis_y d) res_y) (axis_bins (axis_y r) res_y)) with
        | Ok hs => Some hs
        | _ => None
        end
    | _, _, _, _ => None
    end.
  (** hit_analysis.py L1392-1463: the four nodes of a DUT *)
  Definition pair_nodes (ref dut : nat) (hs : hists) : option (list stored) :=
    match nth_error telescope ref, nth_error telescope dut, reduce (background (fst hs)) (fst hs), reduce (background (snd hs)) (snd hs) with
    | Some r, Some d, Some rx, Some ry =>
        let node x reduced h := Stored (corr_name x reduced ref dut) (if x then res_x else res_y) (if x then axis_extent (axis_x r) res_x else axis_extent (axis_y r) res_y)
          (if x then axis_extent (axis_x d) res_x else axis_extent (axis_y d) res_y) h in
        Some [node true false (fst hs); node false false (snd hs); node true true rx; node false true ry]
    | _, _, _, _ => None
    end.
  (** create_carray; None: NodeError [for hit_analysis.py L1395-1447] *)
  Definition create (file : list stored) (n : stored) : option (list stored) :=
    if existsb (fun m => if list_eq_dec ascii_dec (s_name m) (s_name n) then true else false) file then None else Some (file ++ [n]).
  (** several nodes [for hit_analysis.py L1392-1463] *)
  Fixpoint create_all (file : list stored) (ns : list stored) : option (list stored) :=
    match ns with [] => Some file | n :: ns => match create file n with Some file => create_all file ns | None => None end end.
  (** hit_analysis.py L1306-1463: the other DUTs of one reference *)
  Fixpoint dut_loop (select_duts : list nat) (ref : nat) (duts : list nat) (file : list stored) : option (list stored) :=
    match duts with
    | [] => Some file
    | d :: duts =>
        match pair_hists select_duts ref d with
        | None => None
        | Some hs =>
            match pair_nodes ref d hs with
            | None => None
            | Some ns => match create_all file ns with Some file => dut_loop select_duts ref duts file | None => None end
            end
        end
    end.
  (** hit_analysis.py L1295-1463: all references *)
  Fixpoint ref_loop (select_duts : list nat) (refs : list nat) (file : list stored) : option (list stored) :=
    match refs with
    | [] => Some file
    | r :: refs =>
        match file_index r select_duts, nth_error telescope r with
        | Some _, Some _ =>
            match dut_loop select_duts r (nodup Nat.eq_dec (set_minus select_duts r)) file with Some file => ref_loop select_duts refs file | None => None end
        | _, _ => None
        end
    end.
  (** hit_analysis.py L1268-1463 *)
  Definition correlate_file (select_duts : option (list nat)) (r : references) : option (list stored) :=
    match selected_duts (length telescope) (length files) select_duts with
    | None => None
    | Some l => ref_loop l (ref_duts l r) []
    end.
End Correlate.

(** *** tools/plot_utils.py L537-594 *)
(** text in node.name [for tools/plot_utils.py L562, L566] *)
Fixpoint starts_with (p s : list ascii) : bool :=
  match p, s with [], _ => true | a :: p, b :: s => Ascii.eqb a b && starts_with p s | _, [] => false end.
(** text in node.name [for tools/plot_utils.py L562, L566] *)
Fixpoint contains (p s : list ascii) : bool := starts_with p s || match s with [] => false | _ :: s => contains p s end.
(** a page: direction, reduced background, names of reference and DUT, the array and its extents; the image is drawn from the transposed array [for tools/plot_utils.py L560-594] *)
Record page := Page { p_x : bool; p_reduced : bool; p_ref : list ascii; p_dut : list ascii; p_data : hist; p_dut_extent : R * R; p_ref_extent : R * R }.
(** tools/plot_utils.py L559-561: ref_index and dut_index; None: IndexError, which is not handled by "except AttributeError" *)
Definition pair_of_name (name : list ascii) : option (nat * nat) := match digit_runs [] name with a :: b :: _ => Some (int_of a, int_of b) | _ => None end.
(** dut_names[i] if dut_names else "DUT" + str(i); an empty list counts as None; None: IndexError [for tools/plot_utils.py L587-588] *)
Definition name_of (dut_names : option (list (list ascii))) (i : nat) : option (list ascii) :=
  match dut_names with Some (n :: l) => nth_error (n :: l) i | _ => Some (chars "DUT" ++ decimal i) end.
(** tools/plot_utils.py L556-594: all nodes; None: IndexError *)
Fixpoint plot_correlations (dut_names : option (list (list ascii))) (nodes : list stored) : option (list page) :=
  match nodes with
  | [] => Some []
  | n :: nodes =>
      match pair_of_name (s_name n) with
      | None => None
      | Some (r, d) =>
          if forallb (fun v => (v <=? 0)%Z) (entries (s_hist n)) then plot_correlations dut_names nodes
          else
            match name_of dut_names d, name_of dut_names r with
            | Some nd, Some nr =>
                match plot_correlations dut_names nodes with
                | Some ps => Some (Page (contains (chars "Correlation_x") (s_name n)) (contains (chars "background") (s_name n)) nr nd (s_hist n) (s_dut_extent n) (s_ref_extent n) :: ps)
                | None => None
                end
            | _, _ => None
            end
      end
  end.
(** ax.imshow(data.T, origin="lower", extent=[dut, ref]): the entry which is drawn at the point (x, y) of the axes [for tools/plot_utils.py L586] *)
Definition drawn (p : page) (x y : R) : option Z :=
  let i := Int_part ((x - fst (p_dut_extent p)) / (snd (p_dut_extent p) - fst (p_dut_extent p)) * IZR (rows (p_data p))) in
  let j := Int_part ((y - fst (p_ref_extent p)) / (snd (p_ref_extent p) - fst (p_ref_extent p)) * IZR (columns (p_data p))) in
  if ((0 <=? i) && (i <? rows (p_data p)) && (0 <=? j) && (j <? columns (p_data p)))%Z then Some (bin (p_data p) i j) else None.
