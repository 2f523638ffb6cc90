(** Model of the file of check_file (hit_analysis.py L249-422) and of its figures (tools/plot_utils.py plot_checks L630-666).
    Simplifications: the hits of a chunk are given as in CheckFileModel.v; which of several exceptions comes first is not modelled (any exception is None); event_range is a natural number;
    titles are lists of ASCII characters; of a figure the title and the drawn numbers are modelled, not the colours. *)
From Coq Require Import Ascii String List Arith ZArith Reals Bool.
From Verif Require Import GeometryModel FindTracksModel EventArraysModel CorrelateModel CheckFileModel CorrFileModel.
Import ListNotations.
Local Open Scope list_scope.

(** the data of a node: an array of one or of two dimensions [for hit_analysis.py L327-346, L396-417] *)
Inductive check_data := Numbers (l : list Z) | Pairs (h : hist).
(** a node of the file [for hit_analysis.py L327-346, L396-417] *)
Record check_node := CheckNode { c_name : string; c_title : list ascii; c_data : check_data }.

(** hit_analysis.py L365-376: event number and bins of the hits; None: exception of index_to_local_position *)
Fixpoint hits_of (s : sensor) (names : list string) (resolution : R * R) (rows : list krow) : option (list hit) :=
  match rows with
  | [] => Some []
  | r :: rows =>
      match position_of s names r, hits_of s names resolution rows with
      | Some p, Some l => Some (Hit (k_event r) (fst (indices_of s resolution p)) (snd (indices_of s resolution p)) :: l)
      | _, _ => None
      end
  end.
(** hit_analysis.py L348-384: all chunks *)
Fixpoint chunk_hits (s : sensor) (names : list string) (resolution : R * R) (chunks : list (list krow)) : option (list (list hit)) :=
  match chunks with
  | [] => Some []
  | c :: chunks => match hits_of s names resolution c, chunk_hits s names resolution chunks with Some h, Some l => Some (h :: l) | _, _ => None end
  end.
(** hit_analysis.py L315-417: the nodes which are written, in the order in which they are created; None: exception *)
Definition write_checks (s : sensor) (names : list string) (resolution : R * R) (event_range : nat) (chunks : list (list krow)) : option (list check_node) :=
  match check_file s names chunks, chunk_hits s names resolution chunks with
  | inr (delta, numbers), Some hits =>
      let '(nx, ny) := shape_of s resolution in
      match check_loop hits (Z.of_nat event_range) (zeros nx nx, zeros ny ny) with
      | Ok (hx, hy) =>
          Some [CheckNode "EventDelta" (chars "Change of event number per non empty event") (Numbers delta);
                CheckNode "EventNumber" (chars "Event number of non empty event") (Numbers numbers);
                CheckNode "CorrelationColumns" (chars "Column Correlation with event range=" ++ decimal event_range) (Pairs hx);
                CheckNode "CorrelationRows" (chars "Row Correlation with event range=" ++ decimal event_range) (Pairs hy)]
      | _ => None
      end
  | _, _ => None
  end.

(** a page: the line through the numbers, or the image of the transposed array [for tools/plot_utils.py L649-664] *)
Record check_page := CheckPage { p_title : list ascii; p_data : check_data }.
(** node[:] as one list [for tools/plot_utils.py L645-647] *)
Definition all_numbers (d : check_data) : list Z := match d with Numbers l => l | Pairs h => entries h end.
(** tools/plot_utils.py L644-666 *)
Definition plot_checks (nodes : list check_node) : list check_page :=
  flat_map (fun n => if forallb (fun v => (v <=? 0)%Z) (all_numbers (c_data n)) then [] else [CheckPage (c_title n) (c_data n)]) nodes.
(** ax.imshow(data.T, origin="lower"): the entry which is drawn at the point (x, y) of the axes; the pixels have size 1 and their centres are whole numbers [for tools/plot_utils.py L660] *)
Definition drawn_pair (h : hist) (x y : R) : option Z :=
  let i := Int_part (x + / 2)%R in
  let j := Int_part (y + / 2)%R in
  if ((0 <=? i) && (i <? rows h) && (0 <=? j) && (j <? columns h))%Z then Some (bin h i j) else None.
(** ax.plot(data, '-'): the points of the line [for tools/plot_utils.py L658] *)
Definition drawn_line (l : list Z) : list (nat * Z) := combine (seq 0 (length l)) l.
