(** Models the frames and labels of the efficiency regions on the two pages of efficiency_plots which show all regions: tools/plot_utils.py L1884-1932.
    Simplifications: numbers are rational, an efficiency which is not a number is None; names are ASCII as in FileNamesModel; the second line of the label is its number, the rounding to two decimals is not modelled; the map below is that of MapRangeModel. *)
From Coq Require Import Ascii String.
From Coq Require Import List Bool Arith QArith Qminmax Qabs.
From Verif Require Import FileNamesModel ConverterNamesModel.
Import ListNotations.

(** a region: the two ends along x and along y, in any order [for tools/plot_utils.py L1891] *)
Definition region : Type := (Q * Q) * (Q * Q).
(** orientation of a label [for tools/plot_utils.py L1896-1901] *)
Inductive rotation := Horizontal | Vertical.
(** frame and label of a region [for tools/plot_utils.py L1892-1902] *)
Record region_label := RegionLabel { frame_x : Q; frame_y : Q; frame_width : Q; frame_height : Q; text_x : Q; text_y : Q; text_rotation : rotation; heading : path; percent : option Q }.
(** (" (" + name + ")") if name else "" with 'Region %d%s:' [for tools/plot_utils.py L1894] *)
Definition region_heading (index : nat) (name : option path) : path :=
  (list_ascii_of_string "Region " ++ decimal (index + 1) ++ match name with Some (c :: r) => list_ascii_of_string " (" ++ (c :: r) ++ list_ascii_of_string ")" | _ => [] end ++ list_ascii_of_string ":")%list.
(** tools/plot_utils.py L1895-1901 *)
Definition label_rotation (r : region) : rotation :=
  let w0 := Qmax (fst (fst r)) (snd (fst r)) - Qmin (fst (fst r)) (snd (fst r)) in let w1 := Qmax (fst (snd r)) (snd (snd r)) - Qmin (fst (snd r)) (snd (snd r)) in
  if negb (Qle_bool w0 (w1 * 2)) then Horizontal else if negb (Qle_bool w1 (w0 * 2)) then Vertical else Horizontal.
(** tools/plot_utils.py L1892-1902, L1916-1926 *)
Definition label_of (index : nat) (r : region) (name : option path) (efficiency : option Q) : region_label :=
  RegionLabel (Qmin (fst (fst r)) (snd (fst r))) (Qmin (fst (snd r)) (snd (snd r))) (Qabs (snd (fst r) - fst (fst r))) (Qabs (snd (snd r) - fst (snd r)))
    ((fst (fst r) + snd (fst r)) / 2) ((fst (snd r) + snd (snd r)) / 2) (label_rotation r) (region_heading index name) (option_map (fun e => e * 100) efficiency).
(** the loop over the regions; None: IndexError of the names or of the efficiencies [for tools/plot_utils.py L1891-1902, L1915-1926] *)
Fixpoint region_labels (index : nat) (regions : list region) (names : list (option path)) (efficiencies : list (option Q)) : option (list region_label) :=
  match regions with
  | [] => Some []
  | r :: rs =>
      match nth_error names index, nth_error efficiencies index with
      | Some n, Some e => option_map (cons (label_of index r n e)) (region_labels (S index) rs names efficiencies)
      | _, _ => None
      end
  end.
(** tools/plot_utils.py L1884-1932: the labels of the two pages; no page without regions *)
Definition region_overview (regions : list region) (names : list (option path)) (efficiencies : list (option Q)) : option (list (list region_label)) :=
  match regions with [] => Some [] | _ => option_map (fun l => [l; l]) (region_labels 0 regions names efficiencies) end.
