(** Model of the bit tricks of analysis_utils and of the cluster shape calculation.
    Sources: tools/analysis_utils.py L986-1061, hit_analysis.py L889-936. *)
From Coq Require Import ZArith List Bool.
Import ListNotations.
Open Scope Z_scope.

(** tools/analysis_utils.py L986-1004.  All intermediate values are below 2^64, so the 64 bit
    arithmetic of numba is exact and modelled on Z. *)
Definition spread_bits (x : Z) : Z :=
  let x := Z.land (Z.lor x (Z.shiftl x 16)) 0x0000FFFF0000FFFF in
  let x := Z.land (Z.lor x (Z.shiftl x 8)) 0x00FF00FF00FF00FF in
  let x := Z.land (Z.lor x (Z.shiftl x 4)) 0x0F0F0F0F0F0F0F0F in
  let x := Z.land (Z.lor x (Z.shiftl x 2)) 0x3333333333333333 in
  Z.land (Z.lor x (Z.shiftl x 1)) 0x5555555555555555.

(** tools/analysis_utils.py L986-1004 *)
Definition xy2d_morton (x y : Z) : Z :=
  Z.lor (spread_bits x) (Z.shiftl (spread_bits y) 1).

(** tools/analysis_utils.py L1007-1015 *)
Definition morton_1 (x : Z) : Z :=
  let x := Z.land x 0x5555555555555555 in
  let x := Z.land (Z.lor x (Z.shiftr x 1)) 0x3333333333333333 in
  let x := Z.land (Z.lor x (Z.shiftr x 2)) 0x0F0F0F0F0F0F0F0F in
  let x := Z.land (Z.lor x (Z.shiftr x 4)) 0x00FF00FF00FF00FF in
  let x := Z.land (Z.lor x (Z.shiftr x 8)) 0x0000FFFF0000FFFF in
  Z.land (Z.lor x (Z.shiftr x 16)) 0xFFFFFFFFFFFFFFFF.

(** tools/analysis_utils.py L1018-1024 *)
Definition d2xy_morton (d : Z) : Z * Z := (morton_1 d, morton_1 (Z.shiftr d 1)).

(** Indices of an 8x8 array in the order of np.nonzero (row-major). [for tools/analysis_utils.py L1027-1035] *)
Definition range8 : list Z := [0; 1; 2; 3; 4; 5; 6; 7].
(** tools/analysis_utils.py L1027-1035 *)
Definition indices8x8 : list (Z * Z) := list_prod range8 range8.

(** tools/analysis_utils.py L1027-1035; the 8x8 boolean array is a function of the two indices.
    Simplification: the sum is modelled as uint64 arithmetic (declared type of cluster_shape);
    how numba types the power 2**n is not modelled. *)
Definition calculate_cluster_shape (arr : Z -> Z -> bool) : Z :=
  fold_left (fun s p => if arr (fst p) (snd p)
                        then (s + 2 ^ xy2d_morton (fst p) (snd p)) mod 2 ^ 64 else s)
            indices8x8 0.

(** tools/analysis_utils.py L1038-1049: loop i = 63 .. 0, result as list of set entries. *)
Fixpoint cluster_array_loop (i : nat) (shape : Z) : list (Z * Z) :=
  match i with
  | O => []
  | S i' =>
      let v := 2 ^ Z.of_nat i' in
      if v <=? shape then d2xy_morton (Z.of_nat i') :: cluster_array_loop i' (shape - v)
      else cluster_array_loop i' shape
  end.

(** tools/analysis_utils.py L1038-1049 *)
Definition calculate_cluster_array (shape : Z) (x y : Z) : bool :=
  existsb (fun p => (fst p =? x) && (snd p =? y)) (cluster_array_loop 64 shape).

(** tools/analysis_utils.py L1052-1061; python integers, precedence + before &. *)
Definition number_of_set_bits (v : Z) : Z :=
  let v := v - Z.land (Z.shiftr v 1) 0x55555555 in
  let v := Z.land v 0x33333333 + Z.land (Z.shiftr v 2) 0x33333333 in
  Z.shiftr (Z.land (Z.land (v + Z.shiftr v 4) 0xF0F0F0F * 0x1010101) 0xffffffff) 24.

(** hit_analysis.py L889-936 end_of_cluster_function_with_index, the part that concerns columns
    and rows (the frame minimum is the same pattern): (cluster_shape, err_column, err_row).
    [hit_arr] is the 15x15 array around the first hit, as a list of the entries set to 1.  The
    hits of a cluster are (column, row); python integers stand for the uint16/int64 values, all
    intermediate results fit. *)
Definition hit_arr (center_col center_row : Z) (others : list (Z * Z)) : list (Z * Z) :=
  (7, 7) ::
  map (fun h => (7 + fst h - center_col, 7 + snd h - center_row))
      (filter (fun h => (Z.abs (fst h - center_col) <? 8) && (Z.abs (snd h - center_row) <? 8)) others).

(** hit_analysis.py L889-936 *)
Definition is_set (arr : list (Z * Z)) (c r : Z) : bool :=
  existsb (fun p => (fst p =? c) && (snd p =? r)) arr.

(** hit_analysis.py L889-936 *)
Definition end_of_cluster (first : Z * Z) (others : list (Z * Z)) : Z * Z * Z :=
  let center_col := fst first in
  let center_row := snd first in
  let arr := hit_arr center_col center_row others in
  let min_col := fold_left (fun m h => if fst h <? m then fst h else m) others center_col in
  let max_col := fold_left (fun m h => if m <? fst h then fst h else m) others center_col in
  let min_row := fold_left (fun m h => if snd h <? m then snd h else m) others center_row in
  let max_row := fold_left (fun m h => if m <? snd h then snd h else m) others center_row in
  let shape :=
    if (max_col - min_col <? 8) && (max_row - min_row <? 8) then
      let col_base := 7 + min_col - center_col in
      let row_base := 7 + min_row - center_row in
      let cluster_arr := fun c r => is_set arr (col_base + c) (row_base + r) in
      if cluster_arr 7 7 then -1 else calculate_cluster_shape cluster_arr
    else -1 in
  (shape, max_col - min_col, max_row - min_row).
