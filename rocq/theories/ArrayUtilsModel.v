(** Model of the array helpers of analysis_utils.
    Source: tools/analysis_utils.py L198-246, L402-448, L614-635, L697-706, L1171-1291. *)
From Coq Require Import ZArith QArith List Bool Arith.
Import ListNotations.
Open Scope Z_scope.

(** np.argmax of a boolean array: first True, 0 if there is none (np.argmin: first False) [for tools/analysis_utils.py L402-448] *)
Fixpoint first_index {T} (p : T -> bool) (l : list T) : option nat :=
  match l with
  | [] => None
  | x :: r => if p x then Some O else option_map S (first_index p r)
  end.
(** tools/analysis_utils.py L402-448 *)
Definition argmax_bool {T} (p : T -> bool) (l : list T) : nat :=
  match first_index p l with Some i => i | None => O end.
(** tools/analysis_utils.py L402-448 *)
Definition argmin_bool {T} (p : T -> bool) (l : list T) : nat := argmax_bool (fun x => negb (p x)) l.

(** numpy slice array[a:b] with non-negative bounds [for tools/analysis_utils.py L402-448] *)
Definition slice {T} (l : list T) (a b : nat) : list T := firstn (b - a) (skipn a l).

(** tools/analysis_utils.py L402-448.  The rows are of any type with an event number.  None is the
    exception of numexpr if a bound is None in the branch for unsorted data.  For an array without
    a non-zero event number an empty array (of another dtype) is returned, modelled as []. *)
Section EventRange.
  Context {T : Type} (ev : T -> Z).

  (** tools/analysis_utils.py L402-448 *)
  Definition get_data_in_event_range (array : list T) (event_start event_stop : option Z)
             (assume_sorted : bool) : option (list T) :=
    if negb (existsb (fun x => negb (ev x =? 0)) array) then Some []
    else if assume_sorted then
      match array with
      | [] => Some []
      | x0 :: _ =>
        let first := ev x0 in
        let lst := ev (last array x0) in
        let no_intersection :=
          match event_start, event_stop with
          | Some a, Some b => (lst <? a) || (b <? first) || (a =? b)
          | _, _ => false
          end in
        if no_intersection then Some []
        else
          let min_index :=
            match event_start with
            | None => O
            | Some a => if a <? first then O else argmin_bool (fun x => ev x <? a) array
            end in
          let max_index :=
            match event_stop with
            | None => length array
            | Some b => if lst <? b then length array else argmax_bool (fun x => b <=? ev x) array
            end in
          Some (slice array min_index max_index)
      end
    else match event_start, event_stop with
         | Some a, Some b => Some (filter (fun x => (a <=? ev x) && (ev x <? b)) array)
         | _, _ => None
         end.
End EventRange.

(** np.searchsorted (side left) on a sorted array: number of leading elements below the value [for tools/analysis_utils.py L614-635] *)
Fixpoint searchsorted (a : list Z) (v : Z) : nat :=
  match a with
  | [] => O
  | x :: r => if x <? v then S (searchsorted r v) else O
  end.

(** tools/analysis_utils.py L614-635.  [idx] is the returned index after numpy's treatment of
    negative indices; numbers are integers of a signed type or exact floats. *)
Definition clip (v lo hi : Z) : Z := Z.min (Z.max v lo) hi.
(** tools/analysis_utils.py L614-635 *)
Definition get (a : list Z) (i : Z) : Z :=
  nth (Z.to_nat (if i <? 0 then i + Z.of_nat (length a) else i)) a 0.
(** tools/analysis_utils.py L614-635 *)
Definition find_closest (arr : list Z) (v : Z) : Z :=
  let idx := clip (Z.of_nat (searchsorted arr v)) 1 (Z.of_nat (length arr) - 1) in
  let left := get arr (idx - 1) in
  let right := get arr idx in
  if v - left <? right - v then idx - 1 else idx.

(** the same with the arithmetic of a 64 bit unsigned array [for tools/analysis_utils.py L614-635] *)
Definition find_closest_uint64 (arr : list Z) (v : Z) : Z :=
  let idx := clip (Z.of_nat (searchsorted arr v)) 1 (Z.of_nat (length arr) - 1) in
  let left := get arr (idx - 1) in
  let right := get arr idx in
  if (v - left) mod 2 ^ 64 <? (right - v) mod 2 ^ 64 then idx - 1 else idx.

(** tools/analysis_utils.py L1171-1217.  [ar2_sorter] is what np.argsort(ar2) returns (a
    permutation of the indices that sorts; equal elements in any order).  None is the IndexError
    for an empty ar2. *)
Definition take_clip (a : list Z) (i : nat) : Z := nth (Nat.min i (length a - 1)) a 0.

(** tools/analysis_utils.py L1171-1217 *)
Definition ar2_index_sorted (ar1 ar2 : list Z) : list nat := map (searchsorted ar2) ar1.

(** tools/analysis_utils.py L1171-1217 *)
Definition ar2_index_unsorted (ar1 ar2 : list Z) (ar2_sorter : list nat) : list nat :=
  let ar2_sorted := map (fun i => nth i ar2 0) ar2_sorter in
  let idx := map (searchsorted ar2_sorted) ar1 in
  let idx := map (fun i => if Nat.leb (length ar2) i then (length ar2 - 1)%nat else i) idx in
  map (fun i => nth i ar2_sorter O) idx.

(** tools/analysis_utils.py L1171-1217 *)
Definition in1d_index (ar1 ar2 : list Z) (fill_invalid : option Z) (sorter : option (list nat))
  : option (list nat * list Z) :=
  match ar1, ar2 with
  | _ :: _, [] => None
  | _, _ =>
    let ar2_index := match sorter with
                     | None => ar2_index_sorted ar1 ar2
                     | Some s => ar2_index_unsorted ar1 ar2 s
                     end in
    let rows := combine (combine (seq 0 (length ar1)) ar2_index) ar1 in
    let valid := fun r : nat * nat * Z => take_clip ar2 (snd (fst r)) =? snd r in
    let sel := filter valid rows in
    match fill_invalid with
    | None => Some (map (fun r => fst (fst r)) sel, map (fun r => Z.of_nat (snd (fst r))) sel)
    | Some f => Some (map (fun r => fst (fst r)) sel,
                      map (fun r => if valid r then Z.of_nat (snd (fst r)) else f) rows)
    end
  end.

(** tools/analysis_utils.py L1220-1232: one pass of the loop over j, for the column [col] of A.
    [mask] is a boolean array of maxn entries; a negative index counts from the end. *)
Definition mask_index (maxn v : Z) : Z := if v <? 0 then v + maxn else v.

(** tools/analysis_utils.py L1220-1232 *)
Fixpoint unique_column_loop (maxn : Z) (col : list Z) (mask : Z -> bool) (c : Z) : Z :=
  match col with
  | [] => c
  | v :: r =>
      let i := mask_index maxn v in
      unique_column_loop maxn r (fun k => if k =? i then false else mask k)
                         (if mask i then c + 1 else c)
  end.

(** tools/analysis_utils.py L1220-1232 *)
Definition unique_column (maxn : Z) (col : list Z) : Z :=
  match col with
  | [] => 1
  | v0 :: r => unique_column_loop maxn r (fun k => if k =? mask_index maxn v0 then false else true) 1
  end.

(** tools/analysis_utils.py L1253-1291 and L1235-1250.  [arr] is an array of m x n entries, given
    as a function of the indices.  np.pad with mode='reflect' for pads smaller than the array.
    [structure] is the list of the indices (row, column) of the True elements, in an array of
    (2 * extent + 1) x (2 * extent + 1) elements. *)
Definition reflect (n i : Z) : Z :=
  if i <? 0 then - i else if n <=? i then 2 * (n - 1) - i else i.

(** tools/analysis_utils.py L1253-1291 and L1235-1250 *)
Definition padded (arr : Z -> Z -> Z) (m n extent : Z) (i j : Z) : Z :=
  arr (reflect m (i - extent)) (reflect n (j - extent)).

(** tools/analysis_utils.py L1253-1291 and L1235-1250 *)
Definition neighbor_column (arr : Z -> Z -> Z) (m n extent : Z) (structure : list (Z * Z)) (i j : Z)
  : list Z :=
  map (fun s => padded arr m n extent (extent + (fst s - extent) + i) (extent + (snd s - extent) + j))
      structure.

(** tools/analysis_utils.py L1253-1291 and L1235-1250 *)
Definition count_unique_neighbors (arr : Z -> Z -> Z) (m n extent maxn : Z)
           (structure : list (Z * Z)) (i j : Z) : Z :=
  unique_column maxn (neighbor_column arr m n extent structure i j).

(** tools/analysis_utils.py L1274: np.ones((3, 3)) *)
Definition default_structure : list (Z * Z) :=
  [(0,0); (0,1); (0,2); (1,0); (1,1); (1,2); (2,0); (2,1); (2,2)].

(** tools/analysis_utils.py L697-706 with exact rational numbers.  np.repeat repeats each bin
    position by its count; np.std and np.median are those of numpy: np.median of a list is the mean
    of the middle elements of the sorted list. *)
Fixpoint np_repeat {T} (pos : list T) (counts : list nat) : list T :=
  match pos, counts with
  | p :: ps, c :: cs => repeat p c ++ np_repeat ps cs
  | _, _ => []
  end.

(** tools/analysis_utils.py L697-706 *)
Definition sumQ (l : list Q) : Q := fold_right Qplus 0%Q l.
(** tools/analysis_utils.py L697-706 *)
Definition Qnat (n : nat) : Q := inject_Z (Z.of_nat n).

(** tools/analysis_utils.py L697-706 *)
Fixpoint dot (c : list nat) (x : list Q) : Q :=
  match c, x with
  | a :: c', b :: x' => (Qnat a * b + dot c' x')%Q
  | _, _ => 0%Q
  end.

(** tools/analysis_utils.py L697-706 *)
Definition get_mean_from_histogram (counts : list nat) (bin_positions : list Q) : Q :=
  (dot counts bin_positions / Qnat (list_sum counts))%Q.

(** np.var: mean of the squared distances from the mean; the rms is its square root [for tools/analysis_utils.py L701-702] *)
Definition np_mean (l : list Q) : Q := (sumQ l / Qnat (length l))%Q.
(** tools/analysis_utils.py L701-702 *)
Definition np_var (l : list Q) : Q :=
  let m := np_mean l in np_mean (map (fun x => (x - m) * (x - m))%Q l).

(** tools/analysis_utils.py L701-702 *)
Definition get_squared_rms_from_histogram (counts : list nat) (bin_positions : list Q) : Q :=
  np_var (np_repeat bin_positions counts).

(** np.median of a list of integers [for tools/analysis_utils.py L705-706] *)
Fixpoint insert_sorted (x : Z) (l : list Z) : list Z :=
  match l with
  | [] => [x]
  | y :: r => if x <=? y then x :: l else y :: insert_sorted x r
  end.
(** tools/analysis_utils.py L705-706 *)
Definition np_sort (l : list Z) : list Z := fold_right insert_sorted [] l.
(** tools/analysis_utils.py L705-706 *)
Definition np_median (l : list Z) : Q :=
  let s := np_sort l in
  let h := (length s / 2)%nat in
  if Nat.even (length s) then (inject_Z (nth (h - 1)%nat s 0 + nth h s 0)%Z / 2)%Q
  else inject_Z (nth h s 0).

(** tools/analysis_utils.py L705-706 *)
Definition get_median_from_histogram (counts : list nat) (bin_positions : list Z) : Q :=
  np_median (np_repeat bin_positions counts).

(** tools/analysis_utils.py L198-246.  [hist] is a histogram with integer entries, [prob] the
    two limits.  The normalized cumulative distribution is compared with exact arithmetic.
    np.unique gives the sorted distinct values with the index of their first occurrence; searching
    the first such value above a limit and taking its index is searching the first index, as the
    cumulative distribution does not decrease ([None] is the IndexError).  Result: the range of
    unmasked indices [lp_index, hp_index + 1) before clipping to the array; the list of the indices
    that is returned is range(lp_index, hp_index + 1). *)
Fixpoint cumsum (acc : Z) (hist : list Z) : list Z :=
  match hist with [] => [] | h :: r => (acc + h) :: cumsum (acc + h) r end.

(** tools/analysis_utils.py L198-246 *)
Definition Qltb (a b : Q) : bool := negb (Qle_bool b a).

(** tools/analysis_utils.py L198-246 *)
Definition normcdf (hist : list Z) : list Q :=
  let cdf := cumsum 0 hist in
  let total := last cdf 0 in
  if total =? 0 then map inject_Z cdf else map (fun c => (inject_Z c / inject_Z total)%Q) cdf.

(** tools/analysis_utils.py L198-246 *)
Definition hist_quantiles (hist : list Z) (p0 p1 : Q) : nat * nat :=
  let cdf := normcdf hist in
  match first_index (fun c => Qltb p1 c) cdf, first_index (fun c => Qle_bool p0 c) cdf with
  | Some hp, Some lp => (lp, hp)
  | _, _ => (O, length hist)
  end.
