(** Model of tools/analysis_utils.py: binned_statistic (L972-983) and fill (L1294-1318). *)
From Coq Require Import List Arith ZArith Reals Bool.
From Flocq Require Import Core.
Import ListNotations.
Local Open Scope R_scope.

(** tools/analysis_utils.py L980: the numbers of the bins; astype(int) truncates towards zero.  The rounding of the floats is not modelled. *)
Definition digitized (nbins : nat) (r0 r1 x : R) : Z := Ztrunc (INR nbins / (r1 - r0) * (x - r0)).

Section CSR.
  Context {A : Type}.
  (** scipy.sparse.csr_matrix((values, [rows, columns]), shape=(nbins, N)): the stored values ordered by rows, in a row in the order of the columns, which here is the order of the arguments.
      Values which are zero are stored too. [for tools/analysis_utils.py L981] *)
  Definition csr_row (rows : list Z) (values : list A) (i : nat) : list A := map snd (filter (fun p => (fst p =? Z.of_nat i)%Z) (combine rows values)).
  (** the array data of the matrix [for tools/analysis_utils.py L981] *)
  Definition csr_data (nbins : nat) (rows : list Z) (values : list A) : list A := flat_map (csr_row rows values) (seq 0 nbins).
  (** the array indptr of the matrix: the position of the first value of every row, and the number of values [for tools/analysis_utils.py L981] *)
  Definition csr_indptr (nbins : nat) (rows : list Z) (values : list A) : list nat := map (fun k => length (flat_map (csr_row rows values) (seq 0 k))) (seq 0 (S nbins)).
  (** np.split(data, indices): the slices between the indices [for tools/analysis_utils.py L983] *)
  Fixpoint np_split (data : list A) (from : nat) (indices : list nat) : list (list A) :=
    match indices with
    | [] => [skipn from data]
    | i :: is => firstn (i - from) (skipn from data) :: np_split data i is
    end.
End CSR.
(** a[1:-1] [for tools/analysis_utils.py L983] *)
Definition inner {A} (l : list A) : list A := removelast (tl l).

(** tools/analysis_utils.py L972-983.  None: ValueError of csr_matrix for a row that is negative or too large, and for different numbers of x and values. *)
Definition binned_statistic {V W} (func : list V -> W) (nbins : nat) (r0 r1 : R) (x : list R) (values : list V) : option (list W) :=
  let rows := map (digitized nbins r0 r1) x in
  if (length x =? length values)%nat && forallb (fun i => (0 <=? i)%Z && (i <? Z.of_nat nbins)%Z) rows
  then Some (map func (np_split (csr_data nbins rows values) 0 (inner (csr_indptr nbins rows values))))
  else None.

Section Fill.
  (** an array of any dimension: the cells, their values (None: nan); distance_transform_edt returns for every cell a cell which is not invalid, with the Euclidean distance; it is a given function. *)
  Context {Cell V : Type} (edt : (Cell -> bool) -> Cell -> Cell).
  (** np.isnan [for tools/analysis_utils.py L1312-1313] *)
  Definition isnan (a : Cell -> option V) (c : Cell) : bool := match a c with None => true | Some _ => false end.
  (** tools/analysis_utils.py L1294-1318 *)
  Definition fill (a : Cell -> option V) (invalid : option (Cell -> bool)) : Cell -> option V :=
    let inv := match invalid with None => isnan a | Some i => i end in
    fun c => a (edt inv c).
End Fill.
