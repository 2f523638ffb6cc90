(** Model of dut_alignment.calculate_transformation (L1725-1980) for one DUT.
    Simplifications: an arbitrary ordered field instead of doubles.  The results of np.linalg.svd are inputs (one pair of decompositions for every
    iteration), the theorems ask that they are singular value decompositions of the matrices which were given.  The selection of the tracks (fitted tracks with a hit inside
    of the limits, L1789-1831) and the transformation of offsets and slopes to the global system are not part of this model: a track here is a selected track. *)
From mathcomp Require Import all_ssreflect all_algebra.
Set Implicit Arguments.
Unset Strict Implicit.
Unset Printing Implicit Defensive.
Import GRing.Theory Num.Theory.
Local Open Scope ring_scope.

(** ** Chunks, dut_alignment.py L1777-1788 *)
(** np.linspace(0, nrows, start_val).astype(int), in exact arithmetic: the truncated value of k * nrows / (start_val - 1) [for dut_alignment.py L1777-1788] *)
Definition chunk_indices (nrows start_val : nat) : seq nat := [seq ((k * nrows) %/ start_val.-1)%N | k <- iota 0 start_val].
(** dut_alignment.py L1777-1788 *)
Fixpoint diffs (l : seq nat) : seq nat := match l with a :: (b :: _) as t => (b - a)%N :: diffs t | _ => [::] end.
(** the loop over start_val; [fuel] bounds the number of iterations [for dut_alignment.py L1777-1788] *)
Fixpoint find_indices (fuel nrows chunk_size start_val : nat) : option (seq nat) :=
  match fuel with
  | 0 => None
  | S fuel => let l := chunk_indices nrows start_val in
              if all (fun d => d <= chunk_size)%N (diffs l) then Some l else find_indices fuel nrows chunk_size start_val.+1
  end.
(** the loop over the chunks: while chunk_indices[chunk_index] < nrows; IndexError is None [for dut_alignment.py L1777-1788] *)
Fixpoint read_chunks (T : Type) (l : seq nat) (rows : seq T) : option (seq (seq T)) :=
  match l with
  | [::] => None
  | a :: t => if (a < size rows)%N then
                match t with
                | [::] => None
                | b :: _ => omap (cons (take (b - a) (drop a rows))) (read_chunks t rows)
                end
              else Some [::]
  end.
(** chunk_size 0: ZeroDivisionError [for dut_alignment.py L1777-1788] *)
Definition chunks (T : Type) (chunk_size : nat) (rows : seq T) : option (seq (seq T)) :=
  if (chunk_size == 0)%N then None
  else obind (fun l => read_chunks l rows) (find_indices (size rows).+2 (size rows) chunk_size (maxn (size rows %/ chunk_size)%N 2)).

Section Model.
Variable F : realFieldType.
Notation vec := 'cV[F]_3.

(** geometry_utils.py L10-22 skew of one vector: the diagonal matrix of the vector, rolled by one along axis 1 and by minus one along axis 0, minus the transposed:
    rolled entry (i, j) is entry (i + 1, j - 1) modulo 3. *)
Definition rolled (v : vec) (i j : 'I_3) : F := if ((i + 1) %% 3 == (j + 2) %% 3)%N then v (inord ((i + 1) %% 3)) 0 else 0.
(** geometry_utils.py L10-22 *)
Definition skew (v : vec) : 'M[F]_3 := \matrix_(i, j) (rolled v i j - rolled v j i).

(** slope and offset of the track in the global system, local hit [for dut_alignment.py L1863-1876] *)
Record track := Track { slope : vec; offset : vec; hit : vec }.

Section Chunk.
Variable n : nat.
Variable tracks : 'I_n -> track.

(** dut_alignment.py L1863-1876 *)
Definition l_matr (t : track) : 'M[F]_3 := 1 - slope t *m (slope t)^T.
(** dut_alignment.py L1863-1876 *)
Definition block (R : 'M[F]_3) (t : track) : 'M[F]_(3, 3 + 3) := row_mx (l_matr t *m skew (R *m hit t)) (l_matr t *m - 1).
(** dut_alignment.py L1863-1876 *)
Definition block_b (R : 'M[F]_3) (T : vec) (t : track) : vec := l_matr t *m offset t - l_matr t *m (R *m hit t + T).
(** reshape(-1, 6) and reshape(-1): the rows of all tracks one after the other [for dut_alignment.py L1863-1909] *)
Definition tot_matr (R : 'M[F]_3) : 'M[F]_(n * 3, 3 + 3) := \matrix_(k, c) mxvec (\matrix_(i, j) block R (tracks i) j c) 0 k.
(** dut_alignment.py L1863-1909 *)
Definition tot_b (R : 'M[F]_3) (T : vec) : 'cV[F]_(n * 3) := (mxvec (\matrix_(i, j) block_b R T (tracks i) j 0))^T.

(** u, s, v of np.linalg.svd(tot_matr, full_matrices=False) and u_rot, v_rot of np.linalg.svd(rotation) (and its singular values) [for dut_alignment.py L1863-1909] *)
Definition k_svd : nat := minn (n * 3) (3 + 3).
(** dut_alignment.py L1863-1909 *)
Record decompositions := Decompositions { d_u : 'M[F]_(n * 3, k_svd); d_s : 'rV[F]_k_svd; d_v : 'M[F]_(k_svd, 3 + 3); r_u : 'M[F]_3; r_s : 'rV[F]_3; r_v : 'M[F]_3 }.

(** dut_alignment.py L1904-1909: None if a singular value is zero (inf and nan in the code).  lin_alpha is 1. *)
Definition solve (d : decompositions) (b : 'cV[F]_(n * 3)) : option 'cV[F]_(3 + 3) :=
  if [forall j, d_s d 0 j != 0] then Some ((d_v d)^T *m (diag_mx (\row_j (d_s d 0 j)^-1) *m (d_u d)^T) *m (- 1 *: b)) else None.

(** dut_alignment.py L1910-1925: select_alignment_parameters, rotation_alpha ... translation_z *)
Variable selected : 'I_(3 + 3) -> bool.
(** dut_alignment.py L1910-1925 *)
Definition fix_parameters (x : 'cV[F]_(3 + 3)) : 'cV[F]_(3 + 3) := \col_i (if selected i then x i 0 else 0).

(** dut_alignment.py L1932-1936 *)
Definition turned (delta : F) (x : 'cV[F]_(3 + 3)) (R : 'M[F]_3) : 'M[F]_3 := (1 + delta *: skew (usubmx x)) *m R.
(** dut_alignment.py L1932-1936 *)
Definition orthogonalize (d : decompositions) : 'M[F]_3 := r_u d *m r_v d.

(** np.allclose(a, b, rtol=0.0, atol) [for dut_alignment.py L1863-1949] *)
Definition allclose p q (a b : 'M[F]_(p, q)) (atol : F) : bool := [forall i, forall j, `|a i j - b i j| <= atol].
(** 10 to the power of -k [for dut_alignment.py L1863-1949] *)
Definition e_minus (k : nat) : F := (10%:R ^+ k)^-1.

(** State of the iterations: step size, translation and rotation, and the ones of the two previous iterations (rotation_old, translation_old are None at first) [for dut_alignment.py L1863-1949] *)
Record state := State { delta : F; trans : vec; rotation : 'M[F]_3; old : option (vec * 'M[F]_3) }.
(** One iteration dut_alignment.py L1863-1936 without the test of convergence *)
Definition step (d : decompositions) (st : state) : option (vec * 'M[F]_3) :=
  if solve d (tot_b (rotation st) (trans st)) is Some x then
    let x := fix_parameters x in
    Some (trans st + delta st *: dsubmx x, orthogonalize d)
  else None.
(** dut_alignment.py L1863-1949: iteration [i] with the test of convergence; true: break *)
Definition next (i : nat) (d : decompositions) (st : state) : option (bool * state) :=
  if step d st is Some (T, R) then
    let prev := Some (trans st, rotation st) in
    match old st with
    | Some (T2, R2) =>
        if (2 <= i)%N then
          let ct := allclose T (trans st) (e_minus 4) in
          let cr := allclose R (rotation st) (e_minus 5) in
          let ct2 := allclose T T2 (e_minus 3) in
          let cr2 := allclose R R2 (e_minus 4) in
          if cr && ct then Some (true, State (delta st) T R prev)
          else Some (false, State (if [|| cr2, ct2, cr | ct] then 3%:R / 10%:R else delta st) T R prev)
        else Some (false, State (delta st) T R prev)
    | None => Some (false, State (delta st) T R prev)
    end
  else None.
(** dut_alignment.py L1849-1949: the loop, from iteration [i]; [ds i] are the decompositions of iteration i *)
Fixpoint iterate (fuel i : nat) (ds : nat -> decompositions) (st : state) : option state :=
  match fuel with
  | 0 => Some st
  | S fuel => match next i (ds i) st with None => None | Some (true, st) => Some st | Some (false, st) => iterate fuel i.+1 ds st end
  end.
(** dut_alignment.py L1833-1857 *)
Definition start (T : vec) (R : 'M[F]_3) : state := State (9%:R / 10%:R) T R None.
(** dut_alignment.py L1833-1949: one chunk from the start values, with 100 iterations or max_iterations *)
Definition chunk_result (iterations : nat) (ds : nat -> decompositions) (T : vec) (R : 'M[F]_3) : option (vec * 'M[F]_3) :=
  omap (fun st => (trans st, rotation st)) (iterate iterations 0 ds (start T R)).

End Chunk.

(** dut_alignment.py L1951-1980: combination of the chunks.  A chunk has its number of tracks and its translation and rotation.
    np.average raises ZeroDivisionError (None) for a zero sum of weights. *)
Definition average p q (a b : 'M[F]_(p, q)) (n m : nat) : option 'M[F]_(p, q) :=
  if (n + m == 0)%N then None else Some ((n + m)%:R^-1 *: (n%:R *: a + m%:R *: b)).
(** dut_alignment.py L1951-1980 *)
Record averages := Averages { a_trans : option vec; a_rot : option 'M[F]_3; a_last : option 'M[F]_3; a_total : nat }.
(** dut_alignment.py L1951-1980 *)
Definition add_chunk (a : averages) (c : nat * (vec * 'M[F]_3)) : option averages :=
  let t := match a_trans a with None => Some c.2.1 | Some b => average c.2.1 b c.1 (a_total a) end in
  let r := match a_rot a with None => Some c.2.2 | Some b => average c.2.2 b c.1 (a_total a) end in
  match t, r with Some t, Some r => Some (Averages (Some t) (Some r) (Some c.2.2) (a_total a + c.1)) | _, _ => None end.
(** dut_alignment.py L1951-1980 *)
Fixpoint add_chunks (a : averages) (cs : seq (nat * (vec * 'M[F]_3))) : option averages :=
  match cs with [::] => Some a | c :: cs => obind (fun a => add_chunks a cs) (add_chunk a c) end.
(** Translation and the rotation matrix from which the angles are calculated (dut_alignment.py L1972: the variable rotation of the last chunk).
    No chunk: the decomposition of None raises an exception (None).  The decomposition of rotation_average (L1970-1971) has no effect. *)
Definition combine (cs : seq (nat * (vec * 'M[F]_3))) : option (vec * 'M[F]_3) :=
  if add_chunks (Averages None None None 0) cs is Some (Averages (Some t) (Some _) (Some r) _) then Some (t, r) else None.
End Model.
