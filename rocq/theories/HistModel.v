(** Model of the compiled integer histogram functions.
    Sources: cpp/AnalysisFunctions.h L147-193, cpp/analysis_functions.pyx L44-53,
    tools/analysis_utils.py L311-399. *)
From Coq Require Import ZArith List Bool.
From Verif Require Import EventArraysModel.
Import ListNotations.
Open Scope Z_scope.

(** analysis_utils.py L332, L362-363, L394-396: [x.astype(np.int32)] and the C cast of
    the int32 buffer to unsigned int (analysis_functions.pyx L45): the index modulo 2^32. *)
Definition to_u32 (x : Z) : Z := x mod 2 ^ 32.

(** write to an array position [for cpp/AnalysisFunctions.h L150-160, L166-176, L182-192] *)
Fixpoint update (l : list Z) (i : nat) (v : Z) : list Z :=
  match l, i with
  | [], _ => []
  | _ :: r, O => v :: r
  | x :: r, S i' => x :: update r i' v
  end.

(** Common shape of the three C++ loops (cpp/AnalysisFunctions.h L150-160, L166-176, L182-192): for each
    entry test the index range (throw), then test the counter against the limit
    (throw) and increment it.  [in_range], [index] and [limit] are the only
    differences. *)
Fixpoint hist_loop {T} (in_range : T -> bool) (index : T -> Z) (limit : Z)
         (entries : list T) (res : list Z) : outcome (list Z) :=
  match entries with
  | [] => Ok res
  | t :: r =>
      if negb (in_range t) then Raised
      else match nth_error res (Z.to_nat (index t)) with
           | None => OutOfBounds
           | Some c =>
               if c <? limit
               then hist_loop in_range index limit r (update res (Z.to_nat (index t)) (c + 1))
               else Raised
           end
  end.

(** analysis_utils.py L311-335, AnalysisFunctions.h L148-161. *)
Definition hist_1d_index (x : list Z) (nx : Z) : outcome (list Z) :=
  hist_loop (fun x => negb (nx <=? x)) (fun x => x) 4294967295
            (map to_u32 x) (repeat 0 (Z.to_nat nx)).

(** analysis_utils.py L338-366, AnalysisFunctions.h L164-177.  The index
    arithmetic is on 32 bit unsigned integers.  The result is the flat array, bin
    (i, j) of the reshaped array is at i * ny + j. *)
Definition hist_2d_index (x y : list Z) (nx ny : Z) : outcome (list Z) :=
  if negb (Nat.eqb (length x) (length y)) then Raised
  else hist_loop (fun p => negb ((nx <=? fst p) || (ny <=? snd p)))
                 (fun p => (fst p * ny + snd p) mod 2 ^ 32) 4294967295
                 (combine (map to_u32 x) (map to_u32 y))
                 (repeat 0 (Z.to_nat (nx * ny))).

(** analysis_utils.py L369-399, AnalysisFunctions.h L180-193. *)
Definition hist_3d_index (x y z : list Z) (nx ny nz : Z) : outcome (list Z) :=
  if negb (Nat.eqb (length x) (length y)) || negb (Nat.eqb (length x) (length z)) then Raised
  else hist_loop (fun p => negb ((nx <=? fst (fst p)) || (ny <=? snd (fst p)) || (nz <=? snd p)))
                 (fun p => (fst (fst p) * ny * nz + snd (fst p) * nz + snd p) mod 2 ^ 32) 65535
                 (combine (combine (map to_u32 x) (map to_u32 y)) (map to_u32 z))
                 (repeat 0 (Z.to_nat (nx * ny * nz))).
