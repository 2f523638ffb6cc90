(** Model of the conversion between pixel indices and local positions in double precision: telescope/dut.py L285-302 and L304-324, and the columns of hit_analysis.py L127-171.
    Every operation is the exact operation followed by rounding to the nearest double (ties to even).
    Simplifications: one axis (columns and rows have the same code); no overflow, infinity or nan: the exponent range has no upper bound. *)
From Coq Require Import Reals ZArith Bool.
From Flocq Require Import Core.
From Verif Require Import GeometryModel.
Local Open Scope R_scope.

(** rounding to double precision: IEEE 754 binary64 with subnormal numbers [for telescope/dut.py L285-324] *)
Definition fl (x : R) : R := round radix2 (FLT_exp (-1074) 53) ZnearestE x.
(** telescope/dut.py L285-302; None: ValueError *)
Definition index_to_local_double (size : R) (n : Z) (column : R) : option R :=
  if Rleb (1 / 2) column && Rleb column (fl (IZR n + 1 / 2))
  then Some (fl (size * fl (fl (column - 1 / 2) - fl (1 / 2 * IZR n))))
  else None.
(** telescope/dut.py L304-324; None: ValueError *)
Definition local_to_index_double (size : R) (n : Z) (x : R) : option R :=
  if Rleb (fl (fl (- (1 / 2) * IZR n) * size)) x && Rleb x (fl (fl (1 / 2 * IZR n) * size))
  then Some (fl (fl (fl (x / size) + 1 / 2) + fl (1 / 2 * IZR n)))
  else None.
(** the column of the output table with the type uint16: truncation, for values in range [for hit_analysis.py L127-136, L167-171] *)
Definition stored_index (column : R) : Z := Ztrunc column.
(** conversion to local positions and back [for hit_analysis.py L87-175] *)
Definition there_and_back (size : R) (n : Z) (column : Z) : option Z :=
  match index_to_local_double size n (IZR column) with
  | None => None
  | Some x => option_map stored_index (local_to_index_double size n x)
  end.
