(** Model of the number of bins of the efficiency histogram in double precision: result_analysis.py L834-856, telescope/dut.py L261-267.
    Every operation is the exact operation followed by rounding to the nearest double (ties to even).
    Simplifications: one axis (x and y have the same code); rectangular pixels; no overflow, infinity or nan. *)
From Coq Require Import Reals ZArith Bool.
From Flocq Require Import Core.
From Verif Require Import GeometryModel FloatModel.
Local Open Scope R_scope.

(** telescope/dut.py L261-267, local position; the four corners have two different positions.  None: ValueError *)
Definition extent_double (size : R) (n : Z) : option (R * R) :=
  match index_to_local_double size n (1 / 2), index_to_local_double size n (fl (IZR n + 1 / 2)) with
  | Some a, Some b => Some (Rmin a b, Rmax a b)
  | _, _ => None
  end.
(** math.ceil(x / resolution) * resolution [for result_analysis.py L842, L844] *)
Definition whole_bins_double (resolution x : R) : R := fl (fl (IZR (Zceil (fl (x / resolution)))) * resolution).
(** result_analysis.py L842-845; [extend] is None or the value of extend_areas *)
Definition hist_size_double (size resolution : R) (extend : option R) : R :=
  match extend with
  | None => whole_bins_double resolution size
  | Some e => fl (whole_bins_double resolution size + fl (whole_bins_double resolution e * 2))
  end.
(** result_analysis.py L854-855 *)
Definition hist_bins_double (size resolution : R) (extend : option R) : Z := Ztrunc (fl (hist_size_double size resolution extend / resolution)).
(** result_analysis.py L834-856: the number of bins for a sensor with [n] pixels of the pitch [size] *)
Definition sensor_bins_double (size : R) (n : Z) (resolution : R) (extend : option R) : option Z :=
  option_map (fun e => hist_bins_double (fl (snd e - fst e)) resolution extend) (extent_double size n).
