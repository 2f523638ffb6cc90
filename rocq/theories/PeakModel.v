(** Models tools/analysis_utils.py L805-832: fwhm and peak_detect.
    Simplifications: real numbers; the spline routines splrep and sproot of scipy are any function [roots] of the points which returns positions or fails. *)
From Coq Require Import List Bool Arith Reals.
Import ListNotations.
Local Open Scope R_scope.

(** exceptions [for tools/analysis_utils.py L814-828] *)
Inductive peak_error := PeakRuntimeError | PeakTypeError | PeakValueError.
(** np.max; None: ValueError of an empty array [for tools/analysis_utils.py L814] *)
Definition np_max (y : list R) : option R := match y with [] => None | a :: l => Some (fold_left Rmax l a) end.
(** np.argmax: the first index with the largest value; not used for an empty array [for tools/analysis_utils.py L830] *)
Fixpoint argmax_from (best : R) (at_index index : nat) (l : list R) : nat :=
  match l with [] => at_index | v :: r => if Rlt_dec best v then argmax_from v index (S index) r else argmax_from best at_index (S index) r end.
(** np.argmax [for tools/analysis_utils.py L830] *)
Definition argmax (y : list R) : nat := match y with [] => 0%nat | a :: l => argmax_from a 0 1 l end.
Section Peak.
  Variable roots : list R -> list R -> peak_error + list R.
  (** tools/analysis_utils.py L805-821 *)
  Definition fwhm (x y : list R) : peak_error + R * R :=
    match np_max y with
    | None => inl PeakValueError
    | Some m => match roots x (map (fun v => v - m / 2) y) with
                | inl e => inl e
                | inr [a; b] => inr (a, b)
                | inr _ => inl PeakRuntimeError
                end
    end.
  (** tools/analysis_utils.py L824-832: position of the maximum, centre, width and the two positions *)
  Definition peak_detect (x y : list R) : peak_error + R * R * R * (R * R) :=
    match fwhm x y with
    | inl PeakValueError => inl PeakValueError
    | inl _ => inl PeakRuntimeError
    | inr (a, b) => inr (nth (argmax y) x 0, (a + b) / 2, b - a, (a, b))
    end.
End Peak.
