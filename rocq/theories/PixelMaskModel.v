(** Model of the masking loop of mask_pixels.  Source: hit_analysis.py L586-610. *)
From Coq Require Import ZArith List Bool.
Import ListNotations.
Local Open Scope Z_scope.

(** Images are functions of the (flat) pixel index 0..n_pixels-1.  The median filter (L594) and the
    comparison of the difference with the threshold (L595-603: standard deviation, square root) are
    arbitrary functions of the whole image: the theorems hold for every filter size and threshold. *)
Section Mask.
  Variable n_pixels : nat.
  Variable median : (nat -> Z) -> (nat -> Z).
  Variable exceeds : (nat -> Z) -> (nat -> Z) -> nat -> bool.   (* occupancy, blurred, pixel *)

  (** hit_analysis.py L602-603: pixels with zero occupancy are never marked *)
  Definition tmp_mask (occ : nat -> Z) (i : nat) : bool :=
    negb (occ i =? 0) && exceeds occ (median occ) i.

  (** hit_analysis.py L604 np.count_nonzero(tmp_pixel_mask & (tmp_pixel_mask ^ pixel_mask)) *)
  Definition n_new (occ : nat -> Z) (mask : nat -> bool) : nat :=
    length (filter (fun i => tmp_mask occ i && xorb (tmp_mask occ i) (mask i)) (seq 0 n_pixels)).

  (** hit_analysis.py L606 *)
  Definition new_mask (occ : nat -> Z) (mask : nat -> bool) (i : nat) : bool := mask i || tmp_mask occ i.

  (** hit_analysis.py L607 occupancy[pixel_mask] = blurred[pixel_mask] *)
  Definition new_occ (occ : nat -> Z) (mask : nat -> bool) (i : nat) : Z :=
    if new_mask occ mask i then median occ i else occ i.

  (** hit_analysis.py L591-609; [iterations] = 0 stands for None and 0; [i] is the value before the increment.  The
      result is the mask and the number of iterations; None if the fuel is exhausted. *)
  Fixpoint mask_loop (fuel : nat) (iterations i : nat) (occ : nat -> Z) (mask : nat -> bool)
    : option ((nat -> bool) * nat) :=
    match fuel with
    | O => None
    | S f =>
        let i := S i in
        if (Nat.eqb (n_new occ mask) 0 || (negb (Nat.eqb iterations 0) && Nat.leb iterations i))%bool
        then Some (new_mask occ mask, i)
        else mask_loop f iterations i (new_occ occ mask) (new_mask occ mask)
    end.

  (** hit_analysis.py L591-609 *)
  Definition mask_pixels (iterations : nat) (occ : nat -> Z) : option ((nat -> bool) * nat) :=
    mask_loop (S n_pixels) iterations 0 occ (fun _ => false).
End Mask.
