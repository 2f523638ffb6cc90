(** Model of the median filter, the noise level and the threshold of mask_pixels and of the reading of the mask by the
    clustering.  Source: hit_analysis.py L521-643, L868-880. *)
From Coq Require Import Reals ZArith List Bool Arith.
From Verif Require Import RunningMeanModel GeometryModel TrackAngleModel ArrayUtilsModel PixelMaskModel.
Import ListNotations.

(** Images are functions of the flat index i = c * ny + r of the pixel in column c < nx and row r < ny (both from 0). *)
Section Noise.
  Variables nx ny : nat.
  (** the filter size: number of columns and rows; a scalar n stands for (n, n) *)
  Variables fx fy : nat.
  Variable threshold : R.

  (** hit_analysis.py L594 mode='constant', cval=0.0: the value at any position, 0 outside the sensor *)
  Definition padded (occ : nat -> Z) (c r : Z) : Z :=
    if ((0 <=? c) && (c <? Z.of_nat nx) && (0 <=? r) && (r <? Z.of_nat ny))%Z
    then occ (Z.to_nat c * ny + Z.to_nat r)%nat else 0%Z.
  (** scipy.ndimage.median_filter: the window of n positions begins n // 2 before the pixel [for hit_analysis.py L594] *)
  Definition offsets (n : nat) : list Z := map (fun k => (Z.of_nat k - Z.of_nat (n / 2))%Z) (seq 0 n).
  (** hit_analysis.py L594 *)
  Definition window (occ : nat -> Z) (c r : Z) : list Z :=
    map (fun o => padded occ (c + fst o) (r + snd o)) (list_prod (offsets fx) (offsets fy)).
  (** the value of rank n // 2 of the n values of the window [for hit_analysis.py L594].  Simplified: no wrap of counts
      above 2^31 in astype(np.int32). *)
  Definition rank_middle (l : list Z) : Z := nth (length l / 2) (np_sort l) 0%Z.
  (** hit_analysis.py L594 *)
  Definition blurred (occ : nat -> Z) (i : nat) : Z :=
    rank_middle (window occ (Z.of_nat (i / ny)) (Z.of_nat (i mod ny))).

  (** hit_analysis.py L596-599: difference / sqrt(occupancy) of the pixels with hits *)
  Definition hit_pixels (occ : nat -> Z) : list nat := filter (fun i => negb (occ i =? 0)%Z) (seq 0 (nx * ny)).
  (** hit_analysis.py L596-599 *)
  Definition normalized (occ bl : nat -> Z) (i : nat) : R := (IZR (occ i - bl i) / sqrt (IZR (occ i)))%R.
  (** hit_analysis.py L599 np.std; exact real arithmetic *)
  Definition noise (occ bl : nat -> Z) : R := std (map (normalized occ bl) (hit_pixels occ)).
  (** hit_analysis.py L601-603 *)
  Definition above (occ bl : nat -> Z) (i : nat) : bool :=
    Rltb (threshold * noise occ bl * sqrt (IZR (occ i)))%R (IZR (occ i - bl i)).
  (** hit_analysis.py L586-610 *)
  Definition noise_mask (iterations : nat) (occ : nat -> Z) : option ((nat -> bool) * nat) :=
    mask_pixels (nx * ny) blurred above iterations occ.

  (** hit_analysis.py L872, L876 np.dstack(np.nonzero(mask))[0] + 1: columns and rows of the masked pixels from 1, in the order of the array *)
  Definition mask_list (mask : nat -> bool) : list (nat * nat) :=
    map (fun i => (S (i / ny), S (i mod ny))) (filter mask (seq 0 (nx * ny))).
End Noise.

(** The arguments and the nodes written.  hit_analysis.py L562-573, L613-638 *)
Inductive mask_name := DisabledName | NoisyName | OtherName.
(** hit_analysis.py L562-573, L613-638 *)
Inductive mask_error := InvalidName | NoIndices | NameExists.
(** hit_analysis.py L562-573, L613-638: the nodes with the masks in the order written; [found] is the mask from the occupancy.
    create_carray raises NodeError if the name exists. *)
Definition mask_nodes {M} (name : mask_name) (has_indices : bool) (found : M) (disable_mask : option M)
  : mask_error + list (mask_name * M) :=
  match name with
  | OtherName => inl InvalidName
  | _ =>
    if negb has_indices then inl NoIndices
    else match disable_mask, name with
         | None, _ => inr [(name, found)]
         | Some _, DisabledName => inl NameExists
         | Some d, _ => inr [(name, found); (DisabledName, d)]
         end
  end.
(** hit_analysis.py L869-883: the clustering reads a mask by name; no mask if there is no node *)
Definition same_name (a b : mask_name) : bool :=
  match a, b with DisabledName, DisabledName | NoisyName, NoisyName | OtherName, OtherName => true | _, _ => false end.
(** hit_analysis.py L869-883 *)
Definition read_mask {M} (name : mask_name) (nodes : list (mask_name * M)) : option M :=
  option_map snd (find (fun n => same_name name (fst n)) nodes).
