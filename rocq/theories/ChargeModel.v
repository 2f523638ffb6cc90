(** Model of the charge sharing of tools/simulate_data.py: _calc_sigma_diffusion (L38-56), _bivariante_normal_cdf (L60-88) and _calc_charge_fraction (L92-126).
    Simplifications: real numbers instead of doubles; erf is the integral which defines it. *)
From Coq Require Import Reals ZArith.
From Verif Require Import GeometryModel FitResidualsModel.
Local Open Scope R_scope.

(** tools/simulate_data.py L55 *)
Definition boltzman_constant : R := 86173324 / 10 ^ 12.
(** tools/simulate_data.py L38-56 *)
Definition calc_sigma_diffusion (distance temperature bias : R) : R := distance * sqrt (2 * temperature / bias * boltzman_constant).
(** tools/simulate_data.py L60-88 *)
Definition bivariante_normal_cdf (a1 a2 b1 b2 mu1 mu2 sigma : R) : R :=
  1 / 4 * ((erf ((a2 - mu1) / sqrt (2 * (sigma * sigma))) - erf ((a1 - mu1) / sqrt (2 * (sigma * sigma)))) *
           (erf ((b2 - mu2) / sqrt (2 * (sigma * sigma))) - erf ((b1 - mu2) / sqrt (2 * (sigma * sigma))))).
(** tools/simulate_data.py L92-126 *)
Definition calc_charge_fraction (position : R * R) (position_z : R) (pixel_index_x pixel_index_y : Z) (pixel_size_x pixel_size_y temperature bias digitization_sigma_cc : R) : R :=
  let sigma := calc_sigma_diffusion position_z temperature bias * digitization_sigma_cc in
  if Reqb sigma 0 then 1
  else bivariante_normal_cdf (pixel_size_x * (IZR pixel_index_x - 1 / 2)) (pixel_size_x * (IZR pixel_index_x + 1 / 2))
         (pixel_size_y * (IZR pixel_index_y - 1 / 2)) (pixel_size_y * (IZR pixel_index_y + 1 / 2)) (fst position) (snd position) sigma.
