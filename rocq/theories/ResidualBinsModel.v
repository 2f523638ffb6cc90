(** Model of the range and the number of bins of the histogram of the residuals in double precision: result_analysis.py L167-171 (x) and L190-194 (y),
    with nbins_per_pixel given; L131: plot_n_pixels = 6.0.
    Every operation is the exact operation followed by rounding to the nearest double (ties to even).
    Simplifications: one axis (x and y have the same code); no overflow, infinity or nan; nbins_per_pixel is an integer. *)
From Coq Require Import Reals ZArith Bool.
From Flocq Require Import Core.
From Verif Require Import GeometryModel FloatModel ResidualsModel.
Local Open Scope R_scope.

(** result_analysis.py L168: the larger of 6 pixels and the pixels which cover 6 FWHM *)
Definition first_width_double (size fwhm : R) : R :=
  Rmax (fl (6 * size)) (fl (size * fl (IZR (Zceil (fl (fl (6 * fwhm) / size)))))).
(** result_analysis.py L169-170: np.mod(width / size, 2) of a double is exact *)
Definition even_width_double (size width : R) : R :=
  if Reqb (mod_2 (fl (width / size))) 0 then width else fl (width + size).
(** result_analysis.py L168-170 *)
Definition residual_width_double (size fwhm : R) : R := even_width_double size (first_width_double size fwhm).
(** result_analysis.py L171: int(nbins_per_pixel * width / size) *)
Definition residual_bins_double (size fwhm : R) (nbins_per_pixel : Z) : Z :=
  Ztrunc (fl (fl (IZR nbins_per_pixel * residual_width_double size fwhm) / size)).
(** result_analysis.py L172 *)
Definition residual_limits_double (size fwhm center : R) : R * R :=
  (fl (center - fl (1 / 2 * residual_width_double size fwhm)), fl (center + fl (1 / 2 * residual_width_double size fwhm))).
