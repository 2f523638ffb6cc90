(** Model of the histogram of the residuals in one direction of result_analysis.calculate_residuals (L81-181, L264, L316-317) and of
    analysis_utils.simple_peak_detect (L835-854).  The position histograms are modelled in RunningMeanModel.
    Simplifications: real numbers instead of doubles; nan is None.  The spline fit of analysis_utils.peak_detect (scipy) and the edges of
    numpy's "sturges" rule are given functions. *)
From Coq Require Import List Arith ZArith Reals Bool.
From Verif Require Import GeometryModel CorrelateModel PrealignModel RunningMeanModel TrackAngleModel.
Import ListNotations.
Local Open Scope R_scope.

(** result_analysis.py L81-317 *)
Inductive residual_error := NoTracks | EmptyArray | OutOfRange | NoBins.
(** *** analysis_utils.simple_peak_detect [for tools/analysis_utils.py L835-854] *)
Inductive peak_result := Peak (max_position center fwhm l r : R) | CannotDetermine | PeakError (e : residual_error).
(** np.argmax: the first of the maxima [for tools/analysis_utils.py L835-854] *)
Fixpoint argmax_from (best : R) (best_index index : nat) (l : list R) : nat :=
  match l with
  | [] => best_index
  | y :: l => if Rltb best y then argmax_from y index (S index) l else argmax_from best best_index (S index) l
  end.
(** tools/analysis_utils.py L835-854 *)
Definition above (half_maximum : R) (y : list R) (i : nat) : bool := Rltb half_maximum (nth i y 0).
(** tools/analysis_utils.py L839: np.where(greater[:-1] != greater[1:]) *)
Definition change_indices (half_maximum : R) (y : list R) : list nat :=
  filter (fun i => xorb (above half_maximum y i) (above half_maximum y (S i))) (seq 0 (length y - 1)).
(** tools/analysis_utils.py L844: x_center[i]; None: IndexError *)
Definition x_center (x : list R) (i : nat) : option R :=
  match nth_error x i, nth_error x (S i) with Some a, Some b => Some ((b + a) / 2) | _, _ => None end.
(** tools/analysis_utils.py L835-854.  L840: "greater[0] is True" is never true, the entries are objects of numpy and not True itself. *)
Definition simple_peak_detect (x y : list R) : peak_result :=
  match y with
  | [] => PeakError EmptyArray
  | y0 :: ys =>
      let half_maximum := list_max y0 ys * (1 / 2) in
      if negb (existsb (Rltb half_maximum) y) then CannotDetermine
      else
        match change_indices half_maximum y with
        | [] => CannotDetermine
        | i :: is =>
            match x_center x i, x_center x (last is i) with
            | Some l, Some r =>
                match nth_error x (argmax_from y0 0 1 ys) with
                | None => PeakError OutOfRange
                | Some max_position => if Reqb (r - l) 0 then CannotDetermine else Peak max_position ((l + r) / 2) (r - l) l r
                end
            | _, _ => CannotDetermine
            end
        end
  end.

(** *** calculate_residuals *)
(** a row of the track table: the hit in the DUT, chi2 of the track and the intersection of the track with the DUT [for result_analysis.py L94-106] *)
Record track := Track { hit : option (R * R); track_chi2 : option R; intersection : R * R }.
(** result_analysis.py L94-106: a limit which is not finite is None *)
Definition limits : Type := option (option R * option R).
(** result_analysis.py L94-106 *)
Definition in_limits (l : limits) (v : R) : bool :=
  match l with
  | None => true
  | Some (lo, hi) => match lo with Some a => Rleb a v | None => true end && match hi with Some b => Rleb v b | None => true end
  end.
(** result_analysis.py L83-125: residuals of the tracks inside of the limits; [coordinate]: fst for x, snd for y *)
Definition residuals (coordinate : R * R -> R) (limit_x limit_y : limits) (chunk : list track) : list R :=
  flat_map (fun t =>
    match hit t, track_chi2 t with
    | Some h, Some _ => if in_limits limit_x (fst h) && in_limits limit_y (snd h) then [coordinate h - coordinate (intersection t)] else []
    | _, _ => []
    end) chunk.

Section Residuals.
  Variable peak_detect : list R -> list R -> option (R * R).
  Variable sturges : list R -> list R.
  (** result_analysis.py L134-139: np.min raises ValueError for an empty array *)
  Definition first_edges (pixel_size : R) (nbins_per_pixel : option R) (d : list R) : option (list R) :=
    match nbins_per_pixel with
    | None => Some (sturges d)
    | Some p => match d with [] => None | a :: l => Some (arange (list_min a l - pixel_size / p) (list_max a l + 2 * (pixel_size / p)) (pixel_size / p)) end
    end.
  (** result_analysis.py L139-148: position and width of the peak *)
  Definition bin_centers (edges : list R) : list R := map (fun i => (nth (S i) edges 0 + nth i edges 0) / 2) (seq 0 (n_edge_bins edges)).
  (** result_analysis.py L139-148 *)
  Definition center_and_fwhm (pixel_size : R) (edges d : list R) : residual_error + R * R :=
    let centers := bin_centers edges in
    let hist := map INR (histogram edges (map Some d)) in
    match peak_detect centers hist with
    | Some r => inr r
    | None =>
        match simple_peak_detect centers hist with
        | Peak _ c w _ _ => inr (c, w)
        | CannotDetermine => inr (0, pixel_size * 6)
        | PeakError e => inl e
        end
    end.
  (** result_analysis.py L167-180: range and number of bins.  np.mod(a, 2) is a - 2 * floor(a / 2); int() cuts off the fraction *)
  Definition mod_2 (a : R) : R := a - 2 * IZR (Int_part (a / 2)).
  (** result_analysis.py L167-180 *)
  Definition residual_range (pixel_size : R) (nbins_per_pixel : option R) (center fwhm : R) : R * R * nat :=
    match nbins_per_pixel with
    | Some p =>
        let width := Rmax (6 * pixel_size) (pixel_size * IZR (ceil (6 * fwhm / pixel_size))) in
        let width := if Reqb (mod_2 (width / pixel_size)) 0 then width else width + pixel_size in
        (center - 1 / 2 * width, center + 1 / 2 * width, Z.to_nat (Int_part (p * width / pixel_size)))
    | None =>
        let width := pixel_size * IZR (ceil (6 * fwhm / pixel_size)) in
        (center - width, center + width, 200%nat)
    end.
  (** result_analysis.py L181 and L264; L316-317: RuntimeError without any chunk *)
  Definition residual_histogram (pixel_size : R) (nbins_per_pixel : option R) (coordinate : R * R -> R) (limit_x limit_y : limits) (chunks : list (list track)) : residual_error + list R * list nat :=
    match chunks with
    | [] => inl NoTracks
    | c :: cs =>
        let d := residuals coordinate limit_x limit_y c in
        match first_edges pixel_size nbins_per_pixel d with
        | None => inl EmptyArray
        | Some e =>
            match center_and_fwhm pixel_size e d with
            | inl e => inl e
            | inr (center, fwhm) =>
                let '(lo, hi, n) := residual_range pixel_size nbins_per_pixel center fwhm in
                let edges := linspace (fst (hist_range lo hi)) (snd (hist_range lo hi)) (n + 1) in
                if (n =? 0)%nat then inl NoBins
                else inr (edges, fold_left (fun h c => map (fun p => (fst p + snd p)%nat) (combine h (histogram edges (map Some (residuals coordinate limit_x limit_y c))))) cs (histogram edges (map Some d)))
            end
        end
    end.
End Residuals.
