(** Model of the moments of histograms, of the Gaussian functions and of the fits of residuals of tools/analysis_utils.py (L642-706, L857-927).
    Simplifications: real numbers instead of doubles; nan is None; scipy's quad is the integral; erf is the integral which defines it; curve_fit and
    the sorting of numpy are given functions. *)
From Coq Require Import List Arith ZArith Reals Bool.
From Coquelicot Require Import Coquelicot.
From Verif Require Import GeometryModel PrealignModel RunningMeanModel TrackAngleModel ResidualsModel.
Import ListNotations.
Local Open Scope R_scope.

(** *** Gaussian functions *)
(** tools/analysis_utils.py L642-643 *)
Definition gauss (A mu sigma x : R) : R := A * exp (- ((x - mu) * (x - mu)) / (2 * (sigma * sigma))).
(** tools/analysis_utils.py L671-685: gauss_box_non_vec *)
Definition gauss_box (A mu sigma a x : R) : R := RInt (fun t => gauss A mu sigma (x - t) / (sqrt (2 * PI) * sigma)) (- a / 2) (a / 2).
(** tools/analysis_utils.py L671-685 *)
Definition erf (x : R) : R := 2 / sqrt PI * RInt (fun t => exp (- (t * t))) 0 x.
(** tools/analysis_utils.py L690-694 *)
Definition gauss_box_erf (A mu sigma width x : R) : R :=
  1 / 2 * A * erf ((x - mu + width * (1 / 2)) / (sqrt 2 * sigma)) + 1 / 2 * A * erf ((mu + width * (1 / 2) - x) / (sqrt 2 * sigma)).

(** *** Moments *)
(** np.repeat(bin_positions, counts) [for tools/analysis_utils.py L697-698] *)
Definition repeated (counts : list nat) (positions : list R) : list R := flat_map (fun cp => repeat (snd cp) (fst cp)) (combine counts positions).
(** tools/analysis_utils.py L697-698 *)
Definition dot_counts (counts : list nat) (positions : list R) : R := fold_right Rplus 0 (map (fun cp => INR (fst cp) * snd cp) (combine counts positions)).
(** tools/analysis_utils.py L697-698: 0 / 0 is nan; arrays of different length raise ValueError, here: not modelled *)
Definition get_mean_from_histogram (counts : list nat) (positions : list R) : option R :=
  if (list_sum counts =? 0)%nat then None else Some (dot_counts counts positions / INR (list_sum counts)).
(** tools/analysis_utils.py L701-702; np.std is nan for an empty array *)
Definition get_rms_from_histogram (counts : list nat) (positions : list R) : option R :=
  match repeated counts positions with [] => None | l => Some (std l) end.
Section Sorting.
  Variable sort : list R -> list R.
  (** np.median [for tools/analysis_utils.py L705-706] *)
  Definition median (l : list R) : option R :=
    match l with
    | [] => None
    | _ => let s := sort l in let n := length l in Some (if Nat.even n then (nth (n / 2 - 1) s 0 + nth (n / 2) s 0) / 2 else nth (n / 2) s 0)
    end.
  (** tools/analysis_utils.py L705-706 *)
  Definition get_median_from_histogram (counts : list nat) (positions : list R) : option R := median (repeated counts positions).
  (** np.percentile with linear interpolation; [q]: percentage / 100; None: the array is empty (IndexError) [for tools/analysis_utils.py L857-869] *)
  Definition percentile (q : R) (l : list R) : option R :=
    match l with
    | [] => None
    | _ => let s := sort l in let v := q * INR (length l - 1) in let j := Z.to_nat (Int_part v) in
           Some (nth j s 0 + (nth (S j) s (nth j s 0) - nth j s 0) * (v - INR j))
    end.
  (** *** Fits *)
  Variable curve_fit_gauss : list R -> list nat -> R * R * R -> option (R * R * R).
  (** tools/analysis_utils.py L857-869: amplitude, mean and sigma; None: the failed fit.  hist_std == 0 is False for nan.  The result is None if mean and standard deviation are nan:
      what the fit does with them is not modelled. *)
  Definition fit_residuals_gauss (hist : list nat) (edges : list R) : option (R * R * R) :=
    let centers := bin_centers edges in
    match hist, get_mean_from_histogram hist centers, get_rms_from_histogram hist centers with
    | h :: hs, Some m, Some s =>
        let start := (INR (fold_left Nat.max hs h), m, s) in
        if Reqb s 0 then Some start else match curve_fit_gauss centers hist start with Some r => Some r | None => Some start end
    | _, _, _ => None
    end.
  (** tools/analysis_utils.py L885-912; a limit which is not finite is None.  The first index with a center above the limit, 0 if there is none *)
  Definition first_index (f : R -> bool) (l : list R) : option nat := hd_error (filter (fun i => f (nth i l 0)) (seq 0 (length l))).
  (** tools/analysis_utils.py L885-912 *)
  Definition last_index (f : R -> bool) (l : list R) : option nat := first_index f (rev l).
  (** tools/analysis_utils.py L885-912 *)
  Definition select_left (lo : option R) (centers : list R) : nat :=
    match lo with None => 0 | Some a => match first_index (Rleb a) centers with Some i => i | None => 0 end end.
  (** tools/analysis_utils.py L885-912 *)
  Definition select_right (hi : option R) (centers : list R) : nat :=
    match hi with
    | None => length centers
    | Some b => match last_index (fun x => Rleb x b) centers with Some i => (length centers - i)%nat | None => length centers end
    end.
  (** tools/analysis_utils.py L885-912 *)
  Definition select_counts (count : list nat) : list R := map INR (filter (fun c => (0 <? c)%nat) count).
  (** tools/analysis_utils.py L885-912 *)
  Definition select_bins (centers : list R) (count : list nat) (limit : option (option R * option R)) : option (list bool) :=
    match limit with
    | None => match percentile (32 / 100) (select_counts count) with None => None | Some t => Some (map (fun c => (0 <? c)%nat && Rltb t (INR c)) count) end
    | Some (lo, hi) => let l := select_left lo centers in let r := select_right hi centers in
        Some (map (fun ic => (0 <? snd ic)%nat && ((l <=? fst ic)%nat && (fst ic <? r)%nat)) (combine (seq 0 (length count)) count))
    end.
  (** tools/analysis_utils.py L913-919 *)
  Definition mean_fits (hist : list (list nat)) (yedges : list R) : list (option R) :=
    map (fun h => if (list_sum h =? 0)%nat then None else option_map (fun p => snd (fst p)) (fit_residuals_gauss h yedges)) hist.
  (** tools/analysis_utils.py L920-928: the points of the line fit: position, mean of the residuals, relative error *)
  Definition line_points (centers : list R) (means : list (option R)) (count : list nat) (select : list bool) : list (R * R * R) :=
    let rows := filter (fun r => fst r && match snd (snd r) with Some _ => true | None => false end) (combine select (combine (combine centers count) means)) in
    let total := INR (list_sum (map (fun r => snd (fst (snd r))) rows)) in
    map (fun r => (fst (fst (snd r)), match snd (snd r) with Some m => m | None => 0 end, total / INR (snd (fst (snd r))))) rows.
  Variable curve_fit_line : list (R * R * R) -> R * R.
  (** tools/analysis_utils.py L885-933; the inner None: nan, nan; the outer None: exception *)
  Definition fit_residuals_vs_position (hist : list (list nat)) (xedges yedges : list R) (count : list nat) (limit : option (option R * option R)) : option (option (R * R) * list bool * list (option R)) :=
    let centers := bin_centers xedges in
    match select_bins centers count limit with
    | None => None
    | Some select =>
        let means := mean_fits hist yedges in
        let points := line_points centers means count select in
        Some (if (1 <? length points)%nat then Some (curve_fit_line points) else None,
              map (fun sm => fst sm && match snd sm with Some _ => true | None => false end) (combine select means), means)
    end.
End Sorting.
