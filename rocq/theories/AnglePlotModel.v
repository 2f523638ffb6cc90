(** Model of tools/plot_utils.py plot_track_angle (L2517-2574): the pages of the file of histogram_track_angle, and of the stored parameters of the fits (result_analysis.py L2512-2531).
    Simplifications: exact real numbers; the fit of a histogram is any function of histogram and edges, with the result None if all parameters are nan; an exception is None. *)
From Coq Require Import List Arith Reals Bool.
From Verif Require Import GeometryModel RunningMeanModel TrackAngleModel AngleFileModel FitResidualsModel.
Import ListNotations.
Local Open Scope R_scope.

Section AnglePlot.
Variable NAME : Type.
(** curve_fit with its two attempts: amplitude, mean and sigma in rad [for result_analysis.py L2512-2526] *)
Variable fit : hist -> option (R * R * R).

(** dut_names[i], "DUT%d" % i or no DUT at all [for tools/plot_utils.py L2541-2547] *)
Inductive label := NoLabel | Given (n : NAME) | Numbered (d : nat).
(** a bar: left end, right end and height [for tools/plot_utils.py L2556-2563] *)
Record bar := Bar { left_end : R; right_end : R; height : nat }.
(** a page: title, bars, the drawn curve and the numbers of the legend (None: nan), limits of the x axis [for tools/plot_utils.py L2548-2574] *)
Record page := Page { p_system : system; p_angle : angle; p_dut : label; p_bars : list bar; p_curve : option (R -> R); p_legend : option (R * R); p_limits : R * R }.
(** edges * 1000 [for tools/plot_utils.py L2554] *)
Definition mrad (x : R) : R := x * 1000.
(** bin_center, width, ax.bar(align='center'): the ends of a bar are bin_center - width / 2 and bin_center + width / 2 [for tools/plot_utils.py L2558-2563] *)
Definition bar_of (a b : R) (n : nat) : bar :=
  let center := (b + a) / 2 in let width := b - a in Bar (center - width / 2) (center + width / 2) n.
(** edges[1:] and edges[:-1] with the entries; None: ValueError of different lengths.  Simplification: an array of one entry is not broadcast [for tools/plot_utils.py L2558-2563] *)
Fixpoint bars (edges : list R) (counts : list nat) : option (list bar) :=
  match edges, counts with
  | a :: ((b :: _) as edges), n :: counts => match bars edges counts with Some l => Some (bar_of a b n :: l) | None => None end
  | [_], [] => Some []
  | _, _ => None
  end.
(** min(edges) and max(edges); None: ValueError [for tools/plot_utils.py L2564, L2573] *)
Definition limits (edges : list R) : option (R * R) :=
  match edges with [] => None | a :: l => Some (fold_left Rmin l a, fold_left Rmax l a) end.
(** tools/plot_utils.py L2551-2574: one histogram *)
Definition angle_page (s : system) (a : angle) (d : label) (h : hist) : option page :=
  let edges := map mrad (snd h) in
  match bars edges (fst h), limits edges with
  | Some l, Some lim =>
      Some (Page s a d l (option_map (fun p => let '(amplitude, mean, sigma) := p in gauss amplitude (mrad mean) (mrad sigma)) (fit h))
        (option_map (fun p => let '(amplitude, mean, sigma) := p in (mrad mean, mrad sigma)) (fit h)) lim)
  | _, _ => None
  end.
(** tools/plot_utils.py L2541-2547; None: IndexError *)
Definition label_of (dut_names : option (list NAME)) (d : option nat) : option label :=
  match d, dut_names with
  | None, _ => Some NoLabel
  | Some d, Some names => match nth_error names d with Some n => Some (Given n) | None => None end
  | Some d, None => Some (Numbered d)
  end.
(** tools/plot_utils.py L2548-2550: the angles of a DUT, no local angles for the telescope *)
Definition angle_list (d : option nat) : list (system * angle) :=
  filter (fun sa => match d, fst sa with None, Local => false | _, _ => true end) [(Global, Total); (Global, Alpha); (Global, Beta); (Local, Total); (Local, Alpha); (Local, Beta)].
(** tools/plot_utils.py L2548-2574; None: NoSuchNodeError *)
Fixpoint dut_pages (f : file) (d : option nat) (lab : label) (l : list (system * angle)) : option (list page) :=
  match l with
  | [] => Some []
  | (s, a) :: l =>
      match read f (s, a, d) with
      | None => None
      | Some h => match angle_page s a lab h, dut_pages f d lab l with Some p, Some ps => Some (p :: ps) | _, _ => None end
      end
  end.
(** tools/plot_utils.py L2540-2574 *)
Fixpoint all_pages (f : file) (dut_names : option (list NAME)) (duts : list (option nat)) : option (list page) :=
  match duts with
  | [] => Some []
  | d :: duts =>
      match label_of dut_names d with
      | None => None
      | Some lab => match dut_pages f d lab (angle_list d), all_pages f dut_names duts with Some p, Some ps => Some (p ++ ps) | _, _ => None end
      end
  end.
(** tools/plot_utils.py L2517-2574: None is inserted in front of the selected DUTs *)
Definition plot_track_angle (f : file) (select_duts : list nat) (dut_names : option (list NAME)) : option (list page) :=
  all_pages f dut_names (None :: map Some select_duts).
End AnglePlot.
