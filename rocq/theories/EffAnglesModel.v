(** Model of the histograms of track angles of calculate_efficiency: their calculation (result_analysis.py L1186-1206, L1310-1330, L1389-1408), their pages (tools/plot_utils.py
    L1275-1277, L1594-1602, L1654-1662, L1681-1689, L1708-1716, L1732, L2067-2104) and their nodes in the output file (result_analysis.py L1781-1843, L1889-1969).
    Simplifications: exact real numbers; the other pages are not modelled and raise no exception (np.int of L2282 needs an old version of numpy); an angle which is nan is None; an exception is None. *)
From Coq Require Import List Arith Reals Bool.
From Verif Require Import GeometryModel RunningMeanModel TrackAngleModel AngleFileModel ResidualsModel AnglePlotModel.
Import ListNotations.
Local Open Scope R_scope.

(** a track: the three local angles, select_valid_hit, select_valid_tracks_efficiency_region for each region [for result_analysis.py L1186-1206, L1310-1330] *)
Record track := Track { t_angle : angle -> option R; t_hit : bool; t_region : nat -> bool }.
(** the angles of the selected tracks of all chunks [for result_analysis.py L1186-1206, L1310-1330] *)
Definition chosen (p : track -> bool) (a : angle) (chunks : list (list track)) : list (list (option R)) := map (fun c => map (fun t => t_angle t a) (filter p c)) chunks.
(** result_analysis.py L1310-1327 with L1389-1404 for the tracks of the DUT, L1186-1206 for the tracks of a region: edges from mean and standard deviation of the first chunk,
    further chunks are added; ValueError without an angle in the first chunk *)
Definition three_hists (n_bins_track_angle : nat) (p : track -> bool) (chunks : list (list track)) : option three :=
  match angle_histogram n_bins_track_angle (chosen p Total chunks), angle_histogram n_bins_track_angle (chosen p Alpha chunks), angle_histogram n_bins_track_angle (chosen p Beta chunks) with
  | Some t, Some a, Some b => Some (t, a, b)
  | _, _, _ => None
  end.

(** a bar: left end, right end, height (None: nan) [for tools/plot_utils.py L1597, L2070] *)
Record angle_bar := ABar { b_left : R; b_right : R; b_height : option R }.
(** a page "Total track angle distribution" etc. of a DUT or (number) of a region, with the label 'Track angle [mrad]' [for tools/plot_utils.py L1599-1601, L2072-2075] *)
Record angle_page := APage { a_region : option nat; a_angle : angle; a_bars : list angle_bar }.
(** np.diff(bin_centers)[0]; None: IndexError [for tools/plot_utils.py L1596, L2069] *)
Definition first_width (centers : list R) : option R := match centers with a :: b :: _ => Some (b - a) | _ => None end.
(** tools/plot_utils.py L1595-1601: all bars have the width of the first one.  Simplification: an array of one height is not broadcast *)
Definition page_of (r : option nat) (a : angle) (edges : list R) (heights : list (option R)) : option angle_page :=
  let centers := bin_centers edges in
  match first_width centers with
  | Some w => if (length centers =? length heights)%nat then Some (APage r a (map (fun p => ABar (fst p - w / 2) (fst p + w / 2) (snd p)) (combine centers heights))) else None
  | None => None
  end.
(** several pages; None: exception [for tools/plot_utils.py L1594-1716, L2067-2104] *)
Fixpoint all_of {T} (l : list (option T)) : option (list T) :=
  match l with [] => Some [] | Some x :: l => match all_of l with Some l => Some (x :: l) | None => None end | None :: _ => None end.
(** heights of the pages of the DUT [for tools/plot_utils.py L1597] *)
Definition plain_heights (counts : list nat) : list (option R) := map (fun n => Some (INR n)) counts.
(** heights of the pages of a region: divided by the sum, nan for the sum 0 [for tools/plot_utils.py L2070, L2084, L2098] *)
Definition normalized_heights (counts : list nat) : list (option R) := map (fun n => match list_sum counts with O => None | s => Some (INR n / INR s) end) counts.
(** tools/plot_utils.py L1594-1602, L1654-1662, L1681-1689, L1708-1716: the edges are local variables; those of the total angle are converted twice *)
Definition dut_pages (h : three) : option (list angle_page) :=
  let '(total, alpha, beta) := h in
  let edges := map mrad (snd total) in
  let edges_again := map mrad edges in
  all_of [page_of None Total edges (plain_heights (fst total)); page_of None Total edges_again (plain_heights (fst total));
          page_of None Alpha (map mrad (snd alpha)) (plain_heights (fst alpha)); page_of None Beta (map mrad (snd beta)) (plain_heights (fst beta))].
(** item of a list: list[region_index] = list[region_index] * 1000.0 [for tools/plot_utils.py L2067, L2081, L2095] *)
Definition converted (h : hist) : hist := (fst h, map mrad (snd h)).
(** tools/plot_utils.py L2067-2104: the lists of edges, which belong to the caller, are changed; pages and the histograms afterwards *)
Definition region_pages (r : nat) (h : three) : option (list angle_page * three) :=
  let '(total, alpha, beta) := h in
  let total := converted total in let alpha := converted alpha in let beta := converted beta in
  match all_of [page_of (Some r) Total (snd total) (normalized_heights (fst total)); page_of (Some r) Alpha (snd alpha) (normalized_heights (fst alpha)); page_of (Some r) Beta (snd beta) (normalized_heights (fst beta))] with
  | Some l => Some (l, (total, alpha, beta))
  | None => None
  end.
(** tools/plot_utils.py L1934-2104: all regions *)
Fixpoint regions_pages (r : nat) (l : list three) : option (list angle_page * list three) :=
  match l with
  | [] => Some ([], [])
  | h :: l => match region_pages r h with
              | Some (p, h) => match regions_pages (S r) l with Some (ps, hs) => Some (p ++ ps, h :: hs) | None => None end
              | None => None
              end
  end.
(** tools/plot_utils.py L1275-1277, L1732, L1884: pages and the histograms of the regions afterwards; without regions the list is empty *)
Definition efficiency_plots (output_pdf any_efficiency : bool) (dut : three) (regions : list three) : option (list angle_page * list three) :=
  if output_pdf then
    match dut_pages dut with
    | None => None
    | Some l => if any_efficiency then match regions_pages 0 regions with Some (ps, hs) => Some (l ++ ps, hs) | None => None end else Some (l, regions)
    end
  else Some ([], regions).
(** the stored histograms with their edges: of the DUT and of its regions [for result_analysis.py L1781-1843, L1923-1969] *)
Record stored := Stored { s_dut : three; s_regions : list three }.
(** result_analysis.py L1186-1206, L1310-1330, L1607-1672, L1781-1843, L1889-1969: the pages are made before the histograms are stored *)
Definition efficiency_angles (n_bins_track_angle : nat) (plot any_efficiency : bool) (n_regions : nat) (chunks : list (list track)) : option (list angle_page * stored) :=
  match three_hists n_bins_track_angle t_hit chunks, all_of (map (fun r => three_hists n_bins_track_angle (fun t => t_region t r && t_hit t) chunks) (seq 0 n_regions)) with
  | Some dut, Some regions => match efficiency_plots plot any_efficiency dut regions with Some (pages, regions) => Some (pages, Stored dut regions) | None => None end
  | _, _ => None
  end.
