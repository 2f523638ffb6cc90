(* Model of result_analysis.calculate_purity (L2097-2304). *)
From Coq Require Import Ascii String List Arith ZArith Lia Reals Bool.
From Verif Require Import GeometryModel CorrelateModel PrealignModel RunningMeanModel EfficiencyModel.
Import ListNotations.
Local Open Scope R_scope.

(** A row of Tracks_DUT: hit position (None: no hit), track intersection, and whether the track was fitted (track_chi2 is not nan). [for result_analysis.py L2156-2161] *)
Record ptrack := PTrack { p_hit : option (R * R); p_fitted : bool; p_intersection : R * R }.

(** result_analysis.py L2156-2161 and np.histogram2d(bins=(n_bin_x, n_bin_y), range=extents): the edges in one direction. *)
Definition purity_edges (lo hi bin_size : R) : list R := linspace lo hi (Z.to_nat (Int_part (Rabs (hi - lo) / bin_size)) + 1).
(** result_analysis.py L2168-2214 *)
Definition hist_points (bins : list (R * R -> bool)) (ps : list (R * R)) : list nat := map (fun b => length (filter b ps)) bins.
(** result_analysis.py L2168-2214 *)
Definition add_counts (a b : list nat) : list nat := map (fun p => (fst p + snd p)%nat) (combine a b).

(** result_analysis.py L2168-2181: hits (with and without fitted track). *)
Definition hit_points (ts : list ptrack) : list (R * R) := flat_map (fun t => match p_hit t with Some h => [h] | None => [] end) ts.
(** result_analysis.py L2168-2181 *)
Definition fitted_hits (ts : list ptrack) : list ((R * R) * (R * R)) :=
  flat_map (fun t => match p_hit t with Some h => if p_fitted t then [(h, p_intersection t)] else [] | None => [] end) ts.
(** result_analysis.py L2184-2200: intersections inside of local_x_range and local_y_range. *)
Definition in_range (r : option (R * R)) (x : R) : bool := match r with None => true | Some (a, b) => Rleb a x && Rleb x b end.
(** result_analysis.py L2202-2209 *)
Definition distance (a b : R * R) : R := sqrt ((fst a - fst b) ^ 2 * 1 + (snd a - snd b) ^ 2 * 1).
(** result_analysis.py L2202-2209 *)
Definition pure_hits (rx ry : option (R * R)) (cut : R) (ts : list ptrack) : list (R * R) :=
  map fst (filter (fun p => Rltb (distance (snd p) (fst p)) cut)
    (filter (fun p => in_range ry (snd (snd p))) (filter (fun p => in_range rx (fst (snd p))) (fitted_hits ts)))).

(** result_analysis.py L2206-2214: np.any(pure_hits_local) looks for coordinates which are not zero. *)
Definition any_nonzero (ps : list (R * R)) : bool := existsb (fun p => negb (Reqb (fst p) 0) || negb (Reqb (snd p) 0)) ps.
(** result_analysis.py L2206-2214 *)
Definition purity_chunk (bins : list (R * R -> bool)) rx ry cut (s : list nat * list nat) (ts : list ptrack) : list nat * list nat :=
  let total := add_counts (fst s) (hist_points bins (hit_points ts)) in
  let pure := pure_hits rx ry cut ts in
  (total, if any_nonzero pure then add_counts (snd s) (hist_points bins pure) else snd s).
(** result_analysis.py L2206-2214 *)
Definition purity_hists (bins : list (R * R -> bool)) rx ry cut (chunks : list (list ptrack)) : list nat * list nat :=
  fold_left (purity_chunk bins rx ry cut) chunks (map (fun _ => 0%nat) bins, map (fun _ => 0%nat) bins).

(** result_analysis.py L2216-2218: the purity in percent goes into an array of the type of total_hit_hist (uint32), which truncates. *)
Definition purity_percent (total pure : nat) : Z := if (total =? 0)%nat then 0%Z else Int_part (INR pure / INR total * 100).

(** The string formatting operator: TypeError (None) if the number of arguments does not match. [for result_analysis.py L2216-2235] *)
Definition format_string (specifiers arguments : nat) : option unit := if (specifiers =? arguments)%nat then Some tt else None.

(** Binding of the arguments of a call to the parameters of a Python function (name, and whether it has a default): the positional arguments take the first parameters; TypeError (None)
    if there are too many, if a keyword is not one of the other parameters, or if one of those without default is not given. [for result_analysis.py L2225-2233] *)
Definition call_arguments (parameters : list (string * bool)) (positional : nat) (keywords : list string) : option unit :=
  let others := skipn positional parameters in
  if (positional <=? length parameters)%nat && forallb (fun k => existsb (fun p => String.eqb k (fst p)) others) keywords &&
     forallb (fun p => snd p || existsb (String.eqb (fst p)) keywords) others then Some tt else None.
(** plot_utils.py L2453 *)
Definition purity_plots_parameters : list (string * bool) :=
  [("telescope", false); ("pure_hit_hist", false); ("hit_hist", false); ("purity", false); ("purity_sensor", false); ("actual_dut_index", false);
   ("minimum_hit_density", false); ("hist_extent", false); ("cut_distance", false); ("mask_zero", true); ("output_pdf", true)]%string.

(** result_analysis.py L2216-2233: what is computed for a DUT and handed to purity_plots (total_hit_hist, total_pure_hit_hist, purity).
    [density] is minimum_hit_density; L2222-2223: RuntimeError if no bin which is not masked has a purity. *)
Record purity_plot := PurityPlot { plot_total : list nat; plot_pure : list nat; plot_purity : list Z }.
(** result_analysis.py L2216-2223 *)
Definition purity_of (bins : list (R * R -> bool)) rx ry cut density (chunks : list (list ptrack)) : option purity_plot :=
  let h := purity_hists bins rx ry cut chunks in
  let purity := map (fun p => purity_percent (fst p) (snd p)) (combine (fst h) (snd h)) in
  if existsb (fun p => (density <=? fst p)%nat && negb (snd p =? 0)%Z) (combine (fst h) purity) then Some (PurityPlot (fst h) (snd h) purity) else None.
(** result_analysis.py L2225-2233: the call of purity_plots has six positional arguments (the histograms, the purities, the index of the DUT and minimum_hit_density) and three keywords. *)
Definition purity_plots_call : option unit := call_arguments purity_plots_parameters 6 ["hist_extent"; "cut_distance"; "output_pdf"]%string.
(** result_analysis.py L2140-2165 *)
Record purity_dut := PurityDut { u_bins : list (R * R -> bool); u_chunks : list (list ptrack) }.
(** Figures which are made, and the returned sums of pure and total hits or None for an exception; the message of L2235 formats one value with two specifiers.
    [for result_analysis.py L2097-2304] *)
Fixpoint calculate_purity rx ry cut density (duts : list purity_dut) : list purity_plot * option (list (nat * nat)) :=
  match duts with
  | [] => ([], Some [])
  | d :: duts =>
      match purity_of (u_bins d) rx ry cut density (u_chunks d) with
      | None => ([], None)
      | Some p =>
          match purity_plots_call with
          | None => ([], None)
          | Some _ =>
              match format_string 2 1 with
              | None => ([p], None)
              | Some _ => let r := calculate_purity rx ry cut density duts in
                          (p :: fst r, option_map (cons (total (plot_pure p), total (plot_total p))) (snd r))
              end
          end
      end
  end.
