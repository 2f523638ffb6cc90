(** Model of tools/plot_utils.py plot_track_chi2 (L847-955): the pages with the distributions of chi2, reduced chi2 and p-value of each table of tracks.
    Simplifications: real numbers instead of doubles; a value which is not finite is None (nan and infinite values are in no bin of np.histogram); names are lists of ASCII characters;
    an exception is None, also if some pages have been saved before; of a page the title and the bars are modelled. *)
From Coq Require Import Ascii String List Arith ZArith Reals Bool.
From Verif Require Import GeometryModel CorrelateModel PrealignModel RunningMeanModel TrackAngleModel FitResidualsModel FindTracksModel QueryModel ChunksModel.
Import ListNotations.
Local Open Scope R_scope.
Local Open Scope list_scope.

(** re.findall(r'\d+', s): the longest runs of digits; [run] is the run before the position [for tools/plot_utils.py L855] *)
Fixpoint digit_runs (run s : list ascii) : list (list ascii) :=
  match s with
  | [] => match run with [] => [] | _ => [run] end
  | c :: t => if is_digit c then digit_runs (run ++ [c]) t else match run with [] => digit_runs [] t | _ => run :: digit_runs [] t end
  end.
(** int of a text of digits [for tools/plot_utils.py L855] *)
Definition int_of (s : list ascii) : nat := fold_left (fun n c => (10 * n + (nat_of_ascii c - 48))%nat) s 0%nat.
(** tools/plot_utils.py L855: None: IndexError, which is not handled by "except AttributeError" *)
Definition dut_of_node (name : list ascii) : option nat := match rev (digit_runs [] name) with [] => None | d :: _ => Some (int_of d) end.
(** tools/plot_utils.py L856-859; None: IndexError *)
Definition dut_title (dut_names : option (list (list ascii))) (d : nat) : option (list ascii) :=
  match dut_names with Some names => nth_error names d | None => Some (list_ascii_of_string "DUT" ++ decimal d) end.

(** a row of a table: event_number, track_chi2, track_chi_red, track_chi_prob [for tools/plot_utils.py L865-867] *)
Record row := Row { row_event : Z; chi2 : option R; chi_red : option R; chi_prob : option R }.
(** tools/plot_utils.py L864; None: ValueError of data_aligned_at_events *)
Definition row_chunks (chunk_size : nat) (rows : list row) : option (list (list row)) :=
  match data_aligned_at_events row_event rows (Params None None None None chunk_size false true true) with
  | (ys, GenDone) => Some (map fst ys)
  | _ => None
  end.
(** np.histogram(range=[lo, hi], bins=n): the edges [for tools/plot_utils.py L878-881] *)
Definition range_edges (lo hi : R) (n : nat) : list R := let r := hist_range lo hi in linspace (fst r) (snd r) (n + 1).
(** hist += [for tools/plot_utils.py L883-886] *)
Definition add_hist (h g : list nat) : list nat := map (fun p => (fst p + snd p)%nat) (combine h g).
(** histogram of the first chunk, to which the others are added [for tools/plot_utils.py L878-886] *)
Definition hist_of (edges : list R) (column : row -> option R) (c : list row) (cs : list (list row)) : list nat :=
  fold_left (fun h c => add_hist h (histogram edges (map column c))) cs (histogram edges (map column c)).
(** histogram and edges *)
Definition hist : Type := (list nat * list R)%type.
(** the variables of a table, which outlive the iteration [for tools/plot_utils.py L863-886] *)
Record vars := Vars { v_full : hist; v_narrow : hist; v_red : hist; v_prob : hist }.

(** a page: title, bars with centre, width and height (None: nan) [for tools/plot_utils.py L890-955] *)
Record page := Page { p_title : list ascii; p_bars : list (R * R * option R) }.
(** (edges[1:] + edges[:-1]) / 2, edges[1:] - edges[:-1] and the heights [for tools/plot_utils.py L893-895] *)
Definition bars (edges : list R) (heights : list (option R)) : list (R * R * option R) :=
  map (fun i => ((nth (S i) edges 0 + nth i edges 0) / 2, nth (S i) edges 0 - nth i edges 0, nth i heights None)) (seq 0 (length heights)).
(** tools/plot_utils.py L890-918, L932-955: the bars of a histogram *)
Definition hist_bars (h : hist) : list (R * R * option R) := bars (snd h) (map (fun n => Some (INR n)) (fst h)).
(** tools/plot_utils.py L924: hist / hist.sum() / width; nan for 0 / 0 *)
Definition normalized_bars (h : hist) : list (R * R * option R) :=
  let n := list_sum (fst h) in
  bars (snd h) (map (fun i => if (n =? 0)%nat then None else Some (INR (nth i (fst h) 0%nat) / INR n / (nth (S i) (snd h) 0 - nth i (snd h) 0))) (seq 0 (length (fst h)))).
(** tools/plot_utils.py L890-955 *)
Definition node_pages (title : list ascii) (v : vars) : list page :=
  [Page title (hist_bars (v_full v)); Page title (hist_bars (v_narrow v)); Page title (normalized_bars (v_narrow v)); Page title (hist_bars (v_red v)); Page title (hist_bars (v_prob v))].

Section Plot.
  (** np.sort in np.percentile [for tools/plot_utils.py L874] *)
  Variable sort : list R -> list R.
  (** tools/plot_utils.py L870-877: upper end of the range, from the first chunk; IndexError of np.percentile for no value (numpy before 1.22) *)
  Definition full_range (c : list row) : R := match percentile sort (99 / 100) (not_nan (map chi2 c)) with Some p => IZR (ceil p) | None => 1 end.
  (** tools/plot_utils.py L863-886: inl: ValueError of np.histogram; inr None: no chunk, nothing is assigned *)
  Definition node_vars (chunks : list (list row)) : unit + option vars :=
    match chunks with
    | [] => inr None
    | c :: cs =>
        let hi := full_range c in
        if Rltb hi 0 then inl tt
        else let h edges column := (hist_of edges column c cs, edges) in
          inr (Some (Vars (h (range_edges 0 hi 250) chi2) (h (range_edges 0 20 100) chi2) (h (range_edges 0 10 50) chi_red) (h (range_edges 0 1 50) chi_prob)))
    end.
  (** tools/plot_utils.py L851-955: the nodes of the file; [v] are the variables of the node before.  None: exception *)
  Fixpoint plot_nodes (dut_names : option (list (list ascii))) (chunk_size : nat) (v : option vars) (nodes : list (list ascii * list row)) : option (list page) :=
    match nodes with
    | [] => Some []
    | (name, rows) :: ns =>
        match dut_of_node name with
        | None => None
        | Some d =>
            match dut_title dut_names d, row_chunks chunk_size rows with
            | Some title, Some chunks =>
                match node_vars chunks with
                | inl _ => None
                | inr w =>
                    match (match w with Some w => Some w | None => v end) with
                    | None => None
                    | Some w => match plot_nodes dut_names chunk_size (Some w) ns with Some q => Some (node_pages title w ++ q) | None => None end
                    end
                end
            | _, _ => None
            end
        end
    end.
  (** tools/plot_utils.py L847-955 *)
  Definition plot_track_chi2 (dut_names : option (list (list ascii))) (chunk_size : nat) (nodes : list (list ascii * list row)) : option (list page) :=
    plot_nodes dut_names chunk_size None nodes.
End Plot.
