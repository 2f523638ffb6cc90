(** Model of the steps of dut_alignment.align_kalman (L914-1178) and _duts_alignment_kalman (L1321-1668): the arguments, the groups of DUTs, the passes
    over the tracks, the chunks and the tables of the output file.
    Simplifications: the initial alignment, the fit of a track, and the update of the alignment are parameters (AlignKalmanModel, AlignJacobianModel and
    KalmanFilterModel model them); they are functions of the current state.  The candidates found by find_tracks are a parameter for each group.  Only the
    class of an error is kept.  Messages, plots and progress bars are not modelled.  exclude_dut_hit contains bools only. *)
From Coq Require Import ZArith List Arith Bool.
From Verif Require Import SelectionModel BitsModel FitTracksModel.
From Verif Require AlignArgsModel.
Import ListNotations.
Local Open Scope nat_scope.

(** dut_alignment.py L914-1178; OtherErr: an exception of the initial alignment, the Euler angles or the update *)
Inductive error := ValueErr | TypeErr | IndexErr | RuntimeErr | OtherErr.

Section Steps.
  Variables Track Tel State Fit Values Delta V Params : Type.
  Variable hit_flag : Track -> Z.
  (** _calculate_initial_alignment, dut_alignment.py L1649-1654 *)
  Variable init : Tel -> list nat -> Params -> option State.
  (** dut_alignment.py L1498-1510: the alignment of all DUTs; None: exception *)
  Variable alignment : State -> option Tel.
  (** dut_alignment.py L1512-1530: the values for the row of every DUT *)
  Variable values : State -> list Values.
  (** dut_alignment.py L1533-1537: chi2, p-value and the other results; None: exception, which is caught *)
  Variable fit : list nat -> State -> Track -> option (V * V * Fit).
  (** dut_alignment.py L1544: nan is not greater *)
  Variable gt : V -> V -> bool.
  (** the initial value of the arrays, dut_alignment.py L1480-1482 *)
  Variable zero : V.
  (** _update_alignment_parameters, dut_alignment.py L2023-2056: the new state and the deviations of every DUT; None: exception *)
  Variable update : State -> Fit -> option (State * list Delta).
  (** n_tracks_processed, dut_alignment.py L1464 *)
  Variable processed : State -> list nat.

  (** One row of the table of every DUT; without an update the deviations stay nan, dut_alignment.py L1482 and L2038-2047 *)
  Definition row : Type := Values * option Delta.
  (** dut_alignment.py L1512-1530 and L1563-1567 *)
  Definition rows_of (s : State) (d : option (list Delta)) : list row :=
    match d with None => map (fun v => (v, None)) (values s) | Some ds => map (fun vd => (fst vd, Some (snd vd))) (combine (values s) ds) end.
  (** The output files: /Alignment_DUTn, /TrackChi2, /TrackpValue, the attributes n_tracks_processed, and the configuration, dut_alignment.py L1398-1454 *)
  Record output := Output { tables : option (list (list row)); chi2s : list V; p_values : list V; processed_attr : list nat; saved : Tel }.
  (** dut_alignment.py L1398-1454; [rows]: for every track the rows of all DUTs; [n_duts]: len(telescope) *)
  Definition table_of (d : nat) (rows : list (list row)) : list row := flat_map (fun r => match nth_error r d with Some v => [v] | None => [] end) rows.
  (** dut_alignment.py L1398-1454 *)
  Definition store (n_duts : nat) (o : output) (tel : Tel) (n : list nat) (rows : list (list row)) (chis : list (V * V)) : output :=
    let old d := match tables o with None => [] | Some ts => nth d ts [] end in
    Output (Some (map (fun d => old d ++ table_of d rows) (seq 0 n_duts))) (chi2s o ++ map fst chis) (p_values o ++ map snd chis) n tel.

  (** What the loop over the tracks of one chunk gives: the state, the alignment of the telescope, the rows and chi2s, and whether the loop is to end *)
  Record progress := Progress { p_state : State; p_tel : Tel; p_rows : list (list row); p_chis : list (V * V); p_stop : bool }.
  (** the row of one more track before the others [for dut_alignment.py L1485-1579] *)
  Definition push (r : list row) (c : V * V) (p : progress) : progress := Progress (p_state p) (p_tel p) (r :: p_rows p) (c :: p_chis p) (p_stop p).
  (** dut_alignment.py L1485-1579; None: exception *)
  Fixpoint chunk_loop (fit_duts : list nat) (cut : V) (max_tracks : nat) (s : State) (tel : Tel) (tracks : list Track) : option progress :=
    match tracks with
    | [] => Some (Progress s tel [] [] false)
    | t :: tracks =>
        match alignment s with
        | None => None
        | Some tel =>
            match fit fit_duts s t with
            | None => option_map (push (rows_of s None) (zero, zero)) (chunk_loop fit_duts cut max_tracks s tel tracks)
            | Some (c, p, f) =>
                if gt c cut then option_map (push (rows_of s None) (c, p)) (chunk_loop fit_duts cut max_tracks s tel tracks)
                else match update s f with
                     | None => None
                     | Some (s', d) =>
                         if forallb (fun n => max_tracks <? n) (processed s') then Some (Progress s' tel [rows_of s (Some d)] [(c, p)] true)
                         else option_map (push (rows_of s (Some d)) (c, p)) (chunk_loop fit_duts cut max_tracks s' tel tracks)
                     end
            end
        end
    end.
  (** dut_alignment.py L1474-1475: tracks with the required hits *)
  Definition valid (hits : list nat) (t : Track) : bool := (Z.land (hit_flag t) (mask_of hits) =? mask_of hits)%Z.
  (** _alignment_loop, dut_alignment.py L1472-1586: the output files, and the alignment of the telescope unless an exception is raised *)
  Fixpoint alignment_loop (n_duts : nat) (fits hits : list nat) (cut : V) (max_tracks : nat) (s : State) (tel : Tel) (o : output) (chunks : list (list Track)) : output * option Tel :=
    match chunks with
    | [] => (o, Some tel)
    | chunk :: chunks =>
        match chunk_loop fits cut max_tracks s tel (filter (valid hits) chunk) with
        | None => (o, None)
        | Some p =>
            let o := store n_duts o (p_tel p) (processed (p_state p)) (p_rows p) (p_chis p) in
            if p_stop p then (o, Some (p_tel p)) else alignment_loop n_duts fits hits cut max_tracks (p_state p) (p_tel p) o chunks
        end
    end.

  (** dut_alignment.py L1624-1656: one pass over the tracks, for the DUT of [c] and all with identical tracks; ([select], [params]): the DUTs to align and their parameters *)
  Definition pass (n_duts : nat) (select : list nat) (params : Params) (cut : V) (max_tracks : nat) (chunks : list (list Track)) (c : fit_config) (tel : Tel) (o : output) : output * (error + Tel) :=
    if min_hits c <? 2 then (o, inl ValueErr)
    else if length (fit_duts c) <? min_hits c then (o, inl RuntimeErr)
    else match init tel select params with
         | None => (o, inl OtherErr)
         | Some s => let (o, r) := alignment_loop n_duts (fit_duts c) (f_hit c) cut max_tracks s tel o chunks in (o, match r with None => inl OtherErr | Some tel => inr tel end)
         end.
  (** dut_alignment.py L1600-1658: FitTracksModel.fit_loop models the loop over the DUTs, which is the one of fit_tracks *)
  Fixpoint passes (n_duts : nat) (select : list nat) (params : Params) (cut : V) (max_tracks : nat) (chunks : list (list Track)) (leaders : list fit_config) (tel : Tel) (o : output) : output * (error + Tel) :=
    match leaders with
    | [] => (o, inr tel)
    | c :: leaders =>
        match pass n_duts select params cut max_tracks chunks c tel o with
        | (o, inl e) => (o, inl e)
        | (o, inr tel) => passes n_duts select params cut max_tracks chunks leaders tel o
        end
    end.
  (** a value for all DUTs or one for each DUT; dut_alignment.py L1378-1395.  An empty list is an error as select_duts is not empty *)
  Definition spread {A} (a : A + list A) (n : nat) : option (list A) :=
    match a with inl v => Some (repeat v n) | inr l => if length l =? n then Some l else None end.
  (** dut_alignment.py L1321-1395: the same fit and hit DUTs for each DUT to align *)
  Definition configs (select fits hits : list nat) (exclude : list bool) (mins : list (option nat)) : list fit_config :=
    map (fun x => FitConfig (fst x) fits hits (fst (snd x)) (snd (snd x))) (combine select (combine exclude mins)).
  (** _duts_alignment_kalman, dut_alignment.py L1321-1668 *)
  Definition duts_alignment_kalman (n_duts : nat) (index : nat) (select fits hits : list nat) (params : Params) (exclude : bool + list bool) (mins : option nat + list (option nat))
      (cut : V) (max_tracks : nat) (chunks : list (list Track)) (o : output) : output * option error :=
    match spread exclude (length select), spread mins (length select) with
    | Some ex, Some ms =>
        let o := if index =? 0 then Output None [] [] (processed_attr o) (saved o) else o in
        let (o, r) := passes n_duts select params cut max_tracks chunks (map fst (fit_steps (configs select fits hits ex ms))) (saved o) o in
        (o, match r with inl e => Some e | inr _ => None end)
    | _, _ => (o, Some ValueErr)
    end.

  (** *** align_kalman *)
  (** The arguments of one group [for dut_alignment.py L1141-1176] *)
  Record group := Group { g_select : list nat; g_fits : list nat; g_hits : list nat; g_params : Params; g_max_tracks : nat; g_chunks : list (list Track) }.
  (** dut_alignment.py L1141-1176: track_chi2[index] is evaluated after find_tracks.  [cuts]: inl for a number (or None), which has no items.  [temp]: the files of the
      track candidates which exist, by index *)
  Fixpoint groups_loop (n_duts : nat) (exclude : bool + list bool) (mins : option nat + list (option nat)) (cuts : unit + list V) (index : nat) (groups : list group)
      (temp : list nat) (o : output) : list nat * output * option error :=
    match groups with
    | [] => (temp, o, None)
    | g :: groups =>
        let temp' := index :: remove Nat.eq_dec index temp in
        match cuts with
        | inl _ => (temp', o, Some TypeErr)
        | inr l =>
            match nth_error l index with
            | None => (temp', o, Some IndexErr)
            | Some cut =>
                match duts_alignment_kalman n_duts index (g_select g) (g_fits g) (g_hits g) (g_params g) exclude mins cut (g_max_tracks g) (g_chunks g) o with
                | (o, Some e) => (temp', o, Some e)
                | (o, None) => groups_loop n_duts exclude mins cuts (S index) groups (remove Nat.eq_dec index temp') o
                end
            end
        end
    end.
End Steps.
(** dut_alignment.py L1011-1034 and L1056-1103: the selections of the DUTs have the checks of align (AlignArgsModel) *)
Definition kalman_selections (select hits fits : AlignArgsModel.selection) : AlignArgsModel.res (list (list nat) * list (list nat) * list (list nat)) :=
  AlignArgsModel.bind (AlignArgsModel.check_select_duts select) (fun g =>
  AlignArgsModel.bind (AlignArgsModel.check_hit_duts hits g) (fun h =>
  AlignArgsModel.bind (AlignArgsModel.check_fit_duts fits g h) (fun f => inr (g, h, f)))).
