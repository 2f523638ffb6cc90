(** Model of the correlation of hits or clusters of two devices.
    Sources: hit_analysis.py L1244-1528 (correlate, _correlate_position), tools/analysis_utils.py L94-184.
    Simplifications: one DUT besides the reference (start index and histograms are separate for each DUT); a hit or cluster is its event number and the
    indices in the histograms (the columns ref_x_indices etc. of the arrays; for their calculation see [extent] below). *)
From Coq Require Import ZArith List Bool Reals.
From Verif Require Import EventArraysModel ChunksModel GeometryModel.
Import ListNotations.
Local Open Scope Z_scope.

(** tools/analysis_utils.py L94-146 *)
Record hit := Hit { h_event : Z; h_x : Z; h_y : Z }.

(** A two-dimensional array of type int32 [for tools/analysis_utils.py L94-146] *)
Record hist := Hist { rows : Z; columns : Z; bin : Z -> Z -> Z }.
(** tools/analysis_utils.py L94-146 *)
Definition zeros (n m : Z) : hist := Hist n m (fun _ _ => 0).
(** tools/analysis_utils.py L94-146 *)
Definition wrap32 (z : Z) : Z := (z + 2 ^ 31) mod 2 ^ 32 - 2 ^ 31.
(** hist[i, j] += 1 in a compiled function: there is no check of the indices [for tools/analysis_utils.py L94-146] *)
Definition bump (h : hist) (i j : Z) : outcome hist :=
  if (0 <=? i) && (i <? rows h) && (0 <=? j) && (j <? columns h)
  then Ok (Hist (rows h) (columns h) (fun a b => if (a =? i) && (b =? j) then wrap32 (bin h a b + 1) else bin h a b))
  else OutOfBounds.
(** The histograms x_corr_hist and y_corr_hist [for tools/analysis_utils.py L94-146] *)
Definition hists := (hist * hist)%type.
(** tools/analysis_utils.py L94-146 *)
Definition fill (hs : hists) (a b : hit) : outcome hists :=
  match bump (fst hs) (h_x a) (h_x b), bump (snd hs) (h_y a) (h_y b) with
  | Ok hx, Ok hy => Ok (hx, hy)
  | Ok _, e => match e with Ok _ => Raised | OutOfBounds => OutOfBounds | Raised => Raised | OutOfFuel => OutOfFuel end
  | OutOfBounds, _ => OutOfBounds
  | Raised, _ => Raised
  | OutOfFuel, _ => OutOfFuel
  end.

(** analysis_utils.py L130-131: dut_index is increased; the list is the part of the array from dut_index on *)
Fixpoint catch_up (e : Z) (dut : list hit) : list hit :=
  match dut with
  | [] => []
  | d :: rest => if h_event d <? e then catch_up e rest else dut
  end.
(** tools/analysis_utils.py L133-144 *)
Fixpoint fill_event (r : hit) (dut : list hit) (hs : hists) : outcome hists :=
  match dut with
  | [] => Ok hs
  | d :: rest =>
    if h_event r =? h_event d then
      match fill hs d r with
      | Ok hs => fill_event r rest hs
      | e => e
      end
    else Ok hs
  end.
(** tools/analysis_utils.py L125-144 *)
Fixpoint correlate_on_event_number (ref dut : list hit) (hs : hists) : outcome hists :=
  match ref with
  | [] => Ok hs
  | r :: ref =>
    let dut := catch_up (h_event r) dut in
    match fill_event r dut hs with
    | Ok hs => correlate_on_event_number ref dut hs
    | e => e
    end
  end.

(** hit_analysis.py L1491-1526: the chunks of the DUT *)
Fixpoint correlate_chunks (ref : list hit) (ys : list (list hit * nat)) (index : option nat) (hs : hists) : outcome (option nat * hists) :=
  match ys with
  | [] => Ok (index, hs)
  | (data, i) :: ys =>
    match correlate_on_event_number ref data hs with
    | Ok hs => correlate_chunks ref ys (Some i) hs
    | OutOfBounds => OutOfBounds | Raised => Raised | OutOfFuel => OutOfFuel
    end
  end.
(** hit_analysis.py L1475-1528 *)
Definition correlate_position (chunk_size : nat) (dut_table ref : list hit) (index : option nat) (start stop : Z) (hs : hists) : outcome (option nat * hists) :=
  let (ys, e) := data_aligned_at_events h_event dut_table (Params (Some start) (Some stop) index None chunk_size false true false) in
  match correlate_chunks ref ys index hs with
  | Ok r => match e with GenDone => Ok r | _ => Raised end
  | e => e
  end.
(** hit_analysis.py L1351-1384: the chunks of the reference *)
Fixpoint correlate_loop (chunk_size : nat) (dut_table : list hit) (chunks : list (list hit * nat)) (index : option nat) (hs : hists) : outcome hists :=
  match chunks with
  | [] => Ok hs
  | (ref, _) :: chunks =>
    match first_event h_event ref, last_event h_event ref with
    | Some start, Some stop =>
      match correlate_position chunk_size dut_table ref index start (stop + 1) hs with
      | Ok (index, hs) => correlate_loop chunk_size dut_table chunks index hs
      | OutOfBounds => OutOfBounds | Raised => Raised | OutOfFuel => OutOfFuel
      end
    | _, _ => Raised  (* IndexError *)
    end
  end.
(** hit_analysis.py L1244-1384 *)
Definition correlate (chunk_size : nat) (ref_table dut_table : list hit) (hs : hists) : outcome hists :=
  let (ys, e) := data_aligned_at_events h_event ref_table (Params None None None None chunk_size false true true) in
  match correlate_loop chunk_size dut_table ys None hs with
  | Ok r => match e with GenDone => Ok r | _ => Raised end
  | e => e
  end.

(** ** Correlation of consecutive events of one device: analysis_utils.py L147-184 *)

(** tools/analysis_utils.py L178-183: the hits from corr_start_index on, up to the current event.  The end of the array is not checked *)
Fixpoint fill_before (cur : hit) (from : list hit) (hs : hists) : outcome hists :=
  match from with
  | [] => OutOfBounds
  | a :: rest =>
    if h_event a <? h_event cur then
      match fill hs a cur with
      | Ok hs => fill_before cur rest hs
      | e => e
      end
    else Ok hs
  end.
(** tools/analysis_utils.py L169-184; [last] and [start]: last_event_number and corr_start_index, which is not set at first *)
Fixpoint range_loop (all todo : list hit) (event_range : Z) (last : Z) (start : option nat) (hs : hists) : outcome hists :=
  match todo with
  | [] => Ok hs
  | cur :: todo =>
    let start := if h_event cur =? last then start else Some (searchsorted h_event all (h_event cur - event_range)) in
    match start with
    | None => OutOfBounds
    | Some i =>
      match fill_before cur (skipn i all) hs with
      | Ok hs => range_loop all todo event_range (h_event cur) start hs
      | e => e
      end
    end
  end.
(** tools/analysis_utils.py L169-184 *)
Definition correlate_hits_on_event_range (hits : list hit) (event_range : Z) (hs : hists) : outcome hists :=
  range_loop hits hits event_range (-1) None hs.
(** hit_analysis.py L377-383: check_file calls it for each chunk of the file *)
Fixpoint check_loop (chunks : list (list hit)) (event_range : Z) (hs : hists) : outcome hists :=
  match chunks with
  | [] => Ok hs
  | c :: chunks =>
    match correlate_hits_on_event_range c event_range hs with
    | Ok hs => check_loop chunks event_range hs
    | e => e
    end
  end.

(** ** The range and the bins of the histograms *)
Local Open Scope R_scope.
(** math.ceil [for hit_analysis.py L1313-1338] *)
Definition ceil (x : R) : Z := (- Int_part (- x))%Z.
(** hit_analysis.py L1313-1338: number of bins and lower edge of the histogram of a device with extent [lo, hi] and translation c (exact arithmetic) *)
Definition n_bins (lo hi resolution : R) : Z := ceil ((hi - lo) / resolution).
(** hit_analysis.py L1313-1338 *)
Definition lower_edge (c lo hi resolution : R) : R := c - IZR (n_bins lo hi resolution) * resolution / 2.
(** hit_analysis.py L1514-1517: conversion to uint32 cuts off the decimals (the modulus for positions outside is not modelled: negative results stay negative) *)
Definition bin_index (c lo hi resolution position : R) : Z := Int_part ((position - lower_edge c lo hi resolution) / resolution).
(** dut.py L261-275 with global_position: smallest and largest coordinate [k] (0: x, 1: y) of the corners *)
Definition min4 (a b c d : R) : R := Rmin (Rmin a b) (Rmin c d).
(** dut.py L261-275 *)
Definition max4 (a b c d : R) : R := Rmax (Rmax a b) (Rmax c d).
(** dut.py L261-275 *)
Definition global_extent (k : nat) (s : sensor) : option (R * R) :=
  match index_to_global s (1/2) (1/2), index_to_global s (1/2) (INR (n_rows s) + 1/2), index_to_global s (INR (n_columns s) + 1/2) (1/2),
        index_to_global s (INR (n_columns s) + 1/2) (INR (n_rows s) + 1/2) with
  | Some a, Some b, Some c, Some d => Some (min4 (comp a k) (comp b k) (comp c k) (comp d k), max4 (comp a k) (comp b k) (comp c k) (comp d k))
  | _, _, _, _ => None
  end.
