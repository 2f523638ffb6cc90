(** Model of merge_cluster_data.  Source: hit_analysis.py L1532-1722. *)
From Coq Require Import ZArith List Bool.
From Verif Require Import EventArraysModel ChunksModel.
Import ListNotations.
Local Open Scope Z_scope.

Section Merge.
  Context {C : Type}.      (* a cluster *)
  Variable ev : C -> Z.    (* its event number *)
  Variable chunk_size : nat.

  (** A row of the merged table: event number, the cluster of every DUT, the hit flag.  [None] is
      an entry with NaN position.  Simplifications: the columns of a cluster (position, errors,
      charge, ...) are one value, the conversion of indices to positions is not part of this
      model, and clusters in the input files have no NaN position. [for hit_analysis.py L1532-1722] *)
  Record row := mk_row { row_event : Z; row_clusters : list (option C); row_flag : Z }.

  (** hit_analysis.py L1622/L1678: data_aligned_at_events for another DUT *)
  Definition read_dut (table : list C) (start : option Z) (stop : Z) (index : option nat)
    : list (list C * nat) * gen_end :=
    data_aligned_at_events ev table (Params start (Some stop) index None chunk_size false true false).

  (** the for loop stores the yielded index in the list of start indices [for hit_analysis.py L1622-1623] *)
  Definition next_index (index : option nat) (ys : list (list C * nat)) : option nat :=
    fold_left (fun _ y => Some (snd y)) ys index.

  (** hit_analysis.py L1622-1623 *)
  Definition merge_events (common : list Z) (ys : list (list C * nat)) : outcome (list Z) :=
    fold_left (fun acc y =>
        match acc with
        | Ok c => get_max_events_in_both_arrays c (map ev (fst y))
        | e => e
        end) ys (Ok common).

  (** hit_analysis.py L1618-1623: first loop *)
  Fixpoint first_loop (tables : list (list C)) (indices : list (option nat))
           (start : option Z) (stop : Z) (common : list Z) : outcome (list Z * list (option nat)) :=
    match tables, indices with
    | t :: ts, i :: is_ =>
        let (ys, e) := read_dut t start stop i in
        match merge_events common ys, e with
        | Ok common', GenDone =>
            match first_loop ts is_ start stop common' with
            | Ok (c, idx) => Ok (c, next_index i ys :: idx)
            | OutOfBounds => OutOfBounds | Raised => Raised | OutOfFuel => OutOfFuel
            end
        | Ok _, _ => Raised
        | OutOfBounds, _ => OutOfBounds | Raised, _ => Raised | OutOfFuel, _ => OutOfFuel
        end
    | _, _ => Ok (common, [])
    end.

  (** map_cluster on arrays that are initialised with NaN (hit_analysis.py L1637-1646, L1679-1687) *)
  Definition ev_opt (c : option C) : Z := match c with Some x => ev x | None => 0 end.
  (** hit_analysis.py L1637-1646, L1679-1687 *)
  Definition map_to_events (common : list Z) (clusters : list C) : list (option C) :=
    map_cluster ev_opt common (map Some clusters) (repeat None (length common)).

  (** hit_analysis.py L1688-1711: only the selected (not NaN) entries are written *)
  Fixpoint overlay (column mapped : list (option C)) : list (option C) :=
    match column, mapped with
    | x :: c, y :: m => (match y with Some _ => y | None => x end) :: overlay c m
    | _, _ => []
    end.

  (** hit_analysis.py L1688-1711 *)
  Definition fill_column (common : list Z) (ys : list (list C * nat)) : list (option C) :=
    fold_left (fun col y => overlay col (map_to_events common (fst y))) ys
              (repeat None (length common)).

  (** hit_analysis.py L1674-1711: second loop *)
  Fixpoint second_loop (tables : list (list C)) (indices : list (option nat))
           (start stop : Z) (common : list Z)
    : outcome (list (list (option C)) * list (option nat)) :=
    match tables, indices with
    | t :: ts, i :: is_ =>
        let (ys, e) := read_dut t (Some start) stop i in
        match e with
        | GenDone =>
            match second_loop ts is_ start stop common with
            | Ok (cols, idx) => Ok (fill_column common ys :: cols, next_index i ys :: idx)
            | OutOfBounds => OutOfBounds | Raised => Raised | OutOfFuel => OutOfFuel
            end
        | _ => Raised
        end
    | _, _ => Ok ([], [])
    end.

  (** hit_analysis.py L1712-1714: hit_flag, an unsigned 32 bit integer *)
  Fixpoint flag_from (d : Z) (l : list (option C)) : Z :=
    match l with
    | [] => 0
    | c :: r => (match c with Some _ => Z.shiftl 1 d | None => 0 end) + flag_from (d + 1) r
    end.
  (** hit_analysis.py L1712-1714 *)
  Definition hit_flag (l : list (option C)) : Z := (flag_from 0 l) mod 2 ^ 32.

  (** hit_analysis.py L1712-1714 *)
  Fixpoint make_rows (common : list Z) (cols : list (list (option C))) : list row :=
    match common with
    | [] => []
    | e :: es =>
        let r := map (fun c => hd None c) cols in
        mk_row e r (hit_flag r) :: make_rows es (map (@tl (option C)) cols)
    end.

  (** the variables that survive an iteration: hit_analysis.py L1597-1599 *)
  Record mstate := mk_mstate {
    ms_merging : list (option nat);
    ms_data : list (option nat);
    ms_start : option Z
  }.

  (** hit_analysis.py L1615-1719: the body of the loop over the chunks of DUT0 *)
  Definition merge_chunk (tables : list (list C)) (s : mstate) (chunk : list C)
    : outcome (list row * mstate) :=
    let events := map ev chunk in
    match rev events with
    | [] => Raised      (* actual_event_numbers[-1] *)
    | last :: _ =>
        match first_loop tables (ms_merging s) (ms_start s) (last + 1) events with
        | Ok (common, im) =>
            match common, rev common with
            | e0 :: _, e1 :: _ =>
                match second_loop tables (ms_data s) e0 (e1 + 1) common with
                | Ok (cols, id) =>
                    Ok (make_rows common (map_to_events common chunk :: cols),
                        mk_mstate im id (Some (e1 + 1)))
                | OutOfBounds => OutOfBounds | Raised => Raised | OutOfFuel => OutOfFuel
                end
            | _, _ => Raised
            end
        | OutOfBounds => OutOfBounds | Raised => Raised | OutOfFuel => OutOfFuel
        end
    end.

  (** hit_analysis.py L1615-1719 *)
  Fixpoint merge_chunks (tables : list (list C)) (s : mstate) (chunks : list (list C))
    : outcome (list row) :=
    match chunks with
    | [] => Ok []
    | c :: cs =>
        match merge_chunk tables s c with
        | Ok (rows, s') =>
            match merge_chunks tables s' cs with
            | Ok rows' => Ok (rows ++ rows')
            | e => e
            end
        | OutOfBounds => OutOfBounds | Raised => Raised | OutOfFuel => OutOfFuel
        end
    end.

  (** hit_analysis.py L1532-1722: the merged table of the cluster tables of DUT0 and of the other DUTs *)
  Definition merge_cluster_data (table0 : list C) (tables : list (list C)) : outcome (list row) :=
    let (ys, e) := data_aligned_at_events ev table0 (Params None None None None chunk_size false true true) in
    match merge_chunks tables
            (mk_mstate (repeat None (length tables)) (repeat None (length tables)) None)
            (map fst ys), e with
    | Ok rows, GenDone => Ok rows
    | Ok _, _ => Raised
    | err, _ => err
    end.
End Merge.
Arguments row C : clear implicits.
