(* Model of the converters of interpreted data (converter/pymosa_converter.py and converter/pybar_fei4_converter.py): format_hit_table. *)
From Coq Require Import List Arith ZArith Lia Bool.
Import ListNotations.
Local Open Scope Z_scope.

(** A row of the interpreted hit table (the columns which are used). [for pymosa_converter.py L122-126] *)
Record raw_hit := RawHit { w_event : Z; w_plane : Z; w_column : Z; w_row : Z; w_bcid : Z; w_tot : Z }.
(** A row of the formatted table, hit_analysis.py default_hits_dtype; the widths of the integer types are not modelled. [for pymosa_converter.py L122-126] *)
Record out_hit := OutHit { o_event : Z; o_frame : Z; o_column : Z; o_row : Z; o_charge : Z }.

(** pymosa_converter.py L122-126 *)
Definition format_pymosa (h : raw_hit) : out_hit := OutHit (w_event h) 0 (w_column h + 1) (w_row h + 1) 0.
(** pybar_fei4_converter.py L128-133 *)
Definition format_fei4 (h : raw_hit) : out_hit := OutHit (w_event h) (w_bcid h) (w_column h) (w_row h) (w_tot h).

(** np.any(np.diff(np.concatenate((last_event_number, hits_chunk['event_number']))) < 0), pymosa_converter.py L114, pybar_fei4_converter.py L125 *)
Fixpoint decreases (last : Z) (events : list Z) : bool :=
  match events with [] => false | e :: events => (e - last <? 0) || decreases e events end.

(** The state of the loop: output tables and either the normal end or the RuntimeError. [for pymosa_converter.py L117-130] *)
Inductive status := Ok | Raised.

Section Format.
  (** Each output table has the selection of its hits and their format: one table per Mimosa26 plane (pymosa_converter.py L117-130), or a single table. *)
  Variable tables : list ((raw_hit -> bool) * (raw_hit -> out_hit)).

  (** pymosa_converter.py L117-130 *)
  Definition append (out : list (list out_hit)) (chunk : list raw_hit) : list (list out_hit) :=
    map (fun p => fst p ++ map (snd (snd p)) (filter (fst (snd p)) chunk)) (combine out tables).

  (** for read_index in range(0, nrows, chunk_size): pymosa_converter.py L112-131, pybar_fei4_converter.py L123-135. [fuel] bounds the number of
      chunks. *)
  Fixpoint format_loop (fuel chunk_size : nat) (last : Z) (hits : list raw_hit) (out : list (list out_hit)) : status * list (list out_hit) :=
    match fuel, hits with
    | O, _ | _, [] => (Ok, out)
    | S fuel, _ =>
        let chunk := firstn chunk_size hits in
        let events := map w_event chunk in
        if decreases last events then (Raised, out)
        else format_loop fuel chunk_size (List.last events last) (skipn chunk_size hits) (append out chunk)
    end.

  (** range with step 0 raises ValueError: None. [for pymosa_converter.py L60-133] *)
  Definition format_hit_table (chunk_size : nat) (hits : list raw_hit) : option (status * list (list out_hit)) :=
    match chunk_size with O => None | _ => Some (format_loop (length hits) chunk_size 0 hits (map (fun _ => []) tables)) end.
End Format.

(** pymosa_converter.py L60-133: one table for each header ID; a given list of output file names must have the same length (None: ValueError). *)
Definition format_pymosa_table (ids : list Z) (n_filenames : option nat) (chunk_size : nat) (hits : list raw_hit) : option (status * list (list out_hit)) :=
  let run := format_hit_table (map (fun id => (fun h => w_plane h =? id, format_pymosa)) ids) chunk_size hits in
  match n_filenames with None | Some O => run | Some n => if (n =? length ids)%nat then run else None end.
(** pybar_fei4_converter.py L88-137 *)
Definition format_fei4_table (chunk_size : nat) (hits : list raw_hit) : option (status * list (list out_hit)) :=
  format_hit_table [(fun _ => true, format_fei4)] chunk_size hits.
