(** Model of combine_files.  Source: tools/data_selection.py L21-106. *)
From Coq Require Import ZArith List Bool Arith.
Import ListNotations.
Local Open Scope Z_scope.

(** Why the call can end early: UnboundLocalError for data_chunk (tools/data_selection.py L103), IndexError for a list of
    offsets that is too short (L91), or out of fuel in the chunk loop (excluded by the theorems). *)
Inductive combine_error := UnboundChunk | OffsetIndexError | CombineOutOfFuel.

Section Combine.
  Context {P : Type}.   (* the other columns of a row *)
  (** tools/data_selection.py L21-106 *)
  Definition row : Type := Z * P.
  (** tools/data_selection.py L21-106 *)
  Definition table : Type := nat * list row.    (* name of the table and its rows *)

  (** Simplifications: all tables have a column event_number (tables without it are copied, tools/data_selection.py L85-87),
      numbers are unbounded integers, names are natural numbers.  For every table name: the rows
      written so far, the last event number (-1 at the beginning, L83) and the offsets (L84).
      [c_chunk] is the event number in the last row of the Python variable data_chunk; the variable
      is shared by all tables and files. *)
  Record cstate := CState {
    c_out : nat -> list row;
    c_last : nat -> Z;
    c_offsets : nat -> list Z;
    c_chunk : option Z
  }.
  (** tools/data_selection.py L85-87 *)
  Definition cinit : cstate := CState (fun _ => []) (fun _ => -1) (fun _ => []) None.

  (** tools/data_selection.py L85-87 *)
  Definition upd {V} (f : nat -> V) (k : nat) (v : V) : nat -> V :=
    fun i => if Nat.eqb i k then v else f i.

  (** tools/data_selection.py L98-100 *)
  Definition add_offset (off : Z) (r : row) : row := (fst r + off, snd r).
  (** tools/data_selection.py L98-100 *)
  Definition shift_chunk (off : Z) (chunk : list row) : list row :=
    if off =? 0 then chunk else map (add_offset off) chunk.

  (** tools/data_selection.py L98-100 *)
  Definition last_event_number (chunk : list row) (dflt : option Z) : option Z :=
    match rev chunk with [] => dflt | r :: _ => Some (fst r) end.

  (** tools/data_selection.py L96-101: for read_index in range(0, table.nrows, chunk_size); the result is the table written
      and the last event number in data_chunk. *)
  Fixpoint copy_loop (fuel chunk_size : nat) (off : Z) (rows : list row) (read_index : nat)
           (out : list row) (chunk : option Z) : option (list row * option Z) :=
    if Nat.leb (length rows) read_index then Some (out, chunk)
    else match fuel with
    | O => None
    | S f =>
        let data_chunk := shift_chunk off (firstn chunk_size (skipn read_index rows)) in
        copy_loop f chunk_size off rows (read_index + chunk_size) (out ++ data_chunk)
                  (last_event_number data_chunk chunk)
    end.

  (** tools/data_selection.py L89-94 *)
  Definition choose_offset (event_number_offsets : option (list (option Z))) (file_index : nat) (last : Z)
    : option Z :=
    match event_number_offsets with
    | None => Some (last + 1)
    | Some l =>
        match nth_error l file_index with
        | None => None
        | Some (Some o) => Some o
        | Some None => Some (last + 1)
        end
    end.

  (** tools/data_selection.py L89-104, one table of one file *)
  Definition combine_table (event_number_offsets : option (list (option Z))) (chunk_size file_index : nat)
             (s : cstate) (t : table) : cstate + combine_error :=
    let (name, rows) := t in
    match choose_offset event_number_offsets file_index (c_last s name) with
    | None => inr OffsetIndexError
    | Some off =>
        match copy_loop (S (length rows)) chunk_size off rows 0 (c_out s name) (c_chunk s) with
        | None => inr CombineOutOfFuel
        | Some (out, chunk) =>
            match chunk with
            | None => inr UnboundChunk
            | Some le =>
                inl (CState (upd (c_out s) name out) (upd (c_last s) name le)
                            (upd (c_offsets s) name (c_offsets s name ++ [off])) chunk)
            end
        end
    end.

  (** tools/data_selection.py L68-71: tables that were not asked for are skipped *)
  Definition wanted_table (names : option (list nat)) (t : table) : bool :=
    match names with None => true | Some l => existsb (Nat.eqb (fst t)) l end.

  (** tools/data_selection.py L21-106 *)
  Fixpoint combine_tables offs chunk_size file_index (s : cstate) (ts : list table) : cstate + combine_error :=
    match ts with
    | [] => inl s
    | t :: r =>
        match combine_table offs chunk_size file_index s t with
        | inr e => inr e
        | inl s' => combine_tables offs chunk_size file_index s' r
        end
    end.

  (** tools/data_selection.py L21-106 *)
  Fixpoint combine_loop names offs chunk_size file_index (s : cstate) (files : list (list table))
    : cstate + combine_error :=
    match files with
    | [] => inl s
    | f :: r =>
        match combine_tables offs chunk_size file_index s (filter (wanted_table names) f) with
        | inr e => inr e
        | inl s' => combine_loop names offs chunk_size (S file_index) s' r
        end
    end.

  (** tools/data_selection.py L21-106 *)
  Definition combine_files (files : list (list table)) (names : option (list nat))
             (event_number_offsets : option (list (option Z))) (chunk_size : nat) : cstate + combine_error :=
    combine_loop names event_number_offsets chunk_size 0 cinit files.
End Combine.
