(** Model of the chunked table reader data_aligned_at_events.
    Source: tools/analysis_utils.py L451-611. *)
From Coq Require Import ZArith List Bool Arith.
Import ListNotations.
Open Scope Z_scope.

(** How a generator ends. [for tools/analysis_utils.py L451-611] *)
Inductive gen_end := GenDone | GenValueError | GenIndexError | GenOutOfFuel.

Section Reader.
  Context {A : Type}.
  Variable ev : A -> Z.   (* column event_number *)

  (** table.read(start, stop): rows start..stop-1, clipped at the end of the table [for tools/analysis_utils.py L451-611] *)
  Definition read (table : list A) (start stop : nat) : list A :=
    firstn (stop - start) (skipn start table).

  (** np.searchsorted(chunk["event_number"], v, side='left') on a sorted chunk: the
      number of entries smaller than v (simplification: the binary search is not
      modelled, both agree on sorted data). [for tools/analysis_utils.py L451-611] *)
  Definition searchsorted (chunk : list A) (v : Z) : nat :=
    length (filter (fun a => ev a <? v) chunk).

  (** array_chunk["event_number"][0] and [-1]; IndexError for an empty chunk [for tools/analysis_utils.py L451-611] *)
  Definition first_event (chunk : list A) : option Z :=
    match chunk with [] => None | a :: _ => Some (ev a) end.
  (** tools/analysis_utils.py L451-611 *)
  Definition last_event (chunk : list A) : option Z :=
    match rev chunk with [] => None | a :: _ => Some (ev a) end.

  (** Parameters of the call; [p_indexed] is
      [try_speedup and table.colindexed["event_number"]] (tools/analysis_utils.py L511). *)
  Record params := Params {
    p_start_event : option Z;
    p_stop_event : option Z;
    p_start_index : option nat;
    p_stop_index : option nat;
    p_chunk_size : nat;
    p_indexed : bool;
    p_first_aligned : bool;
    p_fail_missing : bool
  }.

  (** Result of the search for the begin (tools/analysis_utils.py L530-576): index, or exception. *)
  Inductive seek_result := SeekAt (i : nat) | SeekEnd (e : gen_end).

  (** tools/analysis_utils.py L533-562: search for start_event_number. *)
  Fixpoint seek_start (fuel : nat) (table : list A) (p : params) (start_index stop_index : nat)
           (s : Z) (cur : nat) : seek_result :=
    if negb (Nat.ltb cur stop_index) then SeekAt cur
    else match fuel with
    | O => SeekEnd GenOutOfFuel
    | S f =>
      let cstop := Nat.min (cur + p_chunk_size p) stop_index in
      let chunk := read table cur cstop in
      match first_event chunk, last_event chunk with
      | Some fe, Some le =>
        if le <? s then
          seek_start f table p start_index stop_index s (cur + p_chunk_size p)
        else if Nat.eqb (length chunk) (p_chunk_size p) && (fe =? le) then SeekEnd GenValueError
        else if negb (p_first_aligned p) && (fe =? s) && negb (Nat.eqb start_index 0)
                && Nat.eqb start_index cur then
          if p_fail_missing p then SeekEnd GenValueError
          else SeekAt (cur + searchsorted chunk (s + 1))
        else if p_fail_missing p && (s <? fe) && Nat.eqb start_index cur then SeekEnd GenValueError
        else if p_first_aligned p && (fe =? s) && Nat.eqb start_index cur then SeekAt (cur + 0)
        else
          let i := searchsorted chunk s in
          match nth_error chunk i with
          | None => SeekEnd GenIndexError
          | Some a =>
            if p_fail_missing p && negb (ev a =? s) && Nat.eqb start_index cur
            then SeekEnd GenValueError
            else SeekAt (cur + i)
          end
      | _, _ => SeekEnd GenIndexError
      end
    end.

  (** tools/analysis_utils.py L564-576: skip the first, possibly incomplete event. *)
  Fixpoint seek_next_event (fuel : nat) (table : list A) (chunk_size stop_index : nat) (cur : nat)
    : seek_result :=
    if negb (Nat.ltb cur stop_index) then SeekAt cur
    else match fuel with
    | O => SeekEnd GenOutOfFuel
    | S f =>
      let cstop := Nat.min (cur + chunk_size) stop_index in
      let chunk := read table cur cstop in
      match first_event chunk, last_event chunk with
      | Some fe, Some le =>
        if Nat.eqb (length chunk) chunk_size && (fe =? le) then SeekEnd GenValueError
        else
          let cur' := (cur + searchsorted chunk (fe + 1))%nat in
          if negb (fe =? le) then SeekAt cur'
          else seek_next_event f table chunk_size stop_index cur'
      | _, _ => SeekEnd GenIndexError
      end
    end.

  (** tools/analysis_utils.py L578-611: data loop; list of yielded (chunk, next index) and the end. *)
  Fixpoint data_loop (fuel : nat) (table : list A) (chunk_size stop_index : nat)
           (stop_event : option Z) (cur : nat) : list (list A * nat) * gen_end :=
    if negb (Nat.ltb cur stop_index) then ([], GenDone)
    else match fuel with
    | O => ([], GenOutOfFuel)
    | S f =>
      let cstop := Nat.min (cur + chunk_size) stop_index in
      let chunk := read table cur cstop in
      match first_event chunk, last_event chunk with
      | Some fe, Some le =>
        let chunk_stop :=
          match stop_event with
          | None => if Nat.eqb cstop (length table) then length chunk else searchsorted chunk le
          | Some s =>
              if s <=? le then searchsorted chunk s
              else if Nat.eqb cstop (length table) then length chunk
              else searchsorted chunk le
          end in
        if Nat.eqb chunk_stop 0 then
          (* L601-607, chunk_start_index is 0 *)
          if Nat.eqb (length chunk) chunk_size && (fe =? le) then ([], GenValueError)
          else ([], GenDone)
        else
          let (ys, e) := data_loop f table chunk_size stop_index stop_event (cur + chunk_stop) in
          ((firstn chunk_stop chunk, (cur + chunk_stop)%nat) :: ys, e)
      | _, _ => ([], GenIndexError)
      end
    end.

  (** tools/analysis_utils.py L528-611: search for the begin, then read the data. *)
  Definition read_in_chunks (table : list A) (p : params) (start_index stop_index : nat)
    : list (list A * nat) * gen_end :=
    let fuel := S stop_index in
    let begin :=
      match p_start_event p with
      | Some s => seek_start fuel table p start_index stop_index s start_index
      | None =>
          if negb (p_first_aligned p) && negb (Nat.eqb start_index 0)
          then seek_next_event fuel table (p_chunk_size p) stop_index start_index
          else SeekAt start_index
      end in
    match begin with
    | SeekAt cur => data_loop fuel table (p_chunk_size p) stop_index (p_stop_event p) cur
    | SeekEnd e => ([], e)
    end.

  (** table.get_where_list('event_number==v', start, stop)[0] (tools/analysis_utils.py L513-524) *)
  Fixpoint first_index_of (v : Z) (rows : list A) (i : nat) : option nat :=
    match rows with
    | [] => None
    | a :: r => if ev a =? v then Some i else first_index_of v r (S i)
    end.

  (** tools/analysis_utils.py L451-611 *)
  Definition data_aligned_at_events (table : list A) (p : params) : list (list A * nat) * gen_end :=
    let start0 := match p_start_index p with None => O | Some i => i end in
    let stop0 := match p_stop_index p with None => length table | Some i => i end in
    if Nat.ltb stop0 start0 then ([], GenValueError)
    else if match p_start_event p, p_stop_event p with
            | Some a, Some b => b <? a | _, _ => false end then ([], GenValueError)
    else
      let start_found := if p_indexed p then
          match p_start_event p with
          | Some s => first_index_of s (read table start0 stop0) start0 | None => None end
        else None in
      let start_index := match start_found with Some i => i | None => start0 end in
      let stop_found := if p_indexed p then
          match p_stop_event p with
          | Some s => first_index_of s (read table start_index stop0) start_index | None => None end
        else None in
      let stop_index := match stop_found with Some i => i | None => stop0 end in
      match start_found, stop_found with
      | Some _, Some _ =>
          if Nat.leb stop_index (start_index + p_chunk_size p)
          then ([(read table start_index stop_index, stop_index)], GenDone)
          else read_in_chunks table p start_index stop_index
      | _, _ => read_in_chunks table p start_index stop_index
      end.
End Reader.
