(** Models the simulation of hits.  Source: tools/simulate_data.py L130-294 (_create_cs_hits),
    L297-325 (_add_charge_sharing_hits), L330-358 (shuffle_event_hits), L376-446 (settings),
    L454-503 (create_data_and_store), L689-793 (_digitize_hits), L795-831 (_create_data).
    Random numbers are inputs: the numbers of tracks, the local positions of the hits of the tracks, the
    shuffles, the deposited charges and the noise.  Positions and charges are rational numbers; the
    charge fraction of a pixel (error functions, L60-127) is an input. *)
From Coq Require Import ZArith QArith Qround List Bool Arith.
Import ListNotations.
Local Open Scope nat_scope.

(** *** Events (tools/simulate_data.py L795-814) *)
(** tools/simulate_data.py L796-803: the numbers of tracks per event (normal distribution, truncated to integers), not negative *)
Definition track_numbers (draws : list Z) : list nat := map (fun c => Z.to_nat (Z.max 0 c)) draws.
(** tools/simulate_data.py L805-809: np.repeat(np.arange(n_events), n_tracks_per_event) + start_event_number *)
Definition event_numbers (start : Z) (draws : list Z) : list Z :=
  concat (map (fun ec => repeat (start + Z.of_nat (fst ec))%Z (snd ec)) (combine (seq 0 (length draws)) (track_numbers draws))).
(** tools/simulate_data.py L813-814: np.repeat(n_tracks_per_event, n_tracks_per_event) *)
Definition tracks_of_event (draws : list Z) : list nat := concat (map (fun c => repeat c c) (track_numbers draws)).

(** *** shuffle_event_hits (tools/simulate_data.py L330-358) *)
Section Shuffle.
  Variable events : list Z.
  Variable n_tracks : list nat.
  Variable n : nat.                                (* hits.shape[0] *)
  Variable shuffle : nat -> list nat -> list nat.  (* np.random.shuffle of the slice at index *)

  (** tools/simulate_data.py L795-814 *)
  Definition ev (i : nat) : Z := nth i events 0%Z.
  (** tools/simulate_data.py L350-353 *)
  Fixpoint last_of_event (fuel index : nat) : nat :=
    match fuel with
    | 0 => index
    | S fuel => if index <? n - 1 then if (ev index =? ev (S index))%Z then last_of_event fuel (S index) else index else index
    end.
  (** tools/simulate_data.py L341-355 *)
  Fixpoint shuffle_loop (fuel index : nat) (indices : list nat) : list nat :=
    match fuel with
    | 0 => indices
    | S fuel =>
        if index <? n then
          if nth index n_tracks 0 =? 1 then shuffle_loop fuel (S index) indices
          else
            let k := nth index n_tracks 0 in
            let slice := firstn k (skipn index indices) in
            shuffle_loop fuel (S (last_of_event n index)) (firstn index indices ++ shuffle index slice ++ skipn k (skipn index indices))
        else indices
    end.
  (** tools/simulate_data.py L335-337, L357-358 *)
  Definition shuffled {A} (d : A) (hits : list A) : list A := map (fun i => nth i hits d) (shuffle_loop n 0 (seq 0 n)).
End Shuffle.

(** *** Charge sharing [for tools/simulate_data.py L162-189, L191-217] *)
Definition pixel_hit : Type := Z * Z * Q.      (* column, row, charge *)
(** tools/simulate_data.py L162-189, L191-217 *)
Definition hit_column (h : pixel_hit) : Z := fst (fst h).
(** tools/simulate_data.py L162-189, L191-217 *)
Definition hit_row (h : pixel_hit) : Z := snd (fst h).
(** tools/simulate_data.py L162-189, L191-217 *)
Definition hit_charge (h : pixel_hit) : Q := snd h.
(** tools/simulate_data.py L162-189, L191-217 *)
Definition min_fraction : Q := 1 # 100.        (* L141 *)

(** range(a, b) and range(a, 0, -1) [for tools/simulate_data.py L162-189, L191-217] *)
Definition range_up (a b : Z) : list Z := map (fun k => (a + Z.of_nat k)%Z) (seq 0 (Z.to_nat (b - a))).
(** tools/simulate_data.py L162-189, L191-217 *)
Definition range_down (a : Z) : list Z := map (fun k => (a - Z.of_nat k)%Z) (seq 0 (Z.to_nat a)).

Section Sharing.
  Variable fraction : Z -> Z -> Q.     (* _calc_charge_fraction for a pixel relative to the seed *)
  Variable column row : Z.             (* of the seed *)
  Variable charge : Q.
  Variable max_column max_row : Z.

  (** total_fraction and the hits [for tools/simulate_data.py L162-189, L191-217] *)
  Definition sharing : Type := Q * list pixel_hit.

  (** tools/simulate_data.py L162-189, L191-217: one row loop *)
  Fixpoint row_loop (rows : list Z) (col : Z) (s : sharing) : sharing :=
    match rows with
    | [] => s
    | r :: rest =>
        let f := fraction (col - column) (r - row) in
        let total := (fst s + f)%Q in
        if negb (Qle_bool min_fraction f) then (total, snd s)
        else
          let s' := (total, snd s ++ [(col, r, f * charge)%Q]) in
          if Qle_bool (1 - min_fraction) total then s' else row_loop rest col s'
    end.
  (** tools/simulate_data.py L146-217, L219-291: one column loop *)
  Fixpoint column_loop (cols : list Z) (s : sharing) : sharing :=
    match cols with
    | [] => s
    | col :: rest =>
        if Qle_bool (1 - min_fraction) (fst s) || negb (Qle_bool min_fraction (fraction (col - column) 0)) then s
        else column_loop rest (row_loop (range_down (row - 1)) col (row_loop (range_up row max_row) col s))
    end.
  (** tools/simulate_data.py L130-294 *)
  Definition create_cs_hits : list pixel_hit :=
    snd (column_loop (range_down (column - 1)) (column_loop (range_up column max_column) (0%Q, []))).
End Sharing.

(** *** Digitisation *)
(** np.around: to the nearest integer, half to even [for tools/simulate_data.py L722-729] *)
Definition around (q : Q) : Z :=
  let f := Qfloor q in
  let r := (q - inject_Z f)%Q in
  if negb (Qle_bool (1 # 2) r) then f
  else if negb (Qle_bool r (1 # 2)) then (f + 1)%Z
  else if Z.even f then f else (f + 1)%Z.
(** tools/simulate_data.py L722-729: the pixel of a position, counted from 1 *)
Definition pixel_of (x pitch : Q) : Z := (around (x / pitch - (1 # 2)) + 1)%Z.
(** tools/simulate_data.py L733-736: the position relative to the centre of the pixel *)
Definition relative_position (x pitch : Q) : Q := (x - (inject_Z (pixel_of x pitch) - (1 # 2)) * pitch)%Q.

(** a hit of a track: the event, the local position, the deposited charge and the charge fractions for this
    relative position [for tools/simulate_data.py L731-747] *)
Record mc_hit := McHit { mc_event : Z; mc_x : Q; mc_y : Q; mc_charge : Q; mc_fraction : Q -> Q -> Z -> Z -> Q }.
(** the settings of a DUT [for tools/simulate_data.py L731-747] *)
Record sim_dut := SimDut { pitch_x : Q; pitch_y : Q; n_x : Z; n_y : Z; threshold : Q; noise_on : bool; charge_sharing : bool }.

(** tools/simulate_data.py L731-747 *)
Definition event_hit : Type := Z * pixel_hit.
(** tools/simulate_data.py L731-747: the hits of a track *)
Definition hits_of (d : sim_dut) (h : mc_hit) : list event_hit :=
  let c := pixel_of (mc_x h) (pitch_x d) in
  let r := pixel_of (mc_y h) (pitch_y d) in
  map (fun p => (mc_event h, p))
    (if charge_sharing d
     then create_cs_hits (mc_fraction h (relative_position (mc_x h) (pitch_x d)) (relative_position (mc_y h) (pitch_y d))) c r (mc_charge h) (n_x d) (n_y d)
     else [(c, r, mc_charge h)]).
(** tools/simulate_data.py L749-756 *)
Definition inside (d : sim_dut) (h : event_hit) : bool :=
  ((0 <? hit_column (snd h)) && (hit_column (snd h) <=? n_x d) && (0 <? hit_row (snd h)) && (hit_row (snd h) <=? n_y d))%Z.

(** tools/simulate_data.py L767-778: the first hits of the shuffled indices are removed.  int() truncates; removed: the number of
    removed hits *)
Definition select_efficient {A} (shuffled_indices : list nat) (removed : nat) (l : list A) : list A :=
  let bad := firstn removed shuffled_indices in
  map snd (filter (fun il => negb (existsb (Nat.eqb (fst il)) bad)) (combine (seq 0 (length l)) l)).
(** tools/simulate_data.py L767-778 *)
Definition removed_hits (efficiency : Q) (n : nat) : nat := Z.to_nat (Qfloor (inject_Z (Z.of_nat n) * (1 - efficiency))).

(** tools/simulate_data.py L780-787: the noise is added to the charge, hits below the threshold are removed if it is not zero *)
Definition add_noise (on : bool) (noise : list Q) (l : list event_hit) : list event_hit :=
  if on then map (fun hn => (fst (fst hn), (fst (snd (fst hn)), (hit_charge (snd (fst hn)) + snd hn)%Q))) (combine l noise) else l.
(** tools/simulate_data.py L780-787 *)
Definition above_threshold (t : Q) (l : list event_hit) : list event_hit :=
  if Qeq_bool t 0 then l else filter (fun h => Qle_bool t (hit_charge (snd h))) l.

(** tools/simulate_data.py L700-793 for one DUT, with pixel discretisation; None: RuntimeError of L184 for more than 5 hits per
    track.  (The overflow is noticed when it happens, with the same effect.) *)
Definition digitize (d : sim_dut) (efficiency : Q) (indices : nat -> list nat) (noise : nat -> list Q) (hits : list mc_hit) : option (list event_hit) :=
  let all := concat (map (hits_of d) hits) in
  if charge_sharing d && (5 * length hits <? length all) then None
  else
    let l := filter (inside d) all in
    let l := if Qle_bool 1 efficiency then l else select_efficient (indices (length l)) (removed_hits efficiency (length l)) l in
    Some (above_threshold (threshold d) (add_noise (noise_on d) (noise (length l)) l)).

(** *** create_data_and_store (tools/simulate_data.py L454-503): the chunks of events *)
(** tools/simulate_data.py L458-459, L485: chunk_size; the number of chunks, len(range(0, n_events, chunk_size)); None: ValueError for
    a step of 0 *)
Definition chunk_events (n_events chunk_size : nat) : nat := if n_events <? chunk_size then n_events else chunk_size.
(** tools/simulate_data.py L458-459, L485 *)
Definition n_chunks (n_events chunk_size : nat) : option nat :=
  let c := chunk_events n_events chunk_size in
  if c =? 0 then None else Some ((n_events + c - 1) / c).
(** the event numbers of the tracks of all chunks; draws of a chunk: one number of tracks for each of the
    chunk_size events [for tools/simulate_data.py L486-496] *)
Definition all_event_numbers (n_events chunk_size : nat) (draws : nat -> list Z) : option (list Z) :=
  match n_chunks n_events chunk_size with
  | None => None
  | Some k => Some (concat (map (fun i => event_numbers (Z.of_nat (i * chunk_events n_events chunk_size)) (draws i)) (seq 0 k)))
  end.
(** a table: tools/simulate_data.py L486-496; the hits of chunk i from its tracks *)
Definition hit_table (n_events chunk_size : nat) (chunk : nat -> option (list event_hit)) : option (list event_hit) :=
  match n_chunks n_events chunk_size with
  | None => None
  | Some k => fold_right (fun i acc => match chunk i, acc with Some a, Some b => Some (a ++ b) | _, _ => None end) (Some []) (seq 0 k)
  end.

(** *** Settings (tools/simulate_data.py L376-446) *)
Record sim_settings := SimSettings { sim_n_duts : nat; z_positions : list Z }.
(** tools/simulate_data.py L387-388: the positions stand for all settings that are lists with one entry per DUT *)
Definition std_settings (n : nat) : sim_settings := SimSettings n (map (fun i => (Z.of_nat i * 10000)%Z) (seq 0 n)).
(** tools/simulate_data.py L376-382 *)
Definition set_n_duts (s : sim_settings) (value : nat) : sim_settings :=
  let s := if sim_n_duts s <? value then std_settings (sim_n_duts s) else s in
  SimSettings value (z_positions s).
(** tools/simulate_data.py L486-488: the files of the DUTs; the hits are created for each z position (L589, L697).  None: IndexError *)
Definition files_of_duts {A} (s : sim_settings) (hits : Z -> A) : option (list A) :=
  let actual := map hits (z_positions s) in
  if length actual <? sim_n_duts s then None else Some (firstn (sim_n_duts s) actual).
