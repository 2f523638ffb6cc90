(** Model of the event selection by max_events and of the track selection by flags.
    Sources: tools/data_selection.py L110-188 (reduce_events), L354-478 (select_tracks);
    track_analysis.py L205-232 (find_tracks), L860-920 (fit_tracks). *)
From Coq Require Import ZArith QArith List Bool Arith.
From Verif Require Import ChunksModel.
Import ListNotations.
Local Open Scope Z_scope.

(** *** Numbers in the selection formula *)

(** Values of the non-negative formula: finite, infinity or not-a-number.  Simplification: finite
    values are exact rationals instead of doubles. [for tools/data_selection.py L153-184, track_analysis.py L205-232] *)
Inductive num := Fin (q : Q) | Inf | NaN.

(** Division.  The row count of a PyTables table is a numpy integer: the quotient by zero is inf or
    nan (with a warning).  With [numpy] = false (Python integers) it raises ZeroDivisionError. [for tools/data_selection.py L153-184, track_analysis.py L205-232] *)
Definition ndiv (numpy : bool) (a b : num) : option num :=
  match a, b with
  | Fin x, Fin y =>
      if Qeq_bool y 0
      then if numpy then Some (if Qeq_bool x 0 then NaN else Inf) else None
      else Some (Fin (x / y))
  | Fin _, Inf => Some (Fin 0)
  | Inf, Fin _ => Some Inf
  | _, _ => Some NaN
  end.
(** tools/data_selection.py L153-184, track_analysis.py L205-232 *)
Definition nmul (a b : num) : num :=
  match a, b with
  | Fin x, Fin y => Fin (x * y)
  | NaN, _ | _, NaN => NaN
  | Inf, Fin y | Fin y, Inf => if Qeq_bool y 0 then NaN else Inf
  | Inf, Inf => Inf
  end.
(** tools/data_selection.py L153-184, track_analysis.py L205-232 *)
Definition nadd (a b : num) : num :=
  match a, b with
  | Fin x, Fin y => Fin (x + y)
  | NaN, _ | _, NaN => NaN
  | _, _ => Inf
  end.
(** tools/data_selection.py L153-184, track_analysis.py L205-232 *)
Definition obind {X Y} (o : option X) (f : X -> option Y) : option Y :=
  match o with None => None | Some x => f x end.
(** tools/data_selection.py L153-184, track_analysis.py L205-232 *)
Definition qz (z : Z) : num := Fin (inject_Z z).

(** How the selection ends: the rows stored and the number of events, or an exception. [for tools/data_selection.py L153-184, track_analysis.py L205-232] *)
Inductive sel_error := SelZeroDivision | SelOverflow | SelValueError.

Section Select.
  Context {A : Type}.
  Variable ev : A -> Z.
  (** int(round(x)) of a finite value *)
  Variable round : Q -> Z.
  (** np.random.choice(events, size, replace=False) with the seed fixed to 0: a function *)
  Variable choice : list Z -> nat -> list Z.
  Variable numpy : bool.

  (** np.unique(rows["event_number"]) of a chunk; the rows are sorted by event number, so that equal
      numbers are adjacent (simplification: the sorting of np.unique is not modelled) [for tools/data_selection.py L153-184, track_analysis.py L205-232] *)
  Fixpoint unique (rows : list A) : list Z :=
    match rows with
    | [] => []
    | a :: r => match r with
                | [] => [ev a]
                | b :: _ => if ev a =? ev b then unique r else ev a :: unique r
                end
    end.

  (** track_analysis.py L218-219 / data_selection.py L164-165 and L446-447 *)
  Definition correction (max T idx last_idx stored_last : Z) : option num :=
    obind (ndiv numpy (qz (T - idx)) (qz T)) (fun a1 =>
    obind (ndiv numpy (qz (T - last_idx)) (qz T)) (fun b1 =>
    obind (ndiv numpy (qz (max - stored_last)) (qz max)) (fun c1 =>
    obind (ndiv numpy b1 c1) (fun d1 =>
    obind (ndiv numpy a1 d1) (fun t1 =>
    obind (ndiv numpy (qz idx) (qz T)) (fun a2 =>
    obind (ndiv numpy (qz last_idx) (qz T)) (fun b2 =>
    obind (ndiv numpy (qz stored_last) (qz max)) (fun c2 =>
    obind (ndiv numpy b2 c2) (fun d2 =>
    obind (ndiv numpy a2 d2) (fun t2 => Some (nadd t1 t2))))))))))).

  (** tools/data_selection.py L153-184, track_analysis.py L205-232 *)
  Definition to_int (x : num) : Z + sel_error :=
    match x with Fin q => inl (round q) | Inf => inr SelOverflow | NaN => inr SelValueError end.

  (** the state of the loop: total_n_events_stored, total_n_events_stored_last, last_index_chunk
      (both None before the first chunk) [for tools/data_selection.py L158-166] *)
  Record sstate := SState { s_stored : Z; s_last : option (Z * Z) }.

  (** number of events to select from the chunk, before taking the minimum (tools/data_selection.py L158-166) *)
  Definition wanted_events (max T : Z) (n_chunk idx : Z) (s : sstate) : Z + sel_error :=
    if T =? idx then inl (max - s_stored s)
    else
      match ndiv numpy (qz n_chunk) (qz T) with
      | None => inr SelZeroDivision
      | Some frac =>
          if s_stored s =? 0 then to_int (nmul (qz max) frac)
          else match s_last s with
               | None => inr SelValueError   (* None in arithmetic; TypeError in Python, never reached *)
               | Some (stored_last, last_idx) =>
                   match correction max T idx last_idx stored_last with
                   | None => inr SelZeroDivision
                   | Some c => to_int (nmul (nmul (qz max) frac) c)
                   end
               end
      end.

  (** One chunk (L153-184): [rows] are the rows of the chunk that passed the masks, [n_chunk] the
      number of rows of the chunk.  The result is the rows stored and the new state.
      [skip] models fit_tracks, which goes to the next chunk if no track is left (track_analysis.py L890-891),
      without updating the variables of the last chunk. *)
  Definition select_chunk (skip : bool) (max T n_chunk idx : Z) (rows : list A) (s : sstate)
    : (list A * sstate) + sel_error :=
    let unique_events := unique rows in
    let n_events := Z.of_nat (length unique_events) in
    if skip && (n_events =? 0) then inl ([], s)
    else
      match wanted_events max T n_chunk idx s with
      | inr e => inr e
      | inl w =>
          let n := Z.min (Z.min n_events w) (max - s_stored s) in
          if n <? 0 then inr SelValueError       (* negative dimensions are not allowed *)
          else
            let selected := choice unique_events (Z.to_nat n) in
            let stored := s_stored s + Z.of_nat (length selected) in
            inl (filter (fun a => existsb (Z.eqb (ev a)) selected) rows,
                 SState stored (Some (stored, idx)))
      end.

  (** tools/data_selection.py L153-184 *)
  Fixpoint select_loop (skip : bool) (max T : Z) (keep : A -> bool) (s : sstate) (ys : list (list A * nat))
    : list A + sel_error :=
    match ys with
    | [] => inl []
    | (chunk, idx) :: r =>
        match select_chunk skip max T (Z.of_nat (length chunk)) (Z.of_nat idx) (filter keep chunk) s with
        | inr e => inr e
        | inl (out, s') =>
            match select_loop skip max T keep s' r with
            | inr e => inr e
            | inl rest => inl (out ++ rest)
            end
        end
    end.

  (** The loop over the chunks of a table.  [keep]: the mask of the tracks that pass the other criteria
      (all of them in reduce_events and find_tracks).  [falsy]: a max_events of 0 or None means no limit
      (not in reduce_events). [for tools/data_selection.py L110-188] *)
  Definition select_events (falsy skip : bool) (max : Z) (keep : A -> bool) (table : list A) (chunk_size : nat)
    : (list A + sel_error) * gen_end :=
    let (ys, e) := data_aligned_at_events ev table (Params None None None None chunk_size false true true) in
    (if falsy && (max =? 0) then inl (concat (map (fun y => filter keep (fst y)) ys))
     else select_loop skip max (Z.of_nat (length table)) keep (SState 0 None) ys, e).
End Select.

(** *** Track selection by flags (select_tracks) *)

(** tools/data_selection.py L358-377: mask |= (1 << dut) for dut in select *)
Definition mask_of (duts : list nat) : Z := fold_left (fun m d => Z.lor m (Z.shiftl 1 (Z.of_nat d))) duts 0.

(** ~flag for a flag of type uint32 [for tools/data_selection.py L408-430] *)
Definition lnot32 (x : Z) : Z := 2 ^ 32 - 1 - x.

(** tools/data_selection.py L408-430 *)
Record track_flags := TrackFlags { t_hit : Z; t_quality : Z; t_iso_track : Z; t_iso_hit : Z }.
(** tools/data_selection.py L408-430 *)
Record selection := Selection {
  q_hit : list nat; q_no_hit : list nat; q_quality : list nat; q_iso_track : list nat; q_iso_hit : list nat }.

(** tools/data_selection.py L408-430: the successive conditions on a track, in the order of the counters.  The flags apply
    only if at least one mask is not zero (L408). *)
Definition pass_hit (q : selection) (t : track_flags) : bool :=
  let hit_mask := mask_of (q_hit q) in
  let no_hit_mask := mask_of (q_no_hit q) in
  ((hit_mask =? 0) || (Z.land (t_hit t) hit_mask =? hit_mask)) &&
  ((no_hit_mask =? 0) || (Z.land (lnot32 (t_hit t)) no_hit_mask =? no_hit_mask)).
(** tools/data_selection.py L408-430 *)
Definition pass_quality (q : selection) (t : track_flags) : bool :=
  let m := mask_of (q_quality q) in
  (m =? 0) || (Z.land (t_quality t) (Z.land m (t_hit t)) =? Z.land m (t_hit t)).
(** tools/data_selection.py L408-430 *)
Definition pass_iso_track (q : selection) (t : track_flags) : bool :=
  let m := mask_of (q_iso_track q) in
  (m =? 0) || (Z.land (t_iso_track t) m =? m).
(** tools/data_selection.py L408-430 *)
Definition pass_iso_hit (q : selection) (t : track_flags) : bool :=
  let m := mask_of (q_iso_hit q) in
  (m =? 0) || (Z.land (t_iso_hit t) (Z.land m (t_hit t)) =? Z.land m (t_hit t)).

(** tools/data_selection.py L408-430 *)
Definition any_mask (q : selection) : bool :=
  negb (mask_of (q_hit q) =? 0) || negb (mask_of (q_no_hit q) =? 0) || negb (mask_of (q_quality q) =? 0)
  || negb (mask_of (q_iso_track q) =? 0) || negb (mask_of (q_iso_hit q) =? 0).

(** tools/data_selection.py L408-430 *)
Definition pass (q : selection) (t : track_flags) : bool :=
  if any_mask q then pass_hit q t && pass_quality q t && pass_iso_track q t && pass_iso_hit q t else true.

(** tools/data_selection.py L408-476 without max_events, whole table at once (chunks: C08): the tracks kept and the divisions
    of the summary that is logged afterwards (L476); false is a ZeroDivisionError.  The counters stay 0
    if no mask is used. *)
Definition select_tracks {A} (flags : A -> track_flags) (q : selection) (query : A -> bool) (tracks : list A)
  : list A * bool :=
  let n (p : A -> bool) := length (filter p tracks) in
  let used (k : nat) := if any_mask q then k else O in
  let n_hit := used (n (fun a => pass_hit q (flags a))) in
  let n_quality := used (n (fun a => pass_hit q (flags a) && pass_quality q (flags a))) in
  let n_iso_track := used (n (fun a => pass_hit q (flags a) && pass_quality q (flags a) && pass_iso_track q (flags a))) in
  let n_iso_hit := used (n (fun a => pass q (flags a))) in
  (filter query (filter (fun a => pass q (flags a)) tracks),
   negb (Nat.eqb n_hit 0) && negb (Nat.eqb n_quality 0) && negb (Nat.eqb n_iso_track 0) && negb (Nat.eqb n_iso_hit 0)).
