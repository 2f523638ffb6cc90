(** Model of the track finding.  Source: track_analysis.py L284-295 (column copy and hit flag),
    L309-342 (_find_tracks_loop), L345-516 (_find_tracks), L519-534 (_get_first/last_dut_index). *)
From Coq Require Import Ascii String ZArith List Bool Arith.
Import ListNotations.
Local Open Scope nat_scope.

(** The arrays modified by the track finding: position columns and the index column (track_analysis.py L233). *)
Record arrays {F : Type} := Arrays {
  ax : nat -> nat -> F;      (* row, DUT *)
  ay : nat -> nat -> F;
  az : nat -> nat -> F;
  ai : nat -> nat -> nat
}.
Arguments arrays : clear implicits.
Arguments Arrays {F}.

Section Find.
  (** Floating point numbers and operations are arbitrary: the theorems hold for any arithmetic
      (simplification: the division by zero, which raises in compiled code, gives some value). *)
  Variable F : Type.
  Variable isnan : F -> bool.
  Variables fadd fsub fmul fdiv : F -> F -> F.
  Variables fneg fsqrt : F -> F.
  Variable nonneg : F -> bool.         (* >= 0 *)
  Variable flt : F -> F -> bool.       (* < *)

  Variable n_rows : nat.
  Variable events : nat -> Z.
  Variable zs : list nat.               (* z_sorted_dut_indices *)
  Variable extra : list nat.            (* select_extrapolation_duts *)
  Variable translation normal : nat -> nat -> F.   (* DUT, component *)

  Notation arr := (arrays F).

  (** track_analysis.py L519-534 *)
  Definition get_first_dut (a : arr) (row : nat) (duts : list nat) : option nat :=
    find (fun d => negb (isnan (ax a row d))) duts.
  (** track_analysis.py L519-534 *)
  Definition get_last_dut (a : arr) (row : nat) (duts : list nat) : option nat :=
    find (fun d => negb (isnan (ax a row d))) (rev duts).

  (** track_analysis.py L353-356: index of the (last) matching entry; None is -1 *)
  Fixpoint position (d : nat) (l : list nat) : option nat :=
    match l with
    | [] => None
    | v :: r => match position d r with
                | Some i => Some (S i)
                | None => if v =? d then Some 0 else None
                end
    end.
  (** z_sorted_dut_indices[:i]; [:-1] for -1 [for track_analysis.py L367-387 and L439-458] *)
  Definition upto (i : option nat) : list nat :=
    match i with Some k => firstn k zs | None => removelast zs end.

  (** track_analysis.py L367-387 and L439-458: the last two extrapolation DUTs with a hit in front of the DUT.
      None: out of fuel; Some None: fewer than two. *)
  Fixpoint two_refs (fuel : nat) (a : arr) (row : nat) (curr : nat) (second : option nat)
    : option (option (nat * nat)) :=
    match fuel with
    | O => None
    | S f =>
        match position curr zs with
        | Some O => Some None
        | p =>
            match get_last_dut a row (upto p) with
            | None => Some None
            | Some r =>
                if existsb (Nat.eqb r) extra
                then match second with
                     | None => two_refs f a row r (Some r)
                     | Some s => Some (Some (s, r))
                     end
                else two_refs f a row r second
            end
        end
    end.

  (** track_analysis.py L389-401: straight line through the hits of two DUTs, intersection with the plane of the DUT *)
  Definition predict (a : arr) (row dut second first : nat) : F * F :=
    let u0 := fsub (ax a row second) (ax a row first) in
    let u1 := fsub (ay a row second) (ay a row first) in
    let u2 := fsub (az a row second) (az a row first) in
    let len := fsqrt (fadd (fadd (fmul u0 u0) (fmul u1 u1)) (fmul u2 u2)) in
    let u0 := fdiv u0 len in
    let u1 := fdiv u1 len in
    let u2 := fdiv u2 len in
    let w0 := fsub (ax a row second) (translation dut 0) in
    let w1 := fsub (ay a row second) (translation dut 1) in
    let w2 := fsub (az a row second) (translation dut 2) in
    let s := fdiv (fneg (fadd (fadd (fmul (normal dut 0) w0) (fmul (normal dut 1) w1)) (fmul (normal dut 2) w2)))
                  (fadd (fadd (fmul (normal dut 0) u0) (fmul (normal dut 1) u1)) (fmul (normal dut 2) u2)) in
    (fadd (fadd (translation dut 0) w0) (fmul s u0), fadd (fadd (translation dut 1) w1) (fmul s u1)).

  (** the reference position of a row at the plane of a DUT (track_analysis.py L367-403, L431-474) *)
  Definition reference (a : arr) (row dut first_dut : nat) : option (F * F) :=
    match two_refs (S (length zs)) a row dut None with
    | None => None
    | Some (Some (second, first)) => Some (predict a row dut second first)
    | Some None => Some (ax a row first_dut, ay a row first_dut)
    end.

  (** track_analysis.py L367-403, L431-474 *)
  Definition distance (hx hy rx ry : F) : F :=
    fsqrt (fadd (fmul (fsub hx rx) (fsub hx rx)) (fmul (fsub hy ry) (fsub hy ry))).

  (** track_analysis.py L412-485: the search for the best hit.  [best]: index, distance (None is -1) and swap flag. *)
  Fixpoint hit_loop (a : arr) (track dut : nat) (rx ry : F) (hits : list nat)
           (best : nat * option F * bool) : option (nat * bool) :=
    match hits with
    | [] => Some (fst (fst best), snd best)
    | h :: r =>
        if track =? h then hit_loop a track dut rx ry r best
        else if isnan (ax a h dut) then hit_loop a track dut rx ry r best
        else
          let d := distance (ax a h dut) (ay a h dut) rx ry in
          if match snd (fst best) with Some b => nonneg b && flt b d | None => false end
          then hit_loop a track dut rx ry r best
          else
            match get_first_dut a h zs with
            | None => None      (* not reached: the row has a hit in the DUT *)
            | Some first_other =>
                if first_other =? dut
                then hit_loop a track dut rx ry r (h, Some d, true)
                else
                  match reference a h dut first_other with
                  | None => None
                  | Some (ox, oy) =>
                      if flt (distance (ax a h dut) (ay a h dut) ox oy) d
                      then hit_loop a track dut rx ry r best
                      else hit_loop a track dut rx ry r (h, Some d, true)
                  end
            end
    end.

  (** track_analysis.py L489-496 *)
  Definition swap_in {V} (m : nat -> nat -> V) (i j dut : nat) : nat -> nat -> V :=
    fun r d => if d =? dut then (if r =? i then m j dut else if r =? j then m i dut else m r d) else m r d.
  (** track_analysis.py L489-496 *)
  Definition swap_hits (a : arr) (i j dut : nat) : arr :=
    Arrays (swap_in (ax a) i j dut) (swap_in (ay a) i j dut) (swap_in (az a) i j dut) (swap_in (ai a) i j dut).

  (** rows of the event that starts at [start] (track_analysis.py L414-417: until the event number changes) *)
  Fixpoint take_while {V} (p : V -> bool) (l : list V) : list V :=
    match l with [] => [] | v :: r => if p v then v :: take_while p r else [] end.
  (** track_analysis.py L414-417 *)
  Definition event_run (start : nat) : list nat :=
    take_while (fun i => (events i =? events start)%Z) (seq start (n_rows - start)).

  (** track_analysis.py L345-516; None: out of fuel *)
  Fixpoint find_tracks_at (fuel : nat) (start track dut : nat) (a : arr) : option arr :=
    match fuel with
    | O => None
    | S f =>
        match get_first_dut a track zs with
        | None => Some a
        | Some first_ref =>
            (* L361: sorted_ref_dut_index >= sorted_dut_index *)
            if match position first_ref zs, position dut zs with
               | Some i, Some j => j <=? i
               | Some _, None => true
               | None, Some _ => false
               | None, None => true
               end
            then Some a
            else
              match reference a track dut first_ref with
              | None => None
              | Some (rx, ry) =>
                  let best0 := if isnan (ax a track dut) then None
                               else Some (distance (ax a track dut) (ay a track dut) rx ry) in
                  match hit_loop a track dut rx ry (event_run start) (track, best0, false) with
                  | None => None
                  | Some (_, false) => Some a
                  | Some (best, true) =>
                      let a' := swap_hits a track best dut in
                      let redo := match get_first_dut a' best zs with
                                  | Some d => negb (d =? dut)
                                  | None => true     (* -1 != dut_index *)
                                  end in
                      if (best <? track) && redo then find_tracks_at f start best dut a' else Some a'
                  end
              end
        end
    end.

  (** track_analysis.py L318-342 *)
  Fixpoint rows_loop (start dut : nat) (rows : list nat) (a : arr) : option arr :=
    match rows with
    | [] => Some a
    | r :: rest =>
        match find_tracks_at (S r) start r dut a with
        | None => None
        | Some a' => rows_loop start dut rest a'
        end
    end.
  (** track_analysis.py L318-342 *)
  Fixpoint duts_loop (start : nat) (duts : list nat) (a : arr) : option arr :=
    match duts with
    | [] => Some a
    | d :: rest =>
        match rows_loop start d (event_run start) a with
        | None => None
        | Some a' => duts_loop start rest a'
        end
    end.
  (** track_analysis.py L318-342 *)
  Fixpoint events_loop (rows : list nat) (analyze : Z) (a : arr) : option arr :=
    match rows with
    | [] => Some a
    | r :: rest =>
        if (negb (events r =? analyze)%Z || (r =? 0))%bool
        then match duts_loop r (tl zs) a with
             | None => None
             | Some a' => events_loop rest (events r) a'
             end
        else events_loop rest analyze a
    end.
  (** track_analysis.py L318-342 *)
  Definition find_tracks_loop (a : arr) : option arr := events_loop (seq 0 n_rows) (-1)%Z a.
End Find.

(** *** Copy of the columns (track_analysis.py L288-291) *)
Fixpoint is_prefix (p s : list ascii) : bool :=
  match p, s with
  | [], _ => true
  | c :: p', d :: s' => Ascii.eqb c d && is_prefix p' s'
  | _ :: _, [] => false
  end.
(** Python: p in s [for track_analysis.py L288-291] *)
Fixpoint contains (p s : list ascii) : bool :=
  is_prefix p s || match s with [] => false | _ :: s' => contains p s' end.

(** decimal digits of a number: '%d' [for track_analysis.py L288-291] *)
Fixpoint digits (fuel : nat) (n : nat) : list ascii :=
  match fuel with
  | O => []
  | S f => (if n <? 10 then [] else digits f (n / 10)) ++ [ascii_of_nat (48 + n mod 10)]
  end.
(** track_analysis.py L288-291 *)
Definition decimal (n : nat) : list ascii := digits (S n) n.

(** track_analysis.py L288-291 *)
Definition chars (s : string) : list ascii := list_ascii_of_string s.
(** track_analysis.py L288-291 *)
Definition dut_tag (d : nat) : list ascii := chars "dut_" ++ decimal d.

Section Copy.
  Context {V : Type}.
  (** a column is its name and its values [for track_analysis.py L288-291] *)
  Definition column : Type := list ascii * (nat -> V).
  (** tracklets_data_chunk[column_name][indices[:, dut_index]] [for track_analysis.py L288-291] *)
  Definition copy_column (indices : nat -> nat -> nat) (dut : nat) (c : column) : column :=
    if contains (dut_tag dut) (fst c) then (fst c, fun row => snd c (indices row dut)) else c.
  (** track_analysis.py L288-291 *)
  Definition copy_columns (n_duts : nat) (indices : nat -> nat -> nat) (cs : list column) : list column :=
    fold_left (fun cs dut => map (copy_column indices dut) cs) (seq 0 n_duts) cs.
End Copy.

(** track_analysis.py L293-295: hit_flag += isfinite(x_dut) << dut_index *)
Definition hit_flag (n_duts : nat) (finite : nat -> bool) : Z :=
  fold_left (fun f d => (f + Z.shiftl (if finite d then 1 else 0) (Z.of_nat d))%Z) (seq 0 n_duts) 0%Z.
