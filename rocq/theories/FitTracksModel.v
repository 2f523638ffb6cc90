(** Models from fit_tracks.  Source: track_analysis.py L767-822 (grouping of the DUTs and masks),
    L853-866 (selection of tracks), L951-972 (parallel fit), L1146-1234 (flags),
    L1315-1334 (_find_small_distance). *)
From Coq Require Import ZArith QArith Qabs List Bool Arith.
From Verif Require Import SelectionModel BitsModel.
Import ListNotations.
Local Open Scope nat_scope.

(** *** Grouping of DUTs with identical tracks (track_analysis.py L767-790) *)
Record fit_config := FitConfig {
  f_dut : nat;                (* select_duts[i] *)
  f_fit : list nat;           (* select_fit_duts[i] *)
  f_hit : list nat;           (* select_hit_duts[i] *)
  f_exclude : bool;           (* exclude_dut_hit[i] *)
  f_min : option nat          (* min_track_hits[i] *)
}.

(** track_analysis.py L767-790 *)
Definition memb (x : nat) (l : list nat) : bool := existsb (Nat.eqb x) l.
(** set(a) == set(b) [for track_analysis.py L780-788] *)
Definition set_eqb (a b : list nat) : bool := forallb (fun x => memb x b) a && forallb (fun x => memb x a) b.
(** set(a) - set([d]) [for track_analysis.py L780-788] *)
Definition set_minus (a : list nat) (d : nat) : list nat := filter (fun x => negb (x =? d)) a.
(** track_analysis.py L780-788 *)
Definition option_eqb (a b : option nat) : bool :=
  match a, b with Some x, Some y => x =? y | None, None => true | _, _ => false end.

(** track_analysis.py L780-788; c: current, l: the DUT of the outer loop *)
Definition same_tracks (l c : fit_config) : bool :=
  (f_dut c =? f_dut l) ||
  ((((negb (f_exclude c) && negb (f_exclude l)) && set_eqb (f_fit c) (f_fit l)) ||
    ((negb (f_exclude c) && f_exclude l) && set_eqb (f_fit c) (set_minus (f_fit l) (f_dut l))) ||
    ((f_exclude c && negb (f_exclude l)) && set_eqb (set_minus (f_fit c) (f_dut c)) (f_fit l)) ||
    ((f_exclude c && f_exclude l) && set_eqb (set_minus (f_fit c) (f_dut c)) (set_minus (f_fit l) (f_dut l)))) &&
   set_eqb (f_hit c) (f_hit l) && option_eqb (f_min c) (f_min l)).

(** track_analysis.py L802-822: the DUTs used for the fit, the minimum number of hits.  list(set(...)) removes
    duplicates; its order is irrelevant for the masks. *)
Definition fit_duts (c : fit_config) : list nat :=
  if f_exclude c then nodup Nat.eq_dec (set_minus (f_fit c) (f_dut c)) else f_fit c.
(** track_analysis.py L802-822 *)
Definition min_hits (c : fit_config) : nat :=
  match f_min c with None => length (fit_duts c) | Some n => n end.

(** one fit: the leading configuration and the DUTs whose tracks are stored [for track_analysis.py L771-1010] *)
Definition fit_step : Type := fit_config * list nat.

(** track_analysis.py L771-1010 *)
Fixpoint fit_loop (all todo : list fit_config) (fitted : list nat) : list fit_step :=
  match todo with
  | [] => []
  | l :: r =>
      if memb (f_dut l) fitted then fit_loop all r fitted
      else
        let duts := map f_dut (filter (same_tracks l) all) in
        (l, duts) :: fit_loop all r (fitted ++ duts)
  end.
(** track_analysis.py L771-1010 *)
Definition fit_steps (configs : list fit_config) : list fit_step := fit_loop configs configs [].

(** *** Selection of tracks (track_analysis.py L853-866) *)
Definition select_fit (kalman : bool) (c : fit_config) (hit_flag : Z) : bool :=
  let bits := number_of_set_bits (Z.land hit_flag (mask_of (fit_duts c))) in
  if kalman then (Z.of_nat (Nat.max 3 (min_hits c)) <=? bits)%Z else (2 <=? bits)%Z.
(** track_analysis.py L853-866 *)
Definition select_store (kalman : bool) (c : fit_config) (hit_flag : Z) : bool :=
  let hit_mask := mask_of (f_hit c) in
  select_fit kalman c hit_flag &&
  (Z.land hit_flag hit_mask =? hit_mask)%Z &&
  (Z.of_nat (min_hits c) <=? number_of_set_bits (Z.land hit_flag (mask_of (fit_duts c))))%Z.

(** *** np.array_split(data, n) (track_analysis.py L952) and np.concatenate (L968): the first (len mod n) parts have one
    more element *)
Fixpoint split_sizes {T} (sizes : list nat) (l : list T) : list (list T) :=
  match sizes with [] => [] | k :: r => firstn k l :: split_sizes r (skipn k l) end.
(** track_analysis.py L952 *)
Definition array_split {T} (l : list T) (n : nat) : list (list T) :=
  split_sizes (repeat (S (length l / n)) (length l mod n) ++ repeat (length l / n) (n - length l mod n)) l.
(** track_analysis.py L952 *)
Definition parallel_fit {T R} (fit : list T -> list R) (n_slices : nat) (tracks : list T) : list R :=
  concat (map fit (array_split tracks n_slices)).

(** *** _find_small_distance (track_analysis.py L1315-1334) *)
Section Distance.
  Local Open Scope Q_scope.
  (** a position; None stands for nan and infinities, with which every comparison made here is false [for track_analysis.py L1325-1334] *)
  Definition coord : Type := option Q.
  (** track_analysis.py L1325-1334 *)
  Record limits := Limits { max_x : Q; max_y : Q; use_ellipse : bool }.

  (** track_analysis.py L1325-1334: test of a pair *)
  Definition too_close (lim : limits) (x1 y1 x2 y2 : coord) : bool :=
    match x1, x2 with
    | Some a, Some b =>
        match y1, y2 with
        | Some c, Some d =>
            if use_ellipse lim && negb (Qle_bool (max_x lim) 0) && negb (Qle_bool (max_y lim) 0)
            then Qle_bool ((a - b) * (a - b) / (max_x lim * max_x lim) + (c - d) * (c - d) / (max_y lim * max_y lim)) 1
            else Qle_bool (Qabs (a - b)) (max_x lim) && Qle_bool (Qabs (c - d)) (max_y lim)
        | _, _ => false
        end
    | _, _ => false
    end.
End Distance.

Section Small.
  Variable n : nat.
  Variable events : nat -> Z.
  Variable x y : nat -> coord.
  Variable lim : limits.

  (** track_analysis.py L1325-1334 *)
  Definition set_flag (f : nat -> bool) (i : nat) : nat -> bool := fun k => if k =? i then true else f k.

  (** track_analysis.py L1322-1334: the other rows of the event *)
  Fixpoint others_loop (i : nat) (js : list nat) (cur : Z) (f : nat -> bool) : nat -> bool :=
    match js with
    | [] => f
    | j :: r =>
        if (events j =? cur)%Z
        then others_loop i r cur
               (if too_close lim (x i) (y i) (x j) (y j) then set_flag (set_flag f i) j else f)
        else f
    end.
  (** track_analysis.py L1318-1335: the two outer loops visit every row once *)
  Fixpoint rows_visit (rows : list nat) (cur : option Z) (f : nat -> bool) : nat -> bool :=
    match rows with
    | [] => f
    | i :: r =>
        let cur' := match cur with
                    | Some c => if (events i =? c)%Z then c else events i
                    | None => events i
                    end in
        rows_visit r (Some cur') (others_loop i (seq (S i) (n - S i)) cur' f)
    end.
  (** track_analysis.py L1318-1335 *)
  Definition find_small_distance (f : nat -> bool) : nat -> bool := rows_visit (seq 0 n) None f.

  (** track_analysis.py L1208-1209 / L1228-1229: isolated_flag[~small_distance] |= 1 << dut_index *)
  Definition isolated (row : nat) : bool := negb (find_small_distance (fun _ => false) row).
End Small.
