(** Model of the arguments of track_analysis.fit_tracks: L648-710 and L742-765 (select_duts, select_fit_duts, select_hit_duts, exclude_dut_hit,
    min_track_hits) and L803-818 (number of required hits).  quality_distances and isolation_distances (L712-740) are checked as in align, see
    AlignArgsModel.check_distances.
    Simplifications: DUTs are natural numbers; iterables are lists and tuples; only the class of an error is kept; that a DUT of a selection is in the
    telescope is not checked by this part. *)
From Coq Require Import List Arith Bool.
From Verif Require Import FitTracksModel.
Import ListNotations.

(** track_analysis.py L648-818 *)
Inductive error := ValueErr | TypeErr | RuntimeErr.
(** track_analysis.py L648-818 *)
Definition bind {A B} (r : error + A) (f : A -> error + B) : error + B := match r with inl e => inl e | inr a => f a end.
(** track_analysis.py L648-818 *)
Definition guard (ok : bool) (e : error) : error + unit := if ok then inr tt else inl e.

(** an item of a selection: None, a number or a list of numbers [for track_analysis.py L648-710] *)
Inductive item := INone | Leaf (dut : nat) | Items (duts : list nat).
(** None, a number, or a list or tuple of items [for track_analysis.py L648-710] *)
Inductive selection := SNone | SNumber (dut : nat) | SIter (tuple : bool) (items : list item).
(** track_analysis.py L658, L674, L699 *)
Definition is_leaf (i : item) : bool := match i with Leaf _ => true | _ => false end.
(** track_analysis.py L678-680 *)
Definition is_none (i : item) : bool := match i with INone => true | _ => false end.
(** track_analysis.py L682, L707 *)
Definition is_iterable (i : item) : bool := match i with Items _ => true | _ => false end.
(** the number of a leaf [for track_analysis.py L674-675] *)
Definition leaf_dut (i : item) : nat := match i with Leaf d => d | _ => 0 end.
(** the numbers of an item [for track_analysis.py L682-687] *)
Definition item_duts (i : item) : list nat := match i with Items l => l | _ => [] end.

(** track_analysis.py L648-659; a list as item is not hashable (a tuple gives a ValueError).  None as item passes these checks
    and fails afterwards *)
Definition check_select_duts (n_duts : nat) (s : selection) : error + list nat :=
  let items := match s with SNone => map Leaf (seq 0 n_duts) | SNumber d => [Leaf d] | SIter _ l => l end in
  bind (guard (forallb is_leaf items) TypeErr) (fun _ =>
  let duts := map leaf_dut items in
  bind (guard (length duts =? length (nodup Nat.eq_dec duts)) ValueErr) (fun _ => inr duts)).

(** track_analysis.py L673-686 and L698-710: one list for all DUTs or one for each; [default]: what is used instead of None.  Assignment to an item of a tuple
    is a TypeError.  The second result is the list of the caller after the call *)
Definition expand (tuple : bool) (items : list item) (default : list nat) (n : nat) : error + (list (list nat) * list item) :=
  if forallb is_leaf items then inr (repeat (map leaf_dut items) n, items)
  else
    bind (guard (negb (tuple && existsb is_none items)) TypeErr) (fun _ =>
    let filled := map (fun i => if is_none i then Items default else i) items in
    bind (guard (forallb is_iterable filled) ValueErr) (fun _ =>
    bind (guard (length filled =? n) ValueErr) (fun _ => inr (map item_duts filled, filled)))).
(** track_analysis.py L661-690 *)
Definition check_fit_duts (n_duts n : nat) (s : selection) : error + (list (list nat) * list item) :=
  bind (match s with
        | SNone => inr (false, map Leaf (seq 0 n_duts))
        | SNumber _ => inl ValueErr
        | SIter t l => inr (t, l)
        end) (fun tl =>
  bind (guard (negb (length (snd tl) =? 0)) ValueErr) (fun _ =>
  bind (expand (fst tl) (snd tl) (seq 0 n_duts) n) (fun r =>
  bind (guard (forallb (fun l => negb (length l <? 2)) (fst r)) ValueErr) (fun _ => inr r)))).
(** track_analysis.py L692-710 *)
Definition check_hit_duts (n : nat) (s : selection) : error + (list (list nat) * list item) :=
  bind (match s with
        | SNone => inr (false, [])
        | SNumber _ => inl ValueErr
        | SIter t l => inr (t, l)
        end) (fun tl => expand (fst tl) (snd tl) [] n).

(** exclude_dut_hit: a value or an iterable of values; None: not a boolean.  track_analysis.py L742-753 *)
Definition check_exclude (a : option bool + list (option bool)) (n : nat) : error + list bool :=
  bind (match a with inl v => inr (repeat v n) | inr l => bind (guard (negb (length l =? 0)) ValueErr) (fun _ => inr l) end) (fun l =>
  bind (guard (length l =? n) ValueErr) (fun _ =>
  bind (guard (forallb (fun v => match v with Some _ => true | None => false end) l) ValueErr) (fun _ =>
  inr (map (fun v => match v with Some b => b | None => false end) l)))).
(** track_analysis.py L755-760 *)
Definition check_min_hits (a : option nat + list (option nat)) (n : nat) : error + list (option nat) :=
  let l := match a with inl v => repeat v n | inr l => l end in
  bind (guard (length l =? n) ValueErr) (fun _ => inr l).

(** the five arguments *)
Record arguments := Arguments {
  a_select : selection; a_fit : selection; a_hit : selection;
  a_exclude : option bool + list (option bool); a_min : option nat + list (option nat)
}.
(** the lists as they are used in the loop over the DUTs [for track_analysis.py L771-818] *)
Fixpoint configs (duts : list nat) (fits hits : list (list nat)) (exclude : list bool) (mins : list (option nat)) : list fit_config :=
  match duts, fits, hits, exclude, mins with
  | d :: duts, f :: fits, h :: hits, e :: exclude, m :: mins => FitConfig d f h e m :: configs duts fits hits exclude mins
  | _, _, _, _, _ => []
  end.
(** track_analysis.py L648-765 *)
Definition check_arguments (n_duts : nat) (a : arguments) : error + list fit_config :=
  bind (check_select_duts n_duts (a_select a)) (fun duts =>
  bind (check_fit_duts n_duts (length duts) (a_fit a)) (fun fits =>
  bind (check_hit_duts (length duts) (a_hit a)) (fun hits =>
  bind (check_exclude (a_exclude a) (length duts)) (fun exclude =>
  bind (check_min_hits (a_min a) (length duts)) (fun mins =>
  inr (configs duts (fst fits) (fst hits) exclude mins)))))).
(** track_analysis.py L803-818: check of the number of required hits, for the DUTs for which tracks are fitted (the first of each group) *)
Definition check_required (c : fit_config) : error + unit :=
  bind (guard (negb (min_hits c <? 2)) ValueErr) (fun _ => guard (negb (length (fit_duts c) <? min_hits c)) RuntimeErr).
(** track_analysis.py L771-818 for all steps of the loop; an error ends it *)
Fixpoint check_steps (steps : list fit_step) : error + unit :=
  match steps with [] => inr tt | s :: steps => bind (check_required (fst s)) (fun _ => check_steps steps) end.
(** track_analysis.py L648-818 *)
Definition fit_arguments (n_duts : nat) (a : arguments) : error + list fit_step :=
  bind (check_arguments n_duts a) (fun cs => bind (check_steps (fit_steps cs)) (fun _ => inr (fit_steps cs))).
