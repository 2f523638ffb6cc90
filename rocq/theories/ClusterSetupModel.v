(** Model of the set-up of hit_analysis.cluster_hits (hit_analysis.py L841-885, L1051-1054), of the functions called at the end of a cluster and of an event
    (L889-969) and of the function that converts, clusters and copies the hits of a chunk (L1057-1098).  The clusterizer itself (package pixel_clusterizer) is an argument. *)
From Coq Require Import ZArith String List Bool.
From Verif Require Import BitsModel.
Import ListNotations.
Local Open Scope list_scope.
Local Open Scope Z_scope.

(** argument use_positions: None, True, False, another true value such as 1, or another false value such as 0 [for hit_analysis.py L845-868] *)
Inductive use_argument := UNone | UTrue | UFalse | UOtherTrue | UOtherFalse.
(** the decisions of hit_analysis.py L841-868 *)
Record setup := Setup { use_positions : bool; convert_to_positions : bool; copy_hit_indices : bool }.
(** name in node.dtype.names [for hit_analysis.py L842-865] *)
Definition has (name : string) (columns : list string) : bool := existsb (String.eqb name) columns.
(** hit_analysis.py L841-868 *)
Definition decide (use : use_argument) (columns : list string) : setup :=
  let '(positions, convert) :=
    match use with
    | UNone => (has "x" columns, false)
    | UTrue => (true, negb (has "x" columns))
    | UFalse | UOtherFalse => (false, false)
    | UOtherTrue => (true, false)
    end in
  Setup positions convert (if positions then has "column" columns else false).
(** mask file: None, or for each of the two masks whether it is in the file.  hit_analysis.py L870-885: true if accepted *)
Definition masks_accepted (positions : bool) (masks : option (bool * bool)) : bool :=
  match masks with Some (disabled, noisy) => negb (positions && (disabled || noisy)) | None => true end.
(** hit_analysis.py L971-980 and L999-1008: the names of the columns of the clustered hits *)
Definition cluster_hit_names (positions : bool) : list string :=
  (if positions then ["event_number"; "x"; "y"; "charge"; "frame"; "cluster_ID"; "is_seed"; "cluster_size"; "n_cluster"]
   else ["event_number"; "column"; "row"; "charge"; "frame"; "cluster_ID"; "is_seed"; "cluster_size"; "n_cluster"])%string.
(** hit_analysis.py L1051-1054 *)
Definition additional_columns (positions : bool) (columns : list string) : list string := filter (fun c => negb (has c (cluster_hit_names positions))) columns.

Section Extent.
Variable A : Type.
Variable ltb : A -> A -> bool.
(** the loops over cluster_hit_indices[1:] for one column: hit_analysis.py L898-916 and L945-957; a negative index ends the loop.  [values] are the values of the column for the hits *)
Fixpoint min_loop (values : Z -> A) (indices : list Z) (m : A) : A :=
  match indices with
  | [] => m
  | i :: indices => if i <? 0 then m else min_loop values indices (if ltb (values i) m then values i else m)
  end.
(** hit_analysis.py L898-916 and L945-957 *)
Fixpoint max_loop (values : Z -> A) (indices : list Z) (m : A) : A :=
  match indices with
  | [] => m
  | i :: indices => if i <? 0 then m else max_loop values indices (if ltb m (values i) then values i else m)
  end.
End Extent.
(** the other hits of the cluster: the indices before the first negative one [for hit_analysis.py L898-900] *)
Fixpoint used (indices : list Z) : list Z := match indices with [] => [] | i :: indices => if i <? 0 then [] else i :: used indices end.

(** hit_analysis.py L889-936: (cluster_shape, err_column, err_row, frame) of the cluster with the indices i :: indices; the 15 x 15 array is filled with the hits before
    the first negative index (end_of_cluster of BitsModel) *)
Definition end_of_cluster_with_index (column row frame : Z -> Z) (i : Z) (indices : list Z) : Z * Z * Z * Z :=
  let '(shape, _, _) := end_of_cluster (column i, row i) (map (fun j => (column j, row j)) (used indices)) in
  (shape, max_loop Z Z.ltb column indices (column i) - min_loop Z Z.ltb column indices (column i),
   max_loop Z Z.ltb row indices (row i) - min_loop Z Z.ltb row indices (row i), min_loop Z Z.ltb frame indices (frame i)).

Section WithPosition.
Variable P : Type.
Variable ltb : P -> P -> bool.
Variable sub : P -> P -> P.
(** hit_analysis.py L938-963: (cluster_shape, err_x, err_y, frame); positions are of any type with a comparison and a subtraction *)
Definition end_of_cluster_with_position (x y : Z -> P) (frame : Z -> Z) (i : Z) (indices : list Z) : Z * P * P * Z :=
  (-1, sub (max_loop P ltb x indices (x i)) (min_loop P ltb x indices (x i)), sub (max_loop P ltb y indices (y i)) (min_loop P ltb y indices (y i)),
   min_loop Z Z.ltb frame indices (frame i)).
End WithPosition.

(** hit_analysis.py L966-969: the number of clusters of the first hit of the event is written to the clusters [start, stop) *)
Definition end_of_event (n_cluster_of_hit : nat -> Z) (start_hit : nat) (start stop : nat) (n_cluster : list Z) : list Z :=
  map (fun p => if (Nat.leb start (fst p) && Nat.ltb (fst p) stop)%bool then n_cluster_of_hit start_hit else snd p) (combine (seq 0 (length n_cluster)) n_cluster).

Section ClusterFunc.
Variable V C : Type.
Variable position_x position_y : V -> V -> V.
Variable clusterizer : list (string * list V) -> list (string * list V) * C.

(** a structured array [for hit_analysis.py L1057-1098] *)
Definition table : Type := list (string * list V).
(** array[name] [for hit_analysis.py L1057-1098] *)
Fixpoint lookup (name : string) (t : table) : option (list V) := match t with [] => None | (n, v) :: t => if String.eqb name n then Some v else lookup name t end.
(** errors of hit_analysis.py L1057-1098: no such column, a name twice, arrays of different length *)
Inductive cluster_error := ColumnErr | NameErr | LengthErr.
(** no name twice in a dtype [for hit_analysis.py L1060-1068, L1084-1085] *)
Fixpoint unique (names : list string) : bool := match names with [] => true | n :: names => negb (has n names) && unique names end.
(** index_to_local_position on arrays [for hit_analysis.py L1059] *)
Fixpoint map2 (f : V -> V -> V) (a b : list V) : list V := match a, b with x :: a, y :: b => f x y :: map2 f a b | _, _ => [] end.
(** hit_analysis.py L1058-1075 *)
Definition convert (hits : table) : cluster_error + table :=
  match lookup "column" hits, lookup "row" hits with
  | Some c, Some r =>
      let new := map (fun p : string * list V =>
                        if String.eqb (fst p) "column" then ("x"%string, map2 position_x c r)
                        else if String.eqb (fst p) "row" then ("y"%string, map2 position_y c r) else p) hits in
      if unique (map fst new) then inr new else inl NameErr
  | _, _ => inl ColumnErr
  end.
(** hit_analysis.py L1083-1095.  Simplification: an array of another length is always an error (numpy repeats a single value) *)
Definition copy_indices (hits cluster_hits : table) : cluster_error + table :=
  if unique (map fst cluster_hits ++ ["column"; "row"]%string) then
    match lookup "column" hits, lookup "row" hits with
    | Some c, Some r =>
        if forallb (fun p => Nat.eqb (length (snd p)) (length c)) cluster_hits then inr (cluster_hits ++ [("column"%string, c); ("row"%string, r)]) else inl LengthErr
    | _, _ => inl ColumnErr
    end
  else inl NameErr.
(** hit_analysis.py L1057-1097 *)
Definition cluster_func (s : setup) (hits : table) : cluster_error + (table * C) :=
  match (if convert_to_positions s then convert hits else inr hits) with
  | inl e => inl e
  | inr new_hits =>
      let '(cluster_hits, clusters) := clusterizer new_hits in
      if copy_hit_indices s then match copy_indices hits cluster_hits with inl e => inl e | inr t => inr (t, clusters) end else inr (cluster_hits, clusters)
  end.
End ClusterFunc.
