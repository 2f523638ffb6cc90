(** Model of hit_analysis.check_file (hit_analysis.py L291-395) except for the correlation itself (CorrelateModel.check_loop): choice of the table, checks of each chunk,
    indices in the histograms, event numbers and their differences.  Arithmetic is exact; the chunks are those of data_aligned_at_events. *)
From Coq Require Import ZArith Reals String List Bool.
From Verif Require Import GeometryModel CorrelateModel.
Import ListNotations.
Local Open Scope list_scope.
Local Open Scope Z_scope.

(** name in node.dtype.names [for hit_analysis.py L299] *)
Definition named (name : string) (names : list string) : bool := existsb (String.eqb name) names.
(** a row of the table; fields that the table does not have are not used [for hit_analysis.py L340-372] *)
Record krow := KRow { k_event : Z; k_column : Z; k_row : Z; k_x : R; k_y : R }.
(** RuntimeError of a check, missing column, TypeError when the message of a check is made [for hit_analysis.py L341-354] *)
Inductive check_error := CheckErr | FieldErr | MessageErr.
(** the file: the names of the columns of Clusters and of Hits, if there are such tables.  hit_analysis.py L291-297: (names, use_clusters); None: NoSuchNodeError *)
Definition choose_table (clusters hits : option (list string)) : option (list string * bool) :=
  match clusters, hits with Some c, _ => Some (c, true) | None, Some h => Some (h, false) | None, None => None end.
(** hit_analysis.py L299-302 *)
Definition positions_used (names : list string) : bool := named "mean_x" names || named "x" names.
(** np.all(np.diff(np.r_[last_event_number, events]) >= 0) [for hit_analysis.py L340] *)
Fixpoint nondecreasing (last : Z) (events : list Z) : bool := match events with [] => true | e :: events => (0 <=? e - last) && nondecreasing e events end.
(** hit_analysis.py L340-354.  Simplification: both columns must be in the table, although a violation in the first one is found before the second one is read.
    The extents in the error messages of L352 and L354 are those of the method itself, which cannot be indexed *)
Definition check_chunk (s : sensor) (names : list string) (last_event_number : Z) (rows : list krow) : check_error + unit :=
  if negb (nondecreasing last_event_number (map k_event rows)) then inl CheckErr
  else if positions_used names then
    if named "x" names && named "y" names then
      if existsb (fun r => Rltb (k_x r) (fst (x_extent s)) || Rltb (snd (x_extent s)) (k_x r)) rows then inl MessageErr
      else if existsb (fun r => Rltb (k_y r) (fst (y_extent s)) || Rltb (snd (y_extent s)) (k_y r)) rows then inl MessageErr
      else inr tt
    else inl FieldErr
  else
    if named "column" names && named "row" names then
      if existsb (fun r => (k_column r <? 1) || (k_row r <? 1)) rows then inl CheckErr
      else if existsb (fun r => (Z.of_nat (n_columns s) <? k_column r) || (Z.of_nat (n_rows s) <? k_row r)) rows then inl CheckErr
      else inr tt
    else inl FieldErr.
(** hit_analysis.py L356-370, one row (tables of hits); the tables of clusters do not get here.  None: error of index_to_local_position *)
Definition position_of (s : sensor) (names : list string) (r : krow) : option (R * R) :=
  if positions_used names then Some (k_x r, k_y r)
  else match index_to_local s (IZR (k_column r)) (IZR (k_row r)) with Some v => Some (vx v, vy v) | None => None end.
(** hit_analysis.py L307-320 and L371-372: the indices of a position in the histograms, and their numbers of bins *)
Definition indices_of (s : sensor) (resolution : R * R) (p : R * R) : Z * Z :=
  (bin_index 0 (fst (x_extent s)) (snd (x_extent s)) (fst resolution) (fst p), bin_index 0 (fst (y_extent s)) (snd (y_extent s)) (snd resolution) (snd p)).
(** hit_analysis.py L311-320 *)
Definition shape_of (s : sensor) (resolution : R * R) : Z * Z :=
  (n_bins (fst (x_extent s)) (snd (x_extent s)) (fst resolution), n_bins (fst (y_extent s)) (snd (y_extent s)) (snd resolution)).
(** np.unique of event numbers that do not decrease (L340 has been passed) [for hit_analysis.py L384] *)
Fixpoint unique_events (events : list Z) : list Z :=
  match events with
  | [] => []
  | e :: events => match events with [] => [e] | f :: _ => if e =? f then unique_events events else e :: unique_events events end
  end.
(** np.diff [for hit_analysis.py L385] *)
Fixpoint diff (l : list Z) : list Z := match l with [] => [] | a :: l => match l with [] => [] | b :: _ => (b - a) :: diff l end end.
(** hit_analysis.py L384-395: what is appended for one chunk, (event_delta, event_numbers); the number zero of the last event counts as no event (L387) *)
Definition chunk_events (last_event : option Z) (events : list Z) : list Z * list Z :=
  let numbers := unique_events events in
  let delta := diff numbers in
  (match last_event with Some l => if l =? 0 then delta else (hd 0 numbers - l) :: delta | None => delta end, numbers).
(** hit_analysis.py L338-395: the loop over the chunks; the arrays EventDelta and EventNumber *)
Fixpoint check_chunks (s : sensor) (names : list string) (last_event_number : Z) (last_event : option Z) (chunks : list (list krow)) : check_error + (list Z * list Z) :=
  match chunks with
  | [] => inr ([], [])
  | c :: chunks =>
      match check_chunk s names last_event_number c with
      | inl e => inl e
      | inr _ =>
          let '(delta, numbers) := chunk_events last_event (map k_event c) in
          let last := last numbers 0 in
          match check_chunks s names last (Some last) chunks with
          | inl e => inl e
          | inr (d, n) => inr (delta ++ d, numbers ++ n)
          end
      end
  end.
(** hit_analysis.py L326-395 *)
Definition check_file (s : sensor) (names : list string) (chunks : list (list krow)) : check_error + (list Z * list Z) := check_chunks s names 0 None chunks.
(** hit_analysis.py L971-1042: the names of the columns of a table of clusters that cluster_hits writes, with indices and with positions *)
Definition cluster_names (positions : bool) : list string :=
  (if positions then ["event_number"; "cluster_ID"; "n_hits"; "charge"; "frame"; "seed_x"; "seed_y"; "mean_x"; "mean_y"; "err_x"; "err_y"; "n_cluster"; "cluster_shape"]
   else ["event_number"; "cluster_ID"; "n_hits"; "charge"; "frame"; "seed_column"; "seed_row"; "mean_column"; "mean_row"; "err_column"; "err_row"; "n_cluster"; "cluster_shape"])%string.
