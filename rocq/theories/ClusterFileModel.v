(** Model of hit_analysis.cluster_hits (L868-884, L1099-1240) as a whole: the four runs of SMC, one after the other on the same output file, and the copies of the pixel masks.
    The runs of SMC are those of SmcNodesModel, with the chunks of ChunksModel (data_aligned_at_events).  The function for a chunk of hits (cluster_func of ClusterSetupModel) is an argument,
    as the clusterizer is an external package.
    Simplifications: exact real numbers for the errors; a mask is a list of numbers; if a run of SMC does not end normally, the result is None (C17); plots are not modelled. *)
From Coq Require Import ZArith Reals Bool Arith Ascii String List.
From Verif Require Import EventArraysModel HistModel SmcModel SmcNodesModel ChunksModel ClusterHistModel ClusterSetupModel.
Import ListNotations.
Local Open Scope list_scope.

Section ClusterFile.
Variables HIT CHIT REST : Type.
Variable hit_event : HIT -> Z.
Variable cluster_hit_event : CHIT -> Z.
(** a row of the table Clusters: event_number, n_hits, cluster_shape, the two columns of errors (err_column and err_row, or err_x and err_y) and all other columns
    [for hit_analysis.py L1112, L1115-1230] *)
Record cluster := Cluster { c_event : Z; c_n_hits : Z; c_shape : Z; c_err : R * R; c_rest : REST }.
(** a row of a table of the files [for hit_analysis.py L1100-1113] *)
Inductive row := HitRow (h : HIT) | ClusterHitRow (h : CHIT) | ClusterRow (c : cluster).
(** column event_number [for hit_analysis.py L1100-1113] *)
Definition row_event (r : row) : Z := match r with HitRow h => hit_event h | ClusterHitRow h => cluster_hit_event h | ClusterRow c => c_event c end.
(** a chunk of Hits [for hit_analysis.py L1100-1113] *)
Definition hits_of (rows : list row) : list HIT := flat_map (fun r => match r with HitRow h => [h] | _ => [] end) rows.
(** a chunk of Clusters [for hit_analysis.py L1121-1230] *)
Definition clusters_of (rows : list row) : list cluster := flat_map (fun r => match r with ClusterRow c => [c] | _ => [] end) rows.
(** cluster_func [for hit_analysis.py L1057-1098] *)
Variable clusterize : list HIT -> list CHIT * list cluster.
(** hit_analysis.py L1103-1112 *)
Definition cluster_items (rows : list row) : list (item row) :=
  [Rows (map ClusterHitRow (fst (clusterize (hits_of rows)))); Rows (map ClusterRow (snd (clusterize (hits_of rows))))].
(** hit_analysis.py L1116-1119.  An exception (a number of hits which is negative or above 2^31, or no cluster in the chunk) is left out: the histogram is empty *)
Definition size_items (rows : list row) : list (item row) :=
  [Hist (match map c_n_hits (clusters_of rows) with
         | [] => []
         | n :: ns => match hist_1d_index (n :: ns) (fold_left Z.max ns n + 1) with Ok h => h | _ => [] end
         end)].
(** hit_analysis.py L1131-1134 *)
Definition shape_items (rows : list row) : list (item row) := [Hist (np_histogram (arange (Z.to_nat (2 ^ 16))) (map c_shape (clusters_of rows)))].
(** hit_analysis.py L1172-1182: the errors of all clusters are set *)
Definition set_error (positions : bool) (column_size row_size : R) (c : cluster) : cluster :=
  Cluster (c_event c) (c_n_hits c) (c_shape c) (if positions then (position_error column_size, position_error row_size) else (index_error column_size, index_error row_size)) (c_rest c).
(** hit_analysis.py L1172-1182 *)
Definition error_row (positions : bool) (column_size row_size : R) (r : row) : row :=
  match r with ClusterRow c => ClusterRow (set_error positions column_size row_size c) | r => r end.

(** a run of SMC, with the chunks of the table; None: it does not end normally.  [for hit_analysis.py L1100-1230] *)
Definition run_smc (chunk_size : nat) (same : bool) (m : mode) (infile outfile : file row) (table : string) (descs : list (option string)) (func : list row -> list (item row)) : option (file row) :=
  match SmcNodesModel.lookup table infile with
  | Some (TableNode rows) =>
      match data_aligned_at_events row_event rows (Params None None None None chunk_size false true true) with
      | (ys, GenDone) => match smc same m infile outfile (Named table) descs (fun _ => map fst ys) func with Done f _ => Some f | _ => None end
      | _ => None
      end
  | _ => None
  end.
(** hit_analysis.py L1223-1232: _f_copy, the node must not exist *)
Definition copy_mask (name : string) (mask : option (list Z)) (f : file row) : option (file row) :=
  match mask with
  | None => Some f
  | Some m => if exists_node f name then None else Some (f ++ [(name, ArrayNode m)])
  end.
(** hit_analysis.py L868-884 and L1099-1240; [masks]: the disabled and the noisy pixels of the mask file *)
Definition cluster_file (positions : bool) (column_size row_size : R) (chunk_size : nat) (masks : option (option (list Z) * option (list Z))) (infile outfile : file row) : option (file row) :=
  if masks_accepted positions (option_map (fun m => (match fst m with Some _ => true | None => false end, match snd m with Some _ => true | None => false end)) masks) then
    match run_smc chunk_size false ModeW infile outfile "Hits" [Some "ClusterHits"; Some "Clusters"]%string cluster_items with
    | None => None
    | Some f =>
    match run_smc chunk_size true ModeUpdate f f "Clusters" [Some "HistClusterSize"]%string size_items with
    | None => None
    | Some f =>
    match run_smc chunk_size true ModeUpdate f f "Clusters" [Some "HistClusterShape"]%string shape_items with
    | None => None
    | Some f =>
    match run_smc chunk_size true ModeUpdate f f "Clusters" [None] (fun rows => [Rows (map (error_row positions column_size row_size) rows)]) with
    | None => None
    | Some f =>
        match masks with
        | None => Some f
        | Some (disabled, noisy) => match copy_mask "DisabledPixelMask" disabled f with None => None | Some f => copy_mask "NoisyPixelMask" noisy f end
        end
    end end end end
  else None.
End ClusterFile.
