(** Model of the statistics of fit_tracks: the shares of tracks of a chunk (track_analysis.py L867-868, L1038-1040, L1057, L1114-1121, L1180-1184, L1211-1215, L1231-1238) and their
    figures (L1012-1021 and tools/plot_utils.py plot_fit_tracks_statistics L814-844).
    Simplifications: shares are rational numbers, the limits of the factors are 1/100, 1/10 and 1; of a page the names of the DUTs of the title (as numbers) and the curves are modelled. *)
From Coq Require Import ZArith QArith List Bool Arith.
From Verif Require Import SelectionModel FitTracksModel StoreTracksModel.
Import ListNotations.
Local Open Scope nat_scope.

(** np.count_nonzero [for track_analysis.py L1039-1040, L1118, L1180, L1211, L1231, L1237] *)
Definition count (p : nat -> bool) (l : list nat) : nat := length (filter p l).
(** a quotient, 0 if there is nothing to divide by [for track_analysis.py L1118-1121, L1181-1184, L1212-1215, L1232-1235] *)
Definition share (a b : nat) : Q := if b =? 0 then 0%Q else (inject_Z (Z.of_nat a) / inject_Z (Z.of_nat b))%Q.
(** a / b; None: ZeroDivisionError [for track_analysis.py L868, L1238] *)
Definition quotient (a b : nat) : option Q := if b =? 0 then None else Some (inject_Z (Z.of_nat a) / inject_Z (Z.of_nat b))%Q.
(** track_analysis.py L1111-1114: select_finite_distance of the fitted track k (before the correction of the residuals) *)
Definition finite_distance (t : track_data) (dut k : nat) : bool :=
  match residual (fst (c_hit (nth k (fitted t) no_candidate) dut)) (fst (inter_of t dut k)) 0, residual (snd (c_hit (nth k (fitted t) no_candidate) dut)) (snd (inter_of t dut k)) 0 with
  | Some _, Some _ => true
  | _, _ => false
  end.
(** track_analysis.py L1116: select_tracks_for_storage[select_fit_tracks] *)
Definition stored_fitted (t : track_data) (k : nat) : bool := nth k (choose (fit_mask t) (store_mask t)) false.
(** track_analysis.py L1057, L1114-1121, L1180-1184, L1211-1215, L1231-1238: dut_stats of one DUT; None: ValueError or ZeroDivisionError *)
Definition dut_stat (t : track_data) (dut : nat) (s : dut_settings) : option (list Q) :=
  match use_ellipse_for s, isolation_for s with
  | Some ellipse, Some d =>
      let tracks := seq 0 (length (fitted t)) in
      let quality k := quality_sel s ellipse (shifts t dut) (c_hit (nth k (fitted t) no_candidate) dut) (inter_of t dut k) in
      let track_far k := track_isolated t dut d k in
      let hit_far k := hit_isolated t dut d ellipse (candidate_index t k) in
      let with_hit k := stored_fitted t k && finite_distance t dut k in
      let n_good := length (filter (fun b => b) (store_mask t)) in
      let n_hit := count with_hit tracks in
      match quotient (count (fun k => quality k && track_far k && hit_far k) tracks) (length (candidates t)) with
      | None => None
      | Some last =>
          Some [share n_hit n_good; share (count (fun k => with_hit k && quality k) tracks) n_hit; share (count (fun k => with_hit k && track_far k) tracks) n_hit;
                share (count (fun k => with_hit k && hit_far k) tracks) n_hit; last]
      end
  | _, _ => None
  end.
(** exceptions of the loop over the DUTs [for track_analysis.py L1056-1311] *)
Fixpoint all_some {A} (l : list (option A)) : option (list A) :=
  match l with [] => Some [] | None :: _ => None | Some a :: l => match all_some l with Some l => Some (a :: l) | None => None end end.
(** track_analysis.py L1056-1311: the returned list *)
Definition dut_stats (t : track_data) : option (list (list Q)) :=
  all_some (map (fun i => dut_stat t i (nth i (settings t) (DutSettings (0%Q, 0%Q) None None None None))) (seq 0 (length (settings t)))).
(** track_analysis.py L867-868: [selected] is select_tracks_for_storage before the choice of events *)
Definition chunk_stat (selected : list bool) : option Q := quotient (length (filter (fun b => b) selected)) (length selected).

(** curves: share of tracks fulfilling the hit requirements (L827) or number of the label (L833), factor and points [for tools/plot_utils.py L827-839] *)
Record curve := Curve { curve_label : option nat; curve_factor : nat; curve_points : list (nat * Q) }.
(** tools/plot_utils.py L835-838: the loop i = 2, 1, 0; [previous] is the factor of the curve before, which is kept if no test succeeds; None: UnboundLocalError *)
Definition factor (previous : option nat) (stat : list Q) : option nat :=
  if forallb (fun q => Qle_bool q (1 # 100)) stat then Some 100
  else if forallb (fun q => Qle_bool q (1 # 10)) stat then Some 10
  else if forallb (fun q => Qle_bool q 1) stat then Some 1
  else previous.
(** zip of the lists of all chunks: tuple number i has the i-th items, as long as all lists have one [for tools/plot_utils.py L834] *)
Definition transposed (l : list (list Q)) : list (list Q) :=
  match l with
  | [] => []
  | a :: r => map (fun i => map (fun s => nth i s 0%Q) l) (seq 0 (fold_left (fun n s => Nat.min n (length s)) r (length a)))
  end.
(** tools/plot_utils.py L834-839; IndexError for more than 5 labels, ValueError for different numbers of points *)
Fixpoint stat_curves (chunk_indices : list nat) (previous : option nat) (index : nat) (stats : list (list Q)) : option (list curve) :=
  match stats with
  | [] => Some []
  | stat :: stats =>
      match factor previous stat with
      | None => None
      | Some f =>
          if (index <? 5) && (length chunk_indices =? length stat) then
            match stat_curves chunk_indices (Some f) (S index) stats with
            | Some cs => Some (Curve (Some index) f (combine chunk_indices (map (fun q => (q * inject_Z (Z.of_nat f))%Q) stat)) :: cs)
            | None => None
            end
          else None
      end
  end.
(** a page: DUT and Fit DUTs of the title, curves [for tools/plot_utils.py L820-844] *)
Record page := Page { page_dut : nat; page_fit_duts : list nat; page_curves : list curve }.
(** tools/plot_utils.py L820-844: one DUT; the list of the last chunk decides whether there are statistics *)
Definition stat_page (fit_duts chunk_indices : list nat) (chunk_stats : list Q) (stats : list (list (list Q))) (dut : nat) : option page :=
  if length chunk_indices =? length chunk_stats then
    match (match nth_error (last stats []) dut with Some (_ :: _) => all_some (map (fun item => nth_error item dut) stats) | _ => Some [] end) with
    | None => None
    | Some shown =>
        match stat_curves chunk_indices None 0 (transposed shown) with
        | Some cs => Some (Page dut fit_duts (Curve None 1 (combine chunk_indices chunk_stats) :: cs))
        | None => None
        end
    end
  else None.
(** tools/plot_utils.py L814-844: all DUTs of the telescope *)
Definition plot_fit_tracks_statistics (n_duts : nat) (fit_duts chunk_indices : list nat) (chunk_stats : list Q) (stats : list (list (list Q))) : option (list page) :=
  all_some (map (stat_page fit_duts chunk_indices chunk_stats stats) (seq 0 n_duts)).

(** a chunk of the track candidates: index of data_aligned_at_events, tracks selected for storage before the choice of events, data [for track_analysis.py L847-999] *)
Record chunk := Chunk { index_chunk : nat; selected : list bool; data : track_data }.
(** track_analysis.py L831-1021: the statistics of one fit, whose tracks are stored for the DUTs [snd step] (actual_fit_duts); these are the DUTs of the title *)
Definition fit_statistics (n_duts : nat) (step : fit_step) (chunks : list chunk) : option (list page) :=
  match all_some (map (fun c => chunk_stat (selected c)) chunks), all_some (map (fun c => dut_stats (data c)) chunks) with
  | Some chunk_stats, Some stats => plot_fit_tracks_statistics n_duts (snd step) (map index_chunk chunks) chunk_stats stats
  | _, _ => None
  end.
