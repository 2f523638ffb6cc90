(** Models store_track_data and create_results_array, which fill the tables Tracks_DUTx of
    fit_tracks.  Source: track_analysis.py L1035-1312 (store_track_data), L1337-1430
    (create_results_array).
    Simplifications: positions are rational numbers (None: nan or inf); the intersections of the
    tracks with the DUTs, the slopes and the peak positions of the residuals (L1123-1138) are inputs;
    the columns copied from the track candidates are the candidate itself; dut_stats, which are only
    plotted (see FitStatsModel.v), and the full track information are left out. *)
From Coq Require Import ZArith QArith Qabs List Bool Arith.
From Verif Require Import SelectionModel BitsModel FitTracksModel.
Import ListNotations.
Local Open Scope nat_scope.

(** x and y [for track_analysis.py L1065-1066, L1142-1144] *)
Definition point : Type := coord * coord.

(** a row of the track candidates (track_analysis.py L1065-1066, L1142-1144); the errors are numbers *)
Record candidate := Candidate {
  c_event : Z;
  c_hit : nat -> point;           (* x_dut_i, y_dut_i *)
  c_err : nat -> Q * Q            (* x_err_dut_i, y_err_dut_i *)
}.
(** track_analysis.py L1065-1066, L1142-1144 *)
Definition no_candidate : candidate := Candidate 0 (fun _ => (None, None)) (fun _ => (0%Q, 0%Q)).

(** the settings of one DUT [for track_analysis.py L1111-1112 and L1131, L1138] *)
Record dut_settings := DutSettings {
  pixel : Q * Q;                            (* dut.pixel_size *)
  limit_x : option (coord * coord);         (* L1058-1063, None: use_limits is not set *)
  limit_y : option (coord * coord);
  quality_distance : option (Q * Q);        (* quality_distances[dut_index] *)
  isolation_distance : option (Q * Q)       (* isolation_distances[dut_index] *)
}.

(** a[mask] [for track_analysis.py L1111-1112 and L1131, L1138] *)
Fixpoint choose {A} (mask : list bool) (l : list A) : list A :=
  match mask, l with
  | true :: m, x :: r => x :: choose m r
  | false :: m, _ :: r => choose m r
  | _, _ => []
  end.

(** track_analysis.py L1111-1112 and L1131, L1138; shift: the peak of the residuals for aligned DUTs, else 0 *)
Definition residual (hit inter : coord) (shift : Q) : coord :=
  match hit, inter with Some h, Some i => Some (h - i - shift)%Q | _, _ => None end.

(** track_analysis.py L1149-1157 *)
Definition in_limit (limit : option (coord * coord)) (h : Q) : bool :=
  match limit with
  | None => true
  | Some (lower, upper) =>
      match lower with Some a => Qle_bool a h | None => true end &&
      match upper with Some b => Qle_bool h b | None => true end
  end.

(** track_analysis.py L1159-1172: the quality distance and the choice of the ellipse.  None is infinity; the result None
    is the ValueError for negative values. *)
Definition use_ellipse_for (s : dut_settings) : option bool :=
  match quality_distance s with
  | None => Some true
  | Some (qx, qy) =>
      if negb (Qle_bool 0 qx) || negb (Qle_bool 0 qy) then None
      else Some (Qle_bool ((5 # 2) * fst (pixel s)) qx && Qle_bool ((5 # 2) * snd (pixel s)) qy)
  end.

(** track_analysis.py L1146-1177: dut_quality_flag_sel of one track *)
Definition quality_sel (s : dut_settings) (ellipse : bool) (shift : Q * Q) (hit inter : point) : bool :=
  match residual (fst hit) (fst inter) (fst shift), residual (snd hit) (snd inter) (snd shift), fst hit, snd hit with
  | Some rx, Some ry, Some hx, Some hy =>
      in_limit (limit_x s) hx && in_limit (limit_y s) hy &&
      match quality_distance s with
      | None => true
      | Some (qx, qy) =>
          if ellipse then Qle_bool (rx * rx / (qx * qx) + ry * ry / (qy * qy)) 1
          else Qle_bool (Qabs rx) qx && Qle_bool (Qabs ry) qy
      end
  | _, _, _, _ => false
  end.

(** track_analysis.py L1186-1195: None of the result is the ValueError *)
Definition isolation_for (s : dut_settings) : option (Q * Q) :=
  match isolation_distance s with
  | None => Some (0%Q, 0%Q)
  | Some (ix, iy) => if negb (Qle_bool 0 ix) || negb (Qle_bool 0 iy) then None else Some (ix, iy)
  end.

(** track_analysis.py L1178, L1209, L1229: flag[selection] |= np.uint32(1 << dut_index), of one track.  numpy keeps the
    lower 32 bits. *)
Definition uint32 (z : Z) : Z := (z mod 2 ^ 32)%Z.
(** track_analysis.py L1178, L1209, L1229 *)
Definition or_flag (sel : bool) (dut : nat) (flag : Z) : Z :=
  if sel then Z.lor flag (uint32 (Z.shiftl 1 (Z.of_nat dut))) else flag.

(** quality_flag, isolated_track_flag, isolated_hit_flag of one track [for track_analysis.py L1035-1229] *)
Record flags := Flags { quality_flag : Z; isolated_track_flag : Z; isolated_hit_flag : Z }.

(** the input of store_track_data [for track_analysis.py L1035-1229] *)
Record track_data := TrackData {
  candidates : list candidate;               (* track_candidates_chunk *)
  fit_mask : list bool;                      (* select_fit_tracks *)
  store_mask : list bool;                    (* select_tracks_for_storage *)
  intersections : list (nat -> point);       (* of the fitted tracks with the DUTs, L1068-1105 *)
  settings : list dut_settings;              (* of the DUTs *)
  shifts : nat -> Q * Q                      (* mean_x_residual, mean_y_residual, L1123-1138 *)
}.

(** track_analysis.py L1035-1229 *)
Definition fitted (t : track_data) : list candidate := choose (fit_mask t) (candidates t).
(** the index in the track candidates of the fitted track k [for track_analysis.py L1197-1209] *)
Definition candidate_index (t : track_data) (k : nat) : nat :=
  nth k (choose (fit_mask t) (seq 0 (length (fit_mask t)))) 0.

(** track_analysis.py L1197-1209 *)
Definition inter_of (t : track_data) (dut k : nat) : point := nth k (intersections t) (fun _ => (None, None)) dut.
(** track_analysis.py L1197-1209 *)
Definition hit_of (t : track_data) (dut k : nat) : point := c_hit (nth k (candidates t) no_candidate) dut.

(** track_analysis.py L1197-1209: the intersection of the fitted track k with the DUT has a distance to all other
    intersections of the event *)
Definition track_isolated (t : track_data) (dut : nat) (d : Q * Q) (k : nat) : bool :=
  isolated (length (fitted t)) (fun i => c_event (nth i (fitted t) no_candidate))
    (fun i => fst (inter_of t dut i)) (fun i => snd (inter_of t dut i)) (Limits (fst d) (snd d) true) k.
(** track_analysis.py L1217-1229: the hit of the candidate k *)
Definition hit_isolated (t : track_data) (dut : nat) (d : Q * Q) (ellipse : bool) (k : nat) : bool :=
  isolated (length (candidates t)) (fun i => c_event (nth i (candidates t) no_candidate))
    (fun i => fst (hit_of t dut i)) (fun i => snd (hit_of t dut i)) (Limits (fst d) (snd d) ellipse) k.

(** one pass of the loop over the DUTs, the flags of all fitted tracks (track_analysis.py L1056-1229); None: ValueError *)
Definition dut_flags (t : track_data) (dut : nat) (s : dut_settings) (l : list flags) : option (list flags) :=
  match use_ellipse_for s, isolation_for s with
  | Some ellipse, Some d =>
      Some (map (fun kf => let '(k, f) := (kf : nat * flags) in
        Flags (or_flag (quality_sel s ellipse (shifts t dut) (c_hit (nth k (fitted t) no_candidate) dut) (inter_of t dut k)) dut (quality_flag f))
              (or_flag (track_isolated t dut d k) dut (isolated_track_flag f))
              (or_flag (hit_isolated t dut d ellipse (candidate_index t k)) dut (isolated_hit_flag f)))
        (combine (seq 0 (length l)) l))
  | _, _ => None
  end.
(** track_analysis.py L1056-1229 *)
Fixpoint all_flags (t : track_data) (dut : nat) (ss : list dut_settings) (l : list flags) : option (list flags) :=
  match ss with
  | [] => Some l
  | s :: r => match dut_flags t dut s l with None => None | Some l' => all_flags t (S dut) r l' end
  end.
(** track_analysis.py L1049-1051: the flags are reset *)
Definition track_flags (t : track_data) : option (list flags) :=
  all_flags t 0 (settings t) (map (fun _ => Flags 0 0 0) (fitted t)).

(** *** chi2 of the line fit (track_analysis.py L1264-1274) *)
(** squared residual divided by the squared error; masked (None) for missing hits and error 0 [for track_analysis.py L1264-1274] *)
Definition chi2_term (r : coord) (err : Q) : coord :=
  match r with Some r => if Qeq_bool err 0 then None else Some (r * r / (err * err))%Q | None => None end.
(** track_analysis.py L1264-1274 *)
Definition sum_valid (l : list coord) : Q := fold_right (fun c a => match c with Some q => (q + a)%Q | None => a end) 0%Q l.
(** track_analysis.py L1264-1274 *)
Definition count_valid (l : list coord) : nat := length (filter (fun c => match c with Some _ => true | None => false end) l).

(** track_analysis.py L1264-1274 *)
Definition x_residual (t : track_data) (k dut : nat) : coord :=
  residual (fst (c_hit (nth k (fitted t) no_candidate) dut)) (fst (inter_of t dut k)) (fst (shifts t dut)).
(** track_analysis.py L1264-1274 *)
Definition y_residual (t : track_data) (k dut : nat) : coord :=
  residual (snd (c_hit (nth k (fitted t) no_candidate) dut)) (snd (inter_of t dut k)) (snd (shifts t dut)).
(** track_analysis.py L1264-1274 *)
Definition track_chi2 (t : track_data) (select_fit_duts : list nat) (k : nat) : Q :=
  (sum_valid (map (fun d => chi2_term (x_residual t k d) (fst (c_err (nth k (fitted t) no_candidate) d))) select_fit_duts) +
   sum_valid (map (fun d => chi2_term (y_residual t k d) (snd (c_err (nth k (fitted t) no_candidate) d))) select_fit_duts))%Q.
(** track_analysis.py L1269-1273; None: division by zero *)
Definition track_chi2_red (t : track_data) (select_fit_duts : list nat) (k : nat) : coord :=
  let chi2 := track_chi2 t select_fit_duts k in
  if Qeq_bool chi2 0 then Some 0%Q
  else
    let n := (2 * (Z.of_nat (count_valid (map (x_residual t k) select_fit_duts)) - 2))%Z in
    if (n =? 0)%Z then None else Some (chi2 / inject_Z n)%Q.

(** *** The tables (track_analysis.py L1276-1309, create_results_array) *)
Record track_row := TrackRow {
  row_candidate : candidate;
  row_offset : point;
  row_chi2 : Q;
  row_chi2_red : coord;
  row_flags : flags
}.

(** track_analysis.py L1338, L1357-1377, L1411-1430: the rows of the selected candidates are filled with
    values[select_tracks_for_storage[select_fit_tracks]].  The result None is the NameError with
    keep_data (track_chi2_red, L1401) or numpy's ValueError for different lengths (numpy accepts
    one value for several rows, which is an error here). *)
Definition results_array (keep_data : bool) (t : track_data) (select_fit_duts : list nat) (fl : list flags) (dut : nat) : option (list track_row) :=
  if keep_data then None
  else
    let stored := choose (store_mask t) (candidates t) in
    let values := choose (choose (fit_mask t) (store_mask t))
      (map (fun kf => let '(k, f) := (kf : nat * flags) in (inter_of t dut k, track_chi2 t select_fit_duts k, track_chi2_red t select_fit_duts k, f))
           (combine (seq 0 (length fl)) fl)) in
    if length stored =? length values
    then Some (map (fun cv => let '(c, (o, chi2, red, f)) := (cv : candidate * (point * Q * coord * flags)) in TrackRow c o chi2 red f) (combine stored values))
    else None.

(** the tables of the DUTs in fit_duts; None: exception [for track_analysis.py L1338, L1357-1377, L1411-1430] *)
Fixpoint tables (keep_data : bool) (t : track_data) (select_fit_duts : list nat) (fl : list flags) (duts : list nat) : option (list (nat * list track_row)) :=
  match duts with
  | [] => Some []
  | d :: r =>
      match results_array keep_data t select_fit_duts fl d, tables keep_data t select_fit_duts fl r with
      | Some a, Some l => Some ((d, a) :: l)
      | _, _ => None
      end
  end.
(** track_analysis.py L1338, L1357-1377, L1411-1430 *)
Definition store_track_data (keep_data : bool) (t : track_data) (fit_duts select_fit_duts : list nat) : option (list (nat * list track_row)) :=
  match track_flags t with
  | None => None
  | Some fl => tables keep_data t select_fit_duts fl (filter (fun d => memb d fit_duts) (seq 0 (length (settings t))))
  end.
