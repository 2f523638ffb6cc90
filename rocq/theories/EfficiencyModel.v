(* Model of the efficiency counts of result_analysis.calculate_efficiency (selection of valid hits, histograms over chunks, regions). *)
From Coq Require Import List Arith ZArith Lia Reals Bool.
From Verif Require Import GeometryModel CorrelateModel PrealignModel RunningMeanModel.
Import ListNotations.
Local Open Scope R_scope.

(** A row of Tracks_DUT: local hit position (None: no hit, columns x_dut and y_dut are nan) and local track intersection (offset_x, offset_y).
    Intersections are finite; local_offset_x / _y and the disabled pixel mask (result_analysis.py L1027-1045) are not modelled. *)
Record track := Track { hit_position : option (R * R); intersection : R * R }.

(** result_analysis.py L1064-1078: [pixel] is actual_dut.pixel_size; None in [cut] stands for np.inf (cut_distance = None). *)
Definition over (d : R) (c : option R) : R := match c with None => 0 | Some c => d ^ 2 / c ^ 2 end.
(** result_analysis.py L1064-1078 *)
Definition ge_opt (c : option R) (d : R) : bool := match c with None => true | Some c => Rleb d c end.
(** result_analysis.py L1064-1078 *)
Definition use_ellipse (pixel : R * R) (cut : option R * option R) : bool :=
  ge_opt (fst cut) (5 / 2 * fst pixel) && ge_opt (snd cut) (5 / 2 * snd pixel).
(** result_analysis.py L1064-1078 *)
Definition valid_hit (pixel : R * R) (cut : option R * option R) (t : track) : bool :=
  match hit_position t with
  | None => false
  | Some (hx, hy) =>
      let rx := hx - fst (intersection t) in
      let ry := hy - snd (intersection t) in
      if use_ellipse pixel cut
      then Rleb (over rx (fst cut) + over ry (snd cut)) 1
      else ge_opt (fst cut) (Rabs rx) && ge_opt (snd cut) (Rabs ry)
  end.

(** result_analysis.py L840-858: edges of the efficiency histogram in one direction; [extend] is None or the value of extend_areas. *)
Definition hist_size (size resolution : R) (extend : option R) : R :=
  IZR (ceil (size / resolution)) * resolution + match extend with None => 0 | Some e => IZR (ceil (e / resolution)) * resolution * 2 end.
(** result_analysis.py L840-858 *)
Definition hist_edges (size resolution : R) (extend : option R) : list R :=
  let s := hist_size size resolution extend in
  linspace (0 - s / 2) (0 + s / 2) (Z.to_nat (Int_part (s / resolution)) + 1).

(** stats.binned_statistic_2d(statistic='count', bins=hist_2d_edges), the bins in one list. [for result_analysis.py L1272-1277] *)
Definition bins_2d (ex ey : list R) : list (R * R -> bool) :=
  flat_map (fun i => map (fun j p => in_bin ex i (fst p) && in_bin ey j (snd p)) (seq 0 (n_edge_bins ey))) (seq 0 (n_edge_bins ex)).
(** result_analysis.py L1272-1277 *)
Definition hist_2d (bins : list (R * R -> bool)) (ts : list track) : list nat :=
  map (fun b => length (filter (fun t => b (intersection t)) ts)) bins.

(** numpy's += for arrays: ValueError (None) for different shapes. [for result_analysis.py L1340-1346] *)
Definition add_hist (a b : list nat) : option (list nat) :=
  if (length a =? length b)%nat then Some (map (fun p => (fst p + snd p)%nat) (combine a b)) else None.
(** result_analysis.py L1340-1346 *)
Definition total (h : list nat) : nat := fold_right Nat.add 0%nat h.

(** analysis_utils.py L709-802: efficiency without the errors. Without tracks np.argmin of an empty array, with more tracks with hit than
    tracks the bounds of the optimizer raise an exception (None). *)
Definition mean_efficiency (pass all : list nat) : option R :=
  if (total all =? 0)%nat || (total all <? total pass)%nat then None else Some (INR (total pass) / INR (total all)).

(** The variables count_tracks_2d_hist and count_tracks_with_hit_2d_hist, None: unbound. They outlive the iteration over one DUT. [for result_analysis.py L1272-1277, L1340-1346 and L1414-1418] *)
Record vars := Vars { count_tracks : option (list nat); count_with_hit : option (list nat) }.

Section Dut.
  Variables (bins : list (R * R -> bool)) (valid : track -> bool) (density : nat).

  (** result_analysis.py L1272-1277, L1340-1346 and L1414-1418. The result of an exception is None. *)
  Definition fill_chunk (initialize : bool) (v : vars) (ts : list track) : option vars :=
    let tracks := hist_2d bins ts in
    let with_hit := hist_2d bins (filter valid ts) in
    if initialize then
      Some (Vars (Some tracks) (if existsb valid ts then Some with_hit else count_with_hit v))
    else
      match (if existsb valid ts
             then match count_with_hit v with None => None | Some h => option_map Some (add_hist h with_hit) end
             else Some (count_with_hit v)) with
      | None => None
      | Some w => match count_tracks v with None => None | Some h => option_map (fun h => Vars (Some h) w) (add_hist h tracks) end
      end.

  (** result_analysis.py L1455-1470: efficiency of the chunk, appended to efficiency_chunks unless there are no tracks so far. *)
  Definition chunk_efficiency (v : vars) (ts : list track) : option (list R) :=
    if forallb (Nat.eqb 0) (match count_tracks v with Some h => h | None => [] end) then Some []
    else if existsb valid ts then option_map (fun e => [e]) (mean_efficiency (hist_2d bins (filter valid ts)) (hist_2d bins ts))
    else Some [0].

  (** result_analysis.py L1017-1475. *)
  Fixpoint fill_chunks (initialize : bool) (v : vars) (chunks : list (list track)) : option (vars * list R) :=
    match chunks with
    | [] => Some (v, [])
    | ts :: chunks =>
        match fill_chunk initialize v ts with
        | None => None
        | Some v =>
            match chunk_efficiency v ts, fill_chunks false v chunks with
            | Some e, Some (v, es) => Some (v, e ++ es)
            | _, _ => None
            end
        end
    end.

  (** result_analysis.py L1479-1606: counts of tracks with hit and of tracks per bin, efficiency, efficiencies of the chunks. Bins of a different
      shape raise IndexError in L1480 (here only a different number of bins); all efficiencies zero or masked ([density] is
      minimum_track_density; without tracks nan, which numpy takes as true) raise RuntimeError. *)
  Definition any_efficiency (w h : list nat) : bool :=
    existsb (fun p => (density <=? snd p)%nat && ((snd p =? 0)%nat || negb (fst p =? 0)%nat)) (combine w h).
  (** result_analysis.py L1479-1606 *)
  Record result := Result { r_with_hit : list nat; r_tracks : list nat; r_efficiency : R; r_chunks : list R }.
  (** result_analysis.py L1479-1606 *)
  Definition dut_efficiency (v : vars) (chunks : list (list track)) : option (vars * result) :=
    match fill_chunks true v chunks with
    | None => None
    | Some (v, es) =>
        match count_with_hit v, count_tracks v with
        | Some w, Some h =>
            if (length w =? length h)%nat && any_efficiency w h then option_map (fun e => (v, Result w h e es)) (mean_efficiency w h) else None
        | _, _ => None
        end
    end.
End Dut.

(** The loop over the DUTs, result_analysis.py L790-2090: every DUT with its bins, its cuts and its chunks. *)
Record dut_data := DutData { d_bins : list (R * R -> bool); d_pixel : R * R; d_cut : option R * option R; d_chunks : list (list track) }.
(** result_analysis.py L790-2090 *)
Fixpoint calculate_efficiency (density : nat) (v : vars) (duts : list dut_data) : option (list result) :=
  match duts with
  | [] => Some []
  | d :: duts =>
      match dut_efficiency (d_bins d) (valid_hit (d_pixel d) (d_cut d)) density v (d_chunks d) with
      | None => None
      | Some (v, r) => option_map (cons r) (calculate_efficiency density v duts)
      end
  end.
(** result_analysis.py L790-2090 *)
Definition fresh : vars := Vars None None.

(** result_analysis.py L1147-1158: efficiency of a region, its number of tracks, and the efficiency of each chunk; an exception is None. *)
Definition in_region (region : (R * R) * (R * R)) (p : R * R) : bool :=
  Rltb (Rmin (fst (fst region)) (snd (fst region))) (fst p) && Rltb (fst p) (Rmax (fst (fst region)) (snd (fst region))) &&
  (Rltb (Rmin (fst (snd region)) (snd (snd region))) (snd p) && Rltb (snd p) (Rmax (fst (snd region)) (snd (snd region)))).
(** result_analysis.py L1147-1158 *)
Definition region_chunk (region : (R * R) * (R * R)) (valid : track -> bool) (s : R * nat * list R) (ts : list track) : option (R * nat * list R) :=
  let '(eff, stat, es) := s in
  let sel := filter (fun t => in_region region (intersection t)) ts in
  let n := length sel in
  let k := length (filter valid sel) in
  if (stat + n =? 0)%nat then None else
  let eff := (eff * INR stat + INR k) / INR (stat + n) in
  if (n =? 0)%nat then None else Some (eff, (stat + n)%nat, es ++ [INR k / INR n]).
(** result_analysis.py L1147-1158 *)
Fixpoint region_chunks (region : (R * R) * (R * R)) (valid : track -> bool) (s : R * nat * list R) (chunks : list (list track)) : option (R * nat * list R) :=
  match chunks with
  | [] => Some s
  | ts :: chunks => match region_chunk region valid s ts with None => None | Some s => region_chunks region valid s chunks end
  end.
(** result_analysis.py L1147-1158 *)
Definition region_efficiency region valid chunks := region_chunks region valid (0, 0%nat, []) chunks.
