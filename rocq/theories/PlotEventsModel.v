(** Model of tools/plot_utils.py plot_events (L669-811): the three-dimensional figures of the tracks and track candidates of a range of events.
    Simplifications: real numbers instead of doubles; the DUTs of the telescope are numbered from 0; the tables have no index on the event number; a row stores nan
    for all three coordinates of a missing hit and for all three coordinates of a missing fit; the size and style of markers and axes, the names of the DUTs and the
    file of the figures are not modelled.  None: an exception. *)
From Coq Require Import Reals List Bool Arith ZArith.
From Verif Require Import GeometryModel ChunksModel.
Import ListNotations.
Local Open Scope R_scope.

(** a row of Tracks_DUT: hits in the local coordinates of each DUT, offset and slope in the local coordinates of the DUT of the table; None: nan
    [for tools/plot_utils.py L734-768] *)
Record row := Row { row_event : Z; row_hits : list (option vec); row_fit : option (vec * vec); row_hit_flag : Z; row_quality_flag : Z }.

(** tools/plot_utils.py L712-717: the four corners of the sensor; rotation_alpha and rotation_beta are set to zero, the z position is not checked because of this; L718-720: in mm *)
Definition upright (p : placement) : placement := Placement (t_x p) (t_y p) (t_z p) 0 0 (r_gamma p).
(** tools/plot_utils.py L718-720, L747-749: * 1.e-3 *)
Definition in_mm (v : vec) : vec := vscale (1 / 1000) v.
(** the corners of tools/plot_utils.py L712-714 *)
Definition corners (s : sensor) : list (R * R) :=
  [(1 / 2, 1 / 2); (1 / 2, INR (n_rows s) + 1 / 2); (INR (n_columns s) + 1 / 2, 1 / 2); (INR (n_columns s) + 1 / 2, INR (n_rows s) + 1 / 2)].
(** exceptions of list items [for tools/plot_utils.py L712-752] *)
Fixpoint all_some {A} (l : list (option A)) : option (list A) :=
  match l with [] => Some [] | None :: _ => None | Some a :: l => match all_some l with Some l => Some (a :: l) | None => None end end.
(** tools/plot_utils.py L712-724 *)
Definition plane (s : sensor) : option (list vec) :=
  all_some (map (fun c => match index_to_local s (fst c) (snd c) with Some v => Some (in_mm (to_global (upright (place s)) v)) | None => None end) (corners s)).

(** translation_z of a DUT [for tools/plot_utils.py L725-728] *)
Definition z_of (tel : list sensor) (i : nat) : R := match nth_error tel i with Some s => t_z (place s) | None => 0 end.
(** tools/plot_utils.py L708-709, L725-728: loop over the DUTs *)
Definition min_z_dut (tel : list sensor) : nat := fold_left (fun m i => if Rltb (z_of tel i) (z_of tel m) then i else m) (seq 0 (length tel)) 0%nat.
(** tools/plot_utils.py L708-709, L725-728 *)
Definition max_z_dut (tel : list sensor) : nat := fold_left (fun m i => if Rltb (z_of tel m) (z_of tel i) then i else m) (seq 0 (length tel)) 0%nat.

(** tools/plot_utils.py L739-749: position of the hit in one DUT, in mm; Some None: nan, nothing is drawn *)
Definition hit_position (s : sensor) (h : option vec) : option (option vec) :=
  match h with
  | None => Some None
  | Some v => match dut_to_global (place s) [v] with Some [g] => Some (Some (in_mm g)) | _ => None end
  end.
(** tools/plot_utils.py L739-752: loop over all DUTs; a missing column is an exception *)
Definition hit_positions (tel : list sensor) (r : row) : option (list (option vec)) :=
  all_some (map (fun i => match nth_error tel i, nth_error (row_hits r) i with Some s, Some h => hit_position s h | _, _ => None end) (seq 0 (length tel))).

(** a placement with the translation set to zero [for tools/plot_utils.py L762-772] *)
Definition not_moved (p : placement) : placement := Placement 0 0 0 (r_alpha p) (r_beta p) (r_gamma p).
(** tools/plot_utils.py L774-791: intersection with a DUT, in mm *)
Definition intersection_mm (l : line) (s : sensor) : option vec :=
  match intersections_with_dut [l] (place s) with Some [q] => Some (in_mm q) | _ => None end.
(** tools/plot_utils.py L754-792: the two ends of the drawn line; np.mgrid[a:b:2j] has the entries a and b *)
Definition drawn_line (tel : list sensor) (dut : sensor) (fit : vec * vec) : option (vec * vec) :=
  match dut_to_global (place dut) [fst fit] with
  | Some [offset] =>
      let slope := to_global (not_moved (place dut)) (snd fit) in
      match nth_error tel (min_z_dut tel), nth_error tel (max_z_dut tel) with
      | Some first, Some last =>
          match intersection_mm (offset, slope) first, intersection_mm (offset, slope) last with
          | Some offset_min_z_dut, Some offset_max_z_dut =>
              Some (vadd offset_min_z_dut (vscale (- vz offset_min_z_dut + 10) slope), vadd offset_min_z_dut (vscale (- vz offset_max_z_dut - 10) slope))
          | _, _ => None
          end
      | _, _ => None
      end
  | _ => None
  end.

(** tools/plot_utils.py L706, L737: cycle('bgrcmyk') *)
Inductive colour := Blue | Green | Red | Cyan | Magenta | Yellow | Black.
(** tools/plot_utils.py L706 *)
Definition colours : list colour := [Blue; Green; Red; Cyan; Magenta; Yellow; Black].
(** the marker 'x', 'o' or 's' of tools/plot_utils.py L797-801 *)
Inductive marker := Cross | Circle | Square.
(** one drawn track: marker, color, positions of the hits, line [for tools/plot_utils.py L797-801] *)
Record drawn := Drawn { d_marker : marker; d_colour : colour; d_hits : list (option vec); d_line : option (vec * vec) }.
(** tools/plot_utils.py L736-801 *)
Definition draw (tel : list sensor) (dut : sensor) (c : colour) (r : row) : option drawn :=
  match hit_positions tel r with
  | None => None
  | Some hits =>
      match row_fit r with
      | None => Some (Drawn Cross c hits None)
      | Some fit =>
          match drawn_line tel dut fit with
          | None => None
          | Some l => Some (Drawn (if (row_hit_flag r =? row_quality_flag r)%Z then Square else Circle) c hits (Some l))
          end
      end
  end.

(** variables of the loop: next index of the colors, counters, drawn tracks [for tools/plot_utils.py L706, L730-737] *)
Record state := State { s_next : nat; s_tracks : nat; s_events : nat; s_drawn : list drawn }.
(** tools/plot_utils.py L736-801 *)
Definition draw_row (tel : list sensor) (dut : sensor) (st : option state) (r : row) : option state :=
  match st with
  | None => None
  | Some st =>
      match draw tel dut (nth (s_next st mod 7) colours Blue) r with
      | None => None
      | Some d => Some (State (S (s_next st)) (match row_fit r with Some _ => S (s_tracks st) | None => s_tracks st end) (s_events st) (s_drawn st ++ [d]))
      end
  end.
(** tools/plot_utils.py L734-736: len(set(...)) of one chunk, then its rows *)
Definition draw_chunk (tel : list sensor) (dut : sensor) (st : option state) (chunk : list row) : option state :=
  match st with
  | None => None
  | Some st => fold_left (draw_row tel dut) chunk (Some (State (s_next st) (s_tracks st) (s_events st + length (nodup Z.eq_dec (map row_event chunk))) (s_drawn st)))
  end.

(** a page: DUT, numbers of the title, planes and tracks [for tools/plot_utils.py L803-811] *)
Record page := Page { g_dut : nat; g_tracks : nat; g_events : nat; g_planes : list (list vec); g_drawn : list drawn }.
(** the call of data_aligned_at_events in tools/plot_utils.py L734 *)
Definition call (event_range : Z * Z) (chunk_size : nat) : params := Params (Some (fst event_range)) (Some (snd event_range)) None None chunk_size false true false.
(** tools/plot_utils.py L695-811: one DUT *)
Definition plot_dut (tel : list sensor) (file : nat -> option (list row)) (event_range : Z * Z) (chunk_size d : nat) : option page :=
  match nth_error tel d, all_some (map plane tel), file d with
  | Some dut, Some planes, Some rows =>
      match data_aligned_at_events row_event rows (call event_range chunk_size) with
      | (ys, GenDone) =>
          match fold_left (draw_chunk tel dut) (map fst ys) (Some (State 0 0 0 [])) with
          | Some st => Some (Page d (s_tracks st) (s_events st) planes (s_drawn st))
          | None => None
          end
      | _ => None
      end
  | _, _, _ => None
  end.
(** tools/plot_utils.py L688-811 *)
Definition plot_events (tel : list sensor) (file : nat -> option (list row)) (select_duts : list nat) (event_range : Z * Z) (chunk_size : nat) : option (list page) :=
  all_some (map (plot_dut tel file event_range chunk_size) select_duts).
