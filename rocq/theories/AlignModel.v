(** Model of dut_alignment.py: apply_alignment (L50-186) and _update_alignment (L2059-2100). *)
From Coq Require Import Reals Ascii String List Bool Arith.
From Verif Require Import FindTracksModel GeometryModel.
Import ListNotations.
Local Open Scope R_scope.

(** ** apply_alignment *)
(** One row of the input table.  The x, y and z columns of a quantity form one entry; None stands for nan
    (nan in all three components, as stored for missing hits and tracks).  Columns without a dimension
    (event_number, hit_flag, ...) are never assigned and are left out. [for dut_alignment.py L50-186] *)
Record row := Row {
  hit : nat -> option vec;       (* x_dut_k, y_dut_k, z_dut_k *)
  off_d : nat -> option vec;     (* offset_x_dut_k, ... *)
  slope_d : nat -> option vec;   (* slope_x_dut_k, ... *)
  err_d : nat -> option vec;     (* x_err_dut_k, ... *)
  off : option vec;              (* offset_x, ... *)
  slope : option vec             (* slope_x, ... *)
}.
(** A table: its name and which of the optional columns it has (node.dtype.names). [for dut_alignment.py L50-186] *)
Record node := Node {
  nname : list ascii;
  has_off_d : nat -> bool; has_slope_d : nat -> bool; has_err_d : nat -> bool;
  has_off : bool; has_slope : bool
}.
(** dut_alignment.py L50-186 *)
Definition is_tracks (n : node) : bool := contains (chars "Tracks") (nname n).
(** "DUT%d" % dut_index in node.name: a substring test [for dut_alignment.py L50-186] *)
Definition named (n : node) (k : nat) : bool := contains (chars "DUT" ++ decimal k) (nname n).

(** telescope/dut.py L326-372: conv of a DUT at [p], with all parameters overridden or none.
    The check of local z is done only without override.  On arrays it is done for all entries; here for one. *)
Definition conv (to_glob : bool) (p : placement) (override : option placement) (v : option vec) : option (option vec) :=
  match v with
  | None => Some None
  | Some v =>
    match override with
    | Some q => Some (Some (if to_glob then to_global q v else to_local q v))
    | None =>
      if to_glob
      then (if close_to_zero (vz v) then Some (Some (to_global p v)) else None)
      else (let r := to_local p v in if close_to_zero (vz r) then Some (Some r) else None)
    end
  end.
(** telescope/dut.py L326-372 *)
Definition no_translation (p : placement) : placement := Placement 0 0 0 (r_alpha p) (r_beta p) (r_gamma p).
(** telescope/dut.py L326-372 *)
Definition vabs (v : vec) : vec := (Rabs (vx v), Rabs (vy v), Rabs (vz v)).
(** conv with all parameters overridden never fails [for telescope/dut.py L326-372] *)
Definition conv_over (to_glob : bool) (q : placement) (v : option vec) : option vec :=
  option_map (fun v => if to_glob then to_global q v else to_local q v) v.
(** telescope/dut.py L326-372 *)
Definition upd (f : nat -> option vec) (k : nat) (v : option vec) : nat -> option vec :=
  fun j => if (j =? k)%nat then v else f j.

(** dut_alignment.py L86-151 convert_data.  [tele]: the telescope, when called for it.  None: RuntimeError of conv.
    The assignments are to different columns, each from its own old value, and are given together. *)
Definition convert_data (to_glob : bool) (n : node) (k : nat) (p : placement) (tele : option placement) (r : row) : option row :=
  match conv to_glob p tele (hit r k) with
  | None => None
  | Some h =>
    let q := match tele with Some t => t | None => p end in
    if is_tracks n then
      Some (Row (upd (hit r) k h)
        (if has_off_d n k then upd (off_d r) k (conv_over to_glob q (off_d r k)) else off_d r)
        (if has_slope_d n k then upd (slope_d r) k (conv_over to_glob (no_translation q) (slope_d r k)) else slope_d r)
        (if has_err_d n k then upd (err_d r) k (option_map vabs (conv_over to_glob (no_translation q) (err_d r k))) else err_d r)
        (if named n k && has_off n then conv_over to_glob q (off r) else off r)
        (if named n k && has_slope n then conv_over to_glob (no_translation q) (slope r) else slope r))
    else Some (Row (upd (hit r) k h) (off_d r) (slope_d r) (err_d r) (off r) (slope r))
  end.

(** dut_alignment.py L170-182: one DUT; [beam]: align_to_beam *)
Definition dut_step (to_glob beam : bool) (tele : placement) (n : node) (k : nat) (p : placement) (r : row) : option row :=
  match (if beam && negb to_glob then convert_data to_glob n k p (Some tele) r else Some r) with
  | None => None
  | Some r =>
    match convert_data to_glob n k p None r with
    | None => None
    | Some r => if beam && to_glob then convert_data to_glob n k p (Some tele) r else Some r
    end
  end.
(** dut_alignment.py L170-182 *)
Fixpoint dut_loop (to_glob beam : bool) (tele : placement) (n : node) (k : nat) (duts : list placement) (r : row) : option row :=
  match duts with
  | [] => Some r
  | p :: duts' => match dut_step to_glob beam tele n k p r with None => None | Some r => dut_loop to_glob beam tele n (S k) duts' r end
  end.
(** dut_alignment.py L170-182 *)
Definition apply_alignment (to_glob beam : bool) (tele : placement) (duts : list placement) (n : node) (r : row) : option row :=
  dut_loop to_glob beam tele n 0 duts r.

(** ** _update_alignment *)
(** dut_alignment.py L2077-2091 *)
Definition create_karimaki_delta (dx dy dz dalpha dbeta dgamma : R) : mat * vec :=
  (transpose (rotation_matrix dalpha dbeta dgamma), (dx, dy, dz)).
(** dut_alignment.py L2094-2100 *)
Definition combine_karimaki (rotation : mat) (position : vec) (delta : mat * vec) : mat * vec :=
  (dot 3 (fst delta) rotation, vadd (snd delta) position).
(** dut_alignment.py L2059-2074; the state is (dx, dy, dz, dalpha, dbeta, dgamma), kept as a placement *)
Definition update_alignment (rotation : mat) (position : vec) (state : placement) : mat * vec :=
  combine_karimaki rotation position
    (create_karimaki_delta (t_x state) (t_y state) (t_z state) (r_alpha state) (r_beta state) (r_gamma state)).
