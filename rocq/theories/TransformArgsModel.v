(** Model of the arguments of dut_alignment.calculate_transformation (L1744-1757) and of the tracks which it fits (L1765-1772 and L1790-1831).
    The fit of the tracks of a chunk is in TransformModel.
    Simplifications: exact real numbers instead of doubles, a missing value (nan) is None; offsets and slopes of tracks with a chi2 are numbers; the names of
    parameters are strings; a selection of parameters is a list of names (a single string, which is an iterable of characters, is the list of its characters). *)
From Coq Require Import Reals String List Bool.
From Verif Require Import GeometryModel AlignArgsModel.
Import ListNotations.
Local Open Scope R_scope.
Local Open Scope list_scope.

(** dut_alignment.py L1744-1831 *)
Inductive terror := TValueErr | TTypeErr | TRuntimeErr.

(** select_alignment_parameters: None, or a list (true: can be changed) or tuple with an item per DUT, which is None or a list of names [for dut_alignment.py L1747-1757] *)
Inductive parameters_arg := ANone | AItems (mutable : bool) (items : list (option (list string))).
(** set(actual) - set(default): the names which are no parameters [for dut_alignment.py L1755] *)
Definition non_valid (names : list string) : list string :=
  filter (fun n => negb (existsb (String.eqb n) default_alignment_parameters)) names.
(** The loop over the items, dut_alignment.py L1751-1757: the items at the end (the list of the caller, also after an error) and the error.
    An item None is replaced in place, which a tuple refuses (TypeError). *)
Fixpoint check_items (mutable : bool) (items : list (option (list string))) : list (option (list string)) * option terror :=
  match items with
  | [] => ([], None)
  | None :: t =>
      if mutable then let (r, e) := check_items mutable t in (Some default_alignment_parameters :: r, e)
      else (items, Some TTypeErr)
  | Some names :: t =>
      match non_valid names with
      | [] => let (r, e) := check_items mutable t in (Some names :: r, e)
      | _ :: _ => (items, Some TValueErr)
      end
  end.
(** the names of the items: after the loop every item is a list [for dut_alignment.py L1764, L1914-1925] *)
Definition names_of (i : option (list string)) : list string := match i with Some l => l | None => [] end.
(** dut_alignment.py L1747-1757 for [n] selected DUTs: the argument as the caller has it afterwards, and an error or the parameters of every DUT *)
Definition check_parameters (n : nat) (a : parameters_arg) : parameters_arg * (terror + list (list string)) :=
  match a with
  | ANone => (ANone, let (r, e) := check_items true (repeat (Some default_alignment_parameters) n) in
                     match e with Some e => inl e | None => inr (map names_of r) end)
  | AItems mutable items =>
      if negb (Nat.eqb n (length items)) then (a, inl TValueErr)
      else let (r, e) := check_items mutable items in
           (AItems mutable r, match e with Some e => inl e | None => inr (map names_of r) end)
  end.
(** dut_alignment.py L1914-1925: the entries of the vector (rotation, translation) which may change *)
Definition free_entries (names : list string) : list bool :=
  map (fun n => existsb (String.eqb n) names)
    ["rotation_alpha"; "rotation_beta"; "rotation_gamma"; "translation_x"; "translation_y"; "translation_z"]%string.

(** a row of Tracks_DUTn: the local hit (nan without hit), the chi2 (nan for a candidate without fit), and the local track [for dut_alignment.py L1790-1815] *)
Record row := Row { hit_x : option R; hit_y : option R; hit_z : option R; chi2 : option R; row_offset : vec; row_slope : vec }.
(** lower and upper limit of a coordinate, None for a limit which is not finite (np.isfinite is False); no limits: None [for dut_alignment.py L1766-1771] *)
Definition limit : Type := option (option R * option R).
(** actual_dut: placement and limits [for dut_alignment.py L1760-1772] *)
Record dut := Dut { dut_place : placement; x_limit : limit; y_limit : limit }.
(** dut_alignment.py L1792 *)
Definition has_value (v : option R) : bool := match v with Some _ => true | None => false end.
(** dut_alignment.py L1792-1793 *)
Definition select_rows (rows : list row) : list row := filter (fun r => has_value (hit_x r) && has_value (chi2 r)) rows.
(** the limits which are used [for dut_alignment.py L1766-1771] *)
Definition used_limit (use_limits : bool) (l : limit) : limit := if use_limits then l else None.
(** comparisons with nan are False [for dut_alignment.py L1817-1825] *)
Definition np_ge (v : option R) (b : R) : bool := match v with Some v => Rleb b v | None => false end.
(** dut_alignment.py L1817-1825 *)
Definition np_le (v : option R) (b : R) : bool := match v with Some v => Rleb v b | None => false end.
(** the two conditions of a coordinate [for dut_alignment.py L1818-1825] *)
Definition in_limit (l : limit) (v : option R) : bool :=
  match l with
  | None => true
  | Some (lower, upper) =>
      match lower with Some b => np_ge v b | None => true end && match upper with Some b => np_le v b | None => true end
  end.
(** np.allclose(hit_z_local, 0.0) of one value: False for nan [for dut_alignment.py L1814] *)
Definition z_ok (v : option R) : bool := match v with Some z => close_to_zero z | None => false end.
(** the placement without translation, for the slopes [for dut_alignment.py L1803-1812] *)
Definition turned_only (p : placement) : placement := Placement 0 0 0 (r_alpha p) (r_beta p) (r_gamma p).
(** a track for the fit: global offset, global slope, local hit [for dut_alignment.py L1796-1831] *)
Definition fit_track : Type := (vec * vec * (option R * option R * option R))%type.
(** dut_alignment.py L1790-1831: the tracks of a chunk which are fitted *)
Definition tracks_of_chunk (use_limits : bool) (d : dut) (rows : list row) : terror + list fit_track :=
  let rows := select_rows rows in
  match dut_to_global (dut_place d) (map row_offset rows) with
  | None => inl TRuntimeErr
  | Some offsets =>
      let slopes := map (to_global (turned_only (dut_place d))) (map row_slope rows) in
      if negb (forallb (fun r => z_ok (hit_z r)) rows) then inl TRuntimeErr
      else
        let sel := map (fun r => in_limit (used_limit use_limits (x_limit d)) (hit_x r) && in_limit (used_limit use_limits (y_limit d)) (hit_y r)) rows in
        inr (map snd (filter fst (combine sel (combine (combine offsets slopes) (map (fun r => (hit_x r, hit_y r, hit_z r)) rows)))))
  end.
