(** Model of hit_analysis.convert_coordinates (L87-175): conversion of a hit table from pixel indices to local positions and back.
    Simplifications: real numbers instead of doubles; the data types of the other columns do not matter; a table that has the
    new columns already (duplicate field names) is not modelled.  The chunks of data_aligned_at_events (ChunksModel) are given. *)
From Coq Require Import Ascii String Reals ZArith List Bool.
From Verif Require Import GeometryModel BeamAlignModel.
Import ListNotations.
Local Open Scope R_scope.

(** a row: the fields in the order of the columns [for hit_analysis.py L119-127, L152-156, L161-165] *)
Definition hit_row : Type := list (string * R).
(** hit_analysis.py L119-127, L152-156, L161-165 *)
Fixpoint field (name : string) (r : hit_row) : option R :=
  match r with [] => None | (n, v) :: r => if String.eqb n name then Some v else field name r end.

(** hit_analysis.py L119-127, L152-156, L161-165 *)
Inductive convert_error := OutputFileUnbound | ChunkFailed.

(** hit_analysis.py L119-127, L152-156, L161-165: column is replaced by x and row by y.  None: exception *)
Definition to_local_row (s : sensor) (r : hit_row) : option hit_row :=
  match field "column" r, field "row" r with
  | Some c, Some w =>
      match index_to_local s c w with
      | None => None
      | Some v => Some (map (fun f => if String.eqb (fst f) "column" then ("x"%string, vx v) else if String.eqb (fst f) "row" then ("y"%string, vy v) else f) r)
      end
  | _, _ => None
  end.
(** assignment to a np.uint16 field of a value that is not negative: the fraction is cut off [for hit_analysis.py L128-137, L157-159, L166-171] *)
Definition to_uint16 (x : R) : R := IZR (Int_part x mod 65536).
(** hit_analysis.py L128-137, L157-159, L166-171: x is replaced by column, y by row and z is left out *)
Definition to_index_row (s : sensor) (r : hit_row) : option hit_row :=
  match field "x" r, field "y" r with
  | Some x, Some y =>
      match local_to_index s (x, y, 0) with
      | None => None
      | Some (c, w) =>
          Some (map (fun f => if String.eqb (fst f) "x" then ("column"%string, to_uint16 c) else if String.eqb (fst f) "y" then ("row"%string, to_uint16 w) else f)
                    (filter (fun f => negb (String.eqb (fst f) "z")) r))
      end
  | _, _ => None
  end.
(** hit_analysis.py L110-175.  output_file is only assigned if no name is given.  None: exception of a chunk (the rows of the chunks before are
    already in the output file) *)
Definition convert_coordinates (s : sensor) (index_to_local output_given : bool) (chunks : list (list hit_row)) : convert_error + list hit_row :=
  if output_given then inl OutputFileUnbound
  else
    match map_error (map_error (if index_to_local then to_local_row s else to_index_row s)) chunks with
    | None => inl ChunkFailed
    | Some out => inr (concat out)
    end.
