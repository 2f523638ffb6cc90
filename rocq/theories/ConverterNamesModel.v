(** Models the names of the files of the converters: converter/pymosa_converter.py L82-92 (names for each plane), converter/pybar_fei4_converter.py L26-49 (process_dut) with L106-107.
    Simplifications: names are ASCII as in FileNamesModel; header IDs are natural numbers; the interpretation of the raw data by the external packages is not modelled. *)
From Coq Require Import Ascii String Decimal DecimalString.
From Coq Require Import List Bool Arith.
From Verif Require Import FileNamesModel.
Import ListNotations.
Local Open Scope nat_scope.

(** str(plane_header_id) [for converter/pymosa_converter.py L92] *)
Definition decimal (n : nat) : path := list_ascii_of_string (NilEmpty.string_of_uint (Nat.to_uint n)).
(** converter/pymosa_converter.py L92: the name for one plane *)
Definition header_output (p : path) (n : nat) : path := fst (splitext p) ++ list_ascii_of_string "_header_id_" ++ decimal n ++ dot :: list_ascii_of_string "h5".
(** converter/pymosa_converter.py L83-92; [given] is output_filenames ([] also for None), None: ValueError *)
Definition plane_outputs (p : path) (given : list path) (ids : list nat) : option (list path) :=
  match given with
  | [] => Some (map (header_output p) ids)
  | _ => if length given =? length ids then Some given else None
  end.

(** the order of str: character by character [for converter/pybar_fei4_converter.py L45] *)
Fixpoint not_after (a b : path) : bool :=
  match a, b with
  | [], _ => true
  | _, [] => false
  | x :: a, y :: b => if Ascii.eqb x y then not_after a b else nat_of_ascii x <? nat_of_ascii y
  end.
(** sorted(raw_data_file)[0]; None: IndexError [for converter/pybar_fei4_converter.py L45] *)
Definition first_sorted (l : list path) : option path :=
  match l with [] => None | p :: r => Some (fold_left (fun a b => if not_after a b then a else b) r p) end.
(** the parameter raw_data_file [for converter/pybar_fei4_converter.py L44-47] *)
Inductive raw_files := OneFile (p : path) | Files (l : list path).
(** converter/pybar_fei4_converter.py L44-48: the file of the interpreted data which is read; None: IndexError *)
Definition interpreted_file (raw : raw_files) : option path :=
  match (match raw with OneFile p => Some p | Files l => first_sorted l end) with
  | None => None
  | Some p => Some (fst (splitext p) ++ list_ascii_of_string "_interpreted.h5")
  end.
(** converter/pybar_fei4_converter.py L48-49, L106-107: the returned name *)
Definition process_dut_output (raw : raw_files) (output : option path) : option path :=
  match interpreted_file raw with
  | None => None
  | Some p => Some match output with Some o => o | None => default_output FormatFei4 p end
  end.
