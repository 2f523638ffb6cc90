(** Model of the reports of compare_h5_files: tools/test_tools.py L131-198 (get_array_differences) and the messages of L235-307 (compare_h5_files).
    Simplifications: those of TestToolsModel.v; of the text only the kinds of differences and the names of columns and nodes are modelled, the order of names of sets is that of the first
    array or file; sums are exact. *)
From Coq Require Import Ascii String.
From Coq Require Import QArith Qabs List Bool Arith.
From Verif Require Import TestToolsModel.
Import ListNotations.
Local Open Scope nat_scope.

(** what can be reported of two arrays: Type, Shape, Sum and the message of numpy.testing [for tools/test_tools.py L144-173] *)
Inductive difference := OfType | OfShape | OfSum | OfContent.
(** an array or a column: type, whether it has strings, shape, and the entries of each row [for tools/test_tools.py L144-173] *)
Record array := Array { a_type : nat; a_string : bool; a_shape : list nat; a_cells : list (list value) }.
(** the addition of np.nansum [for tools/test_tools.py L155] *)
Definition add (a b : value) : value :=
  match a, b with
  | Num p, Num q => Num (p + q)
  | Num _, Inf x => Inf x
  | Inf x, Num _ => Inf x
  | Inf x, Inf y => if Bool.eqb x y then Inf x else NaN
  | _, _ => NaN
  end.
(** np.nansum; it is not called for strings [for tools/test_tools.py L155] *)
Definition nansum (l : list value) : value := fold_left add (map (fun v => match v with NaN => Num 0 | _ => v end) l) (Num 0).
(** a != b of numbers, true for nan [for tools/test_tools.py L155] *)
Definition unequal (a b : value) : bool := match a, b with NaN, NaN => true | _, _ => negb (same_value a b) end.
(** np.prod of a shape [for tools/test_tools.py L150-153] *)
Definition size (shape : list nat) : nat := fold_right Nat.mul 1 shape.
(** tools/test_tools.py L149-153: the entries compared at last: those of equal shape, those after reshape, or none *)
Definition comparable (actual desired : array) : option (list (list value) * list (list value)) :=
  if list_eqb Nat.eqb (a_shape actual) (a_shape desired) then Some (a_cells actual, a_cells desired)
  else if size (a_shape actual) =? size (a_shape desired) then Some ([concat (a_cells actual)], [concat (a_cells desired)])
  else None.
(** tools/test_tools.py L144-173; [close]: None for exact, else rtol and atol; None: TypeError of assert_allclose for strings *)
Definition compare_arrays (close : option (Q * Q)) (actual desired : array) : option (list difference) :=
  let kind := (if a_type actual =? a_type desired then [] else [OfType]) ++ (if list_eqb Nat.eqb (a_shape actual) (a_shape desired) then [] else [OfShape]) ++
    (if a_string actual || a_string desired then []
     else if unequal (nansum (concat (a_cells actual))) (nansum (concat (a_cells desired))) then [OfSum] else []) in
  match comparable actual desired, close with
  | None, _ => Some (kind ++ [OfContent])
  | Some (a, d), None => Some (kind ++ if same_cells same_value a d then [] else [OfContent])
  | Some (a, d), Some (rtol, atol) =>
      if a_string actual || a_string desired then None
      else Some (kind ++ if same_cells (close_value rtol atol) a d then [] else [OfContent])
  end.

(** tools/test_tools.py L176-198 *)
Inductive report :=
| Mismatch
| OfArray (l : list difference)
| OfTable (first_only second_only : list string) (other_order : bool) (cols : list (string * list difference)).
(** first_array[column_name] [for tools/test_tools.py L193-194] *)
Fixpoint position (name : string) (l : list column) : nat :=
  match l with [] => 0 | c :: l => if String.eqb name (col_name c) then 0 else S (position name l) end.
(** column j of the data of a node [for tools/test_tools.py L193-194] *)
Definition column_of (n : node) (data : list (list (list value))) (j : nat) : array :=
  let c := nth j (columns n) (Column "" 0 false) in Array (col_type c) (col_string c) (length data :: inner_shape n) (cells data j).
(** tools/test_tools.py L192-196: the loop over the common columns *)
Fixpoint compare_columns (close : option (Q * Q)) (a b : node) (da db : list (list (list value))) (names : list string) : option (list (string * list difference)) :=
  match names with
  | [] => Some []
  | x :: names =>
      match compare_arrays close (column_of a da (position x (columns a))) (column_of b db (position x (columns b))), compare_columns close a b da db names with
      | Some d, Some r => Some ((x, d) :: r)
      | _, _ => None
      end
  end.
(** tools/test_tools.py L131-198 *)
Definition get_array_differences (close : option (Q * Q)) (a b : node) (da db : list (list (list value))) : option report :=
  if negb (Bool.eqb (is_table a) (is_table b)) then Some Mismatch
  else if negb (is_table a) then option_map OfArray (compare_arrays close (column_of a da 0) (column_of b db 0))
  else
    let na := map col_name (columns a) in let nb := map col_name (columns b) in
    let first_only := without nb na in let second_only := without na nb in
    let other_order := match first_only, second_only with [], [] => negb (list_eqb String.eqb na nb) | _, _ => false end in
    option_map (OfTable first_only second_only other_order) (compare_columns close a b da db (filter (fun x => mem x nb) na)).

(** nan_equal or nan_close [for tools/test_tools.py L290-299] *)
Definition chosen (close : option (Q * Q)) : node -> node -> list (list (list value)) -> list (list (list value)) -> bool :=
  match close with None => nan_equal | Some (rtol, atol) => nan_close rtol atol end.
(** tools/test_tools.py L281-302: the report of the first chunk with a difference; [detailed]: detailed_comparison; None: exception, Some None: no difference, Some (Some None): a difference without report *)
Fixpoint chunk_report (close : option (Q * Q)) (chunk_size : nat) (detailed : bool) (fuel start : nat) (a b : node) : option (option (option report)) :=
  match fuel with
  | 0 => Some None
  | S fuel =>
      if start <? length (rows a) then
        match read_nrows chunk_size a with
        | None => None
        | Some k =>
            if chosen close a b (read a start (start + k)) (read b start (start + k)) then chunk_report close chunk_size detailed fuel (start + k) a b
            else if detailed then option_map (fun r => Some (Some r)) (get_array_differences close a b (read a start (start + k)) (read b start (start + k)))
            else Some (Some None)
        end
      else Some None
  end.
(** a line of the message: names of nodes of one file only or missing in a file, or the report of a node [for tools/test_tools.py L256-302] *)
Inductive line := OnlyFirst (names : list string) | OnlySecond (names : list string) | MissingFirst (names : list string) | MissingSecond (names : list string) | OfNode (name : string) (r : report).
(** tools/test_tools.py L281-302 *)
Fixpoint node_lines (close : option (Q * Q)) (chunk_size : nat) (detailed : bool) (names : list string) (f g : h5_file) : option (bool * list line) :=
  match names with
  | [] => Some (true, [])
  | x :: names =>
      match find_node f x, find_node g x with
      | Some a, Some b =>
          match chunk_report close chunk_size detailed (length (rows a)) 0 a b, node_lines close chunk_size detailed names f g with
          | Some None, Some (p, l) => Some (p, l)
          | Some (Some None), Some (_, l) => Some (false, l)
          | Some (Some (Some r)), Some (_, l) => Some (false, OfNode x r :: l)
          | _, _ => None
          end
      | _, _ => None
      end
  end.
(** tools/test_tools.py L256-264, L270-279: a line, if there are names *)
Definition names_line (detailed : bool) (mk : list string -> line) (names : list string) : list line := match names with [] => [] | _ => if detailed then [mk names] else [] end.
(** tools/test_tools.py L235-307: checks_passed and the message after its first line *)
Definition compare_messages (close : option (Q * Q)) (chunk_size : nat) (detailed : bool) (f g : h5_file) (node_names : option (list string)) (ignore : list string) : option (bool * list line) :=
  let nf := without ignore (map fst f) in
  let ng := without ignore (map fst g) in
  let '(first, second, mk1, mk2, common) :=
    match node_names with
    | None => (without ng nf, without nf ng, OnlyFirst, OnlySecond, filter (fun x => mem x ng) nf)
    | Some names =>
        let names := map with_slash names in
        (without nf names, without ng names, MissingFirst, MissingSecond, filter (fun x => mem x ng && mem x names) nf)
    end in
  match node_lines close chunk_size detailed common f g with
  | Some (p, l) => Some (match first, second with [], [] => p | _, _ => false end, names_line detailed mk1 first ++ names_line detailed mk2 second ++ l)
  | None => None
  end.
