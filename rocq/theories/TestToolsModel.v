(** Models the comparison of result files and the calls for fixtures.  Source: tools/test_tools.py L39-82 (nan_equal),
    L85-128 (nan_close), L201-307 (compare_h5_files), L328-365 (_call_function_with_args).
    Simplifications: numbers are rational numbers, NaN or infinite; the error message is left out; a file is the list of
    its leaves with path names; the shape of a column of a table belongs to its type. *)
From Coq Require Import Ascii String.
From Coq Require Import QArith Qabs List Bool Arith.
Import ListNotations.
Local Open Scope nat_scope.

(** tools/test_tools.py L39-128 *)
Inductive value := Num (q : Q) | NaN | Inf (positive : bool) | Str (s : string).
(** np.testing.assert_equal of entries [for tools/test_tools.py L39-128] *)
Definition same_value (a b : value) : bool :=
  match a, b with
  | Num p, Num q => Qeq_bool p q
  | NaN, NaN => true
  | Inf x, Inf y => Bool.eqb x y
  | Str s, Str t => (s =? t)%string
  | _, _ => false
  end.
(** np.allclose of entries, with equal_nan; it is not called for strings [for tools/test_tools.py L39-128] *)
Definition close_value (rtol atol : Q) (a b : value) : bool :=
  match a, b with
  | Num p, Num q => Qle_bool (Qabs (p - q)) (atol + rtol * Qabs q)
  | _, _ => same_value a b
  end.

(** a column: name, type and if the type is np.string_ [for tools/test_tools.py L39-128] *)
Record column := Column { col_name : string; col_type : nat; col_string : bool }.
(** an array (one column, without name) or a table.  A row has a cell for each column, with the entries. [for tools/test_tools.py L39-128] *)
Record node := Node { is_table : bool; inner_shape : list nat; columns : list column; rows : list (list (list value)) }.

(** tools/test_tools.py L39-128 *)
Fixpoint list_eqb {A} (f : A -> A -> bool) (l m : list A) : bool :=
  match l, m with
  | [], [] => true
  | x :: l, y :: m => f x y && list_eqb f l m
  | _, _ => false
  end.
(** column j of the data [for tools/test_tools.py L39-128] *)
Definition cells (data : list (list (list value))) (j : nat) : list (list value) := map (fun r => nth j r []) data.
(** tools/test_tools.py L39-128 *)
Definition same_cells (f : value -> value -> bool) (a b : list (list value)) : bool := list_eqb (list_eqb f) a b.
(** tools/test_tools.py L54-59, L103-108: shape and kind; data of the two nodes *)
Definition same_kind (a b : node) (da db : list (list (list value))) : bool :=
  (length da =? length db) && list_eqb Nat.eqb (inner_shape a) (inner_shape b) && Bool.eqb (is_table a) (is_table b).
(** tools/test_tools.py L39-82 *)
Fixpoint columns_equal (j : nat) (ca cb : list column) (da db : list (list (list value))) : bool :=
  match ca, cb with
  | x :: ca, y :: cb => (col_type x =? col_type y) && same_cells same_value (cells da j) (cells db j) && columns_equal (S j) ca cb da db
  | _, _ => true
  end.
(** tools/test_tools.py L39-82 *)
Definition nan_equal (a b : node) (da db : list (list (list value))) : bool :=
  same_kind a b da db && list_eqb String.eqb (map col_name (columns a)) (map col_name (columns b)) &&
  columns_equal 0 (columns a) (columns b) da db.
(** tools/test_tools.py L85-128; L123-124 return at the first column of strings.  For an array the types are compared only (L110-113). *)
Fixpoint columns_close (table : bool) (rtol atol : Q) (j : nat) (ca cb : list column) (da db : list (list (list value))) : bool :=
  match ca, cb with
  | x :: ca, y :: cb =>
      (col_type x =? col_type y) &&
      (if table && col_string x then same_cells same_value (cells da j) (cells db j)
       else same_cells (close_value rtol atol) (cells da j) (cells db j) && columns_close table rtol atol (S j) ca cb da db)
  | _, _ => true
  end.
(** tools/test_tools.py L85-128; L123-124 *)
Definition nan_close (rtol atol : Q) (a b : node) (da db : list (list (list value))) : bool :=
  same_kind a b da db && list_eqb String.eqb (map col_name (columns a)) (map col_name (columns b)) &&
  columns_close (is_table a) rtol atol 0 (columns a) (columns b) da db.

(** node.read(start, stop) [for tools/test_tools.py L286] *)
Definition read (n : node) (start stop : nat) : list (list (list value)) := firstn (stop - start) (skipn start (rows n)).
(** tools/test_tools.py L286: None is the OverflowError for a dimension of length 0 *)
Definition read_nrows (chunk_size : nat) (n : node) : option nat :=
  let p := fold_right Nat.mul 1 (inner_shape n) in if p =? 0 then None else Some (Nat.max 1 (chunk_size / p)).
(** tools/test_tools.py L281-302: the loop over the chunks of a node, None: exception.  The loop ends, as at least one row is read. *)
Section Compare.
  Variable compare : node -> node -> list (list (list value)) -> list (list (list value)) -> bool.
  Variable chunk_size : nat.
  (** tools/test_tools.py L252-302 *)
  Fixpoint chunk_loop (fuel start : nat) (a b : node) : option bool :=
    match fuel with
    | 0 => Some true
    | S fuel =>
        if start <? length (rows a) then
          match read_nrows chunk_size a with
          | None => None
          | Some k =>
              if compare a b (read a start (start + k)) (read b start (start + k)) then chunk_loop fuel (start + k) a b else Some false
          end
        else Some true
    end.
  (** tools/test_tools.py L252-302 *)
  Definition compare_node (a b : node) : option bool := chunk_loop (length (rows a)) 0 a b.

  (** tools/test_tools.py L252-302 *)
  Definition h5_file : Type := list (string * node).
  (** tools/test_tools.py L252-302 *)
  Definition mem (x : string) (l : list string) : bool := existsb (String.eqb x) l.
  (** tools/test_tools.py L252-302 *)
  Definition find_node (f : h5_file) (x : string) : option node := option_map snd (find (fun p => String.eqb (fst p) x) f).
  (** tools/test_tools.py L269 *)
  Definition with_slash (name : string) : string :=
    match name with
    | EmptyString => name
    | String c _ => if Ascii.eqb c "/" then name else String "/" name
    end.
  (** tools/test_tools.py L269 *)
  Definition without (ignore : list string) (names : list string) : list string := filter (fun x => negb (mem x ignore)) names.
  (** tools/test_tools.py L269 *)
  Definition subset (l m : list string) : bool := forallb (fun x => mem x m) l.
  (** tools/test_tools.py L269 *)
  Fixpoint compare_nodes (names : list string) (f g : h5_file) : option bool :=
    match names with
    | [] => Some true
    | x :: names =>
        match find_node f x, find_node g x with
        | Some a, Some b => match compare_node a b, compare_nodes names f g with Some r, Some s => Some (r && s) | _, _ => None end
        | _, _ => None
        end
    end.
  (** tools/test_tools.py L235-307: checks_passed *)
  Definition compare_h5_files (f g : h5_file) (node_names : option (list string)) (ignore : list string) : option bool :=
    let nf := without ignore (map fst f) in
    let ng := without ignore (map fst g) in
    let '(passed, common) :=
      match node_names with
      | None => (subset nf ng && subset ng nf, filter (fun x => mem x ng) nf)
      | Some names =>
          let names := map with_slash names in
          (subset names nf && subset names ng, filter (fun x => mem x ng && mem x names) nf)
      end in
    match compare_nodes common f g with Some r => Some (passed && r) | None => None end.
End Compare.

(** *** tools/test_tools.py L328-365: all combinations of arguments *)
(** a value of a keyword argument: a list is looped [for tools/test_tools.py L346-352] *)
Inductive argument (A : Type) := Fixed (a : A) | Looped (l : list A).
Arguments Fixed {A}. Arguments Looped {A}.
(** itertools.product [for tools/test_tools.py L346-352] *)
Fixpoint product {A} (ls : list (list A)) : list (list A) :=
  match ls with
  | [] => [[]]
  | l :: ls => flat_map (fun x => map (cons x) (product ls)) l
  end.
(** list.insert [for tools/test_tools.py L346-352] *)
Definition insert {A} (pos : nat) (x : A) (l : list A) : list A := firstn pos l ++ x :: skipn pos l.
(** tools/test_tools.py L346-352 *)
Fixpoint split_arguments {A} (index : nat) (args : list (argument A)) : list (list A) * list (nat * A) :=
  match args with
  | [] => ([], [])
  | Fixed a :: args => let '(c, f) := split_arguments (S index) args in (c, (index, a) :: f)
  | Looped l :: args => let '(c, f) := split_arguments (S index) args in (l :: c, f)
  end.
(** tools/test_tools.py L354-365: the argument values of the calls *)
Definition all_calls {A} (args : list (argument A)) : list (list A) :=
  let '(call_values, fixed) := split_arguments 0 args in
  map (fun v => fold_left (fun l pf => insert (fst pf) (snd pf) l) fixed v) (product call_values).
