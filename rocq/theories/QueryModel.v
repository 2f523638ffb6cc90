(** Model of the query of select_tracks: the column names are found with a regular expression, "digits, at least one letter or underscore, digits".
    Simplifications: texts are lists of ASCII characters (\d also matches other decimal digits of Unicode); the evaluation of the query with numexpr for a row is a given function. *)
From Coq Require Import Ascii String List Bool Arith.
Import ListNotations.

(** \d [for tools/data_selection.py L482] *)
Definition is_digit (c : ascii) : bool := let n := nat_of_ascii c in (48 <=? n)%nat && (n <=? 57)%nat.
(** [a-zA-Z_] [for tools/data_selection.py L482] *)
Definition is_letter (c : ascii) : bool :=
  let n := nat_of_ascii c in ((97 <=? n)%nat && (n <=? 122)%nat) || ((65 <=? n)%nat && (n <=? 90)%nat) || (n =? 95)%nat.
(** longest prefix: greedy * [for tools/data_selection.py L482] *)
Fixpoint span (p : ascii -> bool) (s : list ascii) : list ascii * list ascii :=
  match s with [] => ([], []) | c :: t => if p c then let (a, b) := span p t in (c :: a, b) else ([], s) end.
(** match at the beginning of s: the match and the rest.  Fewer digits at the beginning do not help, because a digit is no letter [for tools/data_selection.py L482] *)
Definition match_at (s : list ascii) : option (list ascii * list ascii) :=
  let (d, r) := span is_digit s in
  let (l, r) := span is_letter r in
  match l with [] => None | _ => let (e, r) := span is_digit r in Some (d ++ l ++ e, r) end.
(** re.findall with n at least the length of s [for tools/data_selection.py L482] *)
Fixpoint findall (n : nat) (s : list ascii) : list (list ascii) :=
  match n, s with
  | S n, c :: t => match match_at s with Some (m, r) => m :: findall n r | None => findall n t end
  | _, _ => []
  end.
(** tools/data_selection.py L482 *)
Definition variables (s : list ascii) : list (list ascii) := findall (List.length s) s.
(** equality of names [for tools/data_selection.py L483] *)
Fixpoint same_name (a b : list ascii) : bool :=
  match a, b with [], [] => true | x :: a, y :: b => Ascii.eqb x y && same_name a b | _, _ => false end.
(** exec of the assignment: a SyntaxError if the variable begins with a digit, an error if there is no such column [for tools/data_selection.py L483] *)
Definition exposes (columns : list (list ascii)) (v : list ascii) : bool :=
  match v with c :: _ => negb (is_digit c) | [] => false end && existsb (same_name v) columns.
(** tools/data_selection.py L481-485; None: exception *)
Definition table_where {T} (columns : list (list ascii)) (query : list ascii) (evaluate : T -> bool) (rows : list T) : option (list T) :=
  if forallb (exposes columns) (variables query) then Some (filter evaluate rows) else None.
