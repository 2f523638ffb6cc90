(** Models the fixtures of the unit tests: the stored return values of a function, the comparison with them, and nan_to_num.
    Source: tools/test_tools.py L16-36 (nan_to_num), L368-395 (create_fixture), L398-410 (check_with_fixture); the calls (L328-365) are in TestToolsModel.
    Simplifications: the function returns single numbers (rational numbers, nan or infinite); an exception of the function is a missing value; the file of the fixture is its node Data;
    numbers keep their values when they are stored. *)
From Coq Require Import String.
From Coq Require Import QArith Qabs List Bool Arith.
From Verif Require Import TestToolsModel.
Import ListNotations.
Local Open Scope nat_scope.

(** a return value [for tools/test_tools.py L368-410] *)
Inductive number := Finite (q : Q) | NotANumber | Infinite (positive : bool).
(** the file of the fixture: missing, without the node Data, or with its values [for tools/test_tools.py L385-395, L405-406] *)
Inductive fixture := NoFile | NoData | Data (values : list number).
(** how create_fixture ends [for tools/test_tools.py L368-395] *)
Inductive created := Stored | ArgumentsMissing | FunctionRaised | EmptyArray.
(** how check_with_fixture ends: a truth value or an exception [for tools/test_tools.py L398-410] *)
Inductive checked := Compared (equal : bool) | FileMissing | NodeMissing | CallRaised | ShapesDiffer.

(** tools/test_tools.py L354-365: the return values of the calls, in the order of the calls; the first exception ends the loop *)
Fixpoint run {A} (f : list (string * A) -> option number) (calls : list (list (string * A))) : option (list number) :=
  match calls with
  | [] => Some []
  | c :: calls => match f c with None => None | Some v => match run f calls with None => None | Some l => Some (v :: l) end end
  end.
(** tools/test_tools.py L361-365: the values are paired with the names of the keyword arguments *)
Definition results {A} (f : list (string * A) -> option number) (kwargs : list (string * argument A)) : option (list number) :=
  run f (map (combine (map fst kwargs)) (all_calls (map snd kwargs))).
(** tools/test_tools.py L368-395: the ending and the file afterwards.  The file is opened for writing before create_carray, which rejects empty arrays. *)
Definition create_fixture {A} (names : list string) (f : list (string * A) -> option number) (kwargs : list (string * argument A)) (file : fixture) : created * fixture :=
  if negb (forallb (fun a => existsb (String.eqb a) (map fst kwargs)) names) then (ArgumentsMissing, file)
  else match results f kwargs with
       | None => (FunctionRaised, file)
       | Some [] => (EmptyArray, NoData)
       | Some data => (Stored, Data data)
       end.
(** np.allclose of two entries with the default tolerances, without equal_nan [for tools/test_tools.py L410] *)
Definition close (a b : number) : bool :=
  match a, b with
  | Finite p, Finite q => Qle_bool (Qabs (p - q)) ((1 # 100000000) + (1 # 100000) * Qabs q)
  | Infinite x, Infinite y => Bool.eqb x y
  | _, _ => false
  end.
(** the broadcasting of two arrays with one axis [for tools/test_tools.py L410] *)
Definition broadcast (a b : list number) : option (list (number * number)) :=
  if length a =? length b then Some (combine a b)
  else match a, b with
       | [x], _ => Some (map (pair x) b)
       | _, [y] => Some (map (fun x => (x, y)) a)
       | _, _ => None
       end.
(** tools/test_tools.py L398-410 *)
Definition check_with_fixture {A} (f : list (string * A) -> option number) (kwargs : list (string * argument A)) (file : fixture) : checked :=
  match file with
  | NoFile => FileMissing
  | NoData => NodeMissing
  | Data stored =>
      match results f kwargs with
      | None => CallRaised
      | Some data => match broadcast stored data with None => ShapesDiffer | Some l => Compared (forallb (fun p => close (fst p) (snd p)) l) end
      end
  end.

(** a column of a record array, or an array without fields: the largest number of its type and the entries [for tools/test_tools.py L16-36] *)
Record entries := Entries { largest : Q; values : list number }.
(** np.nan_to_num of an entry [for tools/test_tools.py L29, L34] *)
Definition finite_number (top : Q) (v : number) : number :=
  match v with NotANumber => Finite 0 | Infinite true => Finite top | Infinite false => Finite (- top) | Finite q => Finite q end.
(** np.nan_to_num of an array [for tools/test_tools.py L29, L34] *)
Definition finite_entries (c : entries) : entries := Entries (largest c) (map (finite_number (largest c)) (values c)).
(** tools/test_tools.py L16-36: the returned array and the given array afterwards; an array without fields has one column *)
Definition nan_to_num (copy : bool) (array : list entries) : list entries * list entries :=
  let result := map finite_entries array in (result, if copy then array else result).
