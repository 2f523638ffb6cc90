(** Model of tools/test_tools.compare_yaml_files (L310-325): comparison of two yaml files (the telescope configurations of the tests).
    Simplifications: yaml.safe_load_all is not modelled, a file is the list of its documents; keys are strings or integers; numbers are integers, truth values and
    rational numbers or nan.  A nan of a file is equal to the nan of the other: the loader returns one and the same object for it, and python compares the values of
    dictionaries and lists by identity first. *)
From Coq Require Import String List ZArith QArith Bool.
Import ListNotations.
Local Open Scope list_scope.

(** tools/test_tools.py L310-325 *)
Inductive key := KStr (s : string) | KInt (z : Z).
(** values of a document; a dictionary has its items in the order of the file [for tools/test_tools.py L310-325] *)
Inductive value :=
| VNone | VBool (b : bool) | VInt (z : Z) | VFloat (q : Q) | VNan | VStr (s : string)
| VList (l : list value) | VDict (items : list (key * value)).
(** equality of keys [for tools/test_tools.py L318-319] *)
Definition key_eqb (a b : key) : bool :=
  match a, b with KStr s, KStr t => String.eqb s t | KInt x, KInt y => Z.eqb x y | _, _ => false end.
(** the value of a key [for tools/test_tools.py L318-325] *)
Fixpoint lookup {A} (k : key) (items : list (key * A)) : option A :=
  match items with [] => None | (k', v) :: t => if key_eqb k k' then Some v else lookup k t end.
(** dict[key] = value: a known key keeps its place, a new key is at the end [for tools/test_tools.py L319] *)
Fixpoint set_item {A} (k : key) (v : A) (items : list (key * A)) : list (key * A) :=
  match items with
  | [] => [(k, v)]
  | (k', w) :: t => if key_eqb k k' then (k', v) :: t else (k', w) :: set_item k v t
  end.
(** the number of a value: True and False are one and zero [for tools/test_tools.py L325] *)
Definition number (v : value) : option Q :=
  match v with VBool b => Some (inject_Z (if b then 1 else 0)) | VInt z => Some (inject_Z z) | VFloat q => Some q | _ => None end.
(** a == b in python [for tools/test_tools.py L325] *)
Fixpoint py_eq (a b : value) {struct a} : bool :=
  match a, b with
  | VNone, VNone => true
  | VNan, VNan => true
  | VStr s, VStr t => String.eqb s t
  | VList l, VList m =>
      (fix same (l m : list value) : bool :=
         match l, m with [], [] => true | x :: l, y :: m => py_eq x y && same l m | _, _ => false end) l m
  | VDict d, VDict e =>
      Nat.eqb (length d) (length e) &&
      (fix all (d : list (key * value)) : bool :=
         match d with [] => true | (k, v) :: d => match lookup k e with Some w => py_eq v w | None => false end && all d end) d
  | VList _, _ | VDict _, _ => false
  | _, _ => match number a, number b with Some p, Some q => Qeq_bool p q | _, _ => false end
  end.
(** tools/test_tools.py L317-319: the items of a document; None: AttributeError of a document without items() *)
Definition items_of (doc : value) : option (list (key * value)) := match doc with VDict items => Some items | _ => None end.
(** tools/test_tools.py L313-320 *)
Fixpoint yaml_as_dict (yaml_dict : list (key * value)) (docs : list value) : option (list (key * value)) :=
  match docs with
  | [] => Some yaml_dict
  | doc :: t => match items_of doc with
                | None => None
                | Some items => yaml_as_dict (fold_left (fun d i => set_item (fst i) (snd i) d) items yaml_dict) t
                end
  end.
(** tools/test_tools.py L310-325; None: exception *)
Definition compare_yaml_files (first second : list value) : option bool :=
  match yaml_as_dict [] first, yaml_as_dict [] second with
  | Some d, Some e => Some (py_eq (VDict d) (VDict e))
  | _, _ => None
  end.
