(** Model of tools/storage_utils.py: save_configuration_dict (L23-68) and the decorator save_arguments (L71-96).
    Simplifications: a file is its groups of tables, each table a list of (name, value) rows with the attributes; only the group and the tables of name/value rows are modelled,
    other nodes of the file are left out.  Strings are bytes; the failure of storing strings that are no ASCII is left out, as are the errors of pytables (a file that is
    returned is an HDF5 file, names of functions are valid names of nodes).  The decorated function is any function on the files that ends with a value or an error. *)
From Coq Require Import String Ascii List Bool Arith NArith.
Import ListNotations.

(** Python dict (insertion order) [for storage_utils.py L89-91] *)
Fixpoint dict_set {A : Type} (k : string) (v : A) (d : list (string * A)) : list (string * A) :=
  match d with
  | [] => [(k, v)]
  | (k', v') :: d => if String.eqb k k' then (k, v) :: d else (k', v') :: dict_set k v d
  end.
(** dict.update [for storage_utils.py L90-91] *)
Definition dict_update {A : Type} (d e : list (string * A)) : list (string * A) :=
  fold_left (fun d p => dict_set (fst p) (snd p) d) e d.
(** Access by name [for storage_utils.py L45, L78] *)
Fixpoint dict_get {A : Type} (k : string) (d : list (string * A)) : option A :=
  match d with
  | [] => None
  | (k', v) :: d => if String.eqb k k' then Some v else dict_get k d
  end.
(** remove_node [for storage_utils.py L39] *)
Fixpoint dict_remove {A : Type} (k : string) (d : list (string * A)) : list (string * A) :=
  match d with
  | [] => []
  | (k', v) :: d => if String.eqb k k' then d else (k', v) :: dict_remove k d
  end.

(** Attribute date_created: of the given time, of a struct_time, of the time of writing [for storage_utils.py L54-59] *)
Inductive date := Given (seconds : N) | Struct (t : N) | Nothing.
(** Contents of a table, of a group of tables, of a file, and all files [for storage_utils.py L47-59] *)
Record table := { rows : list (string * string); date_created : option N; version : string }.
Definition group := list (string * table).
Definition file := list (string * group).
Definition files := list (string * file).

(** storage_utils.py L18-20: columns of fixed length, longer strings are cut *)
Definition name_size : N := 256.
(** storage_utils.py L20 *)
Definition value_size : N := 32 * 1024.
(** Assignment to a column of n bytes [for storage_utils.py L50-51] *)
Fixpoint cut (n : N) (s : string) : string :=
  match s with
  | EmptyString => EmptyString
  | String c s => if N.eqb n 0 then EmptyString else String c (cut (N.pred n) s)
  end.

(** storage_utils.py L37-60: save_conf.  now: the time of writing *)
Definition save_conf (now : N) (bta_version : string) (group_name table_name : string) (dictionary : list (string * string)) (d : date) (f : file) : file :=
  let g := match dict_get group_name f with None => [] | Some g => dict_remove table_name g end in
  let t := {| rows := map (fun p => (cut name_size (fst p), cut value_size (snd p))) dictionary;
              date_created := match d with Given s => Some s | Struct _ => None | Nothing => Some now end;
              version := bta_version |} in
  dict_set group_name (g ++ [(table_name, t)]) f.

(** storage_utils.py L62-68 with the name of a file and mode "a": a file that does not exist is created *)
Definition save_configuration_dict (now : N) (bta_version output_file group_name table_name : string) (dictionary : list (string * string)) (d : date) (fs : files) : files :=
  let f := match dict_get output_file fs with None => [] | Some f => f end in
  dict_set output_file (save_conf now bta_version group_name table_name dictionary d f) fs.

(** Values returned by functions [for storage_utils.py L78-86] *)
Inductive value := Str (s : string) | Items (l : list value) | Other.
(** isinstance(item, basestring) [for storage_utils.py L81] *)
Definition is_str (v : value) : bool := match v with Str _ => true | _ => false end.
(** os.path.isfile [for storage_utils.py L78] *)
Definition isfile (fs : files) (v : value) : bool :=
  match v with Str s => match dict_get s fs with Some _ => true | None => false end | _ => false end.
(** The names in a list of strings [for storage_utils.py L82, L86] *)
Definition strings (l : list value) : list string := flat_map (fun v => match v with Str s => [s] | _ => [] end) l.
(** storage_utils.py L77-86; an empty list is like None at L87 *)
Definition output_files (fs : files) (ret : value) : list string :=
  match ret with
  | Str s => if isfile fs ret then [s] else []
  | Items l =>
      if forallb is_str l && forallb (isfile fs) l then strings l
      else match l with
           | [] => []
           | Str s :: _ => if isfile fs (Str s) then [s] else []
           | Items l' :: _ => if forallb is_str l' && forallb (isfile fs) l' then strings l' else []
           | Other :: _ => []
           end
  | Other => []
  end.

(** A decorated function and a call of it [for storage_utils.py L73-75, L89] *)
Record call (V : Type) := {
  func_name : string;
  parameters : list string;          (* func.__code__.co_varnames[:co_argcount] *)
  args : list V;
  kwargs : list (string * V);
  func : files -> option (files * value);
  text : V -> string;                (* str(value), evaluated after the function *)
  start : N;                         (* time.time() before the call *)
  bta : string
}.
Arguments func_name {V}. Arguments parameters {V}. Arguments args {V}. Arguments kwargs {V}.
Arguments func {V}. Arguments text {V}. Arguments start {V}. Arguments bta {V}.

(** storage_utils.py L89-91 *)
Definition all_kwargs {V} (c : call V) : list (string * V) := dict_update (dict_update [] (combine (parameters c) (args c))) (kwargs c).

(** Result of the wrapper: the files, the returned value, and whether a warning is given; None: the function has raised an error [for storage_utils.py L73-95] *)
Definition wrapper {V} (now : N) (c : call V) (fs : files) : option (files * value * bool) :=
  match func c fs with
  | None => None
  | Some (fs, ret) =>
      let out := output_files fs ret in
      let dictionary := map (fun p => (fst p, text c (snd p))) (all_kwargs c) in
      Some (fold_left (fun fs o => save_configuration_dict now (bta c) o "arguments" (func_name c) dictionary (Given (start c)) fs) out fs,
            ret, match out with [] => true | _ => false end)
  end.
