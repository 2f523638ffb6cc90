(** Model of telescope/telescope.py open_configuation (L21-39) and of Telescope.__str__ (L71-78).
    Simplifications: keys of dictionaries are texts or numbers (others: not hashable, TypeError); logging is not modelled; a path is the text itself (os.path.abspath). *)
From Coq Require Import Ascii String List ZArith Bool.
Import ListNotations.
Local Open Scope list_scope.

(** the values of a YAML document [for telescope/telescope.py L26-30] *)
Inductive yaml := YNull | YNumber (z : Z) | YText (s : list ascii) | YList (l : list yaml) | YMap (m : list (yaml * yaml)).
(** what is passed to the function [for telescope/telescope.py L23-37] *)
Inductive argument := Nothing | Text (s : list ascii) | OpenFile (content : list ascii) | Dictionary (d : list (yaml * yaml)) | Other.
(** exceptions: NameError, ValueError, TypeError, any error of the YAML parser *)
Inductive error := NameError | ValueError | TypeError | YamlError.
(** equality of keys; None: the key is not hashable *)
Definition key_eqb (a b : yaml) : bool :=
  match a, b with
  | YNull, YNull => true
  | YNumber x, YNumber y => Z.eqb x y
  | YText s, YText t => if list_eq_dec ascii_dec s t then true else false
  | _, _ => false
  end.
(** a key of a dictionary can not be a list or a mapping [for telescope/telescope.py L29] *)
Definition hashable (k : yaml) : bool := match k with YList _ | YMap _ => false | _ => true end.
(** d[k] = v [for telescope/telescope.py L29] *)
Fixpoint insert (k v : yaml) (d : list (yaml * yaml)) : list (yaml * yaml) :=
  match d with [] => [(k, v)] | (k', v') :: r => if key_eqb k k' then (k', v) :: r else (k', v') :: insert k v r end.
(** d.get(k) *)
Fixpoint get (k : yaml) (d : list (yaml * yaml)) : option yaml := match d with [] => None | (k', v) :: r => if key_eqb k k' then Some v else get k r end.
(** the elements of an iterable; None: TypeError: not iterable [for telescope/telescope.py L29] *)
Definition elements (v : yaml) : option (list yaml) :=
  match v with
  | YNull | YNumber _ => None
  | YText s => Some (map (fun c => YText [c]) s)
  | YList l => Some l
  | YMap m => Some (map fst m)
  end.
(** dict.update with a sequence: each entry must have two elements [for telescope/telescope.py L29, L31, L34] *)
Fixpoint update_pairs (d : list (yaml * yaml)) (l : list yaml) : error + list (yaml * yaml) :=
  match l with
  | [] => inr d
  | p :: r =>
      match elements p with
      | None => inl TypeError
      | Some [k; v] => if hashable k then update_pairs (insert k v d) r else inl TypeError
      | Some _ => inl ValueError
      end
  end.
(** dict.update [for telescope/telescope.py L29, L31, L34, L36] *)
Definition update (d : list (yaml * yaml)) (v : yaml) : error + list (yaml * yaml) :=
  match v with
  | YMap m => inr (fold_left (fun d kv => insert (fst kv) (snd kv) d) m d)
  | _ => match elements v with None => inl TypeError | Some l => update_pairs d l end
  end.
Section Open.
  (** yaml.safe_load; None: error of the parser *)
  Variable safe_load : list ascii -> option yaml.
  (** the files: content of the file with the given name *)
  Variable file_content : list ascii -> option (list ascii).
  (** the name [file] is defined in Python 2 only [for telescope/telescope.py L32] *)
  Variable python2 : bool.
  (** telescope/telescope.py L29, L31, L34: an empty document is None *)
  Definition load (text : list ascii) : error + list (yaml * yaml) := match safe_load text with None => inl YamlError | Some v => update [] v end.
  (** telescope/telescope.py L21-39; an empty dictionary and an empty text are false (L23) *)
  Definition open_configuation (a : argument) : error + list (yaml * yaml) :=
    match a with
    | Nothing | Text [] | Dictionary [] => inr []
    | Text s => match file_content s with Some c => load c | None => load s end
    | OpenFile c => if python2 then load c else inl NameError
    | Dictionary d => if python2 then update [] (YMap d) else inl NameError
    | Other => if python2 then inl ValueError else inl NameError
    end.
End Open.

(** telescope/telescope.py L71-78: the texts of the DUTs in the order of their index, each but the first behind a new line, then the attributes of the telescope *)
Definition newline : ascii := ascii_of_nat 10.
(** telescope/telescope.py L72-76: "if string" is true from the first text which is not empty *)
Definition join_duts (duts : list (list ascii)) : list ascii := fold_left (fun s t => (match s with [] => s | _ => s ++ [newline] end) ++ t) duts [].
(** telescope/telescope.py L77: ", ".join *)
Fixpoint join_comma (l : list (list ascii)) : list ascii :=
  match l with [] => [] | [t] => t | t :: r => t ++ list_ascii_of_string ", " ++ join_comma r end.
(** telescope/telescope.py L71-78; [attributes]: names and printed values *)
Definition telescope_str (duts : list (list ascii)) (attributes : list (list ascii * list ascii)) : list ascii :=
  join_duts duts ++ newline :: list_ascii_of_string "Telescope: " ++ join_comma (map (fun nv => fst nv ++ list_ascii_of_string ": " ++ snd nv) attributes) ++ list_ascii_of_string ":".
