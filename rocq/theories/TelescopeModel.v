(** Model of telescope/telescope.py (class Telescope) and of the attributes of the DUTs in telescope/dut.py.
    Simplifications: floats are an abstract type with a comparison, a conversion from integers and a conversion to integers; a YAML file is the value it
    represents (safe_dump writes sequences for tuples and sorts the keys of mappings, safe_load reads them in this order), an empty file is null;
    keys of DUTs are integers (add_dut accepts nothing else, telescope.py L193-194); float() of a string and min() of a string are errors;
    integers and floats are compared after conversion to float. *)
From Coq Require Import Ascii String List ZArith Bool.
Import ListNotations.
Local Open Scope string_scope.
Local Open Scope list_scope.
Set Implicit Arguments.
Set Contextual Implicit.

Section Model.
Variable Float : Type.
Variable lt : Float -> Float -> bool.
Variable of_int : Z -> Float.
Variable to_int : Float -> option Z.
Variable zero : Float.
Variable to_str : Float -> string.
Variable int_to_str : Z -> string.

(** telescope/telescope.py L140-206 *)
Inductive key := KInt (z : Z) | KStr (s : string).
(** telescope/telescope.py L140-206 *)
Inductive value := VNull | VFloat (f : Float) | VInt (z : Z) | VStr (s : string) | VList (l : list value) | VMap (m : list (key * value)).
(** telescope/telescope.py L140-206 *)
Definition key_eqb (a b : key) : bool :=
  match a, b with KInt x, KInt y => Z.eqb x y | KStr x, KStr y => String.eqb x y | _, _ => false end.

(** Python dictionaries: items in the order of insertion [for telescope/telescope.py L140-206] *)
Fixpoint dget {K V} (eqb : K -> K -> bool) (k : K) (d : list (K * V)) : option V :=
  match d with
  | [] => None
  | (k', v) :: d => if eqb k k' then Some v else dget eqb k d
  end.
(** telescope/telescope.py L140-206 *)
Fixpoint dset {K V} (eqb : K -> K -> bool) (k : K) (v : V) (d : list (K * V)) : list (K * V) :=
  match d with
  | [] => [(k, v)]
  | (k', v') :: d => if eqb k k' then (k', v) :: d else (k', v') :: dset eqb k v d
  end.
(** telescope/telescope.py L140-206 *)
Definition dremove {K V} (eqb : K -> K -> bool) (k : K) (d : list (K * V)) : list (K * V) := filter (fun p => negb (eqb k (fst p))) d.
(** Sorted by key, each key once [for telescope/telescope.py L140-206] *)
Fixpoint insert {V} (k : Z) (v : V) (d : list (Z * V)) : list (Z * V) :=
  match d with
  | [] => [(k, v)]
  | (k', v') :: d' => if Z.leb k k' then (k, v) :: d else (k', v') :: insert k v d'
  end.
(** telescope/telescope.py L140-206 *)
Definition sorted_items {V} (d : list (Z * V)) : list (Z * V) := fold_right (fun p => insert (fst p) (snd p)) [] d.

(** ** dut.py: conversion of the attributes *)

(** float(x) [for dut.py L55-146, L225-255, L592-594, L712-714] *)
Definition to_float (v : value) : option Float :=
  match v with VFloat f => Some f | VInt z => Some (of_int z) | _ => None end.
(** int(x) [for dut.py L55-146, L225-255, L592-594, L712-714] *)
Definition to_integer (v : value) : option Z :=
  match v with VInt z => Some z | VFloat f => to_int f | _ => None end.
(** dut.py L55-146, L225-255, L592-594, L712-714 *)
Definition float_value (v : value) : option value := option_map VFloat (to_float v).
(** dut.py L55-146, L225-255, L592-594, L712-714 *)
Definition int_value (v : value) : option value := option_map VInt (to_integer v).
(** dut.py L55-146, L225-255, L592-594, L712-714 *)
Fixpoint floats (l : list value) : option (list Float) :=
  match l with
  | [] => Some []
  | v :: l => match to_float v, floats l with Some f, Some fs => Some (f :: fs) | _, _ => None end
  end.
(** min and max of a sequence: the first of the smallest and the first of the largest ones [for dut.py L55-146, L225-255, L592-594, L712-714] *)
Definition minimum (f : Float) (fs : list Float) : Float := fold_left (fun m x => if lt x m then x else m) fs f.
(** dut.py L55-146, L225-255, L592-594, L712-714 *)
Definition maximum (f : Float) (fs : list Float) : Float := fold_left (fun m x => if lt m x then x else m) fs f.

(** The properties with a setter in dut.py (L55-146, L225-255, L592-594, L712-714).  None: an exception *)
Definition set_attribute (name : string) (v : value) : option value :=
  if (name =? "name")%string then  (* L55-57 *)
    match v with
    | VStr s => Some (VStr s)
    | VInt z => Some (VStr (int_to_str z))
    | VFloat f => Some (VStr (to_str f))
    | _ => None
    end
  else if existsb (String.eqb name) ["x_limit"; "y_limit"] then  (* L111-127 *)
    match v with
    | VNull => Some VNull
    | VList l =>
      match floats l with
      | Some (f :: fs) => Some (VList [VFloat (minimum f fs); VFloat (maximum f fs)])
      | _ => None
      end
    | _ => None
    end
  else if (name =? "intrinsic_resolution")%string then  (* L141-146 *)
    match v with
    | VNull => Some VNull
    | VList (a :: b :: _) =>
      match to_float a, to_float b with
      | Some x, Some y => Some (VList [VFloat x; VFloat y])
      | _, _ => None
      end
    | _ => None
    end
  else if (name =? "sensor_position")%string then  (* L592-594, L712-714 *)
    match v with
    | VList (a :: b :: _) =>
      match to_integer a, to_integer b with
      | Some x, Some y => Some (VList [VInt x; VInt y])
      | _, _ => None
      end
    | _ => None
    end
  else if existsb (String.eqb name) ["n_columns"; "n_rows"] then int_value v  (* L245-255 *)
  else float_value v.

(** ** The classes (telescope/dut.py L13-574): the attributes that can be set, which are the arguments of the constructor *)
Definition base_attributes : list string :=
  ["name"; "translation_x"; "translation_y"; "translation_z"; "rotation_alpha"; "rotation_beta"; "rotation_gamma"; "x_limit"; "y_limit"; "material_budget"; "intrinsic_resolution"].
(** telescope/dut.py L13-574 *)
Definition classes : list (string * list string) :=
  [("Dut", base_attributes); ("ScatteringPlane", base_attributes);
   ("RectangularPixelDut", base_attributes ++ ["column_size"; "row_size"; "n_columns"; "n_rows"]);
   ("RectangularPixelDutWithDoubleColumns", base_attributes ++ ["column_size"; "row_size"; "n_columns"; "n_rows"]);
   ("FEI4", base_attributes); ("RD53A", base_attributes); ("RD53A_8x8", base_attributes); ("ITkPix", base_attributes); ("ITkPix_8x8", base_attributes);
   ("TJMonopix1", base_attributes); ("TJMonopix1_2x2", base_attributes); ("PSI46", base_attributes); ("Mimosa26", base_attributes);
   ("DepfetH5z85", base_attributes); ("DepfetH5z55", base_attributes); ("Timepix3", base_attributes);
   ("Diamond3DpCVD", base_attributes ++ ["sensor_position"]); ("DiamondPseudo3DpCVD", base_attributes ++ ["sensor_position"])].
(** Default values of the arguments: telescope/dut.py L17, L214, L549 *)
Variable mimosa_resolution : value.  (* (3.5, 3.5) *)
(** telescope/dut.py L17, L214, L549 *)
Definition default (class name : string) : option value :=
  if existsb (String.eqb name) ["x_limit"; "y_limit"; "material_budget"] then Some VNull
  else if (name =? "intrinsic_resolution")%string then Some (if (class =? "Mimosa26")%string then mimosa_resolution else VNull)
  else None.

(** telescope/dut.py L17, L214, L549 *)
Record dut := Dut { d_class : string; d_attributes : list (string * value) }.
(** __init__ (telescope/dut.py L17-28): material_budget may be None *)
Definition init_attribute (name : string) (v : value) : option value :=
  match v with
  | VNull => if (name =? "material_budget")%string then Some (VFloat zero) else set_attribute name VNull
  | _ => set_attribute name v
  end.
(** telescope/dut.py L17-28 *)
Fixpoint init_attributes (class : string) (names : list string) (kwargs : list (string * value)) : option (list (string * value)) :=
  match names with
  | [] => Some []
  | name :: names =>
    match (match dget String.eqb name kwargs with Some v => Some v | None => default class name end) with
    | None => None  (* TypeError: missing argument *)
    | Some v =>
      match init_attribute name v, init_attributes class names kwargs with
      | Some x, Some xs => Some ((name, x) :: xs)
      | _, _ => None
      end
    end
  end.
(** Call of a class, of this module or not, with these attributes [for telescope/dut.py L30-45] *)
Definition construct (class : string) (names : list string) (kwargs : list (string * value)) : option dut :=
  if forallb (fun p => existsb (String.eqb (fst p)) names) kwargs then option_map (Dut class) (init_attributes class names kwargs)
  else None.  (* TypeError: unexpected argument *)
(** Assignment of an attribute of a DUT (telescope/dut.py L30-45): only those of the class *)
Definition assign (d : dut) (name : string) (v : value) : option dut :=
  match dget String.eqb name (d_attributes d) with
  | None => None
  | Some _ => option_map (fun x => Dut (d_class d) (dset String.eqb name x (d_attributes d))) (set_attribute name v)
  end.

(** ** telescope.py [for telescope/telescope.py L45-54] *)
Record telescope := Telescope { t_attributes : list (string * value); t_duts : list (Z * dut) }.
(** telescope.py L45-54 *)
Definition telescope_attributes : list string := ["translation_x"; "translation_y"; "translation_z"; "rotation_alpha"; "rotation_beta"; "rotation_gamma"].  (* telescope.py L43 *)
(** telescope/telescope.py L45-54 with default values *)
Definition new : telescope := Telescope (map (fun n => (n, VFloat zero)) telescope_attributes) [].
(** Assignment of an attribute (telescope.py L92-138) *)
Definition set_telescope (t : telescope) (name : string) (v : value) : option telescope :=
  match float_value v with
  | Some x => Some (Telescope (dset String.eqb name x (t_attributes t)) (t_duts t))
  | None => None
  end.
(** telescope.py L192-206 with the name of a class *)
Definition add_dut (t : telescope) (class : string) (id : Z) (kwargs : list (string * value)) : option telescope :=
  let kwargs := match dget String.eqb "name" kwargs with Some _ => kwargs | None => kwargs ++ [("name", VStr ("DUT" ++ int_to_str id)%string)] end in
  match dget String.eqb class classes with
  | None => None  (* AttributeError *)
  | Some names => option_map (fun d => Telescope (t_attributes t) (dset Z.eqb id d (t_duts t))) (construct class names kwargs)
  end.
(** telescope.py L62-65 *)
Definition set_item (t : telescope) (id : Z) (d : dut) : telescope := Telescope (t_attributes t) (dset Z.eqb id d (t_duts t)).
(** telescope.py L67-69: the DUTs, with their keys, in the order of iteration *)
Definition iter (t : telescope) : list (Z * dut) := sorted_items (t_duts t).

(** telescope.py L182-183 *)
Definition dut_configuration (d : dut) : value :=
  VMap (map (fun p => (KStr (fst p), snd p)) (d_attributes d) ++ [(KStr "dut_type", VStr (d_class d))]).
(** telescope.py L162-190; the order of the keys in the file is modelled for the DUTs only; [old]: the content of the file if keep_others is set and the file exists.  None: an exception *)
Definition save_configuration (t : telescope) (old : option value) : option value :=
  let configuration := match old with None => VMap [] | Some v => v end in
  match configuration with
  | VMap c =>
    match (match dget key_eqb (KStr "TELESCOPE") c with None => VMap [] | Some v => v end) with
    | VMap tel =>
      let tel := fold_left (fun m p => dset key_eqb (KStr (fst p)) (snd p) m) (t_attributes t) tel in
      let tel := dset key_eqb (KStr "DUT") (VMap (map (fun p => (KInt (fst p), dut_configuration (snd p))) (sorted_items (t_duts t)))) tel in
      Some (VMap (dset key_eqb (KStr "TELESCOPE") (VMap tel) c))
    | _ => None
    end
  | _ => None  (* 'TELESCOPE' not in None: TypeError *)
  end.

(** **kwargs: keys have to be strings [for telescope.py L154-157] *)
Fixpoint keywords (m : list (key * value)) : option (list (string * value)) :=
  match m with
  | [] => Some []
  | (KStr s, v) :: m => option_map (cons (s, v)) (keywords m)
  | (KInt _, _) :: _ => None
  end.
(** telescope.py L154-157 *)
Fixpoint load_duts (t : telescope) (items : list (key * value)) : option telescope :=
  match items with
  | [] => Some t
  | (KInt id, VMap m) :: items =>
    let class := match dget key_eqb (KStr "dut_type") m with None => Some "RectangularPixelDut" | Some (VStr s) => Some s | Some _ => None end in
    match class, keywords (dremove key_eqb (KStr "dut_type") m) with
    | Some class, Some kwargs =>
      match add_dut t class id kwargs with
      | Some t => load_duts t items
      | None => None
      end
    | _, _ => None
    end
  | _ => None
  end.
(** telescope.py L158-160 *)
Fixpoint load_attributes (t : telescope) (items : list (key * value)) : option telescope :=
  match items with
  | [] => Some t
  | (KStr name, v) :: items =>
    if existsb (String.eqb name) telescope_attributes then
      match set_telescope t name v with
      | Some t => load_attributes t items
      | None => None
      end
    else load_attributes t items
  | _ :: items => load_attributes t items
  end.
(** telescope.py L140-160: [t] is the telescope before loading *)
Definition load_configuration (t : telescope) (file : value) : option telescope :=
  match file with
  | VMap c =>
    match dget key_eqb (KStr "TELESCOPE") c with
    | None => Some t
    | Some (VMap tel) =>
      match (match dget key_eqb (KStr "DUT") tel with None => Some t | Some (VMap items) => load_duts t items | Some _ => None end) with
      | Some t => load_attributes t tel
      | None => None
      end
    | Some _ => None
    end
  | VNull => Some t
  | _ => None
  end.
End Model.
