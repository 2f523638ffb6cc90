(** Model of the arguments of result_analysis.calculate_efficiency: L630-666 (resolutions, in_pixel_resolutions), L745-769 (efficiency_region_names) and the resolution used
    for each DUT, L819-827 and L864-873.  extend_areas, extend_in_pixel_areas and cut_distances (L668-704, L771-788) are checked as resolutions are.
    Lists are objects that can be shared and are changed in place; tuples and numbers are values.
    Simplifications: numbers are of any type, with any function for a tenth and any minimum; of the components of a pair only numbers, None and other values are distinguished; only the class of an error
    is kept. *)
From Coq Require Import List Arith Bool.
Import ListNotations.

Section Numbers.
  Variable V : Type.
  Variable tenth : V -> V.
  Variable vmin : V -> V -> V.

  (** result_analysis.py L630-873 *)
  Inductive error := ValueErr | TypeErr.
  (** result_analysis.py L630-873 *)
  Definition bind {A B} (r : error + A) (f : A -> error + B) : error + B := match r with inl e => inl e | inr a => f a end.
  (** result_analysis.py L630-873 *)
  Definition guard (ok : bool) (e : error) : error + unit := if ok then inr tt else inl e.

  (** a component of a pair: None, a number or something else [for result_analysis.py L819-827] *)
  Inductive component := CNone | CNum (v : V) | COther.
  (** an item of the argument: None, a number, a tuple, or the list object with a number [for result_analysis.py L630-648] *)
  Inductive item := INone | INum (v : V) | ITuple (components : list component) | IList (object : nat).
  (** the argument: None, a tuple, a list of items, or something that is not iterable [for result_analysis.py L630-648] *)
  Inductive argument := ANone | ATuple (components : list component) | AList (items : list item) | ANum (v : V).
  (** the list objects [for result_analysis.py L819-827] *)
  Definition heap := nat -> list component.

  (** len(resolution) [for result_analysis.py L646-648] *)
  Definition item_length (h : heap) (i : item) : nat := match i with ITuple c => length c | IList o => length (h o) | _ => 0 end.
  (** result_analysis.py L630-648, L650-666: one item for each of the selected DUTs *)
  Definition check_pairs (n : nat) (h : heap) (a : argument) : error + list item :=
    bind (match a with
          | ANone => inr (repeat INone n)
          | ATuple c => inr (repeat (ITuple c) n)
          | ANum _ => inl ValueErr
          | AList l => inr l
          end) (fun l =>
    bind (guard (negb (length l =? 0)) ValueErr) (fun _ =>
    bind (guard (length l =? n) ValueErr) (fun _ =>
    bind (guard (forallb (fun i => match i with INum _ => false | _ => true end) l) ValueErr) (fun _ =>
    bind (guard (forallb (fun i => match i with INone => true | _ => item_length h i =? 2 end) l) ValueErr) (fun _ => inr l))))).

  (** result_analysis.py L824-827, L870-873: a component that is None is replaced; [tuple]: this cannot be done in a tuple *)
  Definition fill (tuple : bool) (c : component) (default : V) : error + component :=
    match c with CNone => if tuple then inl TypeErr else inr (CNum default) | _ => inr c end.
  (** result_analysis.py L842, L848: components are used in arithmetic operations *)
  Definition number (c : component) : error + V := match c with CNum v => inr v | _ => inl TypeErr end.
  (** result_analysis.py L819-827 and L866-873: the pair of numbers for a DUT and the list objects afterwards *)
  Definition resolve (h : heap) (i : item) (default : V * V) : error + ((V * V) * heap) :=
    match i with
    | INone => inr (default, h)
    | INum _ => inl TypeErr
    | ITuple c =>
        bind (fill true (nth 0 c COther) (fst default)) (fun x =>
        bind (fill true (nth 1 c COther) (snd default)) (fun y =>
        bind (number x) (fun vx => bind (number y) (fun vy => inr ((vx, vy), h)))))
    | IList o =>
        bind (fill false (nth 0 (h o) COther) (fst default)) (fun x =>
        bind (fill false (nth 1 (h o) COther) (snd default)) (fun y =>
        bind (number x) (fun vx => bind (number y) (fun vy =>
        inr ((vx, vy), fun p => if p =? o then [x; y] else h p)))))
    end.
  (** what is used for a DUT: pixel size, with or without regions, items of the two arguments [for result_analysis.py L810-873] *)
  Record dut := Dut { pixel_size : V * V; with_regions : bool; dut_resolution : item; dut_in_pixel : item }.
  (** the default of the in-pixel resolution [for result_analysis.py L867-873] *)
  Definition in_pixel_default (resolution pixel : V * V) : V * V :=
    (vmin (fst resolution) (tenth (fst pixel)), vmin (snd resolution) (tenth (snd pixel))).
  (** result_analysis.py L819-873 for a DUT: resolution and, if there are regions, in-pixel resolution *)
  Definition use_dut (h : heap) (d : dut) : error + (((V * V) * option (V * V)) * heap) :=
    bind (resolve h (dut_resolution d) (pixel_size d)) (fun r =>
    if with_regions d
    then bind (resolve (snd r) (dut_in_pixel d) (in_pixel_default (fst r) (pixel_size d))) (fun p => inr ((fst r, Some (fst p)), snd p))
    else inr ((fst r, None), snd r)).
  (** result_analysis.py L810-873 *)
  Fixpoint use_duts (h : heap) (l : list dut) : error + (list ((V * V) * option (V * V)) * heap) :=
    match l with
    | [] => inr ([], h)
    | d :: l => bind (use_dut h d) (fun r => bind (use_duts (snd r) l) (fun rs => inr (fst r :: fst rs, snd rs)))
    end.
  (** the DUTs with their items [for result_analysis.py L810-873] *)
  Fixpoint duts_of (pixels : list ((V * V) * bool)) (res inp : list item) : list dut :=
    match pixels, res, inp with
    | p :: pixels, r :: res, i :: inp => Dut (fst p) (snd p) r i :: duts_of pixels res inp
    | _, _, _ => []
    end.
  (** result_analysis.py L630-666 and L810-873: [pixels]: for each selected DUT the pixel size and whether it has regions *)
  Definition efficiency_arguments (pixels : list ((V * V) * bool)) (h : heap) (a_res a_inp : argument) : error + (list ((V * V) * option (V * V)) * heap) :=
    bind (check_pairs (length pixels) h a_res) (fun res =>
    bind (check_pairs (length pixels) h a_inp) (fun inp => use_duts h (duts_of pixels res inp))).
End Numbers.

(** Names of the regions: [regions]: for each DUT None or the number of regions; [names]: for each DUT None or a list of names, which may be None.
    result_analysis.py L764-769 *)
Fixpoint expand_names {N} (names : list (option (list (option N)))) (regions : list (option nat)) : error + list (option (list (option N))) :=
  match names, regions with
  | n :: names, r :: regions =>
      bind (match r with
            | Some (S k) =>
                let n' := match n with None => repeat None (S k) | Some l => l end in
                if length n' =? S k then inr (Some n') else inl ValueErr
            | _ => inr n
            end) (fun n' => bind (expand_names names regions) (fun rest => inr (n' :: rest)))
  | _, _ => inr names
  end.
(** result_analysis.py L753-769 *)
Definition check_names {N} (n : nat) (names : option (list (option (list (option N))))) (regions : list (option nat)) : error + list (option (list (option N))) :=
  let names := match names with None => repeat None n | Some l => l end in
  bind (guard (negb (length names =? 0)) ValueErr) (fun _ =>
  bind (guard (length names =? n) ValueErr) (fun _ => expand_names names regions)).
