(** Model of the arguments of data_selection.select_tracks: tools/data_selection.py L234-349, the masks used for each DUT (L358-377) and the creation of the output tables (L379-386).
    Simplifications: DUTs are natural numbers; iterables are lists and tuples; numbers of other types than int are not considered; only the class of an error is kept. *)
From Coq Require Import String List Arith Bool.
From Verif Require Import SelectionModel FitArgsModel.
Import ListNotations.
Local Open Scope list_scope.

(** tools/data_selection.py L234-386 *)
Inductive select_error := SelectValueErr | SelectTypeErr | SelectNodeErr.
(** tools/data_selection.py L234-386 *)
Definition sbind {A B} (r : select_error + A) (f : A -> select_error + B) : select_error + B := match r with inl e => inl e | inr a => f a end.
(** tools/data_selection.py L234-386 *)
Definition sguard (ok : bool) (e : select_error) : select_error + unit := if ok then inr tt else inl e.

(** tools/data_selection.py L234-242 *)
Definition check_duts (s : FitArgsModel.selection) : select_error + list nat :=
  match s with
  | SNone | SNumber _ => inl SelectValueErr
  | SIter _ items =>
      sbind (sguard (negb (length items =? 0)) SelectValueErr) (fun _ =>
      sbind (sguard (forallb is_leaf items) SelectValueErr) (fun _ => inr (map leaf_dut items)))
  end.
(** tools/data_selection.py L244-260, and in the same way L262-278, L284-300, L302-318, L320-336; None as item stays None *)
Definition check_selection (n : nat) (s : FitArgsModel.selection) : select_error + list (option (list nat)) :=
  sbind (match s with
         | SNone => inr (repeat (Items []) n)
         | SNumber _ => inl SelectValueErr
         | SIter _ items => inr items
         end) (fun items =>
  sbind (sguard (negb (length items =? 0)) SelectValueErr) (fun _ =>
  let items := if forallb is_leaf items then repeat (Items (map leaf_dut items)) n else items in
  sbind (sguard (forallb (fun i => is_iterable i || is_none i) items) SelectValueErr) (fun _ =>
  sbind (sguard (length items =? n) SelectValueErr) (fun _ =>
  inr (map (fun i => match i with Items l => Some l | _ => None end) items))))).
(** set(item) & set(select_hit_duts[index]) [for tools/data_selection.py L279-282] *)
Definition disjoint (a b : list nat) : bool := forallb (fun d => negb (existsb (Nat.eqb d) b)) a.
(** tools/data_selection.py L279-282 *)
Fixpoint check_disjoint (hits no_hits : list (option (list nat))) : bool :=
  match hits, no_hits with
  | h :: hits, n :: no_hits => match h, n with Some a, Some b => disjoint b a | _, _ => true end && check_disjoint hits no_hits
  | _, _ => true
  end.
(** the query: None, a string or a list of strings (None: an item that is not a string) [for tools/data_selection.py L338-349] *)
Inductive query_argument := QNone | QString (q : string) | QList (l : list (option string)).
(** tools/data_selection.py L338-349 *)
Definition check_query (n : nat) (q : query_argument) : select_error + list string :=
  let l := match q with QNone => repeat (Some ""%string) n | QString q => repeat (Some q) n | QList l => l end in
  sbind (sguard (forallb (fun q => match q with Some _ => true | None => false end) l) SelectValueErr) (fun _ =>
  sbind (sguard (length l =? n) SelectValueErr) (fun _ => inr (map (fun q => match q with Some q => q | None => ""%string end) l))).

(** the arguments *)
Record select_arguments := SelectArguments {
  s_duts : FitArgsModel.selection; s_hit : FitArgsModel.selection; s_no_hit : FitArgsModel.selection; s_quality : FitArgsModel.selection;
  s_iso_track : FitArgsModel.selection; s_iso_hit : FitArgsModel.selection; s_query : query_argument
}.
(** the selection of the DUT with index k: None is no selection.  tools/data_selection.py L358-377 *)
Definition duts_at (l : list (option (list nat))) (k : nat) : list nat := match nth k l None with Some d => d | None => [] end.
(** one step for each selected DUT: the DUT, the selection and the query [for tools/data_selection.py L353-377] *)
Definition select_step : Type := nat * SelectionModel.selection * string.
(** tools/data_selection.py L353-377 *)
Definition steps_of (duts : list nat) (hit no_hit quality iso_track iso_hit : list (option (list nat))) (query : list string) : list select_step :=
  map (fun k => (nth k duts 0, SelectionModel.Selection (duts_at hit k) (duts_at no_hit k) (duts_at quality k) (duts_at iso_track k) (duts_at iso_hit k), nth k query ""%string))
      (seq 0 (length duts)).
(** tools/data_selection.py L234-377 *)
Definition check_select (a : select_arguments) : select_error + list select_step :=
  sbind (check_duts (s_duts a)) (fun duts =>
  let n := length duts in
  sbind (check_selection n (s_hit a)) (fun hit =>
  sbind (check_selection n (s_no_hit a)) (fun no_hit =>
  sbind (sguard (check_disjoint hit no_hit) SelectValueErr) (fun _ =>
  sbind (check_selection n (s_quality a)) (fun quality =>
  sbind (check_selection n (s_iso_track a)) (fun iso_track =>
  sbind (check_selection n (s_iso_hit a)) (fun iso_hit =>
  sbind (check_query n (s_query a)) (fun query => inr (steps_of duts hit no_hit quality iso_track iso_hit query))))))))).
(** tools/data_selection.py L379-386: a table with the name of an existing one cannot be created *)
Fixpoint create_tables (steps : list select_step) (existing : list nat) : select_error + unit :=
  match steps with
  | [] => inr tt
  | s :: steps => let d := fst (fst s) in if existsb (Nat.eqb d) existing then inl SelectNodeErr else create_tables steps (d :: existing)
  end.
(** tools/data_selection.py L234-386 *)
Definition select_tracks_steps (a : select_arguments) : select_error + list select_step :=
  sbind (check_select a) (fun steps => sbind (create_tables steps []) (fun _ => inr steps)).
