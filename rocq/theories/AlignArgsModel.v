(** Model of the arguments and the steps of dut_alignment.align (L528-911) and _duts_alignment (L1181-1318).
    Simplifications: DUTs are natural numbers; items nested deeper than the documented levels and strings are not modelled; only the class of an
    error is kept; the analysis functions called in between are actions which read and write files, see the models of these functions.  The pdf files
    are not modelled. *)
From Coq Require Import Ascii String List Arith Bool.
Import ListNotations.

(** dut_alignment.py L528-911 *)
Inductive error := ValueErr | TypeErr | TypeOrIndexErr.
(** dut_alignment.py L528-911 *)
Definition res (A : Type) : Type := error + A.
(** dut_alignment.py L528-911 *)
Definition bind {A B} (r : res A) (f : A -> res B) : res B := match r with inl e => inl e | inr a => f a end.
(** dut_alignment.py L528-911 *)
Definition guard (ok : bool) (e : error) : res unit := if ok then inr tt else inl e.
(** dut_alignment.py L528-911 *)
Fixpoint map_res {A B} (f : A -> res B) (l : list A) : res (list B) :=
  match l with [] => inr [] | a :: l => bind (f a) (fun b => bind (map_res f l) (fun bs => inr (b :: bs))) end.

(** *** Arguments *)
(** select_duts, select_hit_duts, select_fit_duts: None, not iterable, or an iterable of numbers and iterables [for dut_alignment.py L647-736] *)
Inductive item := Leaf (dut : nat) | Items (duts : list nat).
(** dut_alignment.py L647-736 *)
Inductive selection := SNone | SOther | SIter (items : list item).
(** dut_alignment.py L647-736 *)
Definition is_leaf (i : item) : bool := match i with Leaf _ => true | Items _ => false end.
(** dut_alignment.py L647-736 *)
Definition leaf_dut (i : item) : nat := match i with Leaf d => d | Items _ => 0 end.
(** dut_alignment.py L647-736 *)
Definition item_duts (i : item) : list nat := match i with Leaf _ => [] | Items l => l end.
(** dut_alignment.py L647-664.  The message of L645 is made before the check for None: np.hstack fails for None and for values which are not iterable. *)
Definition check_select_duts (s : selection) : res (list (list nat)) :=
  match s with
  | SNone | SOther => inl TypeErr
  | SIter items =>
      bind (guard (negb (length items =? 0)) ValueErr) (fun _ =>
      let groups := if forallb is_leaf items then [Items (map leaf_dut items)] else items in
      bind (guard (forallb (fun i => negb (is_leaf i)) groups) ValueErr) (fun _ =>
      bind (guard (forallb (fun i => negb (length (item_duts i) =? 0)) groups) ValueErr) (fun _ =>
      inr (map item_duts groups))))
  end.
(** dut_alignment.py L671-686; items of alignment_parameters: None or one entry per DUT, which is None or a list of parameters *)
Section Parameters.
  Variable P : Type.
  (** dut_alignment.py L671-686 *)
  Inductive parameters := PNone | POther | PIter (l : list (option (list (option (list P))))).
  (** dut_alignment.py L671-686 *)
  Definition expand_parameters (a : option (list (option (list P)))) (duts : list nat) : res (list (option (list P))) :=
    match a with
    | None => inr (repeat None (length duts))
    | Some l => bind (guard (length l =? length duts) ValueErr) (fun _ => inr l)
    end.
  (** dut_alignment.py L671-686 *)
  Definition check_parameters (p : parameters) (groups : list (list nat)) : res (list (list (option (list P)))) :=
    match p with
    | PNone => inr (map (fun duts => repeat None (length duts)) groups)
    | POther => inl ValueErr
    | PIter l =>
        bind (guard (negb (length l =? 0)) ValueErr) (fun _ =>
        bind (guard (length l =? length groups) ValueErr) (fun _ => map_res (fun ad => expand_parameters (fst ad) (snd ad)) (combine l groups)))
    end.
End Parameters.
(** dut_alignment.py L688-707 and L712-731, without the default and the checks of the items *)
Definition expand_selection (items : list item) (n_groups : nat) : res (list (list nat)) :=
  bind (guard (negb (length items =? 0)) ValueErr) (fun _ =>
  let items := if forallb is_leaf items then repeat (Items (map leaf_dut items)) n_groups else items in
  bind (guard (forallb (fun i => negb (is_leaf i)) items) ValueErr) (fun _ =>
  bind (guard (length items =? n_groups) ValueErr) (fun _ => inr (map item_duts items)))).
(** dut_alignment.py L688-707 and L712-731 *)
Definition check_hit_duts (s : selection) (groups : list (list nat)) : res (list (list nat)) :=
  bind (match s with SNone => expand_selection (map Items groups) (length groups) | SOther => inl ValueErr | SIter items => expand_selection items (length groups) end) (fun hits =>
  bind (guard (forallb (fun l => negb (length l <? 2)) hits) ValueErr) (fun _ => inr hits)).
(** dut_alignment.py L688-707 and L712-731 *)
Definition mem (d : nat) (l : list nat) : bool := existsb (Nat.eqb d) l.
(** dut_alignment.py L688-707 and L712-731 *)
Definition check_fit_duts (s : selection) (groups hits : list (list nat)) : res (list (list nat)) :=
  bind (match s with SNone => expand_selection (map Items hits) (length groups) | SOther => inl ValueErr | SIter items => expand_selection items (length groups) end) (fun fits =>
  bind (guard (forallb (fun fh => negb (length (fst fh) <? 2) && forallb (fun d => mem d (snd fh)) (fst fh)) (combine fits hits)) ValueErr) (fun _ => inr fits)).
(** dut_alignment.py L738-756: track_chi2 *)
Section Chi2.
  Variable C : Type.
  (** dut_alignment.py L738-756 *)
  Inductive chi2_arg := CScalar (c : C) | CIter (l : list (C + list C)).
  (** dut_alignment.py L738-756 *)
  Definition check_chi2 (a : chi2_arg) (groups : list (list nat)) : res (list (list C)) :=
    let l := match a with CScalar c => repeat (inl c) (length groups) | CIter l => l end in
    bind (guard (length l =? length groups) ValueErr) (fun _ =>
    let l := map (fun cg => match fst cg with inl c => repeat c (length (snd cg)) | inr cs => cs end) (combine l groups) in
    bind (guard (forallb (fun cg => length (fst cg) =? length (snd cg)) (combine l groups)) ValueErr) (fun _ => inr l)).
End Chi2.
(** dut_alignment.py L758-794: cluster_shapes *)
Inductive shapes_item := ShLeaf (shape : nat) | ShNone | ShItems (shapes : list nat).
(** dut_alignment.py L758-794 *)
Inductive shapes_group := GLeaf (shape : nat) | GNone | GItems (l : list shapes_item).
(** dut_alignment.py L758-794 *)
Inductive shapes_arg := ANone | AOther | AIter (l : list shapes_group).
(** dut_alignment.py L758-794 *)
Definition shape_of (s : shapes_item) : nat := match s with ShLeaf n => n | _ => 0 end.
(** dut_alignment.py L758-794 *)
Definition is_shape (s : shapes_item) : bool := match s with ShLeaf _ => true | _ => false end.
(** dut_alignment.py L758-794 *)
Definition group_shape (g : shapes_group) : nat := match g with GLeaf n => n | _ => 0 end.
(** dut_alignment.py L758-794 *)
Definition is_group_shape (g : shapes_group) : bool := match g with GLeaf _ => true | _ => false end.
(** dut_alignment.py L758-794 *)
Definition expand_shapes (g : shapes_group) (duts : list nat) : list shapes_item :=
  match g with
  | GNone => repeat ShNone (length duts)
  | GItems l => if forallb is_shape l then repeat (ShItems (map shape_of l)) (length duts) else l
  | GLeaf _ => []
  end.
(** dut_alignment.py L758-794 *)
Definition check_shapes (a : shapes_arg) (groups : list (list nat)) : res (list (list (option (list nat)))) :=
  match a with
  | AOther => inl ValueErr
  | _ =>
      let l := match a with AIter l => l | _ => repeat GNone (length groups) end in
      let l := if forallb is_group_shape l then repeat (GItems (map (fun g => ShLeaf (group_shape g)) l)) (length groups) else l in
      bind (guard (forallb (fun g => negb (is_group_shape g)) l) ValueErr) (fun _ =>
      bind (guard (length l =? length groups) ValueErr) (fun _ =>
      let l := map (fun gd => expand_shapes (fst gd) (snd gd)) (combine l groups) in
      bind (guard (forallb (fun sd => negb (length (fst sd) =? 0) && forallb (fun s => negb (is_shape s)) (fst sd) && (length (fst sd) =? length (snd sd))) (combine l groups)) ValueErr) (fun _ =>
      inr (map (map (fun s => match s with ShItems l => Some l | _ => None end)) l))))
  end.
(** dut_alignment.py L796-832: quality_distances and isolation_distances *)
Section Distances.
  Variable D : Type.
  (** dut_alignment.py L796-832 *)
  Inductive distance_item := DiNone | DiOther | DiIter (l : list D).
  (** dut_alignment.py L796-832 *)
  Inductive distances := DNone | DTuple (l : list D) | DOther | DList (l : list distance_item).
  (** dut_alignment.py L796-832 *)
  Definition check_distances (a : distances) (n_duts : nat) : res (list (option (list D))) :=
    match a with
    | DOther => inl ValueErr
    | _ =>
        let l := match a with DTuple t => repeat (DiIter t) n_duts | DList l => l | _ => repeat DiNone n_duts end in
        bind (guard (negb (length l =? 0)) ValueErr) (fun _ =>
        bind (guard (length l =? n_duts) ValueErr) (fun _ =>
        bind (guard (forallb (fun i => match i with DiOther => false | _ => true end) l) ValueErr) (fun _ =>
        bind (guard (forallb (fun i => match i with DiIter t => length t =? 2 | _ => true end) l) ValueErr) (fun _ =>
        inr (map (fun i => match i with DiIter t => Some t | _ => None end) l)))))
    end.
End Distances.
(** dut_alignment.py L834-844: max_iterations, max_events *)
Definition check_number {N} (a : N + list N) (groups : list (list nat)) : res (list N) :=
  let l := match a with inl n => repeat n (length groups) | inr l => l end in bind (guard (length l =? length groups) ValueErr) (fun _ => inr l).

(** *** Steps *)
(** files, named by what they contain, the DUTs to align and the iteration [for dut_alignment.py L1181-1318] *)
Inductive file := Merged | Prealigned | Candidates (duts : list nat) (step : nat) | Tracks (duts : list nat) (step : nat) | Selected (duts : list nat) (step : nat)
| Angles (duts : list nat) (step : nat) | Residuals (duts : list nat) (step : nat) | Other (name : string).
(** query of dut_alignment.py L1252: the chi2 cut, " & ", the cluster shapes *)
Inductive token (C : Type) := Chi2Below (c : C) | And | ShapeIn (dut : nat) (shapes : list nat).
Arguments Chi2Below {C}. Arguments And {C}. Arguments ShapeIn {C}.
(** dut_alignment.py L1181-1318 *)
Inductive action (C : Type) :=
| AlignTelescope (duts : list nat)
| FindTracks (input output : file)
| FitTracks (input output : file) (select_duts fit_duts : list nat) (hit_duts : list (list nat))
| SelectTracks (input output : file) (select_duts : list nat) (hit_duts : list (list nat)) (query : list (list (token C)))
| TrackAngles (input output : file)
| ReadAngles (input : file)
| CalculateResiduals (input output : file)
| Transformation (input : file) (select_duts : list nat) (parameters : list (list string))
| Remove (f : file).
Arguments AlignTelescope {C}. Arguments FindTracks {C}. Arguments FitTracks {C}. Arguments SelectTracks {C}. Arguments TrackAngles {C}. Arguments ReadAngles {C}.
Arguments CalculateResiduals {C}. Arguments Transformation {C}. Arguments Remove {C}.
(** dut_alignment.py L26-27 *)
Definition default_alignment_parameters : list string := ["translation_x"; "translation_y"; "translation_z"; "rotation_alpha"; "rotation_beta"; "rotation_gamma"]%string.
(** dut_alignment.py L1307 *)
Definition telescope_alignment_parameters : list string := ["translation_x"; "translation_y"; "rotation_alpha"; "rotation_beta"; "rotation_gamma"]%string.
(** dut_alignment.py L26-27 *)
Definition default_cluster_shapes : list nat := [1; 3; 5; 13; 14; 7; 11; 15].
(** dut_alignment.py L1194-1196: list(set(...) | set(...)); the order of the set is not modelled *)
Definition with_dut (hits : list nat) (d : nat) : list nat := if mem d hits then hits else hits ++ [d].
(** dut_alignment.py L1194-1196 *)
Definition common (a b : list nat) : list nat := filter (fun d => mem d b) a.
Section Steps.
  Variable C D : Type.
  Variable truth : C -> bool.
  (** dut_alignment.py L1181-1198 *)
  Record group_arguments := Group { align_duts : list nat; parameters_of : list (option (list string)); fit_duts : list nat; hit_duts : list nat; chi2_of : list C;
    shapes_of : list (option (list nat)); iterations : nat }.
  (** dut_alignment.py L1249-1252 *)
  Definition actual_shapes (s : option (list nat)) : list nat := match s with None => default_cluster_shapes | Some l => l end.
  (** dut_alignment.py L1249-1252 *)
  Definition query (d : nat) (c : C) (s : list nat) : list (token C) :=
    (if truth c then [Chi2Below c] else []) ++ (if truth c && negb (length s =? 0) then [And] else []) ++ (if length s =? 0 then [] else [ShapeIn d s]).
  (** dut_alignment.py L1249-1252 *)
  Definition queries (g : group_arguments) : list (list (token C)) :=
    map (fun dcs => query (fst dcs) (fst (snd dcs)) (actual_shapes (snd (snd dcs)))) (combine (align_duts g) (combine (chi2_of g) (shapes_of g))).
  (** dut_alignment.py L1307 *)
  Definition selected_parameters (telescope_duts : list nat) (d : nat) (p : option (list string)) : list string :=
    match p with Some l => l | None => if mem d telescope_duts then telescope_alignment_parameters else default_alignment_parameters end.
  (** dut_alignment.py L1198-1206: the items of quality_distances are subscripted; the result is not used *)
  Definition subscript_distances (q : list (option (list D))) : res unit := guard (forallb (fun i => match i with None => false | Some _ => true end) q) TypeOrIndexErr.
  (** one iteration, dut_alignment.py L1187-1314 *)
  Definition iteration (plot : bool) (telescope_duts : list nat) (g : group_arguments) (step : nat) : list (action C) :=
    let a := align_duts g in
    let hits := map (with_dut (hit_duts g)) a in
    (if length (common a telescope_duts) =? 0 then [] else [AlignTelescope (common a telescope_duts)]) ++
    (match step with 0 => [] | S p => (match p with 0 => [] | _ => [Remove (Candidates a p)] end) ++ [FindTracks Merged (Candidates a step)] end) ++
    [FitTracks (match step with 0 => Prealigned | _ => Candidates a step end) (Tracks a step) a (fit_duts g) hits;
     SelectTracks (Tracks a step) (Selected a step) a hits (queries g)] ++
    (if length (common a (fit_duts g)) =? 0 then [] else [TrackAngles (Selected a step) (Angles a step); ReadAngles (Angles a step); Remove (Angles a step)]) ++
    (if plot then [CalculateResiduals (Selected a step) (Residuals a step); Remove (Residuals a step)] else []) ++
    [Transformation (Selected a step) a (map (fun dp => selected_parameters telescope_duts (fst dp) (snd dp)) (combine a (parameters_of g))); Remove (Tracks a step); Remove (Selected a step)].
  (** dut_alignment.py L1181-1318: set(None) raises TypeError in the first iteration *)
  Definition duts_alignment (plot : bool) (telescope_duts : option (list nat)) (quality : list (option (list D))) (g : group_arguments) : res (list (action C)) :=
    match iterations g with
    | 0 => inr []
    | S last =>
        match telescope_duts with
        | None => inl TypeErr
        | Some t =>
            bind (subscript_distances quality) (fun _ =>
            inr (flat_map (iteration plot t g) (seq 0 (iterations g)) ++ match last with 0 => [] | _ => [Remove (Candidates (align_duts g) last)] end))
        end
    end.
  (** dut_alignment.py L866-909; the file of the pre-aligned tracks exists after the first group *)
  Definition all_steps (plot : bool) (telescope_duts : option (list nat)) (quality : list (option (list D))) (groups : list group_arguments) (stale : bool) : res (list (action C)) :=
    bind (map_res (duts_alignment plot telescope_duts quality) groups) (fun actions =>
    inr ((if stale then [Remove Prealigned] else []) ++ match groups with [] => [] | _ => [FindTracks Merged Prealigned] end ++ List.concat actions ++ match groups with [] => [] | _ => [Remove Prealigned] end)).
End Steps.
Arguments align_duts {C}. Arguments parameters_of {C}. Arguments fit_duts {C}. Arguments hit_duts {C}. Arguments chi2_of {C}. Arguments shapes_of {C}. Arguments iterations {C}. Arguments Group {C}.

(** The files before and after an action; None: a file which is read or removed does not exist [for dut_alignment.py L1181-1318] *)
Definition file_eq_dec (a b : file) : {a = b} + {a <> b}.
Proof. decide equality; try apply Nat.eq_dec; try apply string_dec; apply list_eq_dec, Nat.eq_dec. Defined.
(** dut_alignment.py L1181-1318 *)
Definition exists_file (fs : list file) (f : file) : bool := existsb (fun g => if file_eq_dec f g then true else false) fs.
(** dut_alignment.py L1181-1318 *)
Definition write (fs : list file) (f : file) : list file := if exists_file fs f then fs else f :: fs.
(** dut_alignment.py L1181-1318 *)
Definition step {C} (fs : list file) (a : action C) : option (list file) :=
  match a with
  | AlignTelescope _ => Some fs
  | FindTracks i o | FitTracks i o _ _ _ | SelectTracks i o _ _ _ | TrackAngles i o | CalculateResiduals i o => if exists_file fs i then Some (write fs o) else None
  | ReadAngles i | Transformation i _ _ => if exists_file fs i then Some fs else None
  | Remove f => if exists_file fs f then Some (filter (fun g => if file_eq_dec f g then false else true) fs) else None
  end.
(** dut_alignment.py L1181-1318 *)
Fixpoint run {C} (fs : list file) (l : list (action C)) : option (list file) :=
  match l with [] => Some fs | a :: l => match step fs a with None => None | Some fs => run fs l end end.

(** dut_alignment.py L853-863: the output configuration, as a map from the number of a DUT to its description *)
Section Configuration.
  Variable Dut : Type.
  (** dut_alignment.py L853-862 *)
  Definition configuration : Type := nat -> option Dut.
  (** dut_alignment.py L853-862 *)
  Definition set_dut (c : configuration) (d : nat) (v : Dut) : configuration := fun k => if k =? d then Some v else c k.
  (** dut_alignment.py L853-862 *)
  Fixpoint revert (telescope : configuration) (duts : list nat) (existing : configuration) : option configuration :=
    match duts with [] => Some existing | d :: ds => match telescope d with None => None | Some v => revert telescope ds (set_dut existing d v) end end.
  (** dut_alignment.py L853-862 *)
  Definition output_configuration (telescope : configuration) (existing : option configuration) (groups : list (list nat)) : option configuration :=
    match existing with None => Some telescope | Some c => revert telescope (List.concat groups) c end.
End Configuration.
(** dut_alignment.py L846-852: name of the output configuration; [replace]: str.replace, all occurrences *)
Fixpoint starts_with (p s : string) : bool :=
  match p, s with EmptyString, _ => true | String a p, String b s => Ascii.eqb a b && starts_with p s | _, _ => false end.
(** dut_alignment.py L846-852 *)
Fixpoint drop (n : nat) (s : string) : string := match n, s with 0, _ => s | S n, String _ s => drop n s | _, EmptyString => EmptyString end.
(** dut_alignment.py L846-852 *)
Fixpoint replace_from (fuel : nat) (p r s : string) : string :=
  match fuel with
  | 0 => s
  | S fuel => if starts_with p s then append r (replace_from fuel p r (drop (String.length p) s)) else match s with EmptyString => EmptyString | String c s => String c (replace_from fuel p r s) end
  end.
(** dut_alignment.py L846-852 *)
Definition replace (p r s : string) : string := replace_from (S (String.length s)) p r s.
(** dut_alignment.py L846-852 *)
Fixpoint contains (p s : string) : bool := starts_with p s || match s with EmptyString => false | String _ s => contains p s end.
(** dut_alignment.py L846-852; [root]: os.path.splitext(...)[0]; None: ValueError *)
Definition output_name (root : string -> string) (input : string) (output : option string) : option string :=
  match output with
  | None => if contains "prealigned" input then Some (replace "prealigned" "aligned" input) else Some (append (root input) "_aligned.yaml")
  | Some o => if String.eqb o input then None else Some o
  end.
