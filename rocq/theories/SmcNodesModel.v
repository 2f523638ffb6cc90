(** Model of the nodes of the input and output file of the split-map-combine class: choice of the input table, names of the output nodes, temporary nodes,
    files which are input and output at the same time.  The order of the results is the subject of SmcModel (C15-C17).
    Simplifications: a file is the list of the tables and arrays in its root group; the output file exists if mode is 'r+'; func does not raise; an exception of the writer thread
    (after which the caller waits for ever or returns without result, C17) is [WriterDied]; other items of the node description (title, filters) are left out. *)
From Coq Require Import ZArith Bool Arith Ascii String List.
From Verif Require Import SmcModel.
Import ListNotations.
Local Open Scope string_scope.

Section Nodes.
  Context {A : Type}.
  (** a table with its rows, or an array [for tools/smc.py L110-146] *)
  Inductive node := TableNode (rows : list A) | ArrayNode (values : list Z).
  (** the nodes of a file with their names [for tools/smc.py L110-146] *)
  Definition file : Type := list (string * node).
  (** get_node [for tools/smc.py L120, L129 and L178] *)
  Fixpoint lookup (n : string) (f : file) : option node :=
    match f with [] => None | (m, x) :: f => if String.eqb n m then Some x else lookup n f end.
  (** remove_node; a node which does not exist is ignored [for tools/smc.py L304 and L314] *)
  Definition remove (n : string) (f : file) : file := filter (fun p => negb (String.eqb n (fst p))) f.
  (** rename_node [for tools/smc.py L309] *)
  Definition rename (n m : string) (f : file) : file := map (fun p => if String.eqb n (fst p) then (m, snd p) else p) f.
  (** Table.append [for tools/smc.py L288] *)
  Definition append_rows (n : string) (r : list A) (f : file) : file :=
    map (fun p => if String.eqb n (fst p) then (fst p, match snd p with TableNode rows => TableNode (rows ++ r)%list | x => x end) else p) f.

  (** the parameter table: None, a list of names or a name [for tools/smc.py L111-133] *)
  Inductive table_arg := AnyTable | FirstOf (names : list string) | Named (name : string).
  (** list_nodes(classname='Table') [for tools/smc.py L112] *)
  Definition is_table (p : string * node) : bool := match snd p with TableNode _ => true | ArrayNode _ => false end.
  (** a node with this name exists [for tools/smc.py L120 and L129] *)
  Definition exists_node (f : file) (n : string) : bool := match lookup n f with Some _ => true | None => false end.
  (** tools/smc.py L110-133: [None] is a RuntimeError *)
  Definition select_node (f : file) (t : table_arg) : option string :=
    match t with
    | AnyTable => match filter is_table f with [(n, _)] => Some n | _ => None end
    | FirstOf names => find (exists_node f) names
    | Named n => if exists_node f n then Some n else None
    end.
  (** tools/smc.py L140-146: names in the node descriptions, [None] is a ValueError *)
  Fixpoint set_names (several : bool) (input : string) (descs : list (option string)) : option (list string) :=
    match descs with
    | [] => Some []
    | d :: descs =>
        match d, set_names several input descs with
        | Some n, Some l => Some (n :: l)
        | None, Some l => if several then None else Some (input :: l)
        | _, None => None
        end
    end.

  (** one item of the result of func: rows (recarray) or a one-dimensional histogram [for tools/smc.py L253-262] *)
  Inductive item := Rows (r : list A) | Hist (h : list Z).
  (** out_tables[i] or hists[i] [for tools/smc.py L234-237] *)
  Inductive slot := SlotTable | SlotHist (h : list Z).

  (** tools/smc.py L274 *)
  Definition tmp (n : string) : string := n ++ "_tmp".
  (** tools/smc.py L304 and L309: [:-4] *)
  Definition without_suffix (n : string) : string := substring 0 (String.length n - 4) n.
  (** tools/smc.py L265-284: [None] is the NodeError of create_table for an existing name *)
  Fixpoint create (names : list string) (first : list item) (f : file) : option (file * list slot) :=
    match names, first with
    | n :: names, Rows _ :: first =>
        if exists_node f (tmp n) then None
        else match create names first (f ++ [(tmp n, TableNode [])])%list with Some (f, s) => Some (f, SlotTable :: s) | None => None end
    | _ :: names, Hist h :: first =>
        match create names first f with Some (f, s) => Some (f, SlotHist (repeat 0%Z (List.length h)) :: s) | None => None end
    | _, _ => Some (f, [])
    end.
  (** tools/smc.py L286-297 *)
  Fixpoint add_result (names : list string) (s : list slot) (r : list item) (f : file) : file * list slot :=
    match names, s, r with
    | n :: names, SlotTable :: s, Rows x :: r => let (f, s) := add_result names s r (append_rows (tmp n) x f) in (f, SlotTable :: s)
    | _ :: names, SlotHist h :: s, Hist x :: r => let (f, s) := add_result names s r f in (f, SlotHist (combine_hist h x) :: s)
    | _, _, _ => (f, s)
    end.
  (** the loop over the results [for tools/smc.py L238-297] *)
  Definition add_results (names : list string) (results : list (list item)) (x : file * list slot) : file * list slot :=
    fold_left (fun x r => add_result names (snd x) r (fst x)) results x.
  (** tools/smc.py L299-322 *)
  Fixpoint finish (names : list string) (s : list slot) (f : file) : file :=
    match names, s with
    | n :: names, SlotTable :: s => finish names s (rename (tmp n) (without_suffix (tmp n)) (remove (without_suffix (tmp n)) f))
    | n :: names, SlotHist h :: s => finish names s (remove n f ++ [(n, ArrayNode h)])%list
    | _, _ => f
    end.
  (** tools/smc.py L274: the names in the dictionaries of the caller after the run *)
  Fixpoint names_after (names : list string) (s : list slot) : list string :=
    match names, s with
    | n :: names, SlotTable :: s => tmp n :: names_after names s
    | n :: names, SlotHist _ :: s => n :: names_after names s
    | names, _ => names
    end.
  (** tools/smc.py L258-262 and L286-297: number of items, and the kinds (table or histogram) of the first chunk *)
  Definition same_kind (a b : item) : bool := match a, b with Rows _, Rows _ | Hist _, Hist _ => true | _, _ => false end.
  (** tools/smc.py L258-262 and L286-297 *)
  Fixpoint consistent (first r : list item) : bool :=
    match first, r with [], [] => true | a :: first, b :: r => same_kind a b && consistent first r | _, _ => false end.
  (** tools/smc.py L225-327: the writer with the results of all chunks; without chunk res_data has no value (L301) *)
  Definition write (names : list string) (results : list (list item)) (f : file) : option (file * list string) :=
    match results with
    | [] => None
    | first :: _ =>
        if (List.length first =? List.length names)%nat && forallb (consistent first) results then
          match create names first f with
          | None => None
          | Some x => let (f, s) := add_results names results x in Some (finish names s f, names_after names s)
          end
        else None
    end.

  (** tools/smc.py L238-297 and L323-327: force_stop after these results, the file is closed without the last step (L299) *)
  Definition interrupted (names : list string) (results : list (list item)) (f : file) : option file :=
    match results with
    | [] => Some f
    | first :: _ =>
        if (List.length first =? List.length names)%nat && forallb (consistent first) results then
          match create names first f with None => None | Some x => Some (fst (add_results names results x)) end
        else None
    end.

  (** mode of the output file [for tools/smc.py L229] *)
  Inductive mode := ModeW | ModeUpdate.
  (** tb.open_file [for tools/smc.py L229] *)
  Definition open_file (m : mode) (f : file) : file := match m with ModeW => [] | ModeUpdate => f end.
  (** [Refused]: the constructor raises an exception; [Stopped]: the reader stops the run without exception for the caller (L176-181); [Done]: the output file and the names
      in the node descriptions afterwards [for tools/smc.py L165-327] *)
  Inductive outcome := Refused | Stopped (output : file) | WriterDied | Done (output : file) (names : list string).
  (** tools/smc.py L39-327; [same]: input and output file are the same, then [infile] = [outfile] *)
  Definition smc (same : bool) (m : mode) (infile outfile : file) (t : table_arg) (descs : list (option string))
      (chunks : list A -> list (list A)) (func : list A -> list item) : outcome :=
    match select_node infile t with
    | None => Refused
    | Some n =>
        match set_names (negb (List.length descs =? 1)%nat) n descs with
        | None => Refused
        | Some names =>
            let f := open_file m outfile in
            match lookup n (if same then f else infile) with
            | Some (TableNode rows) => match write names (map func (chunks rows)) f with Some (f, l) => Done f l | None => WriterDied end
            | _ => Stopped f
            end
        end
    end.
End Nodes.
Arguments node A : clear implicits.
Arguments file A : clear implicits.
Arguments item A : clear implicits.
Arguments outcome A : clear implicits.
