(** Model of the wrappers hit_analysis.convert (L59-83), check (L208-244), mask (L463-517) and cluster (L703-778), which call the
    function for one DUT for each selected DUT: the DUT is given as its index in the telescope. *)
From Coq Require Import List Bool Arith.
Import ListNotations.

(** hit_analysis.py L63-66, L212-215, L467-470, L707-710 *)
Inductive wrapper_error := InvalidSelection | WrongLength | IndexError.

(** hit_analysis.py L63-66, L212-215, L467-470, L707-710.  max of an empty list is a ValueError; negative values are not representable here *)
Definition check_selection (n_duts : nat) (select_duts : list nat) : bool :=
  match select_duts with [] => false | _ => negb (n_duts <? list_max select_duts) end.
(** hit_analysis.py L69, L218, L473, L713 *)
Definition selected_telescope_duts (n_duts : nat) (select_duts : list nat) : list nat :=
  filter (fun i => existsb (Nat.eqb i) select_duts) (seq 0 n_duts).
(** A parameter that is a list with one entry per DUT, or a value for all DUTs (hit_analysis.py L224-233, L478-502, L720-759) *)
Inductive setting (A : Type) := PerDut (values : list A) | ForAll (value : A).
Arguments PerDut {A}. Arguments ForAll {A}.
(** hit_analysis.py L224-233, L478-502, L720-759 *)
Definition expand {A} (n : nat) (s : setting A) : option (list A) :=
  match s with
  | PerDut l => if length l =? n then Some l else None
  | ForAll v => Some (repeat v n)
  end.
(** hit_analysis.py L75-82, L234-243, L504-516, L761-777: the loop; entry i of the files and of each parameter for the i-th selected DUT *)
Fixpoint calls_from {A B} (i : nat) (duts : list nat) (files : list A) (values : list B) : option (list (nat * A * B)) :=
  match duts with
  | [] => Some []
  | d :: duts =>
      match nth_error files i, nth_error values i, calls_from (S i) duts files values with
      | Some f, Some v, Some l => Some ((d, f, v) :: l)
      | _, _, _ => None
      end
  end.
(** One parameter stands for all; the names of the output files are checked in the same way [for hit_analysis.py L75-82, L234-243, L504-516, L761-777] *)
Definition wrapper {A B} (n_duts : nat) (select_duts : option (list nat)) (input_files : list A) (s : setting B) : wrapper_error + list (nat * A * B) :=
  let select_duts := match select_duts with Some l => l | None => seq 0 n_duts end in
  if negb (check_selection n_duts select_duts) then inl InvalidSelection
  else if negb (length select_duts =? length input_files) then inl WrongLength
  else
    match expand (length select_duts) s with
    | None => inl WrongLength
    | Some values =>
        match calls_from 0 (selected_telescope_duts n_duts select_duts) input_files values with
        | Some l => inr l
        | None => inl IndexError
        end
    end.
