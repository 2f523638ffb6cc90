(** Model of the argument select_extrapolation_duts of find_tracks: track_analysis.py L62-80, L204, L280-287.
    Simplifications: the entries of the list are integers; the compiled function is that of FindTracksModel; other exceptions are not modelled. *)
From Coq Require Import ZArith List Bool Arith.
From Verif Require Import FindTracksModel.
Import ListNotations.
Local Open Scope nat_scope.

(** select_extrapolation_duts: None, a list or tuple, or anything else [for track_analysis.py L69-75] *)
Inductive selection := NotGiven | Sequence (l : list Z) | OtherType.
(** set(select_extrapolation_duts) - set(range(n_duts)) is empty [for track_analysis.py L72] *)
Definition known_duts (n_duts : nat) (l : list Z) : bool := forallb (fun d => (0 <=? d)%Z && (d <? Z.of_nat n_duts)%Z) l.
(** track_analysis.py L69-75; None: ValueError *)
Definition extrapolation_duts (n_duts : nat) (s : selection) : option (list nat) :=
  match s with
  | NotGiven => Some (seq 0 n_duts)
  | Sequence l => if known_duts n_duts l then Some (map Z.to_nat l) else None
  | OtherType => None
  end.
(** numba's typed List: its type is that of the first appended entry; without entry it has no type [for track_analysis.py L78-80] *)
Inductive typed_list := Untyped | Typed (l : list nat).
(** track_analysis.py L78-80 *)
Definition typed (l : list nat) : typed_list := match l with [] => Untyped | _ => Typed l end.
(** result of a chunk: exceptions or the arrays *)
Inductive chunk_result (A : Type) := InvalidArgument | UntypedList | Found (a : A).
Arguments InvalidArgument {A}.
Arguments UntypedList {A}.
Arguments Found {A} a.

Section FindChunk.
  Variable F : Type.
  Variable isnan : F -> bool.
  Variables fadd fsub fmul fdiv : F -> F -> F.
  Variables fneg fsqrt : F -> F.
  Variable nonneg : F -> bool.
  Variable flt : F -> F -> bool.
  (** track_analysis.py L69-80, L280-287: the tracks of a chunk; a list without type as argument of a compiled function is a TypeError ("invalid operation on untyped list") *)
  Definition find_chunk (n_rows : nat) (events : nat -> Z) (zs : list nat) (s : selection) (translation normal : nat -> nat -> F) (a : arrays F) : chunk_result (option (arrays F)) :=
    match extrapolation_duts (length zs) s with
    | None => InvalidArgument
    | Some l => match typed l with Untyped => UntypedList | Typed l => Found (find_tracks_loop F isnan fadd fsub fmul fdiv fneg fsqrt nonneg flt n_rows events zs l translation normal a) end
    end.
End FindChunk.
