(** Model of the compiled event array helpers.
    Sources: beam_telescope_analysis/cpp/AnalysisFunctions.h,
             beam_telescope_analysis/cpp/analysis_functions.pyx,
             beam_telescope_analysis/tools/analysis_utils.py *)
From Coq Require Import ZArith List Bool.
Import ListNotations.
Open Scope Z_scope.

(** Result of a call: value, read/write outside of an array (undefined behaviour
    in the C++ code), C++ exception / python exception, or loop fuel exhausted
    (never happens, shown by the theorems). [for AnalysisFunctions.h L29-34] *)
Inductive outcome (A : Type) : Type :=
| Ok (a : A)
| OutOfBounds
| Raised
| OutOfFuel.
Arguments Ok {A} a.
Arguments OutOfBounds {A}.
Arguments Raised {A}.
Arguments OutOfFuel {A}.

(** AnalysisFunctions.h L29-34 (and L134-139): inner loop
    [for j = tActualIndex; j < n2; ++j: if arr2[j] >= ev: tActualIndex = j; break].
    An index into the second array is represented by the suffix of the array that
    starts at this index (the indices only move forward).  If no element is found
    the index is unchanged. *)
Fixpoint scan_ge (ev : Z) (l : list Z) : option (list Z) :=
  match l with
  | [] => None
  | x :: r => if ev <=? x then Some l else scan_ge ev r
  end.

(** AnalysisFunctions.h L29-34 *)
Definition move_cursor (ev : Z) (cur : list Z) : list Z :=
  match scan_ge ev cur with Some c => c | None => cur end.

(** AnalysisFunctions.h L25-39: getEventsInBothArrays, loop over the first array.
    [actual] is tActualEventNumber, [cur] the suffix at tActualIndex.  Reading
    arr2[tActualIndex] from an empty array is OutOfBounds. *)
Fixpoint events_in_both_loop (actual : Z) (cur : list Z) (arr1 : list Z)
  : outcome (list Z) :=
  match arr1 with
  | [] => Ok []
  | ev :: rest =>
      if ev =? actual then events_in_both_loop actual cur rest
      else
        let cur' := move_cursor ev cur in
        match cur' with
        | [] => OutOfBounds
        | y :: _ =>
            match events_in_both_loop ev cur' rest with
            | Ok r => Ok (if y =? ev then ev :: r else r)
            | e => e
            end
        end
  end.

(** AnalysisFunctions.h L20-41 with the wrapper analysis_utils.py L299-308.
    The result buffer has the size of the first array (np.empty_like). *)
Definition get_events_in_both_arrays (arr1 arr2 : list Z) : outcome (list Z) :=
  events_in_both_loop (-1) arr2 arr1.

(** AnalysisFunctions.h L132-144: in1d_sorted, main loop. *)
Fixpoint in1d_loop (cur : list Z) (arr1 : list Z) : outcome (list bool) :=
  match arr1 with
  | [] => Ok []
  | ev :: rest =>
      let cur' := move_cursor ev cur in
      match cur' with
      | [] => OutOfBounds
      | y :: _ =>
          match in1d_loop cur' rest with
          | Ok r => Ok ((y =? ev) :: r)
          | e => e
          end
      end
  end.

(** AnalysisFunctions.h L127-145, analysis_functions.pyx L39-41,
    analysis_utils.py L187-195.  [rSelection[0] = true] (L129) writes outside of
    the buffer if the first array is empty. *)
Definition in1d_events (arr1 arr2 : list Z) : outcome (list bool) :=
  match arr1 with
  | [] => OutOfBounds
  | _ => in1d_loop arr2 arr1
  end.

(** AnalysisFunctions.h L62-68 / L73-79: count the entries equal to [v] starting
    at the cursor; returns the occurrence and the advanced cursor. *)
Fixpoint count_run (v : Z) (cur : list Z) : nat * list Z :=
  match cur with
  | [] => (O, [])
  | x :: r =>
      if x =? v then let (n, c) := count_run v r in (S n, c) else (O, cur)
  end.

(** State of the while loop of getMaxEventsInBothArrays. [mx_res] is the reversed
    list of written results. [for AnalysisFunctions.h L87-92, L97-102, L107-112] *)
Record max_state := MaxState {
  mx_cur1 : list Z;   (* suffix of array one at index i *)
  mx_cur2 : list Z;   (* suffix of array two at index j *)
  mx_ev1 : Z;         (* tFirstActualEventNumber *)
  mx_ev2 : Z;         (* tSecondActualEventNumber *)
  mx_fin1 : bool;     (* first_finished *)
  mx_fin2 : bool;     (* second_finished *)
  mx_res : list Z
}.

(** AnalysisFunctions.h L87-92, L97-102, L107-112: write [n] times [v]; throws
    out_of_range if the buffer of size [size] is full. *)
Fixpoint push_n (size : nat) (n : nat) (v : Z) (res : list Z) : option (list Z) :=
  match n with
  | O => Some res
  | S n' => if Nat.ltb (length res) size then push_n size n' v (v :: res) else None
  end.

(** AnalysisFunctions.h L60-120: body of the while loop. *)
Definition max_step (last1 last2 : Z) (size : nat) (s : max_state) : option max_state :=
  let (occ1, cur1) :=
    if (mx_ev1 s <=? mx_ev2 s) || mx_fin2 s
    then count_run (mx_ev1 s) (mx_cur1 s) else (O, mx_cur1 s) in
  let (occ2, cur2) :=
    if (mx_ev2 s <=? mx_ev1 s) || mx_fin1 s
    then count_run (mx_ev2 s) (mx_cur2 s) else (O, mx_cur2 s) in
  let ev1' := match cur1 with x :: _ => x | [] => mx_ev1 s end in
  let ev2' := match cur2 with x :: _ => x | [] => mx_ev2 s end in
  if mx_ev1 s =? mx_ev2 s then
    let fin1 := if mx_ev1 s =? last1 then true else mx_fin1 s in
    let fin2 := if mx_ev2 s =? last2 then true else mx_fin2 s in
    match push_n size (Nat.max occ1 occ2) (mx_ev1 s) (mx_res s) with
    | Some res => Some (MaxState cur1 cur2 ev1' ev2' fin1 fin2 res)
    | None => None
    end
  else if (negb (mx_fin1 s) && (mx_ev1 s <? mx_ev2 s)) || mx_fin2 s then
    let fin1 := if mx_ev1 s =? last1 then true else mx_fin1 s in
    match push_n size occ1 (mx_ev1 s) (mx_res s) with
    | Some res => Some (MaxState cur1 cur2 ev1' ev2' fin1 (mx_fin2 s) res)
    | None => None
    end
  else if (negb (mx_fin2 s) && (mx_ev2 s <? mx_ev1 s)) || mx_fin1 s then
    let fin2 := if mx_ev2 s =? last2 then true else mx_fin2 s in
    match push_n size occ2 (mx_ev2 s) (mx_res s) with
    | Some res => Some (MaxState cur1 cur2 ev1' ev2' (mx_fin1 s) fin2 res)
    | None => None
    end
  else Some (MaxState cur1 cur2 ev1' ev2' (mx_fin1 s) (mx_fin2 s) (mx_res s)).

(** AnalysisFunctions.h L59-121: the while loop. *)
Fixpoint max_loop (fuel : nat) (last1 last2 : Z) (size : nat) (s : max_state)
  : outcome (list Z) :=
  if mx_fin1 s && mx_fin2 s then Ok (rev (mx_res s))
  else match fuel with
       | O => OutOfFuel
       | S f =>
           match max_step last1 last2 size s with
           | Some s' => max_loop f last1 last2 size s'
           | None => Raised
           end
       end.

(** AnalysisFunctions.h L44-124 with the wrapper analysis_utils.py L249-258
    (result buffer of size n1 + n2).  L46-49 read the first and last elements. *)
Definition get_max_events_in_both_arrays (arr1 arr2 : list Z) : outcome (list Z) :=
  match arr1, arr2 with
  | e1 :: _, e2 :: _ =>
      max_loop (length arr1 + length arr2) (last arr1 0) (last arr2 0)
               (length arr1 + length arr2)
               (MaxState arr1 arr2 e1 e2 false false [])
  | _, _ => OutOfBounds
  end.

(** ** Event-wise merging, analysis_utils.py L31-91 and L261-296.
    Rows are of an arbitrary type with an event number. *)
Section Rows.
  Context {A B : Type}.
  Variable evA : A -> Z.
  Variable evB : B -> Z.

  (** analysis_utils.py L60-61, L79-80 (catch up), L287-288. *)
  Fixpoint drop_lt (e : Z) (l : list B) : list B :=
    match l with
    | [] => []
    | b :: r => if evB b <? e then drop_lt e r else l
    end.

  (** analysis_utils.py L63-67 / L82-89: entries from the cursor on as long as the
      event number is equal. *)
  Fixpoint take_eq (e : Z) (l : list B) : list B :=
    match l with
    | [] => []
    | b :: r => if e =? evB b then b :: take_eq e r else []
    end.

  (** analysis_utils.py L54-67: size of the result arrays. *)
  Fixpoint merge_size (d1 : list A) (cur : list B) : nat :=
    match d1 with
    | [] => O
    | a :: r =>
        let cur' := drop_lt (evA a) cur in
        (length (take_eq (evA a) cur') + merge_size r cur')%nat
    end.

  (** analysis_utils.py L73-89: entries written to result_1/result_2. *)
  Fixpoint merge_fill (d1 : list A) (cur : list B) : list (A * B) :=
    match d1 with
    | [] => []
    | a :: r =>
        let cur' := drop_lt (evA a) cur in
        map (fun b => (a, b)) (take_eq (evA a) cur') ++ merge_fill r cur'
    end.

  (** analysis_utils.py L69-71, L91: arrays of the calculated size (np.zeros) into
      which the entries are written one after the other. *)
  Definition merge_on_event_number (zA : A) (zB : B) (d1 : list A) (d2 : list B)
    : outcome (list A * list B) :=
    let size := merge_size d1 d2 in
    let entries := merge_fill d1 d2 in
    if Nat.leb (length entries) size then
      Ok (map fst entries ++ repeat zA (size - length entries),
          map snd entries ++ repeat zB (size - length entries))
    else OutOfBounds.

  (** analysis_utils.py L285-296: map_cluster. [events] and [mapped] have the same
      length; [cur] is the suffix of clusters at index j.  The result is the
      modified array mapped_clusters. *)
  Fixpoint map_cluster (events : list Z) (cur : list B) (mapped : list B) : list B :=
    match events, mapped with
    | e :: es, m :: ms =>
        match drop_lt e cur with
        | [] => mapped
        | b :: r =>
            if evB b =? e then b :: map_cluster es r ms
            else m :: map_cluster es (b :: r) ms
        end
    | _, _ => mapped
    end.
End Rows.
