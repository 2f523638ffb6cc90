(** Model of the file of align_kalman (dut_alignment.py L1398-1452, L1454-1586) and of the pages made from it (tools/plot_utils.py plot_kf_alignment, L2685-2832, called at dut_alignment.py L1660-1662).
    Simplifications: real numbers, nan is None; the state of the alignment of a DUT, its update (LinAlgError: None; modelled in AlignKalmanModel), the fit of a track and the alignment which belongs
    to a state (ValueError: None) are any functions; all limits deviation_cuts are 0.05 (L1469), therefore the test of L2039 is left out; only the tracks with the required hits are given (L1476);
    the bins of the histograms and texts are not modelled. *)
From Coq Require Import List Arith Reals Bool.
Import ListNotations.
Local Open Scope list_scope.

(** kfa_alignment_descr [for dut_alignment.py L28-46] *)
Record row := Row { r_place : list R; r_error : list (option R); r_delta : list (option R); r_factor : R }.
(** the nodes of the file: Alignment_DUT%i with the attribute n_tracks_processed, TrackChi2, TrackpValue [for dut_alignment.py L1404-1451] *)
Record file := File { f_tables : list (list row); f_processed : list nat; f_chi2 : list R; f_pvalue : list R }.
(** what is kept for a track: the rows of all DUTs, chi2 and p-value [for dut_alignment.py L1481-1483] *)
Record entry := Entry { e_rows : list row; e_chi2 : R; e_pvalue : R }.
(** alignment_values[dut_index] [for dut_alignment.py L1419] *)
Definition of_dut (d : nat) (es : list entry) : list row := flat_map (fun e => match nth_error (e_rows e) d with Some r => [r] | None => [] end) es.
(** dut_alignment.py L1398-1452 for n DUTs; None: the nodes do not exist *)
Definition store (n : nat) (old : option file) (es : list entry) (processed : list nat) : file :=
  let old := match old with Some f => f | None => File (repeat [] n) [] [] [] end in
  File (map (fun d => nth d (f_tables old) [] ++ of_dut d es) (seq 0 n)) processed (f_chi2 old ++ map e_chi2 es) (f_pvalue old ++ map e_pvalue es).

Section Loop.
  Context {D T F : Type} (par sigma : D -> nat -> option R) (place : nat -> D -> option (list R)) (annealing : nat -> R)
    (fit : list D -> list R -> T -> option (R * R * (nat -> F))) (update : nat -> F -> D -> option D) (track_chi2 : R) (max_tracks : nat).

  (** |a1 - a0| [for dut_alignment.py L2043-2044] *)
  Definition change (s0 s1 : D) (j : nat) : option R := match par s0 j, par s1 j with Some a, Some b => Some (Rabs (b - a)) | _, _ => None end.
  (** dut_alignment.py L2040-2043 *)
  Definition delta (s0 s1 : D) (j : nat) : option R :=
    match sigma s0 j with
    | Some e => if Req_EM_T e 0 then Some 0%R else match change s0 s1 j with Some c => Some (c / e)%R | None => None end
    | None => None
    end.
  (** dut_alignment.py L2044: comparisons with nan are False *)
  Definition exceeds (s0 s1 : D) (j : nat) : bool :=
    match sigma s0 j, change s0 s1 j with Some e, Some c => if Rlt_dec (5 / 100 * e) c then true else false | _, _ => false end.
  (** dut_alignment.py L2037-2046: the deltas which are stored, and filter_track; behind the first parameter with a too large change the deltas stay nan *)
  Fixpoint deltas (s0 s1 : D) (js : list nat) : list (option R) * bool :=
    match js with
    | [] => ([], false)
    | j :: r =>
        if exceeds s0 s1 j then (delta s0 s1 j :: map (fun _ => None) r, true)
        else let (l, f) := deltas s0 s1 r in (delta s0 s1 j :: l, f)
    end.
  (** dut_alignment.py L1498-1530: the values which are stored for a DUT in front of the fit *)
  Definition first_values (i : nat) (s : D) (n : nat) : option row :=
    match place i s with Some p => Some (Row p (map (sigma s) (seq 0 6)) (repeat None 6) (annealing n)) | None => None end.
  (** dut_alignment.py L1489-1530: all DUTs, the first one has index i *)
  Fixpoint all_values (i : nat) (ss : list D) (ns : list nat) : option (list row) :=
    match ss, ns with
    | s :: ss, n :: ns => match first_values i s n, all_values (S i) ss ns with Some r, Some rs => Some (r :: rs) | _, _ => None end
    | _, _ => Some []
    end.
  (** dut_alignment.py L2026-2056: all DUTs, the first one has index i *)
  Fixpoint update_all (i : nat) (g : nat -> F) (ss : list D) (ns : list nat) (rs : list row) : option (list D * list nat * list row) :=
    match ss, ns, rs with
    | s :: ss, n :: ns, r :: rs =>
        match update i (g i) s, update_all (S i) g ss ns rs with
        | Some s1, Some (ss', ns', rs') =>
            let (ds, rejected) := deltas s s1 (seq 0 6) in
            let r' := Row (r_place r) (r_error r) ds (r_factor r) in
            Some (if rejected then (s :: ss', n :: ns', r' :: rs') else (s1 :: ss', S n :: ns', r' :: rs'))
        | _, _ => None
        end
    | _, _, _ => Some ([], [], [])
    end.
  (** dut_alignment.py L1486-1579: one track; the last component tells whether the loop is left (L1572) *)
  Definition one_track (ss : list D) (ns : list nat) (t : T) : option (list D * list nat * entry * bool) :=
    match all_values 0 ss ns with
    | None => None
    | Some rs =>
        match fit ss (map annealing ns) t with
        | None => Some (ss, ns, Entry rs 0 0, false)
        | Some (c, p, g) =>
            if Rlt_dec track_chi2 c then Some (ss, ns, Entry rs c p, false)
            else
              match update_all 0 g ss ns rs with
              | None => None
              | Some (ss', ns', rs') => Some (ss', ns', Entry rs' c p, forallb (fun n => max_tracks <? n) ns')
              end
        end
    end.
  (** dut_alignment.py L1486-1579: the tracks of a chunk *)
  Fixpoint one_chunk (ss : list D) (ns : list nat) (ts : list T) : option (list D * list nat * list entry * bool) :=
    match ts with
    | [] => Some (ss, ns, [], false)
    | t :: ts =>
        match one_track ss ns t with
        | None => None
        | Some (ss', ns', e, true) => Some (ss', ns', [e], true)
        | Some (ss', ns', e, false) => match one_chunk ss' ns' ts with None => None | Some (ss'', ns'', es, b) => Some (ss'', ns'', e :: es, b) end
        end
    end.
  (** dut_alignment.py L1474-1586: all chunks; the file (None: without nodes) and the last state. None: an exception is raised. *)
  Fixpoint alignment_loop (f : option file) (ss : list D) (ns : list nat) (chunks : list (list T)) : option (option file * list D * list nat) :=
    match chunks with
    | [] => Some (f, ss, ns)
    | c :: r =>
        match one_chunk ss ns c with
        | None => None
        | Some (ss', ns', es, b) => let f' := Some (store (length ss) f es ns') in if b then Some (f', ss', ns') else alignment_loop f' ss' ns' r
        end
    end.
End Loop.

(** the pages: what is drawn for DUT d and parameter j [for tools/plot_utils.py L2703-2778], and for all [for tools/plot_utils.py L2784-2832] *)
Inductive page :=
  | Values (d j : nat) (y : list (option R * option R)) | Changes (d j : nat) (y : list (option R)) | Errors (d j : nat) (y : list (option R))
  | DeltaHist (d j : nat) (y : list R) | Deltas (d j : nat) (y : list R) | Factors (d : nat) (y : list R)
  | Chi2Wide (l : list R) | Chi2Narrow (l : list R) | PValues (l : list R) | Processed (l : list nat).
(** nan and numbers *)
Definition minus (a b : option R) : option R := match a, b with Some x, Some y => Some (x - y)%R | _, _ => None end.
(** tools/plot_utils.py L2711, L2716-2717: the deltas without nan *)
Definition numbers (l : list (option R)) : list R := flat_map (fun x => match x with Some y => [y] | None => [] end) l.
(** tools/plot_utils.py L2703-2778: the pages of a DUT and a parameter, and whether an exception is raised: y[0] of an empty table (L2730), y_delta.min() of no number (L2752) *)
Definition pages_of (j d : nat) (t : list row) : list page * bool :=
  let y := map (fun r => nth_error (r_place r) j) t in
  let e := map (fun r => nth j (r_error r) None) t in
  let ds := numbers (map (fun r => nth j (r_delta r) None) t) in
  let p1 := [Values d j (combine y e)] in
  match y with
  | [] => (p1, true)
  | y0 :: _ =>
      let p3 := p1 ++ [Changes d j (map (fun v => minus v y0) y); Errors d j e] in
      match ds with
      | [] => (p3, true)
      | _ => (p3 ++ [DeltaHist d j ds; Deltas d j ds; Factors d (map r_factor t)], false)
      end
  end.
(** one after the other, until an exception is raised *)
Fixpoint all_pages (l : list (list page * bool)) (last : list page) : list page * bool :=
  match l with [] => (last, false) | (p, true) :: _ => (p, true) | (p, false) :: r => let (q, b) := all_pages r last in (p ++ q, b) end.
(** tools/plot_utils.py L2685-2832; without TrackChi2 NoSuchNodeError is raised (L2694) *)
Definition plot_kf_alignment (f : option file) : list page * bool :=
  match f with
  | None => ([], true)
  | Some f =>
      all_pages (flat_map (fun j => map (fun dt => pages_of j (fst dt) (snd dt)) (combine (seq 0 (length (f_tables f))) (f_tables f))) (seq 0 6))
        [Chi2Wide (f_chi2 f); Chi2Narrow (f_chi2 f); PValues (f_pvalue f); Processed (f_processed f)]
  end.
(** dut_alignment.py L1660-1662: the pages are made whatever the argument plot is *)
Definition alignment_pages (plot : bool) (f : option file) : list page * bool := plot_kf_alignment f.
