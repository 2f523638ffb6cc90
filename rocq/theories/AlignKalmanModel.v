(** Model of the Kalman alignment in dut_alignment.py: _calculate_initial_alignment (L1983-2020), _update_alignment_parameters (L2023-2056),
    _calculate_alignment_parameters (L2114-2128) and the loop over the tracks (L1478-1584).
    Simplifications: an arbitrary real closed field instead of doubles; the track fit is an input: for every track either the result of the fit for each DUT,
    or nothing if the fit failed or its chi2 was too large (L1535-1547).  What the fit gives is arbitrary: the theorems hold for whatever it computes from the
    current alignment.  The Jacobian D is an input as well; it is modelled in AlignJacobianModel.  The alignment of a DUT that is nan is None. *)
From mathcomp Require Import all_ssreflect all_algebra.
Set Implicit Arguments.
Unset Strict Implicit.
Unset Printing Implicit Defensive.
Import Order.Theory GRing.Theory Num.Theory.
Local Open Scope ring_scope.

Section Model.
Variable F : rcfType.
Variables k n m : nat.  (* 6 alignment parameters, 4 components of the track state, 2 coordinates of a hit *)

(** The result of a track fit for one DUT; the hit is None where it is nan [for dut_alignment.py L1983-2056] *)
Record dut_fit := DutFit { fH : 'M[F]_(m, n); fV : 'M[F]_m; fC : 'M[F]_n; fp : 'cV[F]_n; fD : 'M[F]_(m, k); fhit : option 'cV[F]_m }.
(** actual_align_state, actual_align_cov and n_tracks_processed of one DUT [for dut_alignment.py L1983-2056] *)
Record dut_state := DutState { change : option 'cV[F]_k; cov : 'M[F]_k; processed : nat }.

(** dut_alignment.py L2114-2128; None: LinAlgError raised by np.linalg.inv.  a - b is nan if a or b is nan *)
Definition calculate_alignment_parameters (f : dut_fit) (a0 : option 'cV[F]_k) (E0 : 'M[F]_k) : option (option 'cV[F]_k * 'M[F]_k) :=
  let S := fV f + fH f *m (fC f *m (fH f)^T) + fD f *m (E0 *m (fD f)^T) in
  if S \in unitmx then
    let W := invmx S in
    Some (match a0, fhit f with
          | Some a, Some hit => Some (a + E0 *m ((fD f)^T *m W) *m (hit - fH f *m fp f))
          | _, _ => None
          end,
          E0 - E0 *m ((fD f)^T *m (W *m (fD f *m E0^T))))
  else None.

(** dut_alignment.py L2038-2047: the comparison with nan is false *)
Definition filter_track (cuts : 'cV[F]_k) (a0 a1 : option 'cV[F]_k) (E0 : 'M[F]_k) : bool :=
  match a0, a1 with
  | Some a, Some b => [exists par, (0 < cuts par 0) && (cuts par 0 * Num.sqrt (E0 par par) < `|b par 0 - a par 0|)]
  | _, _ => false
  end.
(** dut_alignment.py L2026-2054, one DUT *)
Definition update_dut (cuts : 'cV[F]_k) (s : dut_state) (f : dut_fit) : option dut_state :=
  match calculate_alignment_parameters f (change s) (cov s) with
  | None => None
  | Some (a1, E1) => Some (if filter_track cuts (change s) a1 (cov s) then s else DutState a1 E1 (processed s).+1)
  end.
(** dut_alignment.py L2026-2056: all DUTs *)
Fixpoint update_alignment_parameters (cuts : 'cV[F]_k) (ss : seq dut_state) (fs : seq dut_fit) : option (seq dut_state) :=
  match ss, fs with
  | s :: ss, f :: fs =>
    match update_dut cuts s f, update_alignment_parameters cuts ss fs with
    | Some s', Some ss' => Some (s' :: ss')
    | _, _ => None
    end
  | _, _ => Some [::]
  end.
(** dut_alignment.py L1498-1510: the alignment of every DUT is calculated before the fit; euler_angles raises ValueError if it is nan *)
Definition is_nan (s : dut_state) : bool := if change s is None then true else false.
(** dut_alignment.py L1485-1579, all chunks in one list; [tracks]: one item for each track with the required hits.
    The result is the final state and the state whose alignment is in the telescope when the configuration is saved (L1504-1510): the one before the last track.
    None: an exception is raised *)
Fixpoint alignment_loop (cuts : 'cV[F]_k) (max_tracks : nat) (ss saved : seq dut_state) (tracks : seq (option (seq dut_fit))) : option (seq dut_state * seq dut_state) :=
  match tracks with
  | [::] => Some (ss, saved)
  | track :: tracks =>
    if has is_nan ss then None
    else match track with
    | None => alignment_loop cuts max_tracks ss ss tracks
    | Some fs =>
      match update_alignment_parameters cuts ss fs with
      | None => None
      | Some ss' =>
        if all (fun s => max_tracks < processed s)%N ss' then Some (ss', ss) else alignment_loop cuts max_tracks ss' ss tracks
      end
    end
  end.
End Model.

(** dut_alignment.py L1983-2020: the covariance of DUT [dut]; [alignment_parameters]: for every item the selected parameters, or None (L1041).
    None: IndexError or TypeError *)
Definition initial_cov (F : rcfType) (select_duts : seq nat) (alignment_parameters : seq (option (pred 'I_6))) (errors : 'cV[F]_6) (first last dut : nat) : option 'M[F]_6 :=
  let fixed := (dut == first) || (dut == last) in
  let result (aligned : pred 'I_6) := \matrix_(i, j) if (i == j) && aligned i && ~~ (fixed && (i < 5)%N) then errors i 0 ^+ 2 else 0 in
  if dut \in select_duts then
    match nth None alignment_parameters dut with
    | Some aligned => Some (result aligned)
    | None => None
    end
  else Some (result pred0).
(** dut_alignment.py L1649-1654: no change at the beginning *)
Fixpoint initial_states (F : rcfType) (select_duts : seq nat) (alignment_parameters : seq (option (pred 'I_6))) (errors : 'cV[F]_6) (first last : nat) (duts : seq nat) : option (seq (dut_state F 6)) :=
  match duts with
  | [::] => Some [::]
  | dut :: duts =>
    match initial_cov select_duts alignment_parameters errors first last dut, initial_states select_duts alignment_parameters errors first last duts with
    | Some C, Some ss => Some (DutState (Some 0) C 0 :: ss)
    | _, _ => None
    end
  end.
(** _duts_alignment_kalman (dut_alignment.py L1649-1658) for one set of fit DUTs *)
Definition kalman_alignment (F : rcfType) (n m n_duts : nat) (select_duts : seq nat) (alignment_parameters : seq (option (pred 'I_6))) (errors cuts : 'cV[F]_6)
    (first last max_tracks : nat) (tracks : seq (option (seq (dut_fit F 6 n m)))) : option (seq (dut_state F 6) * seq (dut_state F 6)) :=
  match initial_states select_duts alignment_parameters errors first last (iota 0 n_duts) with
  | Some ss => alignment_loop cuts max_tracks ss ss tracks
  | None => None
  end.
