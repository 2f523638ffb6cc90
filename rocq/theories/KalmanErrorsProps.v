(** C157: states and errors of the planes of a Kalman fit. *)
From Coq Require Import List Bool Arith Reals Lra Lia.
From Verif Require Import KalmanErrorsModel.
Import ListNotations.
Local Open Scope R_scope.

(** ** Specification *)
(** an error is the non-negative number whose square is the variance, and not a number exactly for a negative variance *)
Definition error_of (variance : R) (e : option R) : Prop := match e with Some s => 0 <= s /\ s * s = variance | None => variance < 0 end.
(** the result of a plane: position and slope of the smoothed state, errors of the position, chi2 *)
Definition describes (p : smoothed) (r : plane_result) : Prop :=
  state p = (fst (offset r), snd (offset r), fst (slope r), snd (slope r)) /\ error_of (covariance p 0%nat 0%nat) (x_err r) /\ error_of (covariance p 1%nat 1%nat) (y_err r) /\ plane_chi2 r = chi2 p.
(** a plane with a negative chi2 *)
Definition negative_chi2 (p : smoothed) : Prop := exists c, chi2 p = Some c /\ c < 0.

(** ** Proofs *)
Lemma sqrt_error v : error_of v (np_sqrt v).
Proof. unfold np_sqrt. destruct (Rlt_dec v 0) as [L|L]; cbn; [exact L|]. split; [apply sqrt_pos|apply sqrt_sqrt; lra]. Qed.
Lemma plane_describes p : describes p (plane_of_state p).
Proof. unfold describes, plane_of_state. destruct (state p) as (((a, b), c), d). cbn. split; [reflexivity|]. split; [apply sqrt_error|]. split; [apply sqrt_error|reflexivity]. Qed.
Lemma plane_negative p : is_negative (plane_of_state p) = true <-> negative_chi2 p.
Proof.
  unfold is_negative, negative_chi2, plane_of_state. destruct (state p) as (((a, b), c), d). cbn [plane_chi2]. destruct (chi2 p) as [v|]; [|split; [discriminate|intros (c' & E & _); discriminate]]. destruct (Rlt_dec v 0) as [L|L]; split; intros H; try discriminate; try reflexivity; [exists v; auto|destruct H as (c' & [= <-] & K); contradiction].
Qed.
Lemma firstn_in {A} n (l : list A) x : In x (firstn n l) <-> exists k, (k < n)%nat /\ nth_error l k = Some x.
Proof.
  revert l. induction n as [|n IH]; intros l; cbn [firstn]; [split; [intros []|intros (k & K & _); lia]|]. destruct l as [|y l]; [split; [intros []|intros ([|k] & _ & E); discriminate]|]. cbn [In]. rewrite IH. split.
  - intros [->|(k & K & E)]; [exists 0%nat; split; [lia|reflexivity]|exists (S k); split; [lia|exact E]].
  - intros ([|k] & K & E); [left; injection E; auto|right; exists k; split; [lia|exact E]].
Qed.
(** The fit returns the tracks in their order and for each the planes of the telescope in their order, without the scattering planes behind: position and slope are those of the smoothed state, the squares of the errors are the variances of the position. *)
Theorem C157_planes n tracks results covs : kalman_result n tracks = Some (results, covs) -> (forall t, In t tracks -> (n <= length t)%nat) -> length results = length tracks /\
  forall i t, nth_error tracks i = Some t -> exists r, nth_error results i = Some r /\ length r = n /\ forall k p, (k < n)%nat -> nth_error t k = Some p -> exists q, nth_error r k = Some q /\ describes p q.
Proof.
  unfold kalman_result. destruct (existsb (existsb is_negative) (map (track_result n) tracks)); [discriminate|]. intros [= <- <-] H. split; [apply map_length|]. intros i t T. exists (track_result n t). split; [apply map_nth_error; exact T|]. unfold track_result. split; [rewrite map_length, firstn_length; specialize (H t (nth_error_In _ _ T)); lia|].
  intros k p K P. exists (plane_of_state p). split; [|apply plane_describes]. apply map_nth_error. clear - K P. revert n t K P. induction k as [|k IH]; intros [|n] [|x t] K P; try lia; try discriminate; cbn [firstn nth_error] in *; [exact P|]. apply IH; [lia|exact P].
Qed.
(** The fit ends with a RuntimeError exactly if a plane of the telescope has a negative chi2 for one of the tracks; the scattering planes and planes without chi2 do not matter. *)
Theorem C157_negative n tracks : kalman_result n tracks = None <-> exists i t k p, nth_error tracks i = Some t /\ (k < n)%nat /\ nth_error t k = Some p /\ negative_chi2 p.
Proof.
  unfold kalman_result. destruct (existsb (existsb is_negative) (map (track_result n) tracks)) eqn:E; (split; intros H; [|try reflexivity]).
  - apply existsb_exists in E. destruct E as (r & R & E). apply in_map_iff in R. destruct R as (t & <- & T). apply existsb_exists in E. destruct E as (q & Q & E). unfold track_result in Q. apply in_map_iff in Q. destruct Q as (p & <- & P). apply firstn_in in P. destruct P as (k & K & P). apply In_nth_error in T. destruct T as (i & T). exists i, t, k, p. rewrite <- plane_negative. auto.
  - discriminate.
  - exfalso. destruct H as (i & t & k & p & T & K & P & N). assert (existsb (existsb is_negative) (map (track_result n) tracks) = true); [|congruence]. apply existsb_exists. exists (track_result n t). split; [apply in_map; exact (nth_error_In _ _ T)|]. apply existsb_exists. exists (plane_of_state p). split; [|apply plane_negative; exact N]. unfold track_result. apply in_map. apply firstn_in. exists k. auto.
Qed.
(** The correlations of the state do not change positions, slopes and errors. *)
Theorem C157_diagonal p q : state p = state q -> chi2 p = chi2 q -> (forall i, covariance p i i = covariance q i i) -> plane_of_state p = plane_of_state q.
Proof. intros S C D. unfold plane_of_state, state_error. rewrite S, C, !D. reflexivity. Qed.
(** "The returned arrays have the same planes" is false: with scattering planes, there are more covariances than positions for every track. *)
Theorem C157_covariances_refuted n tracks results covs : kalman_result n tracks = Some (results, covs) -> forall i t, nth_error tracks i = Some t -> (n < length t)%nat -> exists r c, nth_error results i = Some r /\ nth_error covs i = Some c /\ (length r < length c)%nat /\ length c = length t.
Proof.
  unfold kalman_result. destruct (existsb (existsb is_negative) (map (track_result n) tracks)); [discriminate|]. intros [= <- <-] i t T L. exists (track_result n t), (map covariance t). split; [apply map_nth_error; exact T|]. split; [apply map_nth_error; exact T|]. unfold track_result. rewrite !map_length, firstn_length. split; [lia|reflexivity].
Qed.

(** Non-vacuity: a track with one plane of the telescope and a scattering plane with negative chi2, and with a variance of 4. *)
Example C157_case : let p := Smoothed (Some 1, Some 2, Some 0, Some 0) (fun i j => if Nat.eqb i j then 4 else 1) (Some 3) in let s := Smoothed (None, None, None, None) (fun _ _ => 0) (Some (-1)) in
  exists r c, kalman_result 1 [[p; s]] = Some ([[r]], [c]) /\ length c = 2%nat /\ x_err r = Some 2 /\ kalman_result 2 [[p; s]] = None.
Proof.
  cbv zeta. eexists _, _. split.
  - unfold kalman_result. cbn. destruct (Rlt_dec 3 0) as [H|_]; [exfalso; lra|]. reflexivity.
  - split; [reflexivity|]. split; [cbn; unfold state_error, np_sqrt; cbn; destruct (Rlt_dec 4 0) as [H|_]; [exfalso; lra|f_equal; replace 4 with (2 * 2) by lra; apply sqrt_square; lra]|]. unfold kalman_result. cbn. destruct (Rlt_dec 3 0) as [H|_]; [exfalso; lra|]. destruct (Rlt_dec (-1) 0) as [_|H]; [reflexivity|exfalso; lra].
Qed.

Print Assumptions C157_planes.
Print Assumptions C157_negative.
Print Assumptions C157_diagonal.
Print Assumptions C157_covariances_refuted.
