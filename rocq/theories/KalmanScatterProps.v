(** Properties of the scatter gain matrix of tools/kalman.py. *)
From Coq Require Import Reals Lra Lia.
From Coquelicot Require Import Coquelicot.
From Verif Require Import GeometryModel GeometryProofs KalmanTrackModel KalmanTrackProps.
Local Open Scope R_scope.

(** ** C56: the scatter gain matrix *)
Lemma normalize_eq w c : 0 < c -> vdot w w = c * c -> normalize w = (vx w / c, vy w / c, vz w / c).
Proof. intros H E. unfold normalize. rewrite E, sqrt_square by lra. reflexivity. Qed.
Lemma track_frame s : let a := s_du s in let b := s_dv s in let m := sqrt (1 + a * a + b * b) in let k := sqrt (1 + b * b) in
  0 < m /\ 0 < k /\ m * m = 1 + a * a + b * b /\ k * k = 1 + b * b /\
  track_n s = (a / m, b / m, 1 / m) /\ track_v s = (0, 1 / k, - b / k) /\ track_u s = (k / m, - (a * b) / (k * m), - a / (k * m)).
Proof.
  intros a b m k. assert (Pa : 0 <= a * a) by apply Rle_0_sqr. assert (Pb : 0 <= b * b) by apply Rle_0_sqr.
  assert (M : m * m = 1 + a * a + b * b) by (apply sqrt_sqrt; lra). assert (K : k * k = 1 + b * b) by (apply sqrt_sqrt; lra).
  assert (M0 : 0 < m) by (apply sqrt_lt_R0; lra). assert (K0 : 0 < k) by (apply sqrt_lt_R0; lra).
  assert (N : track_n s = (a / m, b / m, 1 / m)).
  { unfold track_n. fold a b. rewrite (normalize_eq _ m); [reflexivity|exact M0|]. rewrite M. vec_ring. }
  assert (V : track_v s = (0, 1 / k, - b / k)).
  { unfold track_v. rewrite N. unfold get_plane_normal. unfold vx, vy, vz. cbn [fst snd].
    rewrite (normalize_eq _ (k / m)).
    - apply vec_eq; unfold vx, vy, vz; cbn [fst snd]; field; lra.
    - apply Rdiv_lt_0_compat; lra.
    - replace (k / m * (k / m)) with (k * k / (m * m)) by (field; lra). rewrite K. unfold vdot, vx, vy, vz. cbn [fst snd]. field. lra. }
  repeat (split; [assumption|]).
  unfold track_u. rewrite N, V. unfold get_plane_normal, vx, vy, vz. cbn [fst snd]. rewrite (normalize_eq _ 1); [|lra|].
  - apply vec_eq; unfold vx, vy, vz; cbn [fst snd].
    + replace (k / m) with (k * k / (k * m)) by (field; lra). rewrite K. field. lra.
    + field. lra.
    + field. lra.
  - unfold vdot, vx, vy, vz. cbn [fst snd].
    replace ((1 / k * (1 / m) - - b / k * (b / m)) * (1 / k * (1 / m) - - b / k * (b / m)) +
     (- b / k * (a / m) - 0 * (1 / m)) * (- b / k * (a / m) - 0 * (1 / m)) +
     (0 * (b / m) - 1 / k * (a / m)) * (0 * (b / m) - 1 / k * (a / m)))
    with ((1 + b * b) * (1 + a * a + b * b) / ((k * k) * (m * m))) by (field; lra).
    rewrite K, M. field. lra.
Qed.
(** the track frame is orthonormal *)
Theorem C56_frame : forall s, let n := track_n s in let v := track_v s in let u := track_u s in
  vdot n n = 1 /\ vdot v v = 1 /\ vdot u u = 1 /\ vdot n v = 0 /\ vdot n u = 0 /\ vdot u v = 0 /\ exists c, 0 < c /\ n = vscale c (s_du s, s_dv s, 1).
Proof.
  intros s n v u. destruct (track_frame s) as (M0 & K0 & M & K & EN & EV & EU). cbn zeta in *. unfold n, v, u. rewrite EN, EV, EU.
  set (a := s_du s) in *. set (b := s_dv s) in *. set (m := sqrt (1 + a * a + b * b)) in *. set (k := sqrt (1 + b * b)) in *. clearbody m k.
  unfold vdot, vx, vy, vz; cbn [fst snd].
  split; [|split; [|split; [|split; [|split; [|split]]]]].
  - replace (a / m * (a / m) + b / m * (b / m) + 1 / m * (1 / m)) with ((1 + a * a + b * b) / (m * m)) by (field; lra). rewrite <- M. field. lra.
  - replace (0 * 0 + 1 / k * (1 / k) + - b / k * (- b / k)) with ((1 + b * b) / (k * k)) by (field; lra). rewrite <- K. field. lra.
  - replace (k / m * (k / m) + - (a * b) / (k * m) * (- (a * b) / (k * m)) + - a / (k * m) * (- a / (k * m)))
      with ((k * k + a * a * (1 + b * b) / (k * k)) / (m * m)) by (field; lra). rewrite <- K.
    replace (k * k + a * a * (k * k) / (k * k)) with (m * m) by (rewrite M; replace (1 + a * a + b * b) with (k * k + a * a) by (rewrite K; ring); field; lra). field. lra.
  - field. lra.
  - replace (a / m * (k / m) + b / m * (- (a * b) / (k * m)) + 1 / m * (- a / (k * m))) with (a * (k * k - (1 + b * b)) / (k * (m * m))) by (field; lra).
    rewrite K. field. lra.
  - field. lra.
  - exists (/ m). split; [apply Rinv_0_lt_compat; lra|]. apply vec_eq; unfold vscale, vx, vy, vz; cbn [fst snd]; field; lra.
Qed.
(** The matrix is the derivative of the state for a direction turned by small angles towards the two axes transverse to the track;
    the position does not change. *)
Definition scattered (s : state) (t1 t2 : R) : vec := vadd (track_n s) (vadd (vscale t1 (track_u s)) (vscale t2 (track_v s))).
Theorem C56_derivative : forall s t1 t2, let G := scatter_gain_matrix s in
  let f h := let d := scattered s (h * t1) (h * t2) in State (s_u s) (s_v s) (vx d / vz d) (vy d / vz d) in
  f 0 = s /\ forall i, (i < 4)%nat -> is_derive (fun h => entry (f h) i) 0 (G i 0%nat * t1 + G i 1%nat * t2).
Proof.
  intros s t1 t2 G f. destruct (track_frame s) as (M0 & K0 & M & K & EN & EV & EU). cbn zeta in *.
  unfold f, scattered, G, scatter_gain_matrix. rewrite EN, EV, EU.
  set (a := s_du s) in *. set (b := s_dv s) in *. set (m := sqrt (1 + a * a + b * b)) in *. set (k := sqrt (1 + b * b)) in *. clearbody m k.
  split.
  - unfold vadd, vscale, vx, vy, vz. cbn [fst snd]. destruct s as [u v a' b']. cbn [s_u s_v s_du s_dv] in *. subst a b. f_equal; field; lra.
  - intros i Hi. assert (C : i = 0%nat \/ i = 1%nat \/ i = 2%nat \/ i = 3%nat) by lia.
    unfold vadd, vscale, vx, vy, vz, np_array. cbn [fst snd].
    destruct C as [-> | [-> | [-> | ->]]]; cbn [entry s_u s_v s_du s_dv List.nth].
    + auto_derive; [exact I|]. ring.
    + auto_derive; [exact I|]. ring.
    + auto_derive; rewrite !Rmult_0_l, !Rplus_0_r; [|field; lra]. apply Rgt_not_eq. apply Rdiv_lt_0_compat; lra.
    + auto_derive; rewrite !Rmult_0_l, !Rplus_0_r; [|field; lra]. apply Rgt_not_eq. apply Rdiv_lt_0_compat; lra.
Qed.
(** Covariance of the slopes for equal and independent scattering in both directions (Wolin and Ho, Eq. 14-16) *)
Theorem C56_covariance : forall s, let G := scatter_gain_matrix s in let a := s_du s in let b := s_dv s in
  let c i j := G i 0%nat * G j 0%nat + G i 1%nat * G j 1%nat in
  c 2%nat 2%nat = (1 + a * a + b * b) * (1 + a * a) /\ c 3%nat 3%nat = (1 + a * a + b * b) * (1 + b * b) /\
  c 2%nat 3%nat = (1 + a * a + b * b) * (a * b) /\ c 3%nat 2%nat = (1 + a * a + b * b) * (a * b) /\
  (forall i j, (i < 2)%nat -> c i j = 0 /\ c j i = 0).
Proof.
  intros s G a b c. destruct (track_frame s) as (M0 & K0 & M & K & EN & EV & EU). cbn zeta in *. fold a b in M0, K0, M, K, EN, EV, EU.
  set (m := sqrt (1 + a * a + b * b)) in *. set (k := sqrt (1 + b * b)) in *. clearbody m k.
  assert (G20 : G 2%nat 0%nat = m * m / k).
  { unfold G, scatter_gain_matrix. rewrite EN, EV, EU. unfold vx, vy, vz, np_array. cbn [fst snd List.nth].
    replace ((k / m * (1 / m) - a / m * (- a / (k * m))) / (1 / m * (1 / m))) with ((k * k + a * a) / k) by (field; lra).
    f_equal. lra. }
  assert (G21 : G 2%nat 1%nat = a * b * m / k).
  { unfold G, scatter_gain_matrix. rewrite EN, EV, EU. unfold vx, vy, vz, np_array. cbn [fst snd List.nth]. field. lra. }
  assert (G30 : G 3%nat 0%nat = 0).
  { unfold G, scatter_gain_matrix. rewrite EN, EV, EU. unfold vx, vy, vz, np_array. cbn [fst snd List.nth]. field. lra. }
  assert (G31 : G 3%nat 1%nat = k * m).
  { unfold G, scatter_gain_matrix. rewrite EN, EV, EU. unfold vx, vy, vz, np_array. cbn [fst snd List.nth].
    replace ((1 / k * (1 / m) - b / m * (- b / k)) / (1 / m * (1 / m))) with ((1 + b * b) * m / k) by (field; lra). rewrite <- K. field. lra. }
  assert (G0 : forall i, (i < 2)%nat -> G i 0%nat = 0 /\ G i 1%nat = 0).
  { intros i Hi. destruct i as [|[|i]]; try lia; split; reflexivity. }
  unfold c. rewrite G20, G21, G30, G31. split; [|split; [|split; [|split]]].
  - replace (m * m / k * (m * m / k) + a * b * m / k * (a * b * m / k)) with (m * m * (m * m + a * a * (b * b)) / (k * k)) by (field; lra).
    rewrite K, M. field. rewrite <- K. apply Rgt_not_eq. apply Rmult_lt_0_compat; lra.
  - replace (0 * 0 + k * m * (k * m)) with (m * m * (k * k)) by ring. rewrite M, K. ring.
  - replace (m * m / k * 0 + a * b * m / k * (k * m)) with (m * m * (a * b)) by (field; lra). rewrite M. ring.
  - replace (0 * (m * m / k) + k * m * (a * b * m / k)) with (m * m * (a * b)) by (field; lra). rewrite M. ring.
  - intros i j Hi. destruct (G0 i Hi) as (E0 & E1). rewrite E0, E1. split; ring.
Qed.

Print Assumptions C56_frame.
Print Assumptions C56_derivative.
Print Assumptions C56_covariance.
