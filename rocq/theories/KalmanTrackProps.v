(** Properties of the track model of tools/kalman.py. *)
From Coq Require Import Reals Lra Lia Nsatz.
From Coquelicot Require Import Coquelicot.
From Verif Require Import GeometryModel GeometryProofs GeometryProps KalmanTrackModel.
Local Open Scope R_scope.

(** ** C34: the extrapolated state describes the same track *)
(** The points of the track with state [s] at the plane [p]: the straight line through the local point (u, v, 0) with local direction (u', v', 1) *)
Definition on_track (p : placement) (s : state) (P : vec) : Prop :=
  exists t, P = to_global p (s_u s + t * s_du s, s_v s + t * s_dv s, t).
(** The track crosses the plane [q]: it has points at every distance from it *)
Definition crosses (p : placement) (s : state) (q : placement) : Prop :=
  exists P Q, on_track p s P /\ on_track p s Q /\ vz (to_local q P) <> vz (to_local q Q).
Definition extrapolated (p q : placement) (s : state) : state := extrapolate_state s (pos p) (pos q) (rot p) (rot q).

(** direction of the track in the system of [q] *)
Definition direction (p q : placement) (s : state) : vec :=
  vec_mul (dot 3 (transpose (rot q)) (rot p)) (s_du s, s_dv s, 1).

Lemma vec_mul_eq M v : vec_mul M v =
  (M 0%nat 0%nat * vx v + M 0%nat 1%nat * vy v + M 0%nat 2%nat * vz v,
   M 1%nat 0%nat * vx v + M 1%nat 1%nat * vy v + M 1%nat 2%nat * vz v,
   M 2%nat 0%nat * vx v + M 2%nat 1%nat * vy v + M 2%nat 2%nat * vz v).
Proof. exact (apply_rotation_eq v M). Qed.
Lemma to_global_mul p v : to_global p v = vadd (vec_mul (rot p) v) (pos p).
Proof. exact (to_global_eq p v). Qed.
Lemma to_local_mul p v : to_local p v = vec_mul (transpose (rot p)) (vsub v (pos p)).
Proof. exact (to_local_eq p v). Qed.

Ltac vec_ring := unfold vadd, vsub, vscale, vdot, vx, vy, vz; cbn [fst snd]; ring.
Ltac vec_solve := apply vec_eq; unfold vadd, vsub, vscale, vdot, vx, vy, vz; cbn [fst snd]; ring.
Lemma vec_mul_add M a b : vec_mul M (vadd a b) = vadd (vec_mul M a) (vec_mul M b).
Proof. rewrite !vec_mul_eq. vec_solve. Qed.
Lemma vec_mul_sub M a b : vec_mul M (vsub a b) = vsub (vec_mul M a) (vec_mul M b).
Proof. rewrite !vec_mul_eq. vec_solve. Qed.
Lemma vec_mul_scale M t a : vec_mul M (vscale t a) = vscale t (vec_mul M a).
Proof. rewrite !vec_mul_eq. vec_solve. Qed.
Lemma vec_mul_dot A B v : vec_mul (dot 3 A B) v = vec_mul A (vec_mul B v).
Proof. rewrite !vec_mul_eq. unfold dot. cbn [sum_n]. vec_solve. Qed.

(** the origin of the track in the system of [q] *)
Definition origin (p q : placement) (s : state) : vec :=
  vec_mul (dot 3 (transpose (rot q)) (rot p)) (vsub (s_u s, s_v s, 0) (vec_mul (transpose (rot p)) (vsub (pos q) (pos p)))).
(** the points of the track in the system of [q] *)
Lemma track_local p q s t :
  to_local q (to_global p (s_u s + t * s_du s, s_v s + t * s_dv s, t)) = vadd (origin p q s) (vscale t (direction p q s)).
Proof.
  rewrite to_local_mul, to_global_mul. unfold origin, direction. rewrite !vec_mul_dot.
  rewrite (vec_mul_sub (rot p) (s_u s, s_v s, 0)).
  assert (F : vec_mul (rot p) (vec_mul (transpose (rot p)) (vsub (pos q) (pos p))) = vsub (pos q) (pos p))
    by (apply (rotate_forth (rot p) _ (rot_orthogonal p))).
  rewrite F.
  assert (G : (s_u s + t * s_du s, s_v s + t * s_dv s, t) = vadd (s_u s, s_v s, 0) (vscale t (s_du s, s_dv s, 1))) by vec_solve.
  rewrite G, (vec_mul_add (rot p)), (vec_mul_scale (rot p)).
  generalize (vec_mul (rot p) (s_u s, s_v s, 0)) (vec_mul (rot p) (s_du s, s_dv s, 1)) (pos p) (pos q) (transpose (rot q)).
  intros a b c d M. rewrite !vec_mul_eq. vec_solve.
Qed.
Lemma extrapolated_eq p q s : vz (direction p q s) <> 0 ->
  let a := origin p q s in let d := direction p q s in
  extrapolated p q s = State (vx a - vz a / vz d * vx d) (vy a - vz a / vz d * vy d) (vx d / vz d) (vy d / vz d).
Proof.
  intros D a d. unfold extrapolated, extrapolate_state. fold (direction p q s). fold d in D. fold d.
  set (Q := dot 3 (transpose (rot q)) (rot p)) in *. set (x0 := vec_mul (transpose (rot p)) (vsub (pos q) (pos p))) in *.
  assert (E : forall t, vec_mul Q (vsub (vadd (s_u s, s_v s, 0) (vscale t (s_du s, s_dv s, 1))) x0) = vadd a (vscale t d)).
  { intros t. unfold a, origin, d, direction. fold Q x0. rewrite <- vec_mul_scale, <- vec_mul_add. f_equal. vec_solve. }
  rewrite E.
  assert (Z : vdot (vec_mul Q (vsub x0 (s_u s, s_v s, 0))) (0, 0, 1) = - vz a).
  { unfold a, origin. fold Q x0. rewrite !vec_mul_sub. vec_ring. }
  rewrite Z. generalize a D. clear - Q. generalize d. clear. intros d a D. f_equal; unfold vadd, vscale, vx, vy, vz in *; cbn [fst snd]; field; exact D.
Qed.

Lemma to_local_inj q P P' : to_local q P = to_local q P' -> P = P'.
Proof. intros E. rewrite <- (to_global_to_local q P), <- (to_global_to_local q P'), E. reflexivity. Qed.

Lemma vz_line a t d : vz (vadd a (vscale t d)) = vz a + t * vz d.
Proof. reflexivity. Qed.
Lemma crosses_iff p q s : crosses p s q <-> vz (direction p q s) <> 0.
Proof.
  split.
  - intros (P & Q & (t & ->) & (t' & ->) & N) Z. apply N. rewrite !track_local. rewrite !vz_line, Z. ring.
  - intros D. exists (to_global p (s_u s + 0 * s_du s, s_v s + 0 * s_dv s, 0)), (to_global p (s_u s + 1 * s_du s, s_v s + 1 * s_dv s, 1)).
    split; [exists 0; reflexivity|]. split; [exists 1; reflexivity|]. rewrite !track_local. rewrite !vz_line. lra.
Qed.

(** The track with the extrapolated state at the target plane is the very same straight line ... *)
Theorem C34_same_track : forall p q s, crosses p s q ->
  forall P, on_track p s P <-> on_track q (extrapolated p q s) P.
Proof.
  intros p q s D P. apply crosses_iff in D. pose proof (extrapolated_eq p q s D) as E. cbn zeta in E. rewrite E. unfold on_track. cbn [s_u s_v s_du s_dv].
  split.
  - intros (t & ->). exists (vz (origin p q s) + t * vz (direction p q s)).
    rewrite <- (to_global_to_local q (to_global p _)), track_local. f_equal. generalize (origin p q s) D. generalize (direction p q s). clear.
    intros d a D. apply vec_eq; unfold vadd, vscale, vx, vy, vz in *; cbn [fst snd] in *; field; exact D.
  - intros (t & ->). exists ((t - vz (origin p q s)) / vz (direction p q s)).
    rewrite <- (to_global_to_local q (to_global p _)), track_local. f_equal. generalize (origin p q s) D. generalize (direction p q s). clear.
    intros d a D. apply vec_eq; unfold vadd, vscale, vx, vy, vz in *; cbn [fst snd] in *; field; exact D.
Qed.
(** ... and its position is the crossing point with the target plane. *)
Theorem C34_on_plane : forall p q s P, crosses p s q ->
  (on_track p s P /\ vz (to_local q P) = 0 <-> P = to_global q (s_u (extrapolated p q s), s_v (extrapolated p q s), 0)).
Proof.
  intros p q s P D. rewrite (C34_same_track p q s D P). split.
  - intros ((t & ->) & Z). rewrite to_local_to_global in Z. unfold vz in Z. cbn [snd] in Z. subst t. f_equal. apply vec_eq; unfold vx, vy, vz; cbn [fst snd]; ring.
  - intros ->. split; [|rewrite to_local_to_global; reflexivity]. exists 0. f_equal. apply vec_eq; unfold vx, vy, vz; cbn [fst snd]; ring.
Qed.
(** The state of a line at a plane is unique. *)
Theorem C34_unique : forall q s s', (forall P, on_track q s P <-> on_track q s' P) -> s = s'.
Proof.
  intros q [u v a b] [u' v' a' b'] H. unfold on_track in H. cbn [s_u s_v s_du s_dv] in H.
  assert (K : forall t, (u + t * a, v + t * b, t) = (u' + t * a', v' + t * b', t)).
  { intros t. destruct (proj1 (H (to_global q (u + t * a, v + t * b, t))) (ex_intro _ t eq_refl)) as (t' & E).
    apply (f_equal (to_local q)) in E. rewrite !to_local_to_global in E. injection E as E1 E2 E3. subst t'. congruence. }
  pose proof (K 0) as K0. pose proof (K 1) as K1. injection K0 as A1 A2. injection K1 as A3 A4. f_equal; lra.
Qed.
(** Extrapolating step by step gives the same as in one step; back and forth gives the initial state. *)
Theorem C34_composition : forall p q r s, crosses p s q -> crosses p s r ->
  extrapolated q r (extrapolated p q s) = extrapolated p r s.
Proof.
  intros p q r s D1 D2. apply (C34_unique r). intros P.
  assert (D3 : crosses q (extrapolated p q s) r).
  { destruct D2 as (A & B & HA & HB & N). exists A, B. rewrite <- !(C34_same_track p q s D1). auto. }
  rewrite <- (C34_same_track q r _ D3), <- (C34_same_track p r _ D2), <- (C34_same_track p q s D1). reflexivity.
Qed.
Theorem C34_identity : forall p s, extrapolated p p s = s.
Proof.
  intros p s. assert (D : crosses p s p).
  { exists (to_global p (s_u s + 0 * s_du s, s_v s + 0 * s_dv s, 0)), (to_global p (s_u s + 1 * s_du s, s_v s + 1 * s_dv s, 1)).
    split; [exists 0; reflexivity|]. split; [exists 1; reflexivity|]. rewrite !to_local_to_global. unfold vz. cbn [snd]. lra. }
  apply (C34_unique p). intros P. rewrite <- (C34_same_track p p s D). reflexivity.
Qed.
Theorem C34_back_and_forth : forall p q s, crosses p s q -> extrapolated q p (extrapolated p q s) = s.
Proof.
  intros p q s D. rewrite (C34_composition p q p s D); [apply C34_identity|].
  exists (to_global p (s_u s + 0 * s_du s, s_v s + 0 * s_dv s, 0)), (to_global p (s_u s + 1 * s_du s, s_v s + 1 * s_dv s, 1)).
  split; [exists 0; reflexivity|]. split; [exists 1; reflexivity|]. rewrite !to_local_to_global. unfold vz. cbn [snd]. lra.
Qed.

(** ** C35: the track Jacobian is the derivative of the extrapolation *)
Definition entry (s : state) (i : nat) : R := match i with 0%nat => s_u s | 1%nat => s_v s | 2%nat => s_du s | _ => s_dv s end.
(** the state moved by h times [e] *)
Definition along (s e : state) (h : R) : state :=
  State (s_u s + h * s_u e) (s_v s + h * s_v e) (s_du s + h * s_du e) (s_dv s + h * s_dv e).
(** the matrix as computed by the filter (L229-234) *)
Definition jacobian (p q : placement) (s : state) : mat := track_jacobian s (pos p) (pos q) (transpose (rot p)) (transpose (rot q)).

(** the same with a general matrix and vector *)
Lemma jacobian_derivative (Q : mat) (x0 : vec) (s e : state) i : vz (vec_mul Q (s_du s, s_dv s, 1)) <> 0 -> (i < 4)%nat ->
  let step s := vdot (vec_mul Q (vsub x0 (s_u s, s_v s, 0))) (0, 0, 1) / vz (vec_mul Q (s_du s, s_dv s, 1)) in
  let point s := vec_mul Q (vsub (vadd (s_u s, s_v s, 0) (vscale (step s) (s_du s, s_dv s, 1))) x0) in
  let d s := vec_mul Q (s_du s, s_dv s, 1) in
  let f s := State (vx (point s)) (vy (point s)) (vx (d s) / vz (d s)) (vy (d s) / vz (d s)) in
  let j00 := Q 0%nat 0%nat - Q 2%nat 0%nat * (vx (d s) / vz (d s)) in let j01 := Q 0%nat 1%nat - Q 2%nat 1%nat * (vx (d s) / vz (d s)) in
  let j10 := Q 1%nat 0%nat - Q 2%nat 0%nat * (vy (d s) / vz (d s)) in let j11 := Q 1%nat 1%nat - Q 2%nat 1%nat * (vy (d s) / vz (d s)) in
  is_derive (fun h => entry (f (along s e h)) i) 0
    match i with
    | 0%nat => j00 * s_u e + j01 * s_v e + step s * j00 * s_du e + step s * j01 * s_dv e
    | 1%nat => j10 * s_u e + j11 * s_v e + step s * j10 * s_du e + step s * j11 * s_dv e
    | 2%nat => (Q 0%nat 0%nat * vz (d s) - vx (d s) * Q 2%nat 0%nat) / (vz (d s) * vz (d s)) * s_du e +
               (Q 0%nat 1%nat * vz (d s) - vx (d s) * Q 2%nat 1%nat) / (vz (d s) * vz (d s)) * s_dv e
    | _ => (Q 1%nat 0%nat * vz (d s) - vy (d s) * Q 2%nat 0%nat) / (vz (d s) * vz (d s)) * s_du e +
           (Q 1%nat 1%nat * vz (d s) - vy (d s) * Q 2%nat 1%nat) / (vz (d s) * vz (d s)) * s_dv e
    end.
Proof.
  intros D Hi. cbn zeta. destruct x0 as [[x y] z]. destruct s as [u v a b], e as [eu ev ea eb].
  unfold along. cbn [s_u s_v s_du s_dv] in *.
  assert (C : i = 0%nat \/ i = 1%nat \/ i = 2%nat \/ i = 3%nat) by lia.
  destruct C as [-> | [-> | [-> | ->]]]; cbn [entry s_u s_v s_du s_dv].
  all: (eapply is_derive_ext; [intros h; rewrite !vec_mul_eq; unfold vsub, vadd, vscale, vdot, vx, vy, vz; cbn [fst snd]; reflexivity|]).
  all: rewrite !vec_mul_eq in *; unfold vsub, vadd, vscale, vdot, vx, vy, vz in *; cbn [fst snd] in *.
  all: generalize dependent (Q 2%nat 0%nat); generalize dependent (Q 2%nat 1%nat); generalize dependent (Q 2%nat 2%nat).
  all: intros r22 r21 r20 D.
  all: generalize (Q 0%nat 0%nat) (Q 0%nat 1%nat) (Q 0%nat 2%nat) (Q 1%nat 0%nat) (Q 1%nat 1%nat) (Q 1%nat 2%nat).
  all: intros r00 r01 r02 r10 r11 r12; clear Q.
  all: auto_derive; rewrite ?Rmult_0_l, ?Rplus_0_r, ?Rmult_1_r in *; [intuition auto|field; exact D].
Qed.
Theorem C35_derivative : forall p q s e i, crosses p s q -> (i < 4)%nat ->
  is_derive (fun h => entry (extrapolated p q (along s e h)) i) 0
    (jacobian p q s i 0%nat * s_u e + jacobian p q s i 1%nat * s_v e + jacobian p q s i 2%nat * s_du e + jacobian p q s i 3%nat * s_dv e).
Proof.
  intros p q s e i D Hi. apply crosses_iff in D. unfold direction in D.
  set (x0 := vec_mul (transpose (rot p)) (vsub (pos q) (pos p))).
  pose proof (jacobian_derivative (dot 3 (transpose (rot q)) (rot p)) x0 s e i D Hi) as H. cbn zeta in H.
  eapply is_derive_ext; [intros h; reflexivity|].
  match goal with |- is_derive _ _ ?r => match type of H with is_derive _ _ ?r' => replace r with r'; [exact H|] end end.
  clear H D. unfold jacobian, track_jacobian. change (transpose (transpose (rot p))) with (rot p). fold x0.
  set (Q := dot 3 (transpose (rot q)) (rot p)). clearbody x0 Q.
  assert (C : i = 0%nat \/ i = 1%nat \/ i = 2%nat \/ i = 3%nat) by lia.
  destruct C as [-> | [-> | [-> | ->]]]; unfold np_array; cbn [List.nth];
    match goal with |- ?a = ?b => change (@eq R a b) end; ring.
Qed.

(** The Jacobians of two steps multiply to the Jacobian of both: with the blocks K, step * K, 0, K / d_z of the Jacobian *)
Definition block (Q : mat) (d : vec) (i j : nat) : R := Q i j - Q 2%nat j * (comp (vec_mul Q d) i / vz (vec_mul Q d)).
Definition step_length (Q : mat) (x0 : vec) (s : state) : R :=
  vz (vec_mul Q (vsub x0 (s_u s, s_v s, 0))) / vz (vec_mul Q (s_du s, s_dv s, 1)).
Definition slopes (s : state) : vec := (s_du s, s_dv s, 1).
Lemma jacobian_blocks p q s : let Q := dot 3 (transpose (rot q)) (rot p) in
  let x0 := vec_mul (transpose (rot p)) (vsub (pos q) (pos p)) in let d := slopes s in vz (vec_mul Q d) <> 0 ->
  forall i j, (i < 2)%nat -> (j < 2)%nat ->
  jacobian p q s i j = block Q d i j /\ jacobian p q s i (2 + j)%nat = step_length Q x0 s * block Q d i j /\
  jacobian p q s (2 + i)%nat j = 0 /\ jacobian p q s (2 + i)%nat (2 + j)%nat = block Q d i j / vz (vec_mul Q d).
Proof.
  intros Q x0 d D i j Hi Hj. unfold jacobian, track_jacobian. change (transpose (transpose (rot p))) with (rot p). fold Q x0 d.
  assert (Z : vdot (vec_mul Q (vsub x0 (s_u s, s_v s, 0))) (0, 0, 1) = vz (vec_mul Q (vsub x0 (s_u s, s_v s, 0)))).
  { unfold vdot. unfold vx at 2, vy at 2, vz at 2. cbn [fst snd]. ring. }
  rewrite Z. unfold step_length. fold (slopes s). fold d. unfold block.
  generalize (vz (vec_mul Q (vsub x0 (s_u s, s_v s, 0)))). intros z. clear Z. generalize dependent (vec_mul Q d). clear d. intros d D.
  clearbody Q. clear x0. unfold vz, vx, vy in *.
  destruct i as [|[|i]]; [| |lia]; destruct j as [|[|j]]; try lia; unfold np_array; cbn [List.nth Nat.add comp]; unfold vx, vy;
    (split; [|split; [|split]]); try reflexivity; field; exact D.
Qed.
Lemma block_compose A B d i j : (i < 2)%nat -> (j < 2)%nat -> vz (vec_mul A d) <> 0 -> vz (vec_mul (dot 3 B A) d) <> 0 ->
  let d' := (vx (vec_mul A d) / vz (vec_mul A d), vy (vec_mul A d) / vz (vec_mul A d), 1) in
  block B d' i 0%nat * block A d 0%nat j + block B d' i 1%nat * block A d 1%nat j = block (dot 3 B A) d i j.
Proof.
  intros Hi Hj D1 D2 d'. unfold block. rewrite vec_mul_dot in *.
  assert (E : vec_mul B d' = vscale (/ vz (vec_mul A d)) (vec_mul B (vec_mul A d))).
  { rewrite <- vec_mul_scale. f_equal. unfold d'. apply vec_eq; unfold vscale, vx, vy, vz in *; cbn [fst snd]; field; exact D1. }
  rewrite E. clear E d'. unfold dot. cbn [sum_n].
  assert (X : vec_mul B (vec_mul A d) = 
     (B 0%nat 0%nat * vx (vec_mul A d) + B 0%nat 1%nat * vy (vec_mul A d) + B 0%nat 2%nat * vz (vec_mul A d),
      B 1%nat 0%nat * vx (vec_mul A d) + B 1%nat 1%nat * vy (vec_mul A d) + B 1%nat 2%nat * vz (vec_mul A d),
      B 2%nat 0%nat * vx (vec_mul A d) + B 2%nat 1%nat * vy (vec_mul A d) + B 2%nat 2%nat * vz (vec_mul A d))) by apply vec_mul_eq.
  rewrite X in *. clear X.
  generalize dependent (vec_mul A d). clear d. intros [[p q] r]. unfold vscale, vx, vy, vz. cbn [fst snd]. intros D1 D2.
  destruct i as [|[|i]]; [| |lia]; unfold comp, vx, vy, vz; cbn [fst snd]; field; auto.
Qed.
Theorem C35_composition : forall p q r s, crosses p s q -> crosses p s r ->
  forall i j, (i < 4)%nat -> (j < 4)%nat ->
  dot 4 (jacobian q r (extrapolated p q s)) (jacobian p q s) i j = jacobian p r s i j.
Proof.
  intros p q r s C1 C2. pose proof (proj1 (crosses_iff _ _ _) C1) as D1. pose proof (proj1 (crosses_iff _ _ _) C2) as D2.
  set (s' := extrapolated p q s).
  assert (C3 : crosses q s' r).
  { destruct C2 as (P & P' & HP & HP' & N). exists P, P'. unfold s'. rewrite <- !(C34_same_track p q s C1). auto. }
  pose proof (proj1 (crosses_iff _ _ _) C3) as D3. unfold direction in D1, D2, D3. fold (slopes s) in D1, D2. fold (slopes s') in D3.
  pose proof (jacobian_blocks p q s D1) as J1. pose proof (jacobian_blocks p r s D2) as J3. pose proof (jacobian_blocks q r s' D3) as J2. cbn zeta in J1, J2, J3.
  set (A := dot 3 (transpose (rot q)) (rot p)) in *. set (B := dot 3 (transpose (rot r)) (rot q)) in *.
  set (a0 := vec_mul (transpose (rot p)) (vsub (pos q) (pos p))) in *. set (b0 := vec_mul (transpose (rot q)) (vsub (pos r) (pos q))) in *.
  set (c0 := vec_mul (transpose (rot p)) (vsub (pos r) (pos p))) in *.
  assert (CE : forall v, vec_mul (dot 3 (transpose (rot r)) (rot p)) v = vec_mul (dot 3 B A) v).
  { intros v. unfold A, B. rewrite !vec_mul_dot.
    assert (F : forall w, vec_mul (rot q) (vec_mul (transpose (rot q)) w) = w) by (intros; apply (rotate_forth (rot q) _ (rot_orthogonal q))).
    rewrite F. reflexivity. }
  assert (CM : forall i j, (i < 3)%nat -> (j < 3)%nat -> dot 3 (transpose (rot r)) (rot p) i j = dot 3 B A i j).
  { intros i j Hi Hj. pose proof (CE (match j with 0%nat => (1, 0, 0) | 1%nat => (0, 1, 0) | _ => (0, 0, 1) end)) as H.
    rewrite !vec_mul_eq in H. destruct j as [|[|[|j]]]; [| | |lia]; unfold vx, vy, vz in H; cbn [fst snd] in H; injection H as H1 H2 H3;
    destruct i as [|[|[|i]]]; try lia; lra. }
  assert (BE : forall i j, (i < 3)%nat -> (j < 3)%nat -> block (dot 3 (transpose (rot r)) (rot p)) (slopes s) i j = block (dot 3 B A) (slopes s) i j).
  { intros i j Hi Hj. unfold block. rewrite CE, !CM by lia. reflexivity. }
  assert (X0 : vec_mul A c0 = vadd (vec_mul A a0) b0).
  { assert (F : forall w, vec_mul (rot p) (vec_mul (transpose (rot p)) w) = w) by (intros; apply (rotate_forth (rot p) _ (rot_orthogonal p))).
    unfold A, a0, b0, c0. rewrite !vec_mul_dot, !F, <- vec_mul_add. f_equal. vec_solve. }
  rewrite CE in D2.
  assert (S' : slopes s' = (vx (vec_mul A (slopes s)) / vz (vec_mul A (slopes s)), vy (vec_mul A (slopes s)) / vz (vec_mul A (slopes s)), 1)) by reflexivity.
  pose proof (fun i j Hi Hj => block_compose A B (slopes s) i j Hi Hj D1 D2) as K. cbn zeta in K. rewrite <- S' in K.
  assert (Dz : vz (vec_mul B (slopes s')) * vz (vec_mul A (slopes s)) = vz (vec_mul (dot 3 B A) (slopes s))).
  { rewrite vec_mul_dot, S', (vec_mul_eq B), (vec_mul_eq B). generalize dependent (vec_mul A (slopes s)). intros [[x y] z]. unfold vx, vy, vz. cbn [fst snd]. intros. field; auto. }
  assert (St : step_length A a0 s + step_length B b0 s' / vz (vec_mul A (slopes s)) = step_length (dot 3 (transpose (rot r)) (rot p)) c0 s).
  { unfold step_length. rewrite !CE. fold (slopes s) (slopes s').
    assert (P : (s_u s', s_v s', 0) = vec_mul A (vsub (vadd (s_u s, s_v s, 0) (vscale (step_length A a0 s) (slopes s))) a0)).
    { pose proof (extrapolated_eq p q s D1) as E. cbn zeta in E. fold s' in E. rewrite E. cbn [s_u s_v]. unfold origin, direction, step_length. fold A a0 (slopes s).
      rewrite (vec_mul_sub A _ a0), (vec_mul_sub A _ a0), (vec_mul_sub A a0), vec_mul_add, vec_mul_scale. generalize D1. generalize (vec_mul A (slopes s)). intros d H.
      generalize (vec_mul A a0) (vec_mul A (s_u s, s_v s, 0)). intros e f. apply vec_eq; unfold vadd, vsub, vscale, vx, vy, vz in *; cbn [fst snd] in *; field; exact H. }
    assert (N : vz (vec_mul B (vsub b0 (s_u s', s_v s', 0))) = vz (vec_mul (dot 3 B A) (vsub c0 (s_u s, s_v s, 0))) - step_length A a0 s * vz (vec_mul (dot 3 B A) (slopes s))).
    { rewrite P, !vec_mul_dot, !(vec_mul_sub A), (vec_mul_add A), (vec_mul_scale A), X0. 
      generalize (vec_mul A (slopes s)) (vec_mul A a0) (vec_mul A (s_u s, s_v s, 0)) (step_length A a0 s). intros e f g h.
      rewrite !vec_mul_eq. vec_ring. }
    rewrite N. unfold step_length. fold (slopes s). rewrite <- Dz. rewrite <- Dz in D2. field. split; auto. }
  intros i j Hi Hj. unfold dot. cbn [sum_n]. rewrite Rplus_0_l.
  assert (G : forall i j, (i < 2)%nat -> (j < 2)%nat ->
    block B (slopes s') i 0%nat * block A (slopes s) 0%nat j + block B (slopes s') i 1%nat * block A (slopes s) 1%nat j = 
    block (dot 3 (transpose (rot r)) (rot p)) (slopes s) i j) by (intros; rewrite K, BE by lia; reflexivity).
  assert (Ci : exists a a', i = (a + 2 * a')%nat /\ (a < 2)%nat /\ (a' < 2)%nat) by (destruct i as [|[|[|[|i]]]]; [exists 0%nat, 0%nat|exists 1%nat, 0%nat|exists 0%nat, 1%nat|exists 1%nat, 1%nat|]; lia).
  assert (Cj : exists a a', j = (a + 2 * a')%nat /\ (a < 2)%nat /\ (a' < 2)%nat) by (destruct j as [|[|[|[|j]]]]; [exists 0%nat, 0%nat|exists 1%nat, 0%nat|exists 0%nat, 1%nat|exists 1%nat, 1%nat|]; lia).
  destruct Ci as (a & a' & -> & Ha & Ha'). destruct Cj as (b & b' & -> & Hb & Hb'). clear Hi Hj.
  destruct (J3 a b Ha Hb) as (P00 & P02 & P20 & P22).
  destruct (J2 a 0%nat Ha ltac:(lia)) as (Q00 & Q02 & Q20 & Q22). destruct (J2 a 1%nat Ha ltac:(lia)) as (Q01 & Q03 & Q21 & Q23).
  destruct (J1 0%nat b ltac:(lia) Hb) as (R00 & R02 & R20 & R22). destruct (J1 1%nat b ltac:(lia) Hb) as (R10 & R12 & R30 & R32).
  specialize (G a b Ha Hb). clear J1 J2 J3 K BE CM. cbn [Nat.add] in *.
  destruct a' as [|[|a']]; [| |lia]; destruct b' as [|[|b']]; try lia; cbn [Nat.mul Nat.add]; rewrite ?Nat.add_0_r, ?(Nat.add_comm a 2), ?(Nat.add_comm b 2); cbn [Nat.add].
  - rewrite Q00, Q01, Q02, Q03, R00, R10, R20, R30, P00, <- G. ring.
  - rewrite Q00, Q01, Q02, Q03, R02, R12, R22, R32, P02, <- G, <- St. field. exact D1.
  - rewrite Q20, Q21, Q22, Q23, R00, R10, R20, R30, P20. ring.
  - rewrite Q20, Q21, Q22, Q23, R02, R12, R22, R32, P22, <- G, CE, <- Dz. field. split; [exact D1|exact D3].
Qed.

Lemma rot_zero x y z : rot (Placement x y z 0 0 0) 0%nat 0%nat = 1 /\ forall i j, (i < 3)%nat -> (j < 3)%nat -> rot (Placement x y z 0 0 0) i j = eye i j.
Proof.
  destruct (rot_entries 0 0 0) as (B00 & B01 & B02 & B10 & B11 & B12 & B20 & B21 & B22). rewrite ?sin_0, ?cos_0 in *.
  unfold rot. cbn [r_alpha r_beta r_gamma]. split; [rewrite B00; ring|].
  intros i j Hi Hj. destruct i as [|[|[|i]]]; try lia; destruct j as [|[|[|j]]]; try lia; unfold eye; cbn [Nat.eqb];
    rewrite ?B00, ?B01, ?B02, ?B10, ?B11, ?B12, ?B20, ?B21, ?B22; ring.
Qed.
(** A track with slopes 2 and 3 crosses a plane at a distance of 10 and another one at 15; the second step starts at the result of the first. *)
Example C34_case : let p := Placement 0 0 0 0 0 0 in let q := Placement 1 0 10 0 0 0 in let s := State 5 7 2 3 in
  crosses p s q /\ extrapolated p q s = State 24 37 2 3.
Proof.
  intros p q s.
  assert (V : forall x y z v, vec_mul (rot (Placement x y z 0 0 0)) v = v /\ vec_mul (transpose (rot (Placement x y z 0 0 0))) v = v).
  { intros x y z [[vx' vy'] vz']. destruct (rot_zero x y z) as (_ & E). rewrite !vec_mul_eq. unfold transpose. rewrite !E by lia. unfold eye. cbn [Nat.eqb].
    split; apply vec_eq; unfold vx, vy, vz; cbn [fst snd]; ring. }
  assert (Dd : direction p q s = (2, 3, 1)) by (unfold direction; rewrite vec_mul_dot; unfold p, q; rewrite (proj1 (V 0 0 0 _)), (proj2 (V 1 0 10 _)); reflexivity).
  assert (C : crosses p s q). { apply crosses_iff. rewrite Dd. unfold vz. cbn [snd]. lra. }
  split; [exact C|]. pose proof (extrapolated_eq p q s (proj1 (crosses_iff _ _ _) C)) as E. cbn zeta in E. rewrite E, Dd.
  assert (Oo : origin p q s = (4, 7, -10)).
  { unfold origin. rewrite vec_mul_dot. unfold p, q, s. rewrite (proj2 (V 0 0 0 _)), (proj1 (V 0 0 0 _)), (proj2 (V 1 0 10 _)).
    unfold pos. cbn [t_x t_y t_z s_u s_v]. apply vec_eq; unfold vsub, vx, vy, vz; cbn [fst snd]; ring. }
  rewrite Oo. unfold vx, vy, vz. cbn [fst snd]. f_equal; lra.
Qed.

Print Assumptions C34_same_track.
Print Assumptions C34_on_plane.
Print Assumptions C34_unique.
Print Assumptions C34_composition.
Print Assumptions C34_identity.
Print Assumptions C34_back_and_forth.
Print Assumptions C35_derivative.
Print Assumptions C35_composition.
