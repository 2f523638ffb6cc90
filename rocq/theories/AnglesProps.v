(** Euler angles and spherical coordinates (C29, C30). *)
From Coq Require Import Reals List Bool Arith Lra Lia Nsatz.
From Verif Require Import GeometryModel GeometryProofs GeometryProps.
Import ListNotations.
Local Open Scope R_scope.

(** ** arctan2 *)
Lemma sqrt_pos_ne a : 0 < a -> sqrt a <> 0.
Proof. intros H E. apply sqrt_lt_R0 in H. lra. Qed.
Lemma sqrt_1_q x y : x <> 0 -> sqrt (1 + (y / x)²) = sqrt (x * x + y * y) / Rabs x.
Proof.
  intros H. replace (1 + (y / x)²) with ((x * x + y * y) / (Rabs x)²).
  - rewrite sqrt_div_alt by (apply Rlt_0_sqr; apply Rabs_no_R0; auto). rewrite sqrt_Rsqr by apply Rabs_pos. reflexivity.
  - rewrite <- Rsqr_abs. unfold Rsqr. field. auto.
Qed.
Lemma arctan2_spec y x : (x <> 0 \/ y <> 0) ->
  sqrt (x * x + y * y) * cos (arctan2 y x) = x /\ sqrt (x * x + y * y) * sin (arctan2 y x) = y.
Proof.
  intros H.
  assert (P : 0 < x * x + y * y).
  { destruct H as [H|H]; apply Rsqr_pos_lt in H; unfold Rsqr in H; [pose proof (Rle_0_sqr y)|pose proof (Rle_0_sqr x)]; unfold Rsqr in *; lra. }
  pose proof (sqrt_pos_ne _ P) as N.
  assert (A : x <> 0 -> cos (atan (y / x)) = Rabs x / sqrt (x * x + y * y) /\ sin (atan (y / x)) = y * Rabs x / (x * sqrt (x * x + y * y))).
  { intros Hx. rewrite cos_atan, sin_atan, sqrt_1_q by auto. pose proof (Rabs_no_R0 _ Hx). split; field; auto. }
  unfold arctan2. destruct (Rltb 0 x) eqn:E1.
  { apply Rltb_true in E1. destruct (A ltac:(lra)) as (-> & ->). rewrite Rabs_pos_eq by lra. split; field; auto. split; auto; lra. }
  apply Rltb_false in E1. destruct (Rltb x 0) eqn:E2.
  { apply Rltb_true in E2. destruct (A ltac:(lra)) as (C & S). rewrite Rabs_left in C, S by lra.
    destruct (Rleb 0 y).
    - rewrite neg_cos, neg_sin, C, S. split; field; auto. split; auto; lra.
    - rewrite cos_minus, sin_minus, cos_PI, sin_PI, C, S. split; field; auto; split; auto; lra. }
  apply Rltb_false in E2. assert (x = 0) by lra. subst x.
  replace (0 * 0 + y * y) with (y²) in * by (unfold Rsqr; ring). rewrite sqrt_Rsqr_abs.
  destruct (Rltb 0 y) eqn:E3.
  { apply Rltb_true in E3. rewrite cos_PI2, sin_PI2, Rabs_pos_eq by lra. lra. }
  apply Rltb_false in E3. destruct (Rltb y 0) eqn:E4.
  { apply Rltb_true in E4. rewrite cos_neg, sin_neg, cos_PI2, sin_PI2, Rabs_left by lra. lra. }
  apply Rltb_false in E4. destruct H; lra.
Qed.
Lemma arctan2_range y x : - PI < arctan2 y x <= PI.
Proof.
  pose proof PI_RGT_0. pose proof (atan_bound (y / x)). unfold arctan2.
  destruct (Rltb 0 x) eqn:E1; [lra|]. destruct (Rltb x 0) eqn:E2.
  - apply Rltb_true in E2. destruct (Rleb 0 y) eqn:E3.
    + apply Rleb_true in E3. split; [lra|]. assert (y / x <= 0). { unfold Rdiv. pose proof (Rinv_lt_0_compat _ E2). nra. }
      destruct (Req_dec (y / x) 0) as [->|N]; [rewrite atan_0; lra|]. assert (atan (y / x) < atan 0) by (apply atan_increasing; lra). rewrite atan_0 in *. lra.
    + apply Rleb_false in E3. split; [|lra]. assert (0 < y / x). { unfold Rdiv. pose proof (Rinv_lt_0_compat _ E2). nra. }
      assert (atan 0 < atan (y / x)) by (apply atan_increasing; lra). rewrite atan_0 in *. lra.
  - destruct (Rltb 0 y); [lra|]. destruct (Rltb y 0); lra.
Qed.
Lemma arctan2_scale c y x : 0 < c -> arctan2 (y / c) (x / c) = arctan2 y x.
Proof.
  intros H. pose proof (Rinv_0_lt_compat _ H) as I.
  assert (L : forall a, Rltb 0 (a / c) = Rltb 0 a).
  { intros a. unfold Rdiv. destruct (Rltb 0 a) eqn:E; [apply Rltb_true in E|apply Rltb_false in E]; [apply Rltb_true|apply Rltb_false]; nra. }
  assert (L' : forall a, Rltb (a / c) 0 = Rltb a 0).
  { intros a. unfold Rdiv. destruct (Rltb a 0) eqn:E; [apply Rltb_true in E|apply Rltb_false in E]; [apply Rltb_true|apply Rltb_false]; nra. }
  assert (L2 : forall a, Rleb 0 (a / c) = Rleb 0 a).
  { intros a. unfold Rdiv. destruct (Rleb 0 a) eqn:E; [apply Rleb_true in E|apply Rleb_false in E]; [apply Rleb_true|apply Rleb_false]; nra. }
  unfold arctan2. rewrite !L, !L', L2.
  destruct (Rltb 0 x) eqn:E; [|destruct (Rltb x 0) eqn:E'; [|reflexivity]].
  - apply Rltb_true in E. replace (y / c / (x / c)) with (y / x) by (field; split; lra). reflexivity.
  - apply Rltb_true in E'. replace (y / c / (x / c)) with (y / x) by (field; split; lra). reflexivity.
Qed.

(** an angle is determined by its sine and cosine up to full turns *)
Lemma sin_zero x : - PI < x < PI -> sin x = 0 -> x = 0.
Proof.
  intros [H1 H2] E. destruct (Rtotal_order x 0) as [L|[L|L]]; auto.
  - assert (0 < sin (- x)) by (apply sin_gt_0; lra). rewrite sin_neg in *. lra.
  - assert (0 < sin x) by (apply sin_gt_0; lra). lra.
Qed.
Lemma angle_unique a b : - (2 * PI) < a - b < 2 * PI -> cos a = cos b -> sin a = sin b -> a = b.
Proof.
  intros H C S. assert (E : cos (a - b) = 1). { rewrite cos_minus, C, S. pose proof (sc2 b). lra. }
  assert (Z : sin ((a - b) / 2) = 0).
  { replace (a - b) with (2 * ((a - b) / 2)) in E by field. rewrite cos_2a_sin in E.
    assert (sin ((a - b) / 2) * sin ((a - b) / 2) = 0) by lra. apply Rmult_integral in H0. tauto. }
  apply sin_zero in Z; lra.
Qed.

(** ** C29 *)
Definition same3 (M N : mat) : Prop := forall i j, (i < 3)%nat -> (j < 3)%nat -> M i j = N i j.
(** a proper rotation, stated by its entries *)
Definition proper_rotation (M : mat) : Prop :=
  is_identity 3 (dot 3 (transpose M) M) /\ is_identity 3 (dot 3 M (transpose M)) /\ det3 M = 1.

Lemma frobenius_zero M : is_identity 3 (dot 3 (transpose M) M) -> frobenius_defect M = 0.
Proof.
  intros H. unfold frobenius_defect. rewrite <- sqrt_0. f_equal.
  cbn [sum_n]. rewrite !H by lia. unfold eye. cbn [Nat.eqb]. ring.
Qed.

(** each entry of a proper rotation equals its cofactor *)
Lemma cofactors (m00 m01 m02 m10 m11 m12 m20 m21 m22 : R) :
  m00 * m00 + m10 * m10 + m20 * m20 = 1 -> m00 * m01 + m10 * m11 + m20 * m21 = 0 -> m00 * m02 + m10 * m12 + m20 * m22 = 0 ->
  m01 * m01 + m11 * m11 + m21 * m21 = 1 -> m01 * m02 + m11 * m12 + m21 * m22 = 0 -> m02 * m02 + m12 * m12 + m22 * m22 = 1 ->
  m00 * (m11 * m22 - m12 * m21) - m01 * (m10 * m22 - m12 * m20) + m02 * (m10 * m21 - m11 * m20) = 1 ->
  m01 = m12 * m20 - m10 * m22 /\ m02 = m10 * m21 - m11 * m20 /\ m11 = m00 * m22 - m02 * m20 /\ m12 = m01 * m20 - m00 * m21.
Proof. intros. repeat split; nsatz. Qed.

Lemma reconstruct_entries (m00 m01 m02 m10 m11 m12 m20 m21 m22 ca sa c sb cg sg : R) :
  c <> 0 -> sb * sb + c * c = 1 -> sb = - m20 -> c * ca = m22 -> c * sa = m21 -> c * cg = m00 -> c * sg = m10 ->
  m01 = m12 * m20 - m10 * m22 -> m02 = m10 * m21 - m11 * m20 -> m11 = m00 * m22 - m02 * m20 -> m12 = m01 * m20 - m00 * m21 ->
  cg * sb * sa - sg * ca = m01 /\ cg * sb * ca + sg * sa = m02 /\ sg * sb * sa + cg * ca = m11 /\ sg * sb * ca - cg * sa = m12.
Proof.
  intros N S -> <- <- <- <- H1 H2 H3 H4.
  assert (K : forall x y, c * c * x = c * c * y -> x = y).
  { intros x y E. apply Rmult_eq_reg_l with (c * c); [exact E|]. apply Rmult_integral_contrapositive_currified; auto. }
  repeat split; apply K; nsatz.
Qed.

Lemma euler_reconstruct M a b g : proper_rotation M ->
  sin b = - M 2%nat 0%nat -> 0 < cos b ->
  cos b * cos a = M 2%nat 2%nat -> cos b * sin a = M 2%nat 1%nat ->
  cos b * cos g = M 0%nat 0%nat -> cos b * sin g = M 1%nat 0%nat ->
  same3 (rotation_matrix a b g) M.
Proof.
  intros (I & _ & D) Hb Hc Ha Ha' Hg Hg'.
  destruct (rot_entries a b g) as (E00 & E01 & E02 & E10 & E11 & E12 & E20 & E21 & E22).
  unfold is_identity, dot, transpose in I. cbn [sum_n] in I. unfold det3 in D.
  pose proof (I 0%nat 0%nat ltac:(lia) ltac:(lia)) as I00. pose proof (I 0%nat 1%nat ltac:(lia) ltac:(lia)) as I01.
  pose proof (I 0%nat 2%nat ltac:(lia) ltac:(lia)) as I02. pose proof (I 1%nat 1%nat ltac:(lia) ltac:(lia)) as I11.
  pose proof (I 1%nat 2%nat ltac:(lia) ltac:(lia)) as I12. pose proof (I 2%nat 2%nat ltac:(lia) ltac:(lia)) as I22.
  cbn [Nat.eqb] in I00, I01, I02, I11, I12, I22. clear I.
  destruct (cofactors (M 0%nat 0%nat) (M 0%nat 1%nat) (M 0%nat 2%nat) (M 1%nat 0%nat) (M 1%nat 1%nat) (M 1%nat 2%nat)
    (M 2%nat 0%nat) (M 2%nat 1%nat) (M 2%nat 2%nat)) as (C1 & C2 & C3 & C4); try lra.
  destruct (reconstruct_entries _ _ _ _ _ _ _ _ _ (cos a) (sin a) (cos b) (sin b) (cos g) (sin g)
    ltac:(lra) (sc2 b) Hb Ha Ha' Hg Hg' C1 C2 C3 C4) as (R1 & R2 & R3 & R4).
  intros i j Hi Hj. destruct (lt3 i Hi) as [-> | [-> | ->]]; destruct (lt3 j Hj) as [-> | [-> | ->]]; lra.
Qed.

Lemma entry_bound M : proper_rotation M -> M 2%nat 0%nat <> -1 -> M 2%nat 0%nat <> 1 -> -1 < M 2%nat 0%nat < 1.
Proof.
  intros (I & _ & _) N1 N2. pose proof (I 0%nat 0%nat ltac:(lia) ltac:(lia)) as I00. unfold dot, transpose in I00. cbn [sum_n Nat.eqb] in I00.
  split; nra.
Qed.
Lemma row2 M : proper_rotation M ->
  M 2%nat 2%nat * M 2%nat 2%nat + M 2%nat 1%nat * M 2%nat 1%nat = 1 - M 2%nat 0%nat * M 2%nat 0%nat /\
  M 0%nat 0%nat * M 0%nat 0%nat + M 1%nat 0%nat * M 1%nat 0%nat = 1 - M 2%nat 0%nat * M 2%nat 0%nat.
Proof.
  intros (I & J & _). pose proof (I 0%nat 0%nat ltac:(lia) ltac:(lia)) as I00. pose proof (J 2%nat 2%nat ltac:(lia) ltac:(lia)) as J22.
  unfold dot, transpose in I00, J22. cbn [sum_n Nat.eqb] in I00, J22. split; lra.
Qed.

(** the angle reported for [a]: zero when its magnitude is at most [eps], else [a] itself *)
Definition reported (eps a a' : R) : Prop := (Rabs a <= eps -> a' = 0) /\ (eps < Rabs a -> a' = a).
Lemma snap_reported eps a : reported eps a (snap eps a).
Proof.
  unfold reported, snap. split; intros H.
  - assert (Rleb a eps = true). { apply Rleb_true. pose proof (Rle_abs a). lra. }
    assert (Rleb (- eps) a = true). { apply Rleb_true. pose proof (Rle_abs (- a)). rewrite Rabs_Ropp in *. lra. }
    rewrite H0, H1. reflexivity.
  - destruct (Rleb a eps) eqn:E1, (Rleb (- eps) a) eqn:E2; simpl; auto.
    apply Rleb_true in E1, E2. assert (Rabs a <= eps) by (apply Rabs_le; lra). lra.
Qed.
Lemma snap_small eps b : 0 <= eps -> - (PI / 2) < b < PI / 2 -> - (PI / 2) < snap eps b < PI / 2.
Proof. intros He H. unfold snap. destruct (_ && _); [pose proof PI_RGT_0; lra|auto]. Qed.

(** The angles found for a rotation (away from the gimbal lock) rebuild the rotation; angles of a magnitude of at
    most the machine epsilon are reported as zero. *)
Theorem C29_rebuilds : forall tol eps M, 0 <= tol -> 0 <= eps -> proper_rotation M -> Rabs (M 2%nat 0%nat) <> 1 ->
  exists a b g a' b' g', euler_angles tol eps M = Angles a' b' g' /\
    reported eps a a' /\ reported eps b b' /\ reported eps g g' /\
    same3 (rotation_matrix a b g) M /\
    - PI < a <= PI /\ - (PI / 2) < b < PI / 2 /\ - PI < g <= PI.
Proof.
  intros tol eps M Ht He HM N.
  assert (N1 : M 2%nat 0%nat <> -1) by (intros E; apply N; rewrite E, Rabs_left; lra).
  assert (N2 : M 2%nat 0%nat <> 1) by (intros E; apply N; rewrite E, Rabs_right; lra).
  pose proof (entry_bound M HM N1 N2) as B. destruct (row2 M HM) as (R2 & R0).
  unfold euler_angles. rewrite frobenius_zero by apply HM.
  rewrite (proj2 (Rleb_true 0 tol) Ht). cbn [negb].
  rewrite (proj2 (Reqb_false _ _) N1), (proj2 (Reqb_false _ _) N2).
  set (b := - asin (M 2%nat 0%nat)).
  assert (Bb : - (PI / 2) < b < PI / 2) by (pose proof (asin_bound_lt _ B); unfold b; lra).
  assert (Cb : 0 < cos b) by (apply cos_gt_0; lra).
  assert (Sb : sin b = - M 2%nat 0%nat) by (unfold b; rewrite sin_neg, sin_asin by lra; reflexivity).
  assert (C2 : cos b * cos b = 1 - M 2%nat 0%nat * M 2%nat 0%nat) by (pose proof (sc2 b) as S; rewrite Sb in S; lra).
  assert (Cs : 0 < cos (snap eps b)) by (apply cos_gt_0; apply snap_small; auto).
  rewrite !arctan2_scale by auto.
  exists (arctan2 (M 2%nat 1%nat) (M 2%nat 2%nat)), b, (arctan2 (M 1%nat 0%nat) (M 0%nat 0%nat)).
  eexists _, _, _. split; [reflexivity|].
  split; [apply snap_reported|]. split; [apply snap_reported|]. split; [apply snap_reported|].
  assert (Q : forall x y, x * x + y * y = 1 - M 2%nat 0%nat * M 2%nat 0%nat -> cos b * cos (arctan2 y x) = x /\ cos b * sin (arctan2 y x) = y).
  { intros x y E. assert (S : sqrt (x * x + y * y) = cos b). { rewrite E, <- C2. apply sqrt_square. lra. }
    rewrite <- S. apply arctan2_spec. destruct (Req_dec x 0) as [->|]; auto. right. intros ->. nra. }
  destruct (Q _ _ R2) as (Q1 & Q2). destruct (Q _ _ R0) as (Q3 & Q4).
  split; [apply euler_reconstruct; auto|]. split; [apply arctan2_range|]. split; [exact Bb|apply arctan2_range].
Qed.

Lemma angles_from_matrix a b g a' b' g' : - PI < a <= PI -> - (PI / 2) < b < PI / 2 -> - PI < g <= PI ->
  - PI < a' <= PI -> - (PI / 2) < b' < PI / 2 -> - PI < g' <= PI ->
  same3 (rotation_matrix a b g) (rotation_matrix a' b' g') -> a = a' /\ b = b' /\ g = g'.
Proof.
  intros Ha Hb Hg Ha' Hb' Hg' H.
  destruct (rot_entries a b g) as (E00 & _ & _ & E10 & _ & _ & E20 & E21 & E22).
  destruct (rot_entries a' b' g') as (F00 & _ & _ & F10 & _ & _ & F20 & F21 & F22).
  pose proof (H 2%nat 0%nat ltac:(lia) ltac:(lia)) as H20. pose proof (H 2%nat 1%nat ltac:(lia) ltac:(lia)) as H21.
  pose proof (H 2%nat 2%nat ltac:(lia) ltac:(lia)) as H22. pose proof (H 0%nat 0%nat ltac:(lia) ltac:(lia)) as H00.
  pose proof (H 1%nat 0%nat ltac:(lia) ltac:(lia)) as H10.
  rewrite E20, F20 in H20. assert (b = b'). { rewrite <- (asin_sin b), <- (asin_sin b') by lra. f_equal. lra. } subst b'.
  assert (C : 0 < cos b) by (apply cos_gt_0; lra).
  rewrite E21, F21 in H21. rewrite E22, F22 in H22. rewrite E00, F00 in H00. rewrite E10, F10 in H10.
  assert (sin a = sin a') by (apply Rmult_eq_reg_l with (cos b); lra).
  assert (cos a = cos a') by (apply Rmult_eq_reg_l with (cos b); lra).
  assert (sin g = sin g') by (apply Rmult_eq_reg_l with (cos b); lra).
  assert (cos g = cos g') by (apply Rmult_eq_reg_l with (cos b); lra).
  split; [apply angle_unique; auto; lra|]. split; auto. apply angle_unique; auto; lra.
Qed.

(** Angles in the principal range that are zero or larger than the machine epsilon are recovered from their matrix. *)
Theorem C29_recovers : forall tol eps a b g, 0 <= tol -> 0 <= eps ->
  - PI < a <= PI -> - (PI / 2) < b < PI / 2 -> - PI < g <= PI ->
  (a = 0 \/ eps < Rabs a) -> (b = 0 \/ eps < Rabs b) -> (g = 0 \/ eps < Rabs g) ->
  euler_angles tol eps (rotation_matrix a b g) = Angles a b g.
Proof.
  intros tol eps a b g Ht He Ra Rb Rg Ka Kb Kg.
  destruct (rot_entries a b g) as (_ & _ & _ & _ & _ & _ & E20 & _ & _).
  destruct (C29_rebuilds tol eps (rotation_matrix a b g) Ht He) as (x & y & z & x' & y' & z' & E & X & Y & Z & S & R1 & R2 & R3).
  { apply C27_proper_rotation. }
  { rewrite E20, Rabs_Ropp. assert (C : 0 < cos b) by (apply cos_gt_0; lra). pose proof (sc2 b). unfold Rabs. destruct (Rcase_abs (sin b)); nra. }
  destruct (angles_from_matrix x y z a b g) as (-> & -> & ->); auto.
  rewrite E. assert (Q : forall u u', reported eps u u' -> (u = 0 \/ eps < Rabs u) -> u' = u).
  { intros u u' (P1 & P2) [-> | K]; [apply P1; rewrite Rabs_R0; auto|apply P2; auto]. }
  rewrite (Q _ _ X Ka), (Q _ _ Y Kb), (Q _ _ Z Kg). reflexivity.
Qed.

(** A matrix that is not orthogonal is refused. *)
Theorem C29_refuses : forall tol eps M i j, 0 <= tol -> (i < 3)%nat -> (j < 3)%nat ->
  tol < Rabs ((if (i =? j)%nat then 1 else 0) - dot 3 (transpose M) M i j) -> euler_angles tol eps M = NotARotation.
Proof.
  intros tol eps M i j Ht Hi Hj H. unfold euler_angles.
  assert (D : tol < frobenius_defect M).
  { eapply Rlt_le_trans; [exact H|]. unfold frobenius_defect. rewrite <- sqrt_Rsqr_abs. apply sqrt_le_1_alt.
    set (q := fun i j => eye i j - dot 3 (transpose M) M i j). change (q i j)² with (q i j)².
    change (Rsqr (q i j) <= sum_n 3 (fun i => sum_n 3 (fun j => q i j * q i j))).
    cbn [sum_n]. assert (P : forall i j, 0 <= q i j * q i j) by (intros; apply Rle_0_sqr). unfold Rsqr.
    pose proof (P 0%nat 0%nat); pose proof (P 0%nat 1%nat); pose proof (P 0%nat 2%nat);
    pose proof (P 1%nat 0%nat); pose proof (P 1%nat 1%nat); pose proof (P 1%nat 2%nat);
    pose proof (P 2%nat 0%nat); pose proof (P 2%nat 1%nat); pose proof (P 2%nat 2%nat).
    destruct (lt3 i Hi) as [-> | [-> | ->]]; destruct (lt3 j Hj) as [-> | [-> | ->]]; lra. }
  rewrite (proj2 (Rleb_false _ _) D). reflexivity.
Qed.

(** Gimbal lock: for a rotation by 90 degrees about y no result is assigned. *)
Theorem C29_gimbal_lock_refuted : forall tol eps a g, 0 <= tol ->
  euler_angles tol eps (rotation_matrix a (PI / 2) g) = Unbound /\ euler_angles tol eps (rotation_matrix a (- (PI / 2)) g) = Unbound.
Proof.
  intros tol eps a g Ht. unfold euler_angles.
  rewrite !frobenius_zero by apply C27_proper_rotation. rewrite (proj2 (Rleb_true 0 tol) Ht). cbn [negb].
  destruct (rot_entries a (PI / 2) g) as (_ & _ & _ & _ & _ & _ & -> & _ & _).
  destruct (rot_entries a (- (PI / 2)) g) as (_ & _ & _ & _ & _ & _ & -> & _ & _).
  rewrite sin_neg, sin_PI2. split.
  - rewrite (proj2 (Reqb_true (- (1)) (-1))) by lra. reflexivity.
  - rewrite (proj2 (Reqb_false (- - (1)) (-1))) by lra. rewrite (proj2 (Reqb_true (- - (1)) 1)) by lra. reflexivity.
Qed.

(** Mirror images pass the check for rotation matrices, and get angles of some other matrix. *)
Theorem C29_reflection_refuted : exists M, forall tol eps, 0 <= tol -> 0 <= eps ->
  is_identity 3 (dot 3 (transpose M) M) /\ exists a b g, euler_angles tol eps M = Angles a b g /\ ~ same3 (rotation_matrix a b g) M.
Proof.
  set (M := np_array [[1; 0; 0]; [0; 1; 0]; [0; 0; -1]]). exists M. intros tol eps Ht He.
  assert (I : is_identity 3 (dot 3 (transpose M) M)).
  { intros i j Hi Hj. unfold dot, transpose, M, np_array. cbn [sum_n].
    destruct (lt3 i Hi) as [-> | [-> | ->]]; destruct (lt3 j Hj) as [-> | [-> | ->]]; cbn [List.nth Nat.eqb]; ring. }
  split; [exact I|].
  assert (E : exists a b g, euler_angles tol eps M = Angles a b g).
  { unfold euler_angles. rewrite frobenius_zero by exact I. rewrite (proj2 (Rleb_true 0 tol) Ht). cbn [negb].
    change (M 2%nat 0%nat) with 0. rewrite (proj2 (Reqb_false 0 (-1))) by lra. rewrite (proj2 (Reqb_false 0 1)) by lra. eauto. }
  destruct E as (a & b & g & E). exists a, b, g. split; [exact E|]. intros S.
  destruct (C27_proper_rotation a b g) as (_ & _ & D). unfold det3 in D.
  rewrite !(S _ _) in D by lia. unfold M, np_array in D. cbn [List.nth] in D. lra.
Qed.

Example C29_case : euler_angles (1 / 100000000) (1 / 1000000000000) (rotation_matrix (PI / 3) (- (1 / 10)) 0) = Angles (PI / 3) (- (1 / 10)) 0.
Proof.
  pose proof PI2_1. pose proof PI_RGT_0.
  apply C29_recovers; try lra.
  - right. rewrite Rabs_pos_eq; lra.
  - right. rewrite Rabs_Ropp, Rabs_pos_eq; lra.
Qed.

(** ** C30 *)
Lemma square_sum a b c : 0 <= a * a + b * b + c * c.
Proof. pose proof (Rle_0_sqr a); pose proof (Rle_0_sqr b); pose proof (Rle_0_sqr c); unfold Rsqr in *; lra. Qed.
Lemma norm_zero x y z : sqrt (x * x + y * y + z * z) = 0 -> x = 0 /\ y = 0 /\ z = 0.
Proof.
  intros H. apply sqrt_eq_0 in H; [|apply square_sum].
  pose proof (Rle_0_sqr x); pose proof (Rle_0_sqr y); pose proof (Rle_0_sqr z); unfold Rsqr in *.
  assert (x * x = 0) by lra. assert (y * y = 0) by lra. assert (z * z = 0) by lra.
  repeat split; match goal with |- ?a = 0 => assert (K : a * a = 0) by lra; apply Rmult_integral in K; tauto end.
Qed.
Lemma acos_eq_PI x : -1 <= x <= 1 -> PI <= acos x -> x = -1.
Proof. intros B H. pose proof (acos_bound x). assert (E : acos x = PI) by lra. rewrite <- (cos_acos x B), E. apply cos_PI. Qed.

(** From cartesian to spherical coordinates and back. *)
Theorem C30_round_trip : forall v, (vx v <> 0 \/ vy v = 0) -> ~ (vx v = 0 /\ vy v = 0 /\ vz v < 0) ->
  spherical_to_cartesian (cartesian_to_spherical v) = Some v.
Proof.
  intros [[x y] z]. unfold vx, vy, vz. cbn [fst snd]. intros H1 H2.
  unfold cartesian_to_spherical, spherical_to_cartesian, vx, vy, vz. cbn [fst snd].
  set (r := sqrt (x * x + y * y + z * z)).
  set (phi0 := if Reqb x 0 then 0 else arctan2 y x). set (phi := if Rltb phi0 0 then phi0 + 2 * PI else phi0).
  pose proof PI_RGT_0 as HPI.
  assert (Hr : 0 <= r) by apply sqrt_pos.
  assert (Rphi : 0 <= phi < 2 * PI).
  { unfold phi, phi0. pose proof (arctan2_range y x). destruct (Reqb x 0); [rewrite (proj2 (Rltb_false 0 0)); lra|].
    destruct (Rltb (arctan2 y x) 0) eqn:E; [apply Rltb_true in E|apply Rltb_false in E]; lra. }
  assert (Cphi : cos phi = cos phi0 /\ sin phi = sin phi0).
  { unfold phi. destruct (Rltb phi0 0); auto. rewrite cos_plus, sin_plus, cos_2PI, sin_2PI. split; ring. }
  rewrite (proj2 (Rltb_false r 0) Hr), (proj2 (Rltb_false phi 0)), (proj2 (Rleb_false (2 * PI) phi)) by lra.
  destruct (Req_dec r 0) as [Z|NZ].
  { destruct (norm_zero _ _ _ Z) as (-> & -> & ->). rewrite (proj2 (Reqb_true r 0) Z).
    rewrite (proj2 (Rltb_false 0 0)), (proj2 (Rleb_false PI 0)) by lra. cbn [orb]. rewrite Z. apply some_vec; unfold vx, vy, vz; cbn [fst snd]; ring. }
  rewrite (proj2 (Reqb_false r 0) NZ).
  assert (Pr : 0 < r) by lra.
  assert (R2 : r * r = x * x + y * y + z * z) by (apply sqrt_sqrt, square_sum).
  assert (B : -1 <= z / r <= 1).
  { split; apply Rmult_le_reg_r with r; auto; unfold Rdiv; rewrite ?Rmult_assoc, Rinv_l by auto; nra. }
  assert (T : acos (z / r) < PI).
  { destruct (Rlt_le_dec (acos (z / r)) PI) as [|L]; auto. apply acos_eq_PI in L; auto.
    assert (z = - r) by (apply Rmult_eq_reg_r with (/ r); [fold (z / r); rewrite L; field; auto|apply Rinv_neq_0_compat; auto]).
    assert (x * x + y * y = 0) by (rewrite H in R2; lra). pose proof (Rle_0_sqr x); pose proof (Rle_0_sqr y); unfold Rsqr in *.
    exfalso. apply H2. repeat split; [| |lra]; match goal with |- ?a = 0 => assert (K : a * a = 0) by lra; apply Rmult_integral in K; tauto end. }
  pose proof (acos_bound (z / r)) as [T0 _].
  rewrite (proj2 (Rltb_false _ 0) T0), (proj2 (Rleb_false PI _) T). cbn [orb].
  rewrite (cos_acos _ B), (sin_acos _ B).
  assert (S : r * sqrt (1 - (z / r)²) = sqrt (x * x + y * y)).
  { rewrite <- (sqrt_square r) at 1 by lra. rewrite <- sqrt_mult_alt by nra. f_equal.
    unfold Rsqr. field_simplify; auto. nra. }
  assert (A : sqrt (x * x + y * y) * cos phi0 = x /\ sqrt (x * x + y * y) * sin phi0 = y).
  { unfold phi0. destruct (Reqb x 0) eqn:E; [apply Reqb_true in E|apply Reqb_false in E].
    - subst x. destruct H1 as [H1|H1]; [lra|]. subst y. replace (0 * 0 + 0 * 0) with 0 by ring. rewrite sqrt_0. split; ring.
    - apply arctan2_spec. auto. }
  destruct Cphi as (-> & ->). destruct A as (A1 & A2). apply some_vec; unfold vx, vy, vz; cbn [fst snd].
  - rewrite <- S in A1. transitivity (r * sqrt (1 - (z / r)²) * cos phi0); [ring|exact A1].
  - rewrite <- S in A2. transitivity (r * sqrt (1 - (z / r)²) * sin phi0); [ring|exact A2].
  - field. auto.
Qed.

(** From spherical to cartesian coordinates and back; the conversion also keeps the distance. *)
Theorem C30_round_trip_back : forall phi theta r, 0 < r -> 0 < theta < PI -> 0 <= phi < 2 * PI -> cos phi <> 0 ->
  exists v, spherical_to_cartesian (phi, theta, r) = Some v /\ vdot v v = r * r /\ cartesian_to_spherical v = (phi, theta, r).
Proof.
  intros phi theta r Hr Ht Hp Hc. pose proof PI_RGT_0 as HPI. unfold spherical_to_cartesian.
  rewrite (proj2 (Rltb_false r 0)), (proj2 (Rltb_false theta 0)), (proj2 (Rleb_false PI theta)),
    (proj2 (Rltb_false phi 0)), (proj2 (Rleb_false (2 * PI) phi)) by lra. cbn [orb].
  eexists. split; [reflexivity|].
  set (v := (_, _, _) : vec).
  assert (St : 0 < sin theta) by (apply sin_gt_0; lra).
  assert (V : vx v * vx v + vy v * vy v + vz v * vz v = r * r).
  { unfold v, vx, vy, vz. cbn [fst snd]. pose proof (sc2 phi); pose proof (sc2 theta).
    transitivity (r * r * ((sin phi * sin phi + cos phi * cos phi) * (sin theta * sin theta) + cos theta * cos theta)); [ring|].
    rewrite H. transitivity (r * r * (sin theta * sin theta + cos theta * cos theta)); [ring|]. rewrite H0. ring. }
  split; [exact V|].
  unfold cartesian_to_spherical. rewrite V, sqrt_square by lra.
  rewrite (proj2 (Reqb_false r 0)) by lra.
  assert (X : vx v <> 0).
  { unfold v, vx. cbn [fst snd]. apply Rmult_integral_contrapositive_currified; [|lra]. apply Rmult_integral_contrapositive_currified; [lra|auto]. }
  rewrite (proj2 (Reqb_false _ _) X).
  assert (Z : vz v / r = cos theta) by (unfold v, vz; cbn [fst snd]; field; lra). rewrite Z, acos_cos by lra.
  f_equal. f_equal.
  destruct (arctan2_spec (vy v) (vx v) (or_introl X)) as (C & S).
  assert (Q : sqrt (vx v * vx v + vy v * vy v) = r * sin theta).
  { replace (vx v * vx v + vy v * vy v) with ((r * sin theta) * (r * sin theta)).
    - apply sqrt_square. apply Rlt_le, Rmult_lt_0_compat; auto.
    - unfold v, vx, vy. cbn [fst snd]. pose proof (sc2 phi).
      transitivity (r * r * (sin theta * sin theta) * (sin phi * sin phi + cos phi * cos phi)); [rewrite H; ring|ring]. }
  rewrite Q in C, S.
  assert (P : 0 < r * sin theta) by (apply Rmult_lt_0_compat; auto).
  assert (C' : cos (arctan2 (vy v) (vx v)) = cos phi). { apply Rmult_eq_reg_l with (r * sin theta); [|lra]. rewrite C. unfold v, vx. cbn [fst snd]. ring. }
  assert (S' : sin (arctan2 (vy v) (vx v)) = sin phi). { apply Rmult_eq_reg_l with (r * sin theta); [|lra]. rewrite S. unfold v, vy. cbn [fst snd]. ring. }
  pose proof (arctan2_range (vy v) (vx v)) as R. destruct (Rltb (arctan2 (vy v) (vx v)) 0) eqn:E; [apply Rltb_true in E|apply Rltb_false in E].
  - apply angle_unique; [lra| |]; rewrite ?cos_plus, ?sin_plus, cos_2PI, sin_2PI, ?C', ?S'; ring.
  - apply angle_unique; auto; lra.
Qed.

(** The azimuth is wrong in the plane x = 0, and the negative z axis is refused. *)
Theorem C30_refuted :
  spherical_to_cartesian (cartesian_to_spherical (0, 1, 0)) = Some (1, 0, 0) /\
  spherical_to_cartesian (cartesian_to_spherical (0, 0, -1)) = None.
Proof.
  pose proof PI_RGT_0. unfold cartesian_to_spherical, spherical_to_cartesian, vx, vy, vz. cbn [fst snd].
  rewrite (proj2 (Reqb_true 0 0)) by reflexivity. rewrite (proj2 (Rltb_false 0 0)) by lra.
  replace (0 * 0 + 1 * 1 + 0 * 0) with 1 by ring. replace (0 * 0 + 0 * 0 + -1 * -1) with 1 by ring. rewrite sqrt_1.
  rewrite (proj2 (Reqb_false 1 0)), (proj2 (Rltb_false 1 0)), (proj2 (Rleb_false (2 * PI) 0)) by lra.
  replace (0 / 1) with 0 by field. replace (-1 / 1) with (- (1)) by field.
  rewrite acos_0, acos_opp, acos_1. split.
  - rewrite (proj2 (Rltb_false (PI / 2) 0)), (proj2 (Rleb_false PI (PI / 2))), (proj2 (Rltb_false 0 0)) by lra. cbn [orb].
    rewrite cos_0, sin_0, cos_PI2, sin_PI2. apply some_vec; unfold vx, vy, vz; cbn [fst snd]; ring.
  - rewrite (proj2 (Rleb_true PI (PI - 0))) by lra. rewrite orb_true_r. reflexivity.
Qed.

Example C30_case : spherical_to_cartesian (cartesian_to_spherical (-3, -4, 12)) = Some (-3, -4, 12).
Proof. apply C30_round_trip; unfold vx, vy, vz; cbn [fst snd]; lra. Qed.

Print Assumptions C29_rebuilds.
Print Assumptions C29_recovers.
Print Assumptions C29_refuses.
Print Assumptions C29_gimbal_lock_refuted.
Print Assumptions C29_reflection_refuted.
Print Assumptions C30_round_trip.
Print Assumptions C30_round_trip_back.
Print Assumptions C30_refuted.
