(** Properties of the geometry functions: C27 (rotations and coordinate systems), C28 (intersections),
    C29 (Euler angles), C30 (spherical coordinates), C31 (pixel index), C32 (primitive cell). *)
From Coq Require Import Reals List Bool Arith Lra Lia Nsatz ZArith.
From Verif Require Import GeometryModel GeometryProofs.
Import ListNotations.
Local Open Scope R_scope.

(** *** C27 *)
Definition det3 (M : mat) : R :=
  M 0%nat 0%nat * (M 1%nat 1%nat * M 2%nat 2%nat - M 1%nat 2%nat * M 2%nat 1%nat)
  - M 0%nat 1%nat * (M 1%nat 0%nat * M 2%nat 2%nat - M 1%nat 2%nat * M 2%nat 0%nat)
  + M 0%nat 2%nat * (M 1%nat 0%nat * M 2%nat 1%nat - M 1%nat 1%nat * M 2%nat 0%nat).
Definition is_identity (n : nat) (M : mat) : Prop :=
  forall i j, (i < n)%nat -> (j < n)%nat -> M i j = if (i =? j)%nat then 1 else 0.

Theorem C27_proper_rotation : forall alpha beta gamma, let M := rotation_matrix alpha beta gamma in
  is_identity 3 (dot 3 (transpose M) M) /\ is_identity 3 (dot 3 M (transpose M)) /\ det3 M = 1.
Proof.
  intros a b g M. split; [|split].
  - intros i j Hi Hj. apply rotation_orthogonal_l; auto.
  - intros i j Hi Hj. apply rotation_orthogonal_r; auto.
  - unfold det3, M. destruct (rot_entries a b g) as (E00 & E01 & E02 & E10 & E11 & E12 & E20 & E21 & E22).
    rewrite E00, E01, E02, E10, E11, E12, E20, E21, E22. clear. sc a b g. nsatz.
Qed.

(** a vector fixed by the rotations about the axes, and the sense of rotation: y to z, z to x, x to y *)
Theorem C27_axes : forall a,
  apply_rotation_matrix (1, 0, 0) (rotation_matrix a 0 0) = (1, 0, 0) /\
  apply_rotation_matrix (0, 1, 0) (rotation_matrix a 0 0) = (0, cos a, sin a) /\
  apply_rotation_matrix (0, 1, 0) (rotation_matrix 0 a 0) = (0, 1, 0) /\
  apply_rotation_matrix (0, 0, 1) (rotation_matrix 0 a 0) = (sin a, 0, cos a) /\
  apply_rotation_matrix (0, 0, 1) (rotation_matrix 0 0 a) = (0, 0, 1) /\
  apply_rotation_matrix (1, 0, 0) (rotation_matrix 0 0 a) = (cos a, sin a, 0).
Proof.
  intros a. rewrite !apply_rotation_eq.
  destruct (rot_entries a 0 0) as (E00 & E01 & E02 & E10 & E11 & E12 & E20 & E21 & E22).
  destruct (rot_entries 0 a 0) as (F00 & F01 & F02 & F10 & F11 & F12 & F20 & F21 & F22).
  destruct (rot_entries 0 0 a) as (G00 & G01 & G02 & G10 & G11 & G12 & G20 & G21 & G22).
  rewrite E00, E01, E02, E10, E11, E12, E20, E21, E22, F00, F01, F02, F10, F11, F12, F20, F21, F22, G00, G01, G02, G10, G11, G12, G20, G21, G22.
  rewrite sin_0, cos_0. repeat split; apply vec_eq; unfold vx, vy, vz; cbn [fst snd]; ring.
Qed.
(** about x first, then about y, then about z *)
Theorem C27_order : forall a b g v,
  apply_rotation_matrix v (rotation_matrix a b g) =
  apply_rotation_matrix (apply_rotation_matrix (apply_rotation_matrix v (rotation_matrix a 0 0)) (rotation_matrix 0 b 0)) (rotation_matrix 0 0 g).
Proof.
  intros a b g v. rewrite !apply_rotation_eq.
  destruct (rot_entries a b g) as (D00 & D01 & D02 & D10 & D11 & D12 & D20 & D21 & D22).
  destruct (rot_entries a 0 0) as (E00 & E01 & E02 & E10 & E11 & E12 & E20 & E21 & E22).
  destruct (rot_entries 0 b 0) as (F00 & F01 & F02 & F10 & F11 & F12 & F20 & F21 & F22).
  destruct (rot_entries 0 0 g) as (G00 & G01 & G02 & G10 & G11 & G12 & G20 & G21 & G22).
  apply vec_eq; unfold vx, vy, vz; cbn [fst snd];
  rewrite ?D00, ?D01, ?D02, ?D10, ?D11, ?D12, ?D20, ?D21, ?D22, ?E00, ?E01, ?E02, ?E10, ?E11, ?E12, ?E20, ?E21, ?E22,
    ?F00, ?F01, ?F02, ?F10, ?F11, ?F12, ?F20, ?F21, ?F22, ?G00, ?G01, ?G02, ?G10, ?G11, ?G12, ?G20, ?G21, ?G22, ?sin_0, ?cos_0; ring.
Qed.

Lemma rotate_forth M v : orthogonal M -> apply_rotation_matrix (apply_rotation_matrix v (transpose M)) M = v.
Proof.
  intros [H1 H2]. apply (rotate_back (transpose M) v). split; [exact H2|exact H1].
Qed.

Lemma to_local_to_global p v : to_local p (to_global p v) = v.
Proof.
  rewrite to_local_eq, to_global_eq. rewrite <- (rotate_back (rot p) v (rot_orthogonal p)) at 2. f_equal.
  apply vec_eq; unfold vsub, vadd, vx, vy, vz; cbn [fst snd]; ring.
Qed.
Lemma to_global_to_local p v : to_global p (to_local p v) = v.
Proof.
  rewrite to_global_eq, to_local_eq. rewrite (rotate_forth (rot p) _ (rot_orthogonal p)).
  apply vec_eq; unfold vsub, vadd, vx, vy, vz; cbn [fst snd]; ring.
Qed.

Ltac gen_rot p :=
  generalize dependent (rot p 0%nat 0%nat); generalize dependent (rot p 0%nat 1%nat); generalize dependent (rot p 0%nat 2%nat);
  generalize dependent (rot p 1%nat 0%nat); generalize dependent (rot p 1%nat 1%nat); generalize dependent (rot p 1%nat 2%nat);
  generalize dependent (rot p 2%nat 0%nat); generalize dependent (rot p 2%nat 1%nat); generalize dependent (rot p 2%nat 2%nat);
  generalize dependent (t_x p); generalize dependent (t_y p); generalize dependent (t_z p); intros.

Theorem C27_transformations_inverse : forall p,
  is_identity 4 (dot 4 (global_to_local_matrix p) (local_to_global_matrix p)) /\
  is_identity 4 (dot 4 (local_to_global_matrix p) (global_to_local_matrix p)).
Proof.
  intros p. destruct (rot_orthogonal p) as [H1 H2].
  assert (O : forall i j, (i < 3)%nat -> (j < 3)%nat -> transpose (rot p) i j = rot p j i) by reflexivity.
  unfold dot, transpose, eye in H1, H2. cbn [sum_n] in H1, H2.
  split; intros i j Hi Hj; unfold global_to_local_matrix, local_to_global_matrix, dot, extend4, translation_matrix, transpose, eye, comp, vx, vy, vz;
    cbn [sum_n Nat.eqb Nat.ltb Nat.leb andb fst snd].
  - orth3 H1. cbn [Nat.eqb] in *. clear H1 H2 O.
    destruct (lt4 i Hi) as [-> | [-> | [-> | ->]]]; destruct (lt4 j Hj) as [-> | [-> | [-> | ->]]]; cbn [Nat.eqb Nat.ltb Nat.leb andb]; gen_rot p; first [lra | nsatz].
  - orth3 H2. cbn [Nat.eqb] in *. clear H1 H2 O.
    destruct (lt4 i Hi) as [-> | [-> | [-> | ->]]]; destruct (lt4 j Hj) as [-> | [-> | [-> | ->]]]; cbn [Nat.eqb Nat.ltb Nat.leb andb]; gen_rot p; first [lra | nsatz].
Qed.

(** Positions on the sensor (local z = 0) can be transformed to global coordinates and back. *)
Theorem C27_sensor_round_trip : forall p vs, (forall v, In v vs -> vz v = 0) ->
  exists gs, dut_to_global p vs = Some gs /\ length gs = length vs /\ dut_to_local p gs = Some vs.
Proof.
  intros p vs H. unfold dut_to_global, dut_to_local.
  assert (K : forallb (fun v => close_to_zero (vz v)) vs = true).
  { apply forallb_forall. intros v Hv. rewrite (H v Hv). unfold close_to_zero. apply Rleb_true. rewrite Rabs_R0. lra. }
  rewrite K. eexists. split; [reflexivity|]. split; [apply map_length|].
  rewrite map_map. rewrite (map_ext _ (fun v => v)) by (intros; apply to_local_to_global). rewrite map_id, K. reflexivity.
Qed.
(** Positions off the plane of the sensor are refused, in both directions. *)
Theorem C27_off_plane_error : forall p vs, (exists v, In v vs /\ 1 / 100000000 < Rabs (vz v)) ->
  dut_to_global p vs = None /\ dut_to_local p (map (to_global p) vs) = None.
Proof.
  intros p vs (v & Hv & Hz). unfold dut_to_global, dut_to_local.
  assert (K : forallb (fun v => close_to_zero (vz v)) vs = false).
  { apply not_true_iff_false. rewrite forallb_forall. intros H. specialize (H v Hv). apply Rleb_true in H. lra. }
  rewrite K. split; [reflexivity|].
  rewrite map_map. rewrite (map_ext (fun v => to_local p (to_global p v)) (fun v => v)) by (intros; apply to_local_to_global).
  rewrite map_id, K. reflexivity.
Qed.
(** with explicit alignment parameters there is no check: inverse for all points, in both orders *)
Theorem C27_round_trip : forall p v, to_local p (to_global p v) = v /\ to_global p (to_local p v) = v.
Proof. intros; split; [apply to_local_to_global|apply to_global_to_local]. Qed.

(** Scalar products of differences (distances and angles) are preserved. *)
Lemma rotate_vdot M a b : orthogonal M -> vdot (apply_rotation_matrix a M) (apply_rotation_matrix b M) = vdot a b.
Proof.
  intros [H _]. rewrite !apply_rotation_eq. unfold dot, transpose, eye in H. cbn [sum_n] in H. orth3 H. cbn [Nat.eqb] in *. clear H.
  unfold vdot, vx, vy, vz in *. cbn [fst snd].
  generalize dependent (fst (fst a)); generalize dependent (snd (fst a)); generalize dependent (snd a).
  generalize dependent (fst (fst b)); generalize dependent (snd (fst b)); generalize dependent (snd b).
  generalize dependent (M 0%nat 0%nat); generalize dependent (M 0%nat 1%nat); generalize dependent (M 0%nat 2%nat);
  generalize dependent (M 1%nat 0%nat); generalize dependent (M 1%nat 1%nat); generalize dependent (M 1%nat 2%nat);
  generalize dependent (M 2%nat 0%nat); generalize dependent (M 2%nat 1%nat); generalize dependent (M 2%nat 2%nat); intros.
  nsatz.
Qed.
Lemma rotate_sub M a b : vsub (apply_rotation_matrix a M) (apply_rotation_matrix b M) = apply_rotation_matrix (vsub a b) M.
Proof. rewrite !apply_rotation_eq. apply vec_eq; unfold vsub, vx, vy, vz; cbn [fst snd]; ring. Qed.
Theorem C27_isometry : forall p a b c d,
  vdot (vsub (to_global p a) (to_global p b)) (vsub (to_global p c) (to_global p d)) = vdot (vsub a b) (vsub c d) /\
  vdot (vsub (to_local p a) (to_local p b)) (vsub (to_local p c) (to_local p d)) = vdot (vsub a b) (vsub c d).
Proof.
  intros p.
  assert (G : forall a b c d, vdot (vsub (to_global p a) (to_global p b)) (vsub (to_global p c) (to_global p d)) = vdot (vsub a b) (vsub c d)).
  { intros a b c d. rewrite !to_global_eq.
    assert (E : forall u v w, vsub (vadd u w) (vadd v w) = vsub u v).
    { intros u v w. apply vec_eq; unfold vsub, vadd, vx, vy, vz; cbn [fst snd]; ring. }
    rewrite !E, !rotate_sub. apply rotate_vdot, rot_orthogonal. }
  intros a b c d. split; [apply G|]. rewrite <- G, !to_global_to_local. reflexivity.
Qed.

Example C27_case : let p := Placement 10 (-20) 30 0.1 0.2 (PI / 2) in
  (forall v, In v [(1, 2, 0); (-5, 7, 0)] -> vz v = 0) /\ to_global (Placement 10 (-20) 30 0 0 (PI / 2)) (1, 2, 0) = (8, -19, 30).
Proof.
  split.
  - intros v [<-|[<-|[]]]; reflexivity.
  - rewrite to_global_eq, apply_rotation_eq. unfold rot. cbn [r_alpha r_beta r_gamma].
    destruct (rot_entries 0 0 (PI / 2)) as (E00 & E01 & E02 & E10 & E11 & E12 & E20 & E21 & E22).
    rewrite E00, E01, E02, E10, E11, E12, E20, E21, E22, sin_0, cos_0, sin_PI2, cos_PI2.
    apply vec_eq; unfold vadd, pos, vx, vy, vz; cbn [fst snd t_x t_y t_z]; lra.
Qed.

(** *** C28 *)
Definition on_line (l : line) (q : vec) : Prop := exists t, q = vadd (fst l) (vscale t (snd l)).
(** the direction has no component along the z axis of the sensor *)
Definition parallel (p : placement) (l : line) : Prop := vz (apply_rotation_matrix (snd l) (transpose (rot p))) = 0.

Theorem C28_plane : forall lines position normal,
  (forall l, In l lines -> vdot normal (snd l) <> 0) ->
  exists qs, intersections_with_plane lines position normal = Some qs /\
    Forall2 (fun l q => on_line l q /\ vdot normal (vsub q position) = 0 /\
      forall q', on_line l q' -> vdot normal (vsub q' position) = 0 -> q' = q) lines qs.
Proof.
  intros lines position normal H. unfold intersections_with_plane.
  destruct (existsb _ lines) eqn:E.
  { apply existsb_exists in E. destruct E as (l & Hl & E). apply Reqb_true in E. exfalso. apply (H l Hl E). }
  clear E. eexists. split; [reflexivity|].
  induction lines as [|l lines IH]; simpl; constructor; [|apply IH; intros; apply H; simpl; auto].
  specialize (H l (or_introl eq_refl)). unfold intersection.
  set (d := vdot normal (snd l)) in *. set (o := vdot normal (vsub position (fst l))).
  assert (Lin : forall t, vdot normal (vsub (vadd (fst l) (vscale t (snd l))) position) = t * d - o).
  { intros t. unfold d, o, vdot, vsub, vadd, vscale, vx, vy, vz. cbn [fst snd]. ring. }
  split; [exists (o / d); reflexivity|]. split.
  - rewrite Lin. field. auto.
  - intros q' (t & ->) Ht. rewrite Lin in Ht. replace t with (o / d); [reflexivity|].
    apply Rmult_eq_reg_r with d; auto. field_simplify; auto. lra.
Qed.

Lemma dut_normal_dot p : exists s, s <> 0 /\ forall d, vdot (dut_normal p) d = s * vz (apply_rotation_matrix d (transpose (rot p))).
Proof.
  unfold dut_normal. set (n := (_, _, _) : vec).
  assert (N : n = (rot p 0%nat 2%nat, rot p 1%nat 2%nat, rot p 2%nat 2%nat)).
  { unfold n. rewrite !dot3_eye_r by lia. reflexivity. }
  destruct (rot_orthogonal p) as [H1 _]. specialize (H1 2%nat 2%nat ltac:(lia) ltac:(lia)).
  unfold dot, transpose, eye in H1. cbn [sum_n Nat.eqb] in H1.
  assert (V : vdot n n = 1) by (rewrite N; unfold vdot, vx, vy, vz; cbn [fst snd]; lra).
  rewrite V, sqrt_1, Rinv_1.
  assert (D : forall k d, vdot (vscale k n) d = k * vz (apply_rotation_matrix d (transpose (rot p)))).
  { intros k d. rewrite N, apply_rotation_eq. unfold vdot, vscale, transpose, vx, vy, vz. cbn [fst snd]. ring. }
  destruct (Rltb (vz (vscale 1 n)) 0).
  - exists (-1). split; [lra|]. intros d. rewrite <- D. unfold vdot, vscale, vx, vy, vz. cbn [fst snd]. ring.
  - exists 1. split; [lra|]. intros d. apply D.
Qed.

(** For lines that are not parallel to the sensor: the unique point of the line with local z = 0. *)
Theorem C28_sensor : forall p lines, (forall l, In l lines -> ~ parallel p l) ->
  exists qs, intersections_with_dut lines p = Some qs /\
    Forall2 (fun l q => on_line l q /\ vz (to_local p q) = 0 /\
      forall q', on_line l q' -> vz (to_local p q') = 0 -> q' = q) lines qs.
Proof.
  intros p lines H. destruct (dut_normal_dot p) as (s & Hs & D).
  destruct (C28_plane lines (pos p) (dut_normal p)) as (qs & E & F).
  { intros l Hl E. rewrite D in E. apply Rmult_integral in E. destruct E as [E|E]; [contradiction|]. apply (H l Hl E). }
  exists qs. split; [exact E|].
  assert (Z : forall q, vdot (dut_normal p) (vsub q (pos p)) = 0 <-> vz (to_local p q) = 0).
  { intros q. rewrite D, to_local_eq. split; intros K; [apply Rmult_integral in K; tauto|rewrite K; ring]. }
  clear E H. induction F as [|l q ls qs' (F1 & F2 & F3) _ IH]; constructor; [|exact IH].
  split; [exact F1|]. split; [apply Z, F2|]. intros q' H1 H2. apply F3; auto. apply Z, H2.
Qed.

(** A line that is parallel to the sensor makes the call fail. *)
Theorem C28_parallel_error : forall p lines, (exists l, In l lines /\ parallel p l) -> intersections_with_dut lines p = None.
Proof.
  intros p lines (l & Hl & Hp). unfold intersections_with_dut, intersections_with_plane.
  destruct (dut_normal_dot p) as (s & _ & D).
  assert (E : existsb (fun l => Reqb (vdot (dut_normal p) (snd l)) 0) lines = true).
  { apply existsb_exists. exists l. split; auto. apply Reqb_true. rewrite D. unfold parallel in Hp. rewrite Hp. ring. }
  rewrite E. reflexivity.
Qed.

Example C28_case : let p := Placement 0 0 100 0 0 0.3 in let l := ((1, 2, 0), (1, 0, 10)) in
  ~ parallel p l /\ intersections_with_dut (l :: nil) p = Some ((11, 2, 100) :: nil).
Proof.
  set (p := Placement 0 0 100 0 0 0.3). set (l := ((1, 2, 0), (1, 0, 10)) : line).
  assert (P : ~ parallel p l).
  { unfold parallel. rewrite apply_rotation_eq. unfold transpose, rot, p. cbn [r_alpha r_beta r_gamma vz fst snd].
    destruct (rot_entries 0 0 0.3) as (E00 & E01 & E02 & E10 & E11 & E12 & E20 & E21 & E22). rewrite E02, E12, E22, sin_0, cos_0.
    unfold l, vx, vy, vz. cbn [fst snd]. lra. }
  split; [exact P|].
  destruct (C28_sensor p (l :: nil)) as (qs & E & F). { intros l' [<-|[]]. exact P. }
  change (intersections_with_dut (l :: nil) p = Some ((11, 2, 100) :: nil)). rewrite E. inversion F as [|l' q ls qs' (_ & _ & F3) F4]; subst. inversion F4; subst.
  f_equal. f_equal. symmetry. apply F3.
  - exists 10. unfold l. cbn. apply vec_eq; unfold vadd, vscale, vx, vy, vz; cbn [fst snd]; ring.
  - rewrite to_local_eq, apply_rotation_eq. unfold transpose, rot, p, pos, vsub. cbn [r_alpha r_beta r_gamma t_x t_y t_z].
    destruct (rot_entries 0 0 0.3) as (E00 & E01 & E02 & E10 & E11 & E12 & E20 & E21 & E22). 
    unfold vx, vy, vz. cbn [fst snd]. rewrite E02, E12, E22, sin_0, cos_0. ring.
Qed.

(** *** C54: cross products *)
(** the skew matrix of v maps w to v x w; applied to v it vanishes *)
Theorem C54_skew : forall v w,
  apply_rotation_matrix w (skew v) = (vy v * vz w - vz v * vy w, vz v * vx w - vx v * vz w, vx v * vy w - vy v * vx w) /\
  (forall i j, (i < 3)%nat -> (j < 3)%nat -> skew v i j = - skew v j i).
Proof.
  intros v w. split.
  - rewrite apply_rotation_eq. unfold skew, comp. cbn. apply vec_eq; unfold vx, vy, vz; cbn [fst snd]; ring.
  - intros i j _ _. unfold skew. ring.
Qed.
(** the normal is orthogonal to both vectors and vanishes exactly if they are linearly dependent *)
Theorem C54_plane_normal : forall a b, let n := get_plane_normal a b in
  vdot n a = 0 /\ vdot n b = 0 /\ vdot n n = vdot a a * vdot b b - vdot a b * vdot a b /\
  (n = (0, 0, 0) <-> exists s t, (s <> 0 \/ t <> 0) /\ vadd (vscale s a) (vscale t b) = (0, 0, 0)).
Proof.
  intros [[a1 a2] a3] [[b1 b2] b3]. unfold get_plane_normal, vdot, vadd, vscale, vx, vy, vz. cbn [fst snd].
  split; [ring|]. split; [ring|]. split; [ring|]. split.
  - intros E. injection E as E1 E2 E3.
    destruct (Req_dec b1 0) as [Z1|N1]; [destruct (Req_dec b2 0) as [Z2|N2]; [destruct (Req_dec b3 0) as [Z3|N3]|]|].
    + exists 0, 1. split; [right; lra|]. subst. apply vec_eq; unfold vx, vy, vz; cbn [fst snd]; ring.
    + exists b3, (- a3). split; [left; auto|]. apply vec_eq; unfold vx, vy, vz; cbn [fst snd]; lra.
    + exists b2, (- a2). split; [left; auto|]. apply vec_eq; unfold vx, vy, vz; cbn [fst snd]; lra.
    + exists b1, (- a1). split; [left; auto|]. apply vec_eq; unfold vx, vy, vz; cbn [fst snd]; lra.
  - intros (s & t & N & E). injection E as E1 E2 E3. destruct N as [N|N].
    + apply vec_eq; unfold vx, vy, vz; cbn [fst snd]; (apply Rmult_eq_reg_l with s; [nsatz|auto]).
    + apply vec_eq; unfold vx, vy, vz; cbn [fst snd]; (apply Rmult_eq_reg_l with t; [nsatz|auto]).
Qed.
Example C54_case : get_plane_normal (1, 2, 3) (4, 5, 6) = (-3, 6, -3).
Proof. unfold get_plane_normal, vx, vy, vz. cbn [fst snd]. apply vec_eq; unfold vx, vy, vz; cbn [fst snd]; ring. Qed.

Print Assumptions C27_proper_rotation.
Print Assumptions C27_axes.
Print Assumptions C27_order.
Print Assumptions C27_transformations_inverse.
Print Assumptions C27_sensor_round_trip.
Print Assumptions C27_off_plane_error.
Print Assumptions C27_round_trip.
Print Assumptions C27_isometry.
Print Assumptions C28_plane.
Print Assumptions C28_sensor.
Print Assumptions C28_parallel_error.
Print Assumptions C54_skew.
Print Assumptions C54_plane_normal.
