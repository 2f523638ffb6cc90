(** Properties of the alignment Jacobian and of the annealing factor of dut_alignment.py. *)
From Coq Require Import Reals Lra Lia List Nsatz.
From Coquelicot Require Import Coquelicot.
From Verif Require Import GeometryModel GeometryProofs GeometryProps AnglesProps AlignModel KalmanTrackModel KalmanTrackProps AlignJacobianModel.
Local Open Scope R_scope.

(** equations of Coquelicot as equations of the reals *)
Ltac req := match goal with |- ?a = ?b => change (@eq R a b) end.

(** ** C55: the alignment Jacobian *)
(** The state, in the corrected system of the DUT, of the track that has state [s] in the system of the DUT at [p] (compare C34);
    [c]: the corrections of _update_alignment, in units of [h] *)
Definition times (h : R) (c : placement) : placement :=
  Placement (h * t_x c) (h * t_y c) (h * t_z c) (h * r_alpha c) (h * r_beta c) (h * r_gamma c).
Definition predicted (p : placement) (s : state) (c : placement) : state :=
  let (M, x) := update_alignment (rot p) (pos p) c in extrapolate_state s (pos p) x (rot p) M.
(** the change of the position on the sensor (i: 0 for u, 1 for v), as given by the Jacobian of the code *)
Definition change (p : placement) (s : state) (c : placement) (i : nat) : R :=
  let D := jacobian_alignment s (transpose (rot p)) in
  D i 0%nat * t_x c + D i 1%nat * t_y c + D i 2%nat * t_z c + D i 3%nat * r_alpha c + D i 4%nat * r_beta c + D i 5%nat * r_gamma c.
Definition angles (c : placement) : vec := (r_alpha c, r_beta c, r_gamma c).
(** change of the position for a shift [g] and a rotation vector [w], both in the system of the sensor *)
Definition local_change (s : state) (g w : vec) (i : nat) : R :=
  match i with
  | 0%nat => - vx g + s_du s * vz g - s_v s * s_du s * vx w + s_u s * s_du s * vy w - s_v s * vz w
  | _ => - vy g + s_dv s * vz g - s_v s * s_dv s * vx w + s_u s * s_dv s * vy w + s_u s * vz w
  end.

Lemma vec_mul_transpose M v : vec_mul (transpose M) v =
  (M 0%nat 0%nat * vx v + M 1%nat 0%nat * vy v + M 2%nat 0%nat * vz v,
   M 0%nat 1%nat * vx v + M 1%nat 1%nat * vy v + M 2%nat 1%nat * vz v,
   M 0%nat 2%nat * vx v + M 1%nat 2%nat * vy v + M 2%nat 2%nat * vz v).
Proof. rewrite vec_mul_eq. reflexivity. Qed.
Lemma change_eq p s c i : (i < 2)%nat -> change p s c i = local_change s (vec_mul (transpose (rot p)) (pos c)) (angles c) i.
Proof.
  intros Hi. unfold change, jacobian_alignment, dot, extend4, transpose, jaq. cbn [sum_n Nat.ltb Nat.leb andb].
  rewrite vec_mul_eq. unfold eye, local_change, angles, pos, np_array, vx, vy, vz. cbn [Nat.eqb fst snd].
  destruct i as [|[|i]]; [| |lia]; cbn [List.nth]; ring.
Qed.

(** derivative of the position for a changing relative rotation Q and shift x0 *)
Lemma moving_frame (Q : R -> mat) (W : mat) (g : vec) (s : state) i : (i < 2)%nat ->
  (forall a b, (a < 3)%nat -> (b < 3)%nat -> Q 0 a b = eye a b) ->
  (forall a b, (a < 3)%nat -> (b < 3)%nat -> is_derive (fun h => Q h a b) 0 (W a b)) ->
  let x_point : vec := (s_u s, s_v s, 0) in let d : vec := (s_du s, s_dv s, 1) in
  let step h := vdot (vec_mul (Q h) (vsub (vscale h g) x_point)) (0, 0, 1) / vz (vec_mul (Q h) d) in
  let point h := vec_mul (Q h) (vsub (vadd x_point (vscale (step h) d)) (vscale h g)) in
  is_derive (fun h => comp (point h) i) 0
    (comp (vec_mul W x_point) i - comp g i + comp d i * (vz g - vz (vec_mul W x_point))).
Proof.
  intros Hi Q0 HQ x_point d step point.
  assert (V : forall (f : R -> vec) f0 (f' : vec), f 0 = f0 -> (forall k, (k < 3)%nat -> is_derive (fun h => comp (f h) k) 0 (comp f' k)) ->
    vec_mul (Q 0) f0 = f0 /\ forall k, (k < 3)%nat -> is_derive (fun h => comp (vec_mul (Q h) (f h)) k) 0 (comp (vadd (vec_mul W f0) f') k)).
  { intros f f0 f' F0 HF. split.
    { rewrite vec_mul_eq. rewrite !Q0 by lia. unfold eye. cbn [Nat.eqb]. apply vec_eq; unfold vx, vy, vz; cbn [fst snd]; ring. }
    intros k Hk.
    pose proof (HF 0%nat ltac:(lia)) as F1. pose proof (HF 1%nat ltac:(lia)) as F2. pose proof (HF 2%nat ltac:(lia)) as F3.
    pose proof (HQ k 0%nat Hk ltac:(lia)) as D1. pose proof (HQ k 1%nat Hk ltac:(lia)) as D2. pose proof (HQ k 2%nat Hk ltac:(lia)) as D3.
    pose proof (Q0 k 0%nat Hk ltac:(lia)) as E1. pose proof (Q0 k 1%nat Hk ltac:(lia)) as E2. pose proof (Q0 k 2%nat Hk ltac:(lia)) as E3.
    apply (is_derive_ext (fun h => Q h k 0%nat * comp (f h) 0%nat + Q h k 1%nat * comp (f h) 1%nat + Q h k 2%nat * comp (f h) 2%nat)).
    { intros h. rewrite vec_mul_eq. destruct (lt3 k Hk) as [-> | [-> | ->]]; reflexivity. }
    pose (q1 h := Q h k 0%nat). pose (q2 h := Q h k 1%nat). pose (q3 h := Q h k 2%nat).
    pose (f1 h := comp (f h) 0%nat). pose (f2 h := comp (f h) 1%nat). pose (f3 h := comp (f h) 2%nat).
    assert (U1 : Derive f1 0 = comp f' 0%nat) by exact (is_derive_unique _ _ _ F1). assert (U2 : Derive f2 0 = comp f' 1%nat) by exact (is_derive_unique _ _ _ F2).
    assert (U3 : Derive f3 0 = comp f' 2%nat) by exact (is_derive_unique _ _ _ F3).
    assert (V1 : Derive q1 0 = W k 0%nat) by exact (is_derive_unique _ _ _ D1). assert (V2 : Derive q2 0 = W k 1%nat) by exact (is_derive_unique _ _ _ D2).
    assert (V3 : Derive q3 0 = W k 2%nat) by exact (is_derive_unique _ _ _ D3).
    change (is_derive (fun h => q1 h * f1 h + q2 h * f2 h + q3 h * f3 h) 0 (comp (vadd (vec_mul W f0) f') k)).
    auto_derive.
    { unfold q1, q2, q3, f1, f2, f3. repeat split; eexists; eassumption. }
    change (fun x : R => f1 x) with f1. change (fun x : R => f2 x) with f2. change (fun x : R => f3 x) with f3.
    change (fun x : R => q1 x) with q1. change (fun x : R => q2 x) with q2. change (fun x : R => q3 x) with q3.
    rewrite U1, U2, U3, V1, V2, V3. unfold q1, q2, q3, f1, f2, f3. rewrite F0, E1, E2, E3. req.
    rewrite vec_mul_eq. unfold eye. destruct (lt3 k Hk) as [-> | [-> | ->]]; unfold vadd, comp, vx, vy, vz; cbn [Nat.eqb fst snd]; ring. }
  assert (St0 : step 0 = 0).
  { unfold step. replace (vsub (vscale 0 g) x_point) with (vscale (-1) x_point) by vec_solve.
    rewrite vec_mul_scale, vec_mul_eq. rewrite !Q0 by lia. unfold eye, x_point, vdot, vscale, vx, vy, vz. cbn [Nat.eqb fst snd]. unfold Rdiv. ring. }
  assert (St : is_derive step 0 (vz g - vz (vec_mul W x_point))).
  { destruct (V (fun h => vsub (vscale h g) x_point) (vscale (-1) x_point) g) as (Z1 & Y1).
    { vec_solve. }
    { intros k Hk. destruct (lt3 k Hk) as [-> | [-> | ->]]; unfold comp, vsub, vscale, vx, vy, vz; cbn [fst snd]; auto_derive; try exact I; ring. }
    destruct (V (fun _ => d) d (0, 0, 0)) as (Z2 & Y2).
    { reflexivity. }
    { intros k Hk. destruct (lt3 k Hk) as [-> | [-> | ->]]; unfold comp, d, vx, vy, vz; cbn [fst snd]; auto_derive; try exact I; ring. }
    specialize (Y1 2%nat ltac:(lia)). specialize (Y2 2%nat ltac:(lia)).
    pose (n h := comp (vec_mul (Q h) (vsub (vscale h g) x_point)) 2%nat). pose (m h := comp (vec_mul (Q h) d) 2%nat).
    apply (is_derive_ext (fun h => n h / m h)). { intros h. req. unfold n, m, step, vdot, comp, vx, vy, vz. cbn [fst snd]. unfold Rdiv. ring. }
    assert (M0 : m 0 = 1) by (unfold m; rewrite Z2; reflexivity).
    assert (N0 : n 0 = 0). { unfold n. replace (vsub (vscale 0 g) x_point) with (vscale (-1) x_point) by vec_solve. rewrite Z1. unfold comp, x_point, vscale, vx, vy, vz. cbn [fst snd]. ring. }
    change (is_derive n 0 (comp (vadd (vec_mul W (vscale (-1) x_point)) g) 2)) in Y1. change (is_derive m 0 (comp (vadd (vec_mul W d) (0, 0, 0)) 2)) in Y2.
    clearbody n m. pose proof (is_derive_unique _ _ _ Y1) as U1. pose proof (is_derive_unique _ _ _ Y2) as U2.
    auto_derive. { split; [eexists; exact Y1|]. split; [eexists; exact Y2|]. rewrite M0. split; [lra|exact I]. }
    change (fun x : R => n x) with n. change (fun x : R => m x) with m.
    rewrite U1, U2, M0, N0. req.
    rewrite vec_mul_scale. generalize (vec_mul W x_point) (vec_mul W d). intros e f. unfold comp, vadd, vscale, vx, vy, vz. cbn [fst snd]. field. }
  destruct (V (fun h => vsub (vadd x_point (vscale (step h) d)) (vscale h g)) x_point (vsub (vscale (vz g - vz (vec_mul W x_point)) d) g)) as (_ & Y).
  { rewrite St0. vec_solve. }
  { intros k Hk. clear Hi V point. clearbody step. pose proof (is_derive_unique _ _ _ St) as U.
    destruct (lt3 k Hk) as [-> | [-> | ->]]; unfold comp, vsub, vadd, vscale, vx, vy, vz; cbn [fst snd];
      (auto_derive; [repeat split; eexists; exact St|]); change (fun x : R => step x) with step; rewrite U; req;
      unfold d, vx, vy, vz; cbn [fst snd]; ring. }
  specialize (Y i ltac:(lia)). eapply is_derive_ext in Y; [|intros h; reflexivity].
  match goal with |- is_derive _ _ ?r => match type of Y with is_derive _ _ ?r' => replace r with r'; [exact Y|] end end.
  req.
  destruct i as [|[|i]]; [| |lia]; unfold comp, vadd, vsub, vscale, vx, vy, vz; cbn [fst snd]; ring.
Qed.

(** derivative at zero of the rotation by small angles: the cross product with the angles *)
Lemma small_rotation al be ga a b : (a < 3)%nat -> (b < 3)%nat ->
  is_derive (fun h => rotation_matrix (h * al) (h * be) (h * ga) a b) 0
    (np_array ((0 :: - ga :: be :: nil) :: (ga :: 0 :: - al :: nil) :: (- be :: al :: 0 :: nil) :: nil) a b).
Proof.
  intros Ha Hb.
  pose (E h := rot_entries (h * al) (h * be) (h * ga)).
  destruct (lt3 a Ha) as [-> | [-> | ->]]; destruct (lt3 b Hb) as [-> | [-> | ->]]; unfold np_array; cbn [List.nth];
    (eapply is_derive_ext; [intros h; destruct (E h) as (B00 & B01 & B02 & B10 & B11 & B12 & B20 & B21 & B22); symmetry;
      first [exact B00 | exact B01 | exact B02 | exact B10 | exact B11 | exact B12 | exact B20 | exact B21 | exact B22]|]);
    (auto_derive; [exact I|]); rewrite ?Rmult_0_l, ?sin_0, ?cos_0; req; ring.
Qed.
Lemma rotated_cross M w v : proper_rotation M ->
  vec_mul (transpose M) (get_plane_normal w (vec_mul M v)) = get_plane_normal (vec_mul (transpose M) w) v.
Proof.
  intros (I & _ & Dt). rewrite !vec_mul_transpose, vec_mul_eq.
  assert (H : forall i j, (i < 3)%nat -> (j < 3)%nat -> M 0%nat i * M 0%nat j + M 1%nat i * M 1%nat j + M 2%nat i * M 2%nat j = eye i j).
  { intros i j Hi Hj. specialize (I i j Hi Hj). unfold dot, transpose in I. cbn [sum_n] in I. unfold eye. destruct (i =? j)%nat; lra. }
  pose proof (H 0%nat 0%nat ltac:(lia) ltac:(lia)) as I00. pose proof (H 0%nat 1%nat ltac:(lia) ltac:(lia)) as I01. pose proof (H 0%nat 2%nat ltac:(lia) ltac:(lia)) as I02.
  pose proof (H 1%nat 1%nat ltac:(lia) ltac:(lia)) as I11. pose proof (H 1%nat 2%nat ltac:(lia) ltac:(lia)) as I12. pose proof (H 2%nat 2%nat ltac:(lia) ltac:(lia)) as I22.
  clear H I. unfold eye in *. cbn [Nat.eqb] in *. unfold det3 in Dt.
  destruct v as [[v0 v1] v2], w as [[w0 w1] w2]. apply vec_eq; unfold get_plane_normal, vx, vy, vz; cbn [fst snd];
  generalize dependent (M 0%nat 0%nat); generalize dependent (M 0%nat 1%nat); generalize dependent (M 0%nat 2%nat);
  generalize dependent (M 1%nat 0%nat); generalize dependent (M 1%nat 1%nat); generalize dependent (M 1%nat 2%nat);
  generalize dependent (M 2%nat 0%nat); generalize dependent (M 2%nat 1%nat); generalize dependent (M 2%nat 2%nat); clear M; intros; nsatz.
Qed.

Lemma predicted_eq p s c : let Q := dot 3 (dot 3 (transpose (rot p)) (rotation_matrix (r_alpha c) (r_beta c) (r_gamma c))) (rot p) in
  let x0 := vec_mul (transpose (rot p)) (pos c) in let x_point : vec := (s_u s, s_v s, 0) in let d : vec := (s_du s, s_dv s, 1) in
  let step := vdot (vec_mul Q (vsub x0 x_point)) (0, 0, 1) / vz (vec_mul Q d) in
  forall i, (i < 2)%nat -> entry (predicted p s c) i = comp (vec_mul Q (vsub (vadd x_point (vscale step d)) x0)) i.
Proof.
  intros Q x0 x_point d step i Hi. unfold predicted, update_alignment, combine_karimaki, create_karimaki_delta. cbn [fst snd].
  unfold extrapolate_state.
  set (M := dot 3 (transpose (rotation_matrix (r_alpha c) (r_beta c) (r_gamma c))) (rot p)).
  assert (X : vec_mul (transpose (rot p)) (vsub (vadd (t_x c, t_y c, t_z c) (pos p)) (pos p)) = x0).
  { unfold x0. f_equal. unfold pos. apply vec_eq; unfold vadd, vsub, vx, vy, vz; cbn [fst snd]; ring. }
  rewrite X.
  assert (QE : forall v, vec_mul (dot 3 (transpose M) (rot p)) v = vec_mul Q v).
  { intros v. unfold Q. rewrite !vec_mul_dot. generalize (vec_mul (rot p) v). intros e. rewrite <- vec_mul_dot, !vec_mul_eq. unfold M, transpose, dot. cbn [sum_n].
    apply vec_eq; unfold vx, vy, vz; cbn [fst snd]; ring. }
  rewrite !QE. fold x_point d. fold step. destruct i as [|[|i]]; [reflexivity|reflexivity|lia].
Qed.

(** The derivative of the position with respect to the corrections, for all DUTs and tracks:
    corrections are shifts and rotations along the global axes, which have to be seen from the sensor. *)
Theorem C55_derivative : forall p s c i, (i < 2)%nat ->
  is_derive (fun h => entry (predicted p s (times h c)) i) 0
    (local_change s (vec_mul (transpose (rot p)) (pos c)) (vec_mul (transpose (rot p)) (angles c)) i).
Proof.
  intros p s c i Hi.
  pose (DR h := rotation_matrix (h * r_alpha c) (h * r_beta c) (h * r_gamma c)).
  pose (Q h := dot 3 (dot 3 (transpose (rot p)) (DR h)) (rot p)).
  pose (Om := np_array ((0 :: - r_gamma c :: r_beta c :: nil) :: (r_gamma c :: 0 :: - r_alpha c :: nil) :: (- r_beta c :: r_alpha c :: 0 :: nil) :: nil)).
  pose (W := dot 3 (dot 3 (transpose (rot p)) Om) (rot p)).
  set (g := vec_mul (transpose (rot p)) (pos c)).
  assert (Pr : proper_rotation (rot p)) by (apply C27_proper_rotation).
  assert (Q0 : forall a b, (a < 3)%nat -> (b < 3)%nat -> Q 0 a b = eye a b).
  { intros a b Ha Hb. unfold Q, DR. rewrite !Rmult_0_l. destruct Pr as (I & _). specialize (I a b Ha Hb).
    destruct (rot_entries 0 0 0) as (B00 & B01 & B02 & B10 & B11 & B12 & B20 & B21 & B22). rewrite ?sin_0, ?cos_0 in *.
    transitivity (dot 3 (transpose (rot p)) (rot p) a b).
    - unfold dot, transpose. cbn [sum_n]. rewrite B00, B01, B02, B10, B11, B12, B20, B21, B22. ring.
    - rewrite I. reflexivity. }
  assert (HQ : forall a b, (a < 3)%nat -> (b < 3)%nat -> is_derive (fun h => Q h a b) 0 (W a b)).
  { intros a b Ha Hb.
    pose proof (fun a b Ha Hb => small_rotation (r_alpha c) (r_beta c) (r_gamma c) a b Ha Hb) as Sm.
    pose proof (Sm 0%nat 0%nat ltac:(lia) ltac:(lia)) as D00. pose proof (Sm 0%nat 1%nat ltac:(lia) ltac:(lia)) as D01. pose proof (Sm 0%nat 2%nat ltac:(lia) ltac:(lia)) as D02.
    pose proof (Sm 1%nat 0%nat ltac:(lia) ltac:(lia)) as D10. pose proof (Sm 1%nat 1%nat ltac:(lia) ltac:(lia)) as D11. pose proof (Sm 1%nat 2%nat ltac:(lia) ltac:(lia)) as D12.
    pose proof (Sm 2%nat 0%nat ltac:(lia) ltac:(lia)) as D20. pose proof (Sm 2%nat 1%nat ltac:(lia) ltac:(lia)) as D21. pose proof (Sm 2%nat 2%nat ltac:(lia) ltac:(lia)) as D22.
    clear Sm. pose (q a b h := DR h a b).
    pose proof (is_derive_unique _ _ _ D00 : Derive (q 0%nat 0%nat) 0 = Om 0%nat 0%nat) as U00. pose proof (is_derive_unique _ _ _ D01 : Derive (q 0%nat 1%nat) 0 = Om 0%nat 1%nat) as U01.
    pose proof (is_derive_unique _ _ _ D02 : Derive (q 0%nat 2%nat) 0 = Om 0%nat 2%nat) as U02. pose proof (is_derive_unique _ _ _ D10 : Derive (q 1%nat 0%nat) 0 = Om 1%nat 0%nat) as U10.
    pose proof (is_derive_unique _ _ _ D11 : Derive (q 1%nat 1%nat) 0 = Om 1%nat 1%nat) as U11. pose proof (is_derive_unique _ _ _ D12 : Derive (q 1%nat 2%nat) 0 = Om 1%nat 2%nat) as U12.
    pose proof (is_derive_unique _ _ _ D20 : Derive (q 2%nat 0%nat) 0 = Om 2%nat 0%nat) as U20. pose proof (is_derive_unique _ _ _ D21 : Derive (q 2%nat 1%nat) 0 = Om 2%nat 1%nat) as U21.
    pose proof (is_derive_unique _ _ _ D22 : Derive (q 2%nat 2%nat) 0 = Om 2%nat 2%nat) as U22.
    assert (X00 : ex_derive (q 0%nat 0%nat) 0) by (eexists; exact D00). assert (X01 : ex_derive (q 0%nat 1%nat) 0) by (eexists; exact D01). assert (X02 : ex_derive (q 0%nat 2%nat) 0) by (eexists; exact D02).
    assert (X10 : ex_derive (q 1%nat 0%nat) 0) by (eexists; exact D10). assert (X11 : ex_derive (q 1%nat 1%nat) 0) by (eexists; exact D11). assert (X12 : ex_derive (q 1%nat 2%nat) 0) by (eexists; exact D12).
    assert (X20 : ex_derive (q 2%nat 0%nat) 0) by (eexists; exact D20). assert (X21 : ex_derive (q 2%nat 1%nat) 0) by (eexists; exact D21). assert (X22 : ex_derive (q 2%nat 2%nat) 0) by (eexists; exact D22).
    clear D00 D01 D02 D10 D11 D12 D20 D21 D22.
    pose (m i j := rot p i j).
    apply (is_derive_ext (fun h =>
      m 0%nat a * (q 0%nat 0%nat h * m 0%nat b + q 0%nat 1%nat h * m 1%nat b + q 0%nat 2%nat h * m 2%nat b) +
      m 1%nat a * (q 1%nat 0%nat h * m 0%nat b + q 1%nat 1%nat h * m 1%nat b + q 1%nat 2%nat h * m 2%nat b) +
      m 2%nat a * (q 2%nat 0%nat h * m 0%nat b + q 2%nat 1%nat h * m 1%nat b + q 2%nat 2%nat h * m 2%nat b))).
    { intros h. unfold Q, dot, transpose, q, m. cbn [sum_n]. req. ring. }
    assert (WE : W a b = m 0%nat a * (Om 0%nat 0%nat * m 0%nat b + Om 0%nat 1%nat * m 1%nat b + Om 0%nat 2%nat * m 2%nat b) +
      m 1%nat a * (Om 1%nat 0%nat * m 0%nat b + Om 1%nat 1%nat * m 1%nat b + Om 1%nat 2%nat * m 2%nat b) +
      m 2%nat a * (Om 2%nat 0%nat * m 0%nat b + Om 2%nat 1%nat * m 1%nat b + Om 2%nat 2%nat * m 2%nat b)).
    { unfold W, dot, transpose, m. cbn [sum_n]. ring. }
    rewrite WE. clear WE. clearbody q. clearbody m.
    generalize dependent (q 0%nat 0%nat); generalize dependent (q 0%nat 1%nat); generalize dependent (q 0%nat 2%nat); generalize dependent (q 1%nat 0%nat); generalize dependent (q 1%nat 1%nat);
    generalize dependent (q 1%nat 2%nat); generalize dependent (q 2%nat 0%nat); generalize dependent (q 2%nat 1%nat); generalize dependent (q 2%nat 2%nat).
    clear q. intros q22 U22 X22 q21 U21 X21 q20 U20 X20 q12 U12 X12 q11 U11 X11 q10 U10 X10 q02 U02 X02 q01 U01 X01 q00 U00 X00.
    auto_derive; [repeat match goal with |- _ /\ _ => split end; first [exact I | assumption]|].
    change (fun x : R => q00 x) with q00; change (fun x : R => q01 x) with q01; change (fun x : R => q02 x) with q02; change (fun x : R => q10 x) with q10; change (fun x : R => q11 x) with q11;
    change (fun x : R => q12 x) with q12; change (fun x : R => q20 x) with q20; change (fun x : R => q21 x) with q21; change (fun x : R => q22 x) with q22.
    rewrite U00, U01, U02, U10, U11, U12, U20, U21, U22. req. ring. }
  pose proof (moving_frame Q W g s i Hi Q0 HQ) as H. cbn zeta in H.
  eapply is_derive_ext; [intros h; symmetry; apply predicted_eq; exact Hi|].
  assert (Wx : vec_mul W (s_u s, s_v s, 0) = get_plane_normal (vec_mul (transpose (rot p)) (angles c)) (s_u s, s_v s, 0)).
  { rewrite <- rotated_cross by exact Pr. unfold W. rewrite !vec_mul_dot. f_equal. generalize (vec_mul (rot p) (s_u s, s_v s, 0)). intros e. rewrite vec_mul_eq.
    unfold Om, np_array, angles, get_plane_normal. cbn [List.nth]. apply vec_eq; unfold vx, vy, vz; cbn [fst snd]; ring. }
  rewrite Wx in H. generalize dependent (vec_mul (transpose (rot p)) (angles c)). intros w H Wx.
  cbn [times r_alpha r_beta r_gamma] in *.
  assert (G : forall h, vec_mul (transpose (rot p)) (pos (times h c)) = vscale h g).
  { intros h. unfold g. rewrite <- vec_mul_scale. reflexivity. }
  eapply is_derive_ext; [intros h; rewrite G; reflexivity|].
  match goal with |- is_derive _ _ ?r => match type of H with is_derive _ _ ?r' => replace r with r'; [exact H|] end end.
  req. unfold local_change, get_plane_normal. destruct i as [|[|i]]; [| |lia]; unfold comp, vx, vy, vz; cbn [fst snd]; ring.
Qed.

(** The Jacobian of the code is this derivative if the rotation vector of the corrections looks the same from the sensor:
    for translations of any DUT, ... *)
Theorem C55_same_axis : forall p s c i, (i < 2)%nat -> vec_mul (transpose (rot p)) (angles c) = angles c ->
  is_derive (fun h => entry (predicted p s (times h c)) i) 0 (change p s c i).
Proof. intros p s c i Hi E. rewrite change_eq by exact Hi. rewrite <- E. apply C55_derivative. exact Hi. Qed.
Theorem C55_translation : forall p s x y z i, (i < 2)%nat ->
  is_derive (fun h => entry (predicted p s (times h (Placement x y z 0 0 0))) i) 0 (change p s (Placement x y z 0 0 0) i).
Proof.
  intros p s x y z i Hi. apply C55_same_axis; [exact Hi|]. unfold angles. cbn [r_alpha r_beta r_gamma]. rewrite vec_mul_eq.
  apply vec_eq; unfold vx, vy, vz; cbn [fst snd]; ring.
Qed.
(** ... for all corrections of a DUT that is not rotated, ... *)
Theorem C55_unrotated : forall x y z s c i, (i < 2)%nat ->
  is_derive (fun h => entry (predicted (Placement x y z 0 0 0) s (times h c)) i) 0 (change (Placement x y z 0 0 0) s c i).
Proof.
  intros x y z s c i Hi. apply C55_same_axis; [exact Hi|]. destruct (rot_zero x y z) as (_ & E). rewrite vec_mul_transpose, !E by lia. unfold eye. cbn [Nat.eqb].
  apply vec_eq; unfold vx, vy, vz; cbn [fst snd]; ring.
Qed.
(** ... and for rotations about the beam of a DUT rotated only about the beam. *)
Theorem C55_about_beam : forall x y z gamma s c i, (i < 2)%nat -> r_alpha c = 0 -> r_beta c = 0 ->
  is_derive (fun h => entry (predicted (Placement x y z 0 0 gamma) s (times h c)) i) 0 (change (Placement x y z 0 0 gamma) s c i).
Proof.
  intros x y z ga s c i Hi Ha Hb. apply C55_same_axis; [exact Hi|]. unfold rot, angles. cbn [r_alpha r_beta r_gamma]. rewrite Ha, Hb.
  destruct (rot_entries 0 0 ga) as (B00 & B01 & B02 & B10 & B11 & B12 & B20 & B21 & B22). rewrite vec_mul_transpose, B00, B01, B02, B10, B11, B12, B20, B21, B22, ?sin_0, ?cos_0.
  apply vec_eq; unfold vx, vy, vz; cbn [fst snd]; ring.
Qed.
(** But not in general: for a sensor facing the other way (rotated by 180 degrees about y) the derivative
    with respect to the rotation about the beam has the wrong sign, ... *)
Theorem C55_refuted : exists p s c, let f h := entry (predicted p s (times h c)) 0 in
  is_derive f 0 1 /\ change p s c 0 = -1 /\ forall l, is_derive f 0 l -> l <> change p s c 0%nat.
Proof.
  exists (Placement 0 0 0 0 PI 0), (State 0 1 0 0), (Placement 0 0 0 0 0 1). cbn zeta.
  set (p := Placement 0 0 0 0 PI 0). set (s := State 0 1 0 0). set (c := Placement 0 0 0 0 0 1).
  assert (E : vec_mul (transpose (rot p)) (angles c) = (0, 0, -1) /\ vec_mul (transpose (rot p)) (pos c) = (0, 0, 0)).
  { unfold rot, p, angles, pos, c. cbn [r_alpha r_beta r_gamma t_x t_y t_z].
    destruct (rot_entries 0 PI 0) as (B00 & B01 & B02 & B10 & B11 & B12 & B20 & B21 & B22).
    rewrite !vec_mul_transpose, B00, B01, B02, B10, B11, B12, B20, B21, B22, ?sin_0, ?cos_0, ?sin_PI, ?cos_PI.
    split; apply vec_eq; unfold vx, vy, vz; cbn [fst snd]; ring. }
  destruct E as (E1 & E2).
  assert (D : is_derive (fun h => entry (predicted p s (times h c)) 0) 0 1).
  { pose proof (C55_derivative p s c 0%nat ltac:(lia)) as D. rewrite E1, E2 in D.
    replace 1 with (local_change s (0, 0, 0) (0, 0, -1) 0); [exact D|]. unfold local_change, s, vx, vy, vz. cbn [fst snd s_u s_v s_du s_dv]. ring. }
  assert (C : change p s c 0 = -1).
  { rewrite change_eq by lia. rewrite E2. unfold local_change, angles, c, s, vx, vy, vz. cbn [fst snd s_u s_v s_du s_dv r_alpha r_beta r_gamma]. ring. }
  split; [exact D|]. split; [exact C|]. intros l Hl. rewrite C.
  rewrite <- (is_derive_unique _ _ _ Hl : Derive (fun h => entry (predicted p s (times h c)) 0) 0 = l).
  rewrite (is_derive_unique _ _ _ D : Derive (fun h => entry (predicted p s (times h c)) 0) 0 = 1). lra.
Qed.
(** ... and for a sensor rotated by 90 degrees about the beam the rotations about x and y are mixed up. *)
Theorem C55_quarter_turn_refuted : exists p s c, let f h := entry (predicted p s (times h c)) 0 in
  r_alpha p = 0 /\ r_beta p = 0 /\ is_derive f 0 0 /\ change p s c 0 = -1 /\ forall l, is_derive f 0 l -> l <> change p s c 0%nat.
Proof.
  exists (Placement 0 0 0 0 0 (PI / 2)), (State 0 1 1 0), (Placement 0 0 0 1 0 0). cbn zeta.
  set (p := Placement 0 0 0 0 0 (PI / 2)). set (s := State 0 1 1 0). set (c := Placement 0 0 0 1 0 0).
  assert (E : vec_mul (transpose (rot p)) (angles c) = (0, -1, 0) /\ vec_mul (transpose (rot p)) (pos c) = (0, 0, 0)).
  { unfold rot, p, angles, pos, c. cbn [r_alpha r_beta r_gamma t_x t_y t_z].
    destruct (rot_entries 0 0 (PI / 2)) as (B00 & B01 & B02 & B10 & B11 & B12 & B20 & B21 & B22).
    rewrite !vec_mul_transpose, B00, B01, B02, B10, B11, B12, B20, B21, B22, ?sin_0, ?cos_0, ?sin_PI2, ?cos_PI2.
    split; apply vec_eq; unfold vx, vy, vz; cbn [fst snd]; ring. }
  destruct E as (E1 & E2). split; [reflexivity|]. split; [reflexivity|].
  assert (D : is_derive (fun h => entry (predicted p s (times h c)) 0) 0 0).
  { pose proof (C55_derivative p s c 0%nat ltac:(lia)) as D. rewrite E1, E2 in D.
    assert (Z : local_change s (0, 0, 0) (0, -1, 0) 0 = 0); [|rewrite Z in D; exact D]. unfold local_change, s, vx, vy, vz. cbn [fst snd s_u s_v s_du s_dv]. ring. }
  assert (C : change p s c 0 = -1).
  { rewrite change_eq by lia. rewrite E2. unfold local_change, angles, c, s, vx, vy, vz. cbn [fst snd s_u s_v s_du s_dv r_alpha r_beta r_gamma]. ring. }
  split; [exact D|]. split; [exact C|]. intros l Hl. rewrite C.
  rewrite <- (is_derive_unique _ _ _ Hl : Derive (fun h => entry (predicted p s (times h c)) 0) 0 = l).
  rewrite (is_derive_unique _ _ _ D : Derive (fun h => entry (predicted p s (times h c)) 0) 0 = 0). lra.
Qed.

(** ** C38: annealing *)
Theorem C38_annealing : forall k factor tracks, 1 <= factor ->
  1 <= calculate_annealing k factor tracks <= factor /\
  (forall k', (k <= k')%nat -> calculate_annealing k' factor tracks <= calculate_annealing k factor tracks) /\
  ((tracks <= k)%nat -> calculate_annealing k factor tracks = 1) /\ ((0 < tracks)%nat -> calculate_annealing 0 factor tracks = factor).
Proof.
  intros k factor tracks Hf.
  assert (L : 0 <= ln factor). { destruct (Rle_lt_or_eq_dec _ _ Hf) as [H | <-]; [|rewrite ln_1; lra]. rewrite <- ln_1. left. apply ln_increasing; lra. }
  assert (B : forall k, (k < tracks)%nat -> 0 < (INR tracks - INR k) / INR tracks <= 1).
  { intros j Hj. apply lt_INR in Hj. pose proof (pos_INR j). assert (0 < INR tracks) by lra. split; [apply Rdiv_lt_0_compat; lra|].
    apply Rmult_le_reg_r with (INR tracks); [lra|]. unfold Rdiv. rewrite Rmult_assoc, Rinv_l by lra. lra. }
  assert (O : forall x y, x <= y -> Rpower factor x <= Rpower factor y).
  { intros x y H. unfold Rpower. destruct (Rle_lt_or_eq_dec _ _ (Rmult_le_compat_r _ _ _ L H)) as [E | ->]; [|lra]. left. apply exp_increasing. exact E. }
  assert (P0 : Rpower factor 0 = 1) by (apply Rpower_O; lra). assert (P1 : Rpower factor 1 = factor) by (apply Rpower_1; lra).
  assert (R1 : forall k, 1 <= calculate_annealing k factor tracks <= factor).
  { intros j. unfold calculate_annealing. destruct (Nat.ltb_spec j tracks) as [Hj | _]; [|lra]. destruct (B j Hj) as (B1 & B2). split.
    - rewrite <- P0. apply O. lra.
    - rewrite <- P1 at 2. apply O. exact B2. }
  split; [apply R1|]. split; [|split].
  - intros k' Hk. unfold calculate_annealing at 1. destruct (Nat.ltb_spec k' tracks) as [Hj | _]; [|apply R1].
    unfold calculate_annealing. destruct (Nat.ltb_spec k tracks) as [_ | H]; [|lia]. apply O.
    apply Rmult_le_compat_r; [left; apply Rinv_0_lt_compat; apply lt_INR in Hj; pose proof (pos_INR k'); lra|]. apply le_INR in Hk. lra.
  - intros H. unfold calculate_annealing. destruct (Nat.ltb_spec k tracks); [lia|reflexivity].
  - intros H. unfold calculate_annealing. destruct (Nat.ltb_spec 0 tracks); [|lia]. cbn [INR].
    replace ((INR tracks - 0) / INR tracks) with 1; [exact P1|]. apply lt_INR in H. cbn [INR] in H. field. lra.
Qed.
(** The factor shrinks by the same ratio with every track. *)
Theorem C38_geometric : forall k factor tracks, 0 < factor -> (k < tracks)%nat ->
  calculate_annealing k factor tracks = calculate_annealing (S k) factor tracks * Rpower factor (/ INR tracks).
Proof.
  intros k factor tracks Hf Hk. assert (T : 0 < INR tracks) by (apply lt_0_INR; lia).
  assert (E : forall k, (k <= tracks)%nat -> calculate_annealing k factor tracks = Rpower factor ((INR tracks - INR k) / INR tracks)).
  { intros j Hj. unfold calculate_annealing. destruct (Nat.ltb_spec j tracks) as [_ | H]; [reflexivity|]. replace j with tracks by lia.
    replace ((INR tracks - INR tracks) / INR tracks) with 0 by (field; lra). rewrite Rpower_O; lra. }
  rewrite !E by lia. rewrite <- Rpower_plus. f_equal. rewrite S_INR. field. lra.
Qed.
Example C38_case : calculate_annealing 50 100 100 = 10 /\ calculate_annealing 100 100 100 = 1.
Proof.
  destruct (C38_annealing 100 100 100 ltac:(lra)) as (_ & _ & E & _). split; [|apply E; lia].
  unfold calculate_annealing. cbn [Nat.ltb Nat.leb].
  replace ((INR 100 - INR 50) / INR 100) with (/ 2) by (rewrite !INR_IZR_INZ; cbn [Z.of_nat]; simpl; lra).
  rewrite Rpower_sqrt by lra. replace 100 with (10 * 10) by lra. apply sqrt_square. lra.
Qed.

Print Assumptions C55_derivative.
Print Assumptions C55_same_axis.
Print Assumptions C55_translation.
Print Assumptions C55_unrotated.
Print Assumptions C55_about_beam.
Print Assumptions C55_refuted.
Print Assumptions C55_quarter_turn_refuted.
Print Assumptions C38_annealing.
Print Assumptions C38_geometric.
