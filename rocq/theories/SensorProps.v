(** Pixel indices, sensor extents and the primitive cell (C31, C32). *)
From Coq Require Import Reals List Bool Arith Lra Lia ZArith.
From Verif Require Import GeometryModel GeometryProofs GeometryProps.
Import ListNotations.
Local Open Scope R_scope.

Definition pitches_positive (s : sensor) : Prop := 0 < column_size s /\ 0 < row_size s.
(** the index range of the sensor: from the outer edge of the first pixel (0.5) to that of the last one *)
Definition index_in_range (s : sensor) (column row : R) : Prop :=
  1 / 2 <= column <= INR (n_columns s) + 1 / 2 /\ 1 / 2 <= row <= INR (n_rows s) + 1 / 2.
(** the area of the sensor, centred at the origin *)
Definition on_sensor (s : sensor) (v : vec) : Prop :=
  vz v = 0 /\ Rabs (vx v) <= INR (n_columns s) * column_size s / 2 /\ Rabs (vy v) <= INR (n_rows s) * row_size s / 2.

Lemma close_to_zero_0 : close_to_zero 0 = true.
Proof. apply Rleb_true. rewrite Rabs_R0. lra. Qed.
Lemma index_to_local_some s c r : index_in_range s c r ->
  index_to_local s c r = Some (column_size s * (c - 1/2 - 1/2 * INR (n_columns s)), row_size s * (r - 1/2 - 1/2 * INR (n_rows s)), 0).
Proof.
  intros ((H1 & H2) & H3 & H4). unfold index_to_local.
  rewrite (proj2 (Rleb_true _ _) H1), (proj2 (Rleb_true _ _) H2), (proj2 (Rleb_true _ _) H3), (proj2 (Rleb_true _ _) H4). reflexivity.
Qed.
Lemma index_to_local_none s c r : ~ index_in_range s c r -> index_to_local s c r = None.
Proof.
  intros H. unfold index_to_local. match goal with |- (if ?b then _ else _) = _ => destruct b eqn:E end; auto.
  exfalso. apply H. rewrite !andb_true_iff, !Rleb_true in E. unfold index_in_range. tauto.
Qed.
Lemma abs_le a b : Rabs a <= b <-> - b <= a <= b.
Proof. split; [|apply Rabs_le]. intros H. unfold Rabs in H. destruct (Rcase_abs a); lra. Qed.
Lemma local_to_index_some s v : on_sensor s v ->
  local_to_index s v = Some (vx v / column_size s + 1/2 + 1/2 * INR (n_columns s), vy v / row_size s + 1/2 + 1/2 * INR (n_rows s)).
Proof.
  intros (Hz & Hx & Hy). apply abs_le in Hx, Hy. unfold local_to_index. rewrite Hz, close_to_zero_0.
  rewrite !(proj2 (Rleb_true _ _)) by lra. reflexivity.
Qed.

(** Every index within the range is converted to a position on the sensor and back to the same index. *)
Theorem C31_index_round_trip : forall s column row, pitches_positive s -> index_in_range s column row ->
  exists v, index_to_local s column row = Some v /\ on_sensor s v /\ local_to_index s v = Some (column, row).
Proof.
  intros s c r (P1 & P2) H. rewrite index_to_local_some by auto. eexists. split; [reflexivity|].
  assert (O : on_sensor s (column_size s * (c - 1/2 - 1/2 * INR (n_columns s)), row_size s * (r - 1/2 - 1/2 * INR (n_rows s)), 0)).
  { destruct H as ((H1 & H2) & H3 & H4). unfold on_sensor, vx, vy, vz. cbn [fst snd]. split; auto. split; apply abs_le; split; nra. }
  split; [exact O|]. rewrite local_to_index_some by auto. unfold vx, vy. cbn [fst snd]. f_equal. f_equal; field; lra.
Qed.
Theorem C31_position_round_trip : forall s v, pitches_positive s -> on_sensor s v ->
  exists column row, local_to_index s v = Some (column, row) /\ index_in_range s column row /\ index_to_local s column row = Some v.
Proof.
  intros s v (P1 & P2) H. rewrite local_to_index_some by auto. do 2 eexists. split; [reflexivity|].
  destruct H as (Hz & Hx & Hy). apply abs_le in Hx, Hy.
  assert (I : index_in_range s (vx v / column_size s + 1/2 + 1/2 * INR (n_columns s)) (vy v / row_size s + 1/2 + 1/2 * INR (n_rows s))).
  { assert (A : forall x p n, 0 < p -> - (n * p / 2) <= x <= n * p / 2 -> - (n / 2) <= x / p <= n / 2).
    { intros x p n Hp [L U]. split; apply Rmult_le_reg_r with p; auto; unfold Rdiv at 2; rewrite ?Rmult_assoc, ?Rinv_l by lra; try lra.
      - unfold Rdiv. rewrite (Rmult_assoc x), Rinv_l; lra. }
    pose proof (A _ _ _ P1 Hx). pose proof (A _ _ _ P2 Hy). unfold index_in_range. lra. }
  split; [exact I|]. rewrite index_to_local_some by auto. apply some_vec; unfold vx, vy, vz in *; cbn [fst snd]; [field; lra|field; lra|auto].
Qed.
(** Indices and positions outside are errors. *)
Theorem C31_out_of_range : forall s, pitches_positive s ->
  (forall column row, ~ index_in_range s column row -> index_to_local s column row = None) /\
  (forall v, (1 / 100000000 < Rabs (vz v) \/ INR (n_columns s) * column_size s / 2 < Rabs (vx v) \/ INR (n_rows s) * row_size s / 2 < Rabs (vy v)) ->
    local_to_index s v = None).
Proof.
  intros s (P1 & P2). split; [intros; apply index_to_local_none; auto|].
  intros v H. unfold local_to_index. match goal with |- (if ?b then _ else _) = _ => destruct b eqn:E end; auto.
  exfalso. rewrite !andb_true_iff, !Rleb_true in E. unfold close_to_zero in E. rewrite Rleb_true in E.
  destruct E as (E1 & (E2 & E3) & E4 & E5). destruct H as [H|[H|H]]; [lra| |].
  - assert (Rabs (vx v) <= INR (n_columns s) * column_size s / 2) by (apply abs_le; lra). lra.
  - assert (Rabs (vy v) <= INR (n_rows s) * row_size s / 2) by (apply abs_le; lra). lra.
Qed.
(** Pixels are one pitch apart, and a position belongs to the pixel (k, l) exactly if it is within half a pitch of its centre. *)
Theorem C31_pixel_area : forall s k l v c, pitches_positive s -> (1 <= k <= n_columns s)%nat -> (1 <= l <= n_rows s)%nat ->
  on_sensor s v -> index_to_local s (INR k) (INR l) = Some c ->
  exists column row, local_to_index s v = Some (column, row) /\
    (Rabs (column - INR k) < 1 / 2 <-> Rabs (vx v - vx c) < column_size s / 2) /\
    (Rabs (row - INR l) < 1 / 2 <-> Rabs (vy v - vy c) < row_size s / 2).
Proof.
  intros s k l v c (P1 & P2) Hk Hl Hv Hc. rewrite local_to_index_some by auto. do 2 eexists. split; [reflexivity|].
  assert (B : forall n m, (1 <= n <= m)%nat -> 1 / 2 <= INR n <= INR m + 1 / 2).
  { intros n m [L U]. apply le_INR in L, U. simpl in L. lra. }
  rewrite index_to_local_some in Hc by (split; apply B; auto). inversion Hc; subst c. clear Hc. unfold vx, vy. cbn [fst snd].
  assert (A : forall x p n j, 0 < p -> (Rabs (x / p + 1 / 2 + 1 / 2 * n - j) < 1 / 2 <-> Rabs (x - p * (j - 1 / 2 - 1 / 2 * n)) < p / 2)).
  { intros x p n j Hp. replace (x - p * (j - 1/2 - 1/2 * n)) with (p * (x / p + 1/2 + 1/2 * n - j)) by (field; lra).
    rewrite Rabs_mult, (Rabs_pos_eq p) by lra. split; intros H; nra. }
  split; apply A; auto.
Qed.
(** The extents are those of the sensor area. *)
Theorem C31_extent : forall s, pitches_positive s ->
  x_extent s = (- (INR (n_columns s) * column_size s / 2), INR (n_columns s) * column_size s / 2) /\
  y_extent s = (- (INR (n_rows s) * row_size s / 2), INR (n_rows s) * row_size s / 2).
Proof.
  intros s (P1 & P2). pose proof (pos_INR (n_columns s)). pose proof (pos_INR (n_rows s)). unfold x_extent, y_extent.
  rewrite !Rmin_left, !Rmax_right by nra. split; f_equal; field.
Qed.
(** Through the global coordinates of a DUT at any position and rotation. *)
Theorem C31_global_round_trip : forall s column row, pitches_positive s -> index_in_range s column row ->
  exists g, index_to_global s column row = Some g /\ vz (to_local (place s) g) = 0 /\ global_to_index s g = Some (column, row).
Proof.
  intros s c r P H. destruct (C31_index_round_trip s c r P H) as (v & E1 & (Hz & O) & E2).
  unfold index_to_global, global_to_index. rewrite E1. unfold dut_to_global, dut_to_local. cbn [forallb map].
  rewrite Hz, close_to_zero_0. cbn [andb]. eexists. split; [reflexivity|]. rewrite to_local_to_global, Hz, close_to_zero_0. cbn [andb].
  split; [reflexivity|exact E2].
Qed.

Example C31_case : let s := Sensor 250 50 80 336 (Placement 0 0 1000 0 0 0) in
  pitches_positive s /\ index_in_range s 1 336 /\ index_to_local s 1 336 = Some (-9875, 8375, 0).
Proof.
  set (s := Sensor 250 50 80 336 (Placement 0 0 1000 0 0 0)).
  assert (N : INR 80 = 80 /\ INR 336 = 336) by (rewrite !INR_IZR_INZ; split; reflexivity). destruct N as (N1 & N2).
  assert (I : index_in_range s 1 336) by (unfold index_in_range, s; cbn [n_columns n_rows]; rewrite N1, N2; lra).
  split; [unfold pitches_positive, s; cbn [column_size row_size]; lra|]. split; [exact I|].
  rewrite index_to_local_some by exact I. unfold s. cbn [n_columns n_rows column_size row_size]. rewrite N1, N2. apply some_vec; unfold vx, vy, vz; cbn [fst snd]; lra.
Qed.

(** *** C32 *)
Lemma np_mod_spec a b : 0 < b -> 0 <= np_mod a b < b /\ exists k : Z, a = np_mod a b + b * IZR k.
Proof.
  intros H. unfold np_mod. split; [|exists (Int_part (a / b)); ring].
  destruct (base_Int_part (a / b)) as (L & U).
  assert (E : a = b * (a / b)) by (field; lra). rewrite E at 1 3. split; nra.
Qed.
Lemma np_mod_unique a b m k : 0 < b -> 0 <= m < b -> a = m + b * IZR k -> np_mod a b = m.
Proof.
  intros H Hm E. destruct (np_mod_spec a b H) as (R & k' & E').
  assert (Z0 : (k = k')%Z).
  { assert (D : b * (IZR k - IZR k') = np_mod a b - m) by lra.
    assert (L : IZR k - IZR k' < 1) by nra. assert (U : -1 < IZR k - IZR k') by nra.
    rewrite <- minus_IZR in L, U. apply lt_IZR in L. apply (lt_IZR (-1)) in U. lia. }
  subst k'. lra.
Qed.

(** The coordinate within the primitive cell is the distance from the lower edge of the pixel: it is in [0, pitch), and it
    differs from the distance to the edge of the sensor by a whole number of pitches. *)
Theorem C32_primitive_cell : forall s v, pitches_positive s -> let (px, py) := primitive_cell s v in
  0 <= px < column_size s /\ 0 <= py < row_size s /\
  (exists k : Z, vx v - fst (x_extent s) = px + column_size s * IZR k) /\ (exists l : Z, vy v - fst (y_extent s) = py + row_size s * IZR l).
Proof.
  intros s v P. destruct (C31_extent s P) as (Ex & Ey). unfold primitive_cell. rewrite Ex, Ey. cbn [fst snd].
  assert (A : forall x p n, 0 < p -> let m := np_mod (x + - (INR n * p / 2)) p in 0 <= m < p /\ exists k : Z, x - - (INR n * p / 2) = m + p * IZR k).
  { intros x p n Hp m. destruct (np_mod_spec (x + - (INR n * p / 2)) p Hp) as (R & k & E). split; [exact R|]. exists (k + Z.of_nat n)%Z.
    rewrite plus_IZR, <- INR_IZR_INZ. unfold m. lra. }
  destruct P as (P1 & P2). destruct (A (vx v) _ (n_columns s) P1). destruct (A (vy v) _ (n_rows s) P2). auto.
Qed.
(** Points a whole number of pixels apart have the same coordinates within the cell, and only those. *)
Theorem C32_periodic : forall s v w, pitches_positive s ->
  (primitive_cell s v = primitive_cell s w <->
    exists k l : Z, vx v = vx w + column_size s * IZR k /\ vy v = vy w + row_size s * IZR l).
Proof.
  intros s v w P. assert (A : forall x y e p, 0 < p -> (np_mod (x + e) p = np_mod (y + e) p <-> exists k : Z, x = y + p * IZR k)).
  { intros x y e p Hp. destruct (np_mod_spec (y + e) p Hp) as (Ry & ky & Ey). split.
    - intros E. destruct (np_mod_spec (x + e) p Hp) as (Rx & kx & Ex). exists (kx - ky)%Z. rewrite minus_IZR. lra.
    - intros (k & ->). apply np_mod_unique with (k + ky)%Z; auto. rewrite plus_IZR. lra. }
  unfold primitive_cell. destruct P as (P1 & P2). specialize (A) as B. split.
  - intros H. inversion H as [[H1 H2]]. apply B in H1; auto. apply B in H2; auto. destruct H1 as (k & ?). destruct H2 as (l & ?). eauto.
  - intros (k & l & H1 & H2). f_equal; apply B; eauto.
Qed.
(** The centre of every pixel is mapped to the centre of the cell. *)
Theorem C32_centre : forall s k l c, pitches_positive s -> index_to_local s (INR k) (INR l) = Some c ->
  primitive_cell s c = (column_size s / 2, row_size s / 2).
Proof.
  intros s k l c P H. assert (I : index_in_range s (INR k) (INR l)).
  { unfold index_to_local in H. destruct (_ && _) eqn:E in H; [|discriminate]. rewrite !andb_true_iff, !Rleb_true in E. unfold index_in_range. tauto. }
  rewrite index_to_local_some in H by auto. inversion H; subst c. clear H. destruct (C31_extent s P) as (Ex & Ey).
  unfold primitive_cell. rewrite Ex, Ey. unfold vx, vy. cbn [fst snd]. destruct P as (P1 & P2).
  f_equal; [apply np_mod_unique with (Z.of_nat k - 1 - Z.of_nat (n_columns s))%Z|apply np_mod_unique with (Z.of_nat l - 1 - Z.of_nat (n_rows s))%Z];
    try lra; rewrite !minus_IZR, <- !INR_IZR_INZ; lra.
Qed.

(** Double columns: for an even number of columns the first coordinate is the distance from the lower edge of the pair of columns. *)
Theorem C32_double_column : forall s v, pitches_positive s -> Nat.even (n_columns s) = true -> let (px, py) := primitive_cell_double s v in
  0 <= px < 2 * column_size s /\ 0 <= py < row_size s /\
  (exists k : Z, vx v - fst (x_extent s) = px + 2 * column_size s * IZR k) /\ (exists l : Z, vy v - fst (y_extent s) = py + row_size s * IZR l).
Proof.
  intros s v P He. destruct (C31_extent s P) as (Ex & Ey). pose proof (C32_primitive_cell s v P) as C.
  unfold primitive_cell_double, primitive_cell in *. rewrite Ex, Ey in *. cbn [fst snd] in *. destruct C as (_ & C2 & _ & C4).
  destruct P as (P1 & P2). apply Nat.even_spec in He. destruct He as (n & En).
  destruct (np_mod_spec (vx v + - (INR (n_columns s) * column_size s / 2)) (column_size s * 2) ltac:(lra)) as (R & k & E).
  split; [lra|]. split; [exact C2|]. split; [|exact C4]. exists (k + Z.of_nat n)%Z. rewrite plus_IZR, <- INR_IZR_INZ.
  rewrite En, mult_INR in *. simpl (INR 2) in *. lra.
Qed.
(** For an odd number of columns it is shifted by one pitch: the left edge of the sensor is mapped to the middle of a pair. *)
Theorem C32_odd_columns_refuted : forall s v, pitches_positive s -> Nat.odd (n_columns s) = true ->
  vx v = fst (x_extent s) -> fst (primitive_cell_double s v) = column_size s.
Proof.
  intros s v P Ho Hv. destruct (C31_extent s P) as (Ex & Ey). unfold primitive_cell_double. rewrite Hv, Ex. cbn [fst].
  destruct P as (P1 & P2). apply Nat.odd_spec in Ho. destruct Ho as (n & En).
  apply np_mod_unique with (- Z.of_nat n - 1)%Z; [lra|lra|]. rewrite minus_IZR, opp_IZR, <- INR_IZR_INZ, En, plus_INR, mult_INR. simpl. lra.
Qed.

Example C32_case : let s := Sensor 250 50 80 336 (Placement 0 0 1000 0 0 0) in
  pitches_positive s /\ Nat.even (n_columns s) = true /\ primitive_cell s (-9990, 30, 0) = (10, 30).
Proof.
  set (s := Sensor 250 50 80 336 (Placement 0 0 1000 0 0 0)).
  assert (P : pitches_positive s) by (unfold pitches_positive, s; cbn [column_size row_size]; lra).
  assert (N : INR 80 = 80 /\ INR 336 = 336) by (rewrite !INR_IZR_INZ; split; reflexivity). destruct N as (N1 & N2).
  split; [exact P|]. split; [reflexivity|]. destruct (C31_extent s P) as (Ex & Ey). unfold primitive_cell. rewrite Ex, Ey. unfold s, vx, vy.
  cbn [n_columns n_rows column_size row_size fst snd]. rewrite N1, N2.
  f_equal; [apply np_mod_unique with (-80)%Z|apply np_mod_unique with (-168)%Z]; lra.
Qed.

Print Assumptions C31_index_round_trip.
Print Assumptions C31_position_round_trip.
Print Assumptions C31_out_of_range.
Print Assumptions C31_pixel_area.
Print Assumptions C31_extent.
Print Assumptions C31_global_round_trip.
Print Assumptions C32_primitive_cell.
Print Assumptions C32_periodic.
Print Assumptions C32_centre.
Print Assumptions C32_double_column.
Print Assumptions C32_odd_columns_refuted.
