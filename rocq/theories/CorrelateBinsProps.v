(** Range and bins of the correlation histograms: C62. *)
From Coq Require Import ZArith List Bool Lia Reals Lra.
From Verif Require Import GeometryModel GeometryProofs GeometryProps SensorProps CorrelateModel.
Import ListNotations.
Local Open Scope R_scope.

Lemma floor_spec x : IZR (Int_part x) <= x < IZR (Int_part x) + 1.
Proof. destruct (base_Int_part x) as [A B]. lra. Qed.
Lemma ceil_spec x : x <= IZR (ceil x) < x + 1.
Proof. unfold ceil. rewrite opp_IZR. pose proof (floor_spec (- x)). lra. Qed.
Lemma floor_lt x n : x < IZR n -> (Int_part x < n)%Z.
Proof. intros H. apply lt_IZR. pose proof (floor_spec x). lra. Qed.
Lemma floor_ge x n : IZR n <= x -> (n <= Int_part x)%Z.
Proof. intros H. assert (n < Int_part x + 1)%Z; [|lia]. apply lt_IZR. rewrite plus_IZR. pose proof (floor_spec x). lra. Qed.

(** For a device that extends from c - w to c + w: positions in between have a bin, and the bin is the one they are in *)
Lemma bin_in_range c w resolution position : 0 < resolution -> - w <= position - c < w ->
  let lo := c - w in let hi := c + w in let i := bin_index c lo hi resolution position in
  (0 <= i < n_bins lo hi resolution)%Z /\
  lower_edge c lo hi resolution + IZR i * resolution <= position < lower_edge c lo hi resolution + (IZR i + 1) * resolution.
Proof.
  intros Hr Hp lo hi i.
  assert (N : 2 * w / resolution <= IZR (n_bins lo hi resolution)).
  { unfold n_bins, lo, hi. replace (c + w - (c - w)) with (2 * w) by ring. apply ceil_spec. }
  set (n := n_bins lo hi resolution) in *.
  assert (W : w / resolution <= IZR n / 2) by (replace (2 * w / resolution) with (2 * (w / resolution)) in N by (field; lra); lra).
  assert (E : (position - lower_edge c lo hi resolution) / resolution = (position - c) / resolution + IZR n / 2).
  { unfold lower_edge. fold n. field. lra. }
  assert (D : - (w / resolution) <= (position - c) / resolution < w / resolution).
  { unfold Rdiv. rewrite Ropp_mult_distr_l. pose proof (Rinv_0_lt_compat _ Hr). split; [apply Rmult_le_compat_r; lra|apply Rmult_lt_compat_r; lra]. }
  unfold i, bin_index. rewrite E. pose proof (floor_spec ((position - c) / resolution + IZR n / 2)) as F. split; [split|].
  - apply floor_ge. lra.
  - apply floor_lt. lra.
  - unfold lower_edge. fold n. set (q := (position - c) / resolution) in *. assert (Q : position = c + q * resolution) by (unfold q; field; lra).
    rewrite Q. split; nra.
Qed.

Lemma global_comp s c r g k : (k < 2)%nat -> index_in_range s c r -> index_to_global s c r = Some g ->
  comp g k = comp (pos (place s)) k + rot (place s) k 0%nat * (column_size s * (c - 1/2 - 1/2 * INR (n_columns s))) + rot (place s) k 1%nat * (row_size s * (r - 1/2 - 1/2 * INR (n_rows s))).
Proof.
  intros Hk Hr. unfold index_to_global. rewrite index_to_local_some by assumption. unfold dut_to_global. cbn [forallb map vz snd]. rewrite close_to_zero_0. cbn [andb].
  intros H; injection H as <-. rewrite to_global_eq, apply_rotation_eq.
  destruct k as [|[|k]]; [| |lia]; unfold comp, vadd, vx, vy, vz; cbn [fst snd]; ring.
Qed.
Lemma max4_abs a b : max4 (- a - b) (- a + b) (a - b) (a + b) = Rabs a + Rabs b.
Proof. unfold max4, Rmax, Rabs. repeat (destruct Rle_dec || destruct Rcase_abs); lra. Qed.
Lemma min4_abs a b : min4 (- a - b) (- a + b) (a - b) (a + b) = - (Rabs a + Rabs b).
Proof. unfold min4, Rmin, Rabs. repeat (destruct Rle_dec || destruct Rcase_abs); lra. Qed.
Lemma max4_shift c x y z w : max4 (c + x) (c + y) (c + z) (c + w) = c + max4 x y z w.
Proof. unfold max4, Rmax. repeat destruct Rle_dec; lra. Qed.
Lemma min4_shift c x y z w : min4 (c + x) (c + y) (c + z) (c + w) = c + min4 x y z w.
Proof. unfold min4, Rmin. repeat destruct Rle_dec; lra. Qed.
Definition half_width (k : nat) (s : sensor) : R :=
  Rabs (rot (place s) k 0%nat) * (column_size s * INR (n_columns s) / 2) + Rabs (rot (place s) k 1%nat) * (row_size s * INR (n_rows s) / 2).

(** The extent of a sensor, rotated in any way, is centered at its translation *)
Lemma extent_eq k s : (k < 2)%nat -> pitches_positive s ->
  global_extent k s = Some (comp (pos (place s)) k - half_width k s, comp (pos (place s)) k + half_width k s).
Proof.
  intros Hk P. unfold global_extent.
  assert (G : forall c r, index_in_range s c r -> exists g, index_to_global s c r = Some g).
  { intros c r H. destruct (C31_global_round_trip s c r P H) as (g & E & _). now exists g. }
  pose proof (pos_INR (n_columns s)) as Hc. pose proof (pos_INR (n_rows s)) as Hr.
  assert (I1 : index_in_range s (1/2) (1/2)) by (repeat split; lra).
  assert (I2 : index_in_range s (1/2) (INR (n_rows s) + 1/2)) by (repeat split; lra).
  assert (I3 : index_in_range s (INR (n_columns s) + 1/2) (1/2)) by (repeat split; lra).
  assert (I4 : index_in_range s (INR (n_columns s) + 1/2) (INR (n_rows s) + 1/2)) by (repeat split; lra).
  destruct (G _ _ I1) as [g1 E1], (G _ _ I2) as [g2 E2], (G _ _ I3) as [g3 E3], (G _ _ I4) as [g4 E4]. rewrite E1, E2, E3, E4.
  rewrite (global_comp _ _ _ _ _ Hk I1 E1), (global_comp _ _ _ _ _ Hk I2 E2), (global_comp _ _ _ _ _ Hk I3 E3), (global_comp _ _ _ _ _ Hk I4 E4).
  set (A := rot (place s) k 0%nat * (column_size s * INR (n_columns s) / 2)). set (B := rot (place s) k 1%nat * (row_size s * INR (n_rows s) / 2)). set (c := comp (pos (place s)) k).
  assert (W : half_width k s = Rabs A + Rabs B).
  { unfold half_width, A, B. rewrite !Rabs_mult. destruct P as [P1 P2].
    rewrite (Rabs_right (column_size s * INR (n_columns s) / 2)), (Rabs_right (row_size s * INR (n_rows s) / 2)); [reflexivity| |]; nra. }
  match goal with |- Some (min4 ?a ?b ?d ?e, max4 ?a ?b ?d ?e) = _ =>
    replace a with (c + (- A - B)) by (unfold A, B; field); replace b with (c + (- A + B)) by (unfold A, B; field);
    replace d with (c + (A - B)) by (unfold A, B; field); replace e with (c + (A + B)) by (unfold A, B; field) end.
  rewrite max4_shift, min4_shift, max4_abs, min4_abs, W. f_equal; f_equal; ring.
Qed.

(** C62: the histogram covers the sensor.  For each position of the sensor (not on its edge), seen from the beam or under any angle other than edge-on,
    both indices are inside of the histogram, and the bin with the index contains the position *)
Theorem C62_in_range k s resolution column row g lo hi : (k < 2)%nat -> pitches_positive s -> 0 < resolution ->
  1/2 < column < INR (n_columns s) + 1/2 -> 1/2 < row < INR (n_rows s) + 1/2 ->
  index_to_global s column row = Some g -> global_extent k s = Some (lo, hi) -> lo < hi ->
  let c := comp (pos (place s)) k in let i := bin_index c lo hi resolution (comp g k) in
  (0 <= i < n_bins lo hi resolution)%Z /\
  lower_edge c lo hi resolution + IZR i * resolution <= comp g k < lower_edge c lo hi resolution + (IZR i + 1) * resolution.
Proof.
  intros Hk P Hr Hc Hw Hg He Hlt c i. rewrite (extent_eq k s Hk P) in He. injection He as <- <-.
  apply bin_in_range; [assumption|]. rewrite (global_comp s column row g k Hk) by (assumption || (repeat split; lra)). fold c.
  unfold half_width in *. destruct P as [P1 P2].
  set (a := rot (place s) k 0%nat) in *. set (b := rot (place s) k 1%nat) in *.
  set (x := column_size s * (column - 1/2 - 1/2 * INR (n_columns s))). set (y := row_size s * (row - 1/2 - 1/2 * INR (n_rows s))).
  set (X := column_size s * INR (n_columns s) / 2) in *. set (Y := row_size s * INR (n_rows s) / 2) in *.
  assert (Bx : - X < x < X) by (unfold x, X; split; nra). assert (By : - Y < y < Y) by (unfold y, Y; split; nra).
  assert (Ax : - (Rabs a * X) <= a * x <= Rabs a * X) by (unfold Rabs; destruct Rcase_abs; split; nra).
  assert (Ay : - (Rabs b * Y) <= b * y <= Rabs b * Y) by (unfold Rabs; destruct Rcase_abs; split; nra).
  split; [lra|].
  destruct (Req_dec a 0) as [Za|Za].
  - destruct (Req_dec b 0) as [Zb|Zb]; [rewrite Za, Zb, Rabs_R0 in Hlt; lra|].
    assert (b * y < Rabs b * Y) by (unfold Rabs; destruct Rcase_abs; nra). lra.
  - assert (a * x < Rabs a * X) by (unfold Rabs; destruct Rcase_abs; nra). lra.
Qed.
(** Clusters or hits exactly at the edge of the sensor (which the functions accept) have an index outside of the histogram *)
Theorem C62_edge_refuted : exists s g lo hi, pitches_positive s /\ index_to_global s (INR (n_columns s) + 1/2) 1 = Some g /\ global_extent 0 s = Some (lo, hi)
  /\ bin_index (comp (pos (place s)) 0) lo hi 100 (comp g 0) = n_bins lo hi 100.
Proof.
  set (s := Sensor 250 50 2 3 (Placement 0 0 0 0 0 0)).
  assert (P : pitches_positive s) by (split; cbn; lra).
  assert (I : index_in_range s (INR (n_columns s) + 1/2) 1) by (unfold index_in_range; cbn [n_columns n_rows s INR]; repeat split; lra).
  destruct (C31_global_round_trip s _ _ P I) as (g & E & _). exists s, g. eexists. eexists. split; [assumption|]. split; [assumption|]. split; [apply extent_eq; [lia|assumption]|].
  rewrite (global_comp s _ _ g 0 ltac:(lia) I E).
  assert (W : half_width 0 s = 250).
  { unfold half_width, rot. cbn [place s r_alpha r_beta r_gamma n_columns n_rows column_size row_size INR].
    unfold rotation_matrix, rotation_matrix_x, rotation_matrix_y, rotation_matrix_z, dot, np_array. cbn [sum_n nth]. rewrite sin_0, cos_0.
    match goal with |- Rabs ?a * _ + Rabs ?b * _ = _ => replace a with 1 by ring; replace b with 0 by ring end. rewrite Rabs_R1, Rabs_R0. field. }
  rewrite W.
  assert (R1 : rot (place s) 0%nat 0%nat = 1 /\ rot (place s) 0%nat 1%nat = 0).
  { unfold rot. cbn [place s r_alpha r_beta r_gamma]. unfold rotation_matrix, rotation_matrix_x, rotation_matrix_y, rotation_matrix_z, dot, np_array. cbn [sum_n nth]. rewrite sin_0, cos_0. split; ring. }
  destruct R1 as [-> ->]. cbn [comp pos place s t_x t_y t_z vx vy vz fst snd n_columns n_rows column_size row_size INR].
  unfold bin_index, lower_edge.
  assert (N : n_bins (0 - 250) (0 + 250) 100 = 5%Z).
  { unfold n_bins, ceil. replace (- ((0 + 250 - (0 - 250)) / 100)) with (IZR (-5)) by (unfold Rdiv; lra).
    assert (Int_part (IZR (-5)) = (-5)%Z); [|lia]. apply Z.le_antisymm; [|apply floor_ge; lra]. assert (Int_part (IZR (-5)) < -4)%Z; [|lia]. apply floor_lt. lra. }
  rewrite N.
  match goal with |- Int_part ?x = _ => replace x with (IZR 5) by (simpl; field) end.
  apply Z.le_antisymm; [|apply floor_ge; lra]. assert (Int_part (IZR 5) < 6)%Z; [|lia]. apply floor_lt. lra.
Qed.
(** An FEI4 sensor, rotated about the beam axis and shifted *)
Example C62_example : exists s lo hi, pitches_positive s /\ global_extent 0 s = Some (lo, hi) /\ lo < hi /\ 1/2 < 80 < INR (n_columns s) + 1/2.
Proof.
  exists (Sensor 250 50 80 336 (Placement 1000 2000 0 0 0 1)). eexists. eexists. assert (P : pitches_positive (Sensor 250 50 80 336 (Placement 1000 2000 0 0 0 1))) by (split; cbn; lra).
  split; [exact P|]. split; [apply extent_eq; [lia|exact P]|]. split.
  - assert (0 < half_width 0 (Sensor 250 50 80 336 (Placement 1000 2000 0 0 0 1))); [|lra]. unfold half_width, rot. cbn [place r_alpha r_beta r_gamma n_columns n_rows column_size row_size].
    unfold rotation_matrix, rotation_matrix_x, rotation_matrix_y, rotation_matrix_z, dot, np_array. cbn [sum_n nth]. rewrite sin_0, cos_0.
    assert (C : 0 < cos 1) by (apply cos_gt_0; pose proof PI2_1; lra).
    match goal with |- 0 < Rabs ?a * ?x + Rabs ?b * ?y => replace a with (cos 1) by ring; assert (0 < x); [|assert (0 < y)] end.
    + pose proof (lt_0_INR 80 ltac:(lia)). lra.
    + pose proof (lt_0_INR 336 ltac:(lia)). lra.
    + rewrite (Rabs_right (cos 1)) by lra. match goal with |- 0 < _ + Rabs ?b * _ => pose proof (Rabs_pos b) end. nra.
  - cbn [n_columns]. rewrite INR_IZR_INZ. simpl Z.of_nat. lra.
Qed.

Print Assumptions C62_in_range.
Print Assumptions C62_edge_refuted.
