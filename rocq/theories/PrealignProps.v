(** C64: pre-alignment of a device with the correlation lines. *)
From Coq Require Import Reals List Bool Arith ZArith Lra Lia.
From Verif Require Import GeometryModel GeometryProofs GeometryProps AnglesProps CorrelateModel RansacModel RansacProps PrealignModel.
Import ListNotations.
Local Open Scope R_scope.

Definition sign (s : R) : R := if Rlt_dec s 0 then -1 else 1.
Lemma sign_flip s : sign s = if Rltb s 0 then -1 else 1.
Proof. unfold sign, Rltb. now destruct Rlt_dec. Qed.
Lemma sign_sq s : sign s * sign s = 1.
Proof. unfold sign. destruct Rlt_dec; lra. Qed.
Definition flip (sx sy : R) (i : nat) : R := match i with 0%nat => sign sx | 1%nat => sign sy | _ => sign sx * sign sy end.
Definition flipped_matrix (sx sy : R) (M : mat) : mat :=
  let M := if Rltb sx 0 then dot 3 (rotation_matrix_y PI) M else M in
  if Rltb sy 0 then dot 3 (rotation_matrix_x PI) M else M.
Lemma flipped_entries sx sy M i j : (i < 3)%nat -> flipped_matrix sx sy M i j = flip sx sy i * M i j.
Proof.
  intros Hi. unfold flipped_matrix, flip. rewrite !sign_flip.
  destruct (Rltb sx 0), (Rltb sy 0); unfold dot, rotation_matrix_x, rotation_matrix_y, np_array; cbn [sum_n];
  destruct (lt3 i Hi) as [-> | [-> | ->]]; cbn [nth]; rewrite ?sin_PI, ?cos_PI; ring.
Qed.
Lemma flip_sq sx sy i : flip sx sy i * flip sx sy i = 1.
Proof. destruct i as [|[|i]]; cbn; try apply sign_sq. replace (sign sx * sign sy * (sign sx * sign sy)) with ((sign sx * sign sx) * (sign sy * sign sy)) by ring. rewrite !sign_sq. ring. Qed.
Lemma flipped_proper sx sy M : proper_rotation M -> proper_rotation (flipped_matrix sx sy M).
Proof.
  intros (I & J & D). split; [|split].
  - intros i j Hi Hj. rewrite <- (I i j Hi Hj). unfold dot, transpose. cbn [sum_n]. rewrite !flipped_entries by lia.
    pose proof (flip_sq sx sy 0) as F0. pose proof (flip_sq sx sy 1) as F1. pose proof (flip_sq sx sy 2) as F2.
    set (f0 := flip sx sy 0) in *. set (f1 := flip sx sy 1) in *. set (f2 := flip sx sy 2) in *.
    transitivity (0 + (f0 * f0) * (M 0%nat i * M 0%nat j) + (f1 * f1) * (M 1%nat i * M 1%nat j) + (f2 * f2) * (M 2%nat i * M 2%nat j)); [ring|]. rewrite F0, F1, F2. ring.
  - intros i j Hi Hj. transitivity (flip sx sy i * flip sx sy j * dot 3 M (transpose M) i j).
    + unfold dot, transpose. cbn [sum_n]. rewrite !flipped_entries by lia. ring.
    + rewrite (J i j Hi Hj). destruct (Nat.eqb_spec i j) as [->|]; [rewrite flip_sq; ring|ring].
  - transitivity (flip sx sy 0 * flip sx sy 1 * flip sx sy 2 * det3 M).
    + unfold det3. rewrite !flipped_entries by lia. ring.
    + rewrite D. cbn [flip]. replace (sign sx * sign sy * (sign sx * sign sy) * 1) with ((sign sx * sign sx) * (sign sy * sign sy)) by ring. rewrite !sign_sq. ring.
Qed.

(** C64: the sensor is moved such that its center is at the offsets, and it is turned around at its center for negative slopes.
    [p'] is the placement that is written, [q] the one with the exact angles (angles below the machine epsilon are reported as zero).
    [g] is the position of a point of the sensor before the pre-alignment *)
Theorem C64_placement tol eps p sx cx sy cy : 0 <= tol -> 0 <= eps -> Rabs (rot p 2%nat 0%nat) <> 1 ->
  exists p' q, prealigned tol eps p sx cx sy cy = Some p' /\ pos p' = pos q /\
    reported eps (r_alpha q) (r_alpha p') /\ reported eps (r_beta q) (r_beta p') /\ reported eps (r_gamma q) (r_gamma p') /\
    forall v, let g := to_global p v in
      to_global q v = (cx + sign sx * (vx g - t_x p), cy + sign sy * (vy g - t_y p), t_z p + sign sx * sign sy * (vz g - t_z p)).
Proof.
  intros Ht He N. unfold prealigned. change (if Rltb sy 0 then dot 3 (rotation_matrix_x PI) (if Rltb sx 0 then dot 3 (rotation_matrix_y PI) (rot p) else rot p) else if Rltb sx 0 then dot 3 (rotation_matrix_y PI) (rot p) else rot p) with (flipped_matrix sx sy (rot p)).
  set (M := flipped_matrix sx sy (rot p)).
  assert (PM : proper_rotation M) by (apply flipped_proper; apply C27_proper_rotation).
  assert (N' : Rabs (M 2%nat 0%nat) <> 1).
  { unfold M. rewrite flipped_entries by lia. rewrite Rabs_mult. assert (A : Rabs (flip sx sy 2) = 1).
    { pose proof (flip_sq sx sy 2) as F. unfold Rabs. destruct Rcase_abs; nra. } now rewrite A, Rmult_1_l. }
  destruct (C29_rebuilds tol eps M Ht He PM N') as (a & b & g & a' & b' & g' & -> & Ra & Rb & Rg & S & _).
  exists (Placement cx cy (t_z p) a' b' g'), (Placement cx cy (t_z p) a b g). repeat (split; [reflexivity || assumption|]).
  intros v. cbn zeta. rewrite !to_global_eq, !apply_rotation_eq. unfold rot at 1 2 3 4 5 6 7 8 9. cbn [r_alpha r_beta r_gamma].
  rewrite !(S _ _) by lia. unfold M. rewrite !flipped_entries by lia. cbn [flip].
  unfold vadd, pos, vx, vy, vz. cbn [fst snd t_x t_y t_z]. f_equal; [f_equal|]; ring.
Qed.

(** The correlation line: the position of the hit in the reference for a hit of the DUT at position x *)
Definition line_at (slope offset dut_start bin_size x : R) : R := slope * x + offset_plot slope offset dut_start bin_size.
(** The line in the bins of the histogram: bins (i, j) with i cos theta + j sin theta = rho have their centers on the line *)
Theorem C64_line bin_size ref_start dut_start rho theta slope offset i j : line_of bin_size ref_start rho theta = Some (slope, offset) ->
  i * cos theta + j * sin theta = rho -> line_at slope offset dut_start bin_size (dut_start + (i + 1/2) * bin_size) = ref_start + (j + 1/2) * bin_size.
Proof.
  unfold line_of. destruct Reqb eqn:E; [discriminate|]. apply Reqb_false in E. intros H. injection H as <- <-. intros <-. unfold line_at, offset_plot. field. assumption.
Qed.
(** C64: with slopes 1 or -1 each point of the sensor is moved to the position where the reference sees the track.
    The histograms of the correlation are centered at the DUT *)
Theorem C64_aligned tol eps p bx by' nx ny sx ox sy oy : 0 <= tol -> 0 <= eps -> Rabs (rot p 2%nat 0%nat) <> 1 ->
  let start_x := t_x p - nx * bx / 2 in let start_y := t_y p - ny * by' / 2 in
  exists p' q, prealigned tol eps p sx (offset_center sx ox (nx * bx) bx) sy (offset_center sy oy (ny * by') by') = Some p' /\ pos p' = pos q /\
    reported eps (r_alpha q) (r_alpha p') /\ reported eps (r_beta q) (r_beta p') /\ reported eps (r_gamma q) (r_gamma p') /\
    forall v, let g := to_global p v in let g' := to_global q v in
      Rabs (vx g' - line_at sx ox start_x bx (vx g)) = Rabs (Rabs sx - 1) * Rabs (vx g - t_x p) /\
      Rabs (vy g' - line_at sy oy start_y by' (vy g)) = Rabs (Rabs sy - 1) * Rabs (vy g - t_y p).
Proof.
  intros Ht He N start_x start_y.
  destruct (C64_placement tol eps p sx (offset_center sx ox (nx * bx) bx) sy (offset_center sy oy (ny * by') by') Ht He N) as (p' & q & E & P & Ra & Rb & Rg & T).
  exists p', q. repeat (split; [assumption|]). intros v. cbn zeta. rewrite T. unfold vx at 1, vy at 2. cbn [fst snd].
  assert (G : forall s o n b t x, Rabs (offset_center s o (n * b) b + sign s * (x - t) - line_at s o (t - n * b / 2) b x) = Rabs (Rabs s - 1) * Rabs (x - t)).
  { intros s o n b t x. rewrite <- Rabs_mult. unfold sign, line_at, offset_center, offset_plot.
    unfold Rabs at 3. destruct (Rlt_dec s 0), (Rcase_abs s); try lra.
    - f_equal. unfold Rdiv. ring.
    - rewrite Rabs_minus_sym. f_equal. unfold Rdiv. ring. }
  split; [apply G|apply G].
Qed.
(** ... exactly, for a slope of 1 or -1; with the accepted slopes the error grows to a tenth of the distance to the center *)
Theorem C64_exact tol eps p bx by' nx ny sx ox sy oy : 0 <= tol -> 0 <= eps -> Rabs (rot p 2%nat 0%nat) <> 1 -> Rabs sx = 1 -> Rabs sy = 1 ->
  let start_x := t_x p - nx * bx / 2 in let start_y := t_y p - ny * by' / 2 in
  exists p' q, prealigned tol eps p sx (offset_center sx ox (nx * bx) bx) sy (offset_center sy oy (ny * by') by') = Some p' /\ pos p' = pos q /\
    reported eps (r_alpha q) (r_alpha p') /\ reported eps (r_beta q) (r_beta p') /\ reported eps (r_gamma q) (r_gamma p') /\
    forall v, vx (to_global q v) = line_at sx ox start_x bx (vx (to_global p v)) /\ vy (to_global q v) = line_at sy oy start_y by' (vy (to_global p v)).
Proof.
  intros Ht He N Sx Sy start_x start_y. destruct (C64_aligned tol eps p bx by' nx ny sx ox sy oy Ht He N) as (p' & q & E & P & Ra & Rb & Rg & T).
  exists p', q. repeat (split; [assumption|]). intros v. specialize (T v). cbn zeta in T. fold start_x start_y in T. rewrite Sx, Sy in T. replace (1 - 1) with 0 in T by ring. rewrite Rabs_R0, !Rmult_0_l in T.
  assert (Z : forall a b, Rabs (a - b) = 0 -> a = b) by (intros a b H; unfold Rabs in H; destruct Rcase_abs; lra).
  split; apply Z; apply T.
Qed.
(** The limits of the slope: the error of the position at the edge of the sensor *)
Theorem C64_slope_error s x t : proper_slope s = true -> Rabs (Rabs s - 1) * Rabs (x - t) <= 1/10 * Rabs (x - t).
Proof.
  intros H. apply Rmult_le_compat_r; [apply Rabs_pos|]. unfold proper_slope in H. apply orb_true_iff in H. rewrite !Rleb_true in H.
  unfold Rabs in *. repeat destruct Rcase_abs; lra.
Qed.

(** ** Range of the correlation *)
(** If the histogram of the reference is centered at zero: all bins of the DUT with a maximum on the line are found *)
Theorem C64_range dut_pos max_select bin_size n_ref slope plot threshold : 0 < threshold -> length dut_pos = length max_select ->
  let ref_start := - (n_ref * bin_size) / 2 in
  (forall k, (k < length dut_pos)%nat -> nth k max_select 0%nat <> 0%nat /\ ref_start + (INR (nth k max_select 0%nat) + 1/2) * bin_size = slope * nth k dut_pos 0 + plot) ->
  correlated dut_pos max_select bin_size (n_ref * bin_size) slope plot threshold = dut_pos.
Proof.
  intros Ht. revert max_select. induction dut_pos as [|x l IH]; intros [|m ms] L ref_start H; try discriminate; [reflexivity|].
  unfold correlated in *. cbn [combine filter snd]. destruct (H 0%nat ltac:(cbn; lia)) as [H1 H2]. cbn [nth] in H1, H2.
  apply Nat.eqb_neq in H1. rewrite H1. cbn [negb map]. unfold find_inliers in *. cbn [filter fst snd].
  assert (E : Rltb (Rabs (slope * x + plot - (INR m * bin_size - n_ref * bin_size / 2 + bin_size / 2))) threshold = true).
  { apply Rltb_true. rewrite <- H2. unfold ref_start. match goal with |- Rabs ?a < _ => replace a with 0 by field end. now rewrite Rabs_R0. }
  rewrite E. cbn [map fst]. f_equal. apply IH.
  - now injection L.
  - intros k Hk. apply (H (S k)). cbn. lia.
Qed.
(** For a reference at another position none of them is found: the position of the bins of the reference is not taken into account *)
Theorem C64_reference_refuted : exists dut_pos max_select bin_size n_ref ref_start slope plot threshold, 0 < threshold /\ length dut_pos = length max_select /\
  (forall k, (k < length dut_pos)%nat -> nth k max_select 0%nat <> 0%nat /\ ref_start + (INR (nth k max_select 0%nat) + 1/2) * bin_size = slope * nth k dut_pos 0 + plot) /\
  correlated dut_pos max_select bin_size (n_ref * bin_size) slope plot threshold = [].
Proof.
  exists [1060; 1070; 1080], [1; 2; 3]%nat, 10, 8, 1000, 1, (1000 + 3/2 * 10 - 1060), 100. split; [lra|]. split; [reflexivity|]. split.
  - intros [|[|[|k]]] Hk; cbn [length nth] in *; [| | |lia]; (split; [lia|]); cbn; lra.
  - unfold correlated, find_inliers. cbn [combine filter snd map fst Nat.eqb negb].
    assert (T : forall a, 100 <= a -> Rltb (Rabs a) 100 = false) by (intros a Ha; apply Rltb_false; rewrite Rabs_right; lra).
    rewrite !T; [reflexivity| | |]; cbn; lra.
Qed.

(** ** Limits *)
Lemma list_min_spec l : forall a, (list_min a l = a \/ In (list_min a l) l) /\ list_min a l <= a /\ forall x, In x l -> list_min a l <= x.
Proof.
  induction l as [|b l IH]; intros a; cbn [list_min fold_left]; [split; [now left|split; [lra|intros x []]]|].
  destruct (IH (Rmin a b)) as (H1 & H2 & H3). unfold list_min in *. pose proof (Rmin_l a b). pose proof (Rmin_r a b). split; [|split].
  - destruct H1 as [H1|H1]; [|right; now right]. rewrite H1. unfold Rmin. destruct Rle_dec; [now left|right; now left].
  - lra.
  - intros x [<-|Hx]; [lra|now apply H3].
Qed.
Lemma list_max_spec l : forall a, (list_max a l = a \/ In (list_max a l) l) /\ a <= list_max a l /\ forall x, In x l -> x <= list_max a l.
Proof.
  induction l as [|b l IH]; intros a; cbn [list_max fold_left]; [split; [now left|split; [lra|intros x []]]|].
  destruct (IH (Rmax a b)) as (H1 & H2 & H3). unfold list_max in *. pose proof (Rmax_l a b). pose proof (Rmax_r a b). split; [|split].
  - destruct H1 as [H1|H1]; [|right; now right]. rewrite H1. unfold Rmax. destruct Rle_dec; [right; now left|now left].
  - lra.
  - intros x [<-|Hx]; [lra|now apply H3].
Qed.
(** C64: without limits of the user the limits are the range of the selected pixels *)
Theorem C64_new_limits selected limit : new_limit None selected = Some limit ->
  (forall x, In x selected -> fst limit <= x <= snd limit) /\ In (fst limit) selected /\ In (snd limit) selected.
Proof.
  destruct selected as [|a l]; [discriminate|]. intros H. injection H as <-.
  destruct (list_min_spec l a) as (A1 & A2 & A3). destruct (list_max_spec l a) as (B1 & B2 & B3). unfold set_limit. cbn [fst snd].
  rewrite Rmin_left, Rmax_right by lra. split; [|split].
  - intros x [<-|Hx]; [lra|]. split; [now apply A3|now apply B3].
  - destruct A1 as [->|A1]; [now left|now right].
  - destruct B1 as [->|B1]; [now left|now right].
Qed.
(** Existing limits are made narrower: a position is within the new limits if it is within the old limits and within the range of the selected pixels,
    as long as there is such a position *)
Definition in_range (selected : list R) (t : R) : Prop := (exists x, In x selected /\ x <= t) /\ (exists y, In y selected /\ t <= y).
Theorem C64_narrower lower upper selected limit t0 : new_limit (Some (lower, upper)) selected = Some limit ->
  in_range selected t0 -> lower <= t0 <= upper -> forall t, fst limit <= t <= snd limit <-> in_range selected t /\ lower <= t <= upper.
Proof.
  destruct selected as [|a l]; [discriminate|]. intros H. injection H as <-.
  destruct (list_min_spec l a) as (A1 & A2 & A3). destruct (list_max_spec l a) as (B1 & B2 & B3). unfold set_limit. cbn [fst snd].
  assert (R : forall t, in_range (a :: l) t <-> list_min a l <= t <= list_max a l).
  { intros t. split.
    - intros [(x & Hx & Lx) (y & Hy & Ly)]. split.
      + destruct Hx as [<-|Hx]; [lra|]. specialize (A3 x Hx). lra.
      + destruct Hy as [<-|Hy]; [lra|]. specialize (B3 y Hy). lra.
    - intros [Hl Hu]. split; [exists (list_min a l)|exists (list_max a l)]; (split; [|assumption]).
      + destruct A1 as [->|A1]; [now left|now right].
      + destruct B1 as [->|B1]; [now left|now right]. }
  rewrite (R t0). intros T0 L0 t. rewrite (R t).
  assert (O : Rmax (list_min a l) lower <= Rmin (list_max a l) upper) by (unfold Rmax, Rmin; repeat destruct Rle_dec; lra).
  rewrite (Rmin_left _ _ O), (Rmax_right _ _ O). unfold Rmax, Rmin. repeat destruct Rle_dec; lra.
Qed.
(** Without a common range the new limits are the gap between the two ranges: not a single pixel with correlation is within the limits *)
Theorem C64_limits_refuted : exists lower upper selected limit, new_limit (Some (lower, upper)) selected = Some limit /\ limit = (10, 20) /\
  lower = 0 /\ upper = 10 /\ selected = [20; 30].
Proof.
  exists 0, 10, [20; 30]. eexists. split; [reflexivity|]. split; [|auto]. unfold list_min, list_max, set_limit. cbn [fold_left]. unfold Rmin, Rmax.
  repeat destruct Rle_dec; try lra. reflexivity.
Qed.

(** A sensor that is shifted, rotated about the beam axis, and mounted the other way around *)
Example C64_example : exists p, Rabs (rot p 2%nat 0%nat) <> 1 /\ t_x p <> 0 /\ proper_slope (-1) = true /\ proper_slope 1 = true.
Proof.
  exists (Placement 100 (-50) 1000 0 0 (PI / 7)). split; [|split; [cbn; lra|split; unfold proper_slope; apply orb_true_iff; [right|left]; apply Rleb_true]].
  - unfold rot. cbn [r_alpha r_beta r_gamma]. destruct (rot_entries 0 0 (PI / 7)) as (_ & _ & _ & _ & _ & _ & E & _). rewrite E, sin_0. replace (- 0) with 0 by ring. rewrite Rabs_R0. lra.
  - replace (-1 - -1) with 0 by ring. rewrite Rabs_R0. lra.
  - replace (1 - 1) with 0 by ring. rewrite Rabs_R0. lra.
Qed.

Print Assumptions C64_placement.
Print Assumptions C64_line.
Print Assumptions C64_aligned.
Print Assumptions C64_exact.
Print Assumptions C64_slope_error.
Print Assumptions C64_range.
Print Assumptions C64_reference_refuted.
Print Assumptions C64_new_limits.
Print Assumptions C64_narrower.
Print Assumptions C64_limits_refuted.
