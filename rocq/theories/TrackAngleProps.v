(* C69: track angles and their histograms. *)
From Coq Require Import List Arith ZArith Lia Reals Lra Bool.
From Verif Require Import GeometryModel GeometryProofs AnglesProps PrealignModel HoughProps RunningMeanModel RunningMeanProps EfficiencyModel EfficiencyProps TrackAngleModel.
Import ListNotations.
Local Open Scope R_scope.

Lemma vdot_pos v : vz v <> 0 -> 0 < vdot v v.
Proof. intros H. unfold vdot. pose proof (Rsqr_pos_lt _ H) as P. unfold Rsqr in P. pose proof (Rle_0_sqr (vx v)). pose proof (Rle_0_sqr (vy v)). unfold Rsqr in *. lra. Qed.
Lemma normalized_some v : vdot v v <> 0 -> normalized v = Some (vscale (/ sqrt (vdot v v)) v).
Proof. intros H. unfold normalized. apply Reqb_false in H. now rewrite H. Qed.

Lemma arctan2_pos y x : 0 < x -> arctan2 y x = atan (y / x).
Proof. intros H. unfold arctan2. apply Rltb_true in H. now rewrite H. Qed.

(** Angles of a track which is not parallel to the plane. *)
Lemma angles_eq s : vz s <> 0 -> angles s = (Some (acos (Rabs (vz s) / sqrt (vdot s s))), Some (atan (vy s / Rabs (vz s))), Some (atan (- vx s / Rabs (vz s)))).
Proof.
  intros H. pose proof (vdot_pos s H) as P. pose proof (Rabs_pos_lt _ H) as A. destruct s as [[x y] z]. unfold vz in H, A |- *. cbn [snd] in *. unfold vx, vy. cbn [fst snd].
  assert (E : vdot (x, y, Rabs z) (x, y, Rabs z) = vdot (x, y, z) (x, y, z)).
  { unfold vdot, vx, vy, vz. cbn [fst snd]. pose proof (Rsqr_abs z) as Q. unfold Rsqr in Q. lra. }
  unfold angles, get_angles, vx, vy, vz. cbn [fst snd]. rewrite normalized_some by (rewrite E; lra). rewrite E. set (d := sqrt (vdot (x, y, z) (x, y, z))).
  assert (D : 0 < d) by (apply sqrt_lt_R0; exact P).
  assert (S : vscale (/ d) (x, y, Rabs z) = (x / d, y / d, Rabs z / d)). { unfold vscale, vx, vy, vz. cbn [fst snd]. f_equal; [f_equal|]; unfold Rdiv; ring. }
  rewrite S. assert (Z : 0 < Rabs z / d) by (apply Rdiv_lt_0_compat; assumption).
  assert (G : forall u, 0 < u * u + (Rabs z / d) * (Rabs z / d)). { intros u. pose proof (Rle_0_sqr u). unfold Rsqr in *. nra. }
  f_equal; [f_equal; [f_equal; f_equal; unfold vdot, vx, vy, vz; cbn [fst snd]; lra|]|].
  - unfold projected_angle. replace (onto_plane (1, 0, 0) (x / d, y / d, Rabs z / d)) with ((0, y / d, Rabs z / d) : vec) by (unfold onto_plane, vsub, vscale, vdot, vx, vy, vz; cbn [fst snd]; f_equal; [f_equal|]; lra).
    specialize (G (y / d)). set (t := (0, y / d, Rabs z / d) : vec). assert (V : vdot t t = (y / d) * (y / d) + (Rabs z / d) * (Rabs z / d)) by (unfold t, vdot, vx, vy, vz; cbn [fst snd]; ring).
    rewrite normalized_some by lra. f_equal. rewrite <- V in G. apply sqrt_lt_R0 in G. set (e := sqrt (vdot t t)) in *. unfold t, onto_plane, vsub, vscale, vdot, cross, vx, vy, vz. cbn [fst snd].
    rewrite arctan2_pos. 2:{ pose proof (Rinv_0_lt_compat _ G). nra. } f_equal. field. lra.
  - unfold projected_angle. replace (onto_plane (0, 1, 0) (x / d, y / d, Rabs z / d)) with ((x / d, 0, Rabs z / d) : vec) by (unfold onto_plane, vsub, vscale, vdot, vx, vy, vz; cbn [fst snd]; f_equal; [f_equal|]; lra).
    specialize (G (x / d)). set (t := (x / d, 0, Rabs z / d) : vec). assert (V : vdot t t = (x / d) * (x / d) + (Rabs z / d) * (Rabs z / d)) by (unfold t, vdot, vx, vy, vz; cbn [fst snd]; ring).
    rewrite normalized_some by lra. f_equal. rewrite <- V in G. apply sqrt_lt_R0 in G. set (e := sqrt (vdot t t)) in *. unfold t, onto_plane, vsub, vscale, vdot, cross, vx, vy, vz. cbn [fst snd].
    rewrite arctan2_pos. 2:{ pose proof (Rinv_0_lt_compat _ G). nra. } f_equal. field. lra.
Qed.

(** total, alpha and beta are the angles to the z axis in space and in the two projections: tan alpha = dy / |dz|, tan beta = - dx / |dz|,
    cos total = |dz| / length, and tan^2 total = tan^2 alpha + tan^2 beta. *)
Theorem C69_angles s : vz s <> 0 -> exists t a b, angles s = (Some t, Some a, Some b) /\
  0 <= t < PI / 2 /\ - PI / 2 < a < PI / 2 /\ - PI / 2 < b < PI / 2 /\
  tan a = vy s / Rabs (vz s) /\ tan b = - (vx s / Rabs (vz s)) /\ cos t = Rabs (vz s) / sqrt (vdot s s) /\ tan t ^ 2 = tan a ^ 2 + tan b ^ 2.
Proof.
  intros H. pose proof (vdot_pos s H) as P. pose proof (Rabs_pos_lt _ H) as A. set (z := Rabs (vz s)) in *. set (d := sqrt (vdot s s)).
  assert (D : 0 < d) by (apply sqrt_lt_R0; exact P). assert (DD : d * d = vdot s s) by (apply sqrt_sqrt; lra).
  assert (ZZ : z * z = vz s * vz s) by (symmetry; exact (Rsqr_abs (vz s))).
  assert (ZD : z <= d). { pose proof (Rle_0_sqr (vx s)). pose proof (Rle_0_sqr (vy s)). unfold Rsqr in *. unfold vdot in DD. nra. }
  assert (C : 0 < z / d <= 1). { split; [now apply Rdiv_lt_0_compat|]. apply Rmult_le_reg_r with d; [assumption|]. unfold Rdiv. rewrite Rmult_assoc, Rinv_l by lra. lra. }
  exists (acos (z / d)), (atan (vy s / z)), (atan (- vx s / z)). split; [now apply angles_eq|].
  assert (CT : cos (acos (z / d)) = z / d) by (apply cos_acos; lra).
  assert (B : 0 <= acos (z / d) < PI / 2).
  { pose proof (acos_bound (z / d)) as AB. split; [lra|]. destruct (Rlt_or_le (acos (z / d)) (PI / 2)) as [L|L]; [assumption|]. exfalso.
    destruct (Req_dec (acos (z / d)) (PI / 2)) as [E|E]; [rewrite E, cos_PI2 in CT; lra|].
    assert (cos (acos (z / d)) < 0); [|lra]. apply cos_lt_0; [lra|]. pose proof PI_RGT_0. lra. }
  split; [assumption|]. pose proof (atan_bound (vy s / z)). pose proof (atan_bound (- vx s / z)). split; [assumption|]. split; [assumption|].
  rewrite !tan_atan. split; [reflexivity|]. split; [unfold Rdiv; ring|]. split; [assumption|].
  assert (S : sin (acos (z / d)) * sin (acos (z / d)) = 1 - (z / d) * (z / d)). { pose proof (sin2_cos2 (acos (z / d))) as Q. unfold Rsqr in Q. rewrite CT in Q. lra. }
  unfold tan. rewrite CT. replace ((sin (acos (z / d)) / (z / d)) ^ 2) with ((sin (acos (z / d)) * sin (acos (z / d))) * (d / z) ^ 2) by (field; lra). rewrite S.
  replace ((1 - z / d * (z / d)) * (d / z) ^ 2) with ((d * d - z * z) / (z * z)) by (field; lra). rewrite DD, ZZ. replace (vdot s s - vz s * vz s) with (vx s * vx s + vy s * vy s) by (unfold vdot; ring). rewrite <- ZZ. field. lra.
Qed.

(** The length of the slope does not matter. *)
Theorem C69_scale s c : vz s <> 0 -> 0 < c -> angles (vscale c s) = angles s.
Proof.
  intros H Hc. assert (H' : vz (vscale c s) <> 0) by (unfold vscale, vz in *; cbn [snd]; apply Rmult_integral_contrapositive; lra).
  assert (V : sqrt (vdot (vscale c s) (vscale c s)) = c * sqrt (vdot s s)).
  { replace (vdot (vscale c s) (vscale c s)) with ((c * c) * vdot s s) by (unfold vscale, vdot, vx, vy, vz; cbn [fst snd]; ring). rewrite sqrt_mult by (try nra; pose proof (vdot_pos s H); lra). rewrite sqrt_square by lra. reflexivity. }
  rewrite !angles_eq by assumption. rewrite V. pose proof (Rabs_pos_lt _ H) as A. pose proof (sqrt_lt_R0 _ (vdot_pos s H)) as D.
  change (vx (vscale c s)) with (c * vx s). change (vy (vscale c s)) with (c * vy s). change (vz (vscale c s)) with (c * vz s).
  rewrite !Rabs_mult, (Rabs_pos_eq c) by lra. f_equal; [f_equal|]; f_equal; f_equal; field; lra.
Qed.

(** A beam along the z axis on a rotated DUT: the local alpha angle is the rotation alpha of the DUT, tan beta = tan (rotation beta) / cos alpha (the rotation beta
    without rotation alpha), and cos total = cos alpha cos beta; the rotation gamma does not matter. *)
Definition local_beam (p : placement) : vec := apply_rotation_matrix (0, 0, 1) (transpose (rot p)).
Theorem C69_rotation p : - PI / 2 < r_alpha p < PI / 2 -> - PI / 2 < r_beta p < PI / 2 ->
  exists t b, angles (local_beam p) = (Some t, Some (r_alpha p), Some b) /\ cos t = cos (r_alpha p) * cos (r_beta p) /\ tan b = tan (r_beta p) / cos (r_alpha p) /\ (r_alpha p = 0 -> b = r_beta p).
Proof.
  intros A B. pose proof (cos_gt_0 (r_alpha p) ltac:(lra) ltac:(lra)) as CA. pose proof (cos_gt_0 (r_beta p) ltac:(lra) ltac:(lra)) as CB.
  destruct (rot_entries (r_alpha p) (r_beta p) (r_gamma p)) as (_ & _ & _ & _ & _ & _ & E0 & E1 & E2).
  assert (L : local_beam p = (- sin (r_beta p), cos (r_beta p) * sin (r_alpha p), cos (r_beta p) * cos (r_alpha p))).
  { unfold local_beam. rewrite apply_rotation_eq. unfold transpose, rot, vx, vy, vz. cbn [fst snd]. rewrite E0, E1, E2. f_equal; [f_equal|]; ring. }
  assert (P : 0 < cos (r_beta p) * cos (r_alpha p)) by (apply Rmult_lt_0_compat; assumption).
  rewrite L, angles_eq by (unfold vz; cbn [snd]; lra). unfold vx, vy, vz. cbn [fst snd]. rewrite (Rabs_pos_eq (cos (r_beta p) * cos (r_alpha p))) by lra.
  assert (V : vdot (- sin (r_beta p), cos (r_beta p) * sin (r_alpha p), cos (r_beta p) * cos (r_alpha p)) (- sin (r_beta p), cos (r_beta p) * sin (r_alpha p), cos (r_beta p) * cos (r_alpha p)) = 1).
  { unfold vdot, vx, vy, vz. cbn [fst snd]. pose proof (sc2 (r_alpha p)) as SA. pose proof (sc2 (r_beta p)) as SB.
    replace (- sin (r_beta p) * - sin (r_beta p) + cos (r_beta p) * sin (r_alpha p) * (cos (r_beta p) * sin (r_alpha p)) + cos (r_beta p) * cos (r_alpha p) * (cos (r_beta p) * cos (r_alpha p)))
      with (sin (r_beta p) * sin (r_beta p) + cos (r_beta p) * cos (r_beta p) * (sin (r_alpha p) * sin (r_alpha p) + cos (r_alpha p) * cos (r_alpha p))) by ring. rewrite SA. lra. }
  rewrite V, sqrt_1. replace (cos (r_beta p) * sin (r_alpha p) / (cos (r_beta p) * cos (r_alpha p))) with (tan (r_alpha p)) by (unfold tan; field; lra).
  replace (- - sin (r_beta p) / (cos (r_beta p) * cos (r_alpha p))) with (tan (r_beta p) / cos (r_alpha p)) by (unfold tan; field; lra).
  exists (acos (cos (r_beta p) * cos (r_alpha p) / 1)), (atan (tan (r_beta p) / cos (r_alpha p))). rewrite atan_tan by lra. split; [reflexivity|]. split.
  - pose proof (COS_bound (r_alpha p)). pose proof (COS_bound (r_beta p)). rewrite cos_acos; [field|]. unfold Rdiv. rewrite Rinv_1, Rmult_1_r. split; nra.
  - split; [apply tan_atan|]. intros ->. rewrite cos_0. unfold Rdiv. rewrite Rinv_1, Rmult_1_r. apply atan_tan. lra.
Qed.

(** The global angles do not depend on the DUT from whose table they are calculated. *)
Theorem C69_global p s : angles (global_slope p (apply_rotation_matrix s (transpose (rot p)))) = angles s.
Proof.
  f_equal. unfold global_slope. rewrite to_global_eq. unfold pos, rot. cbn [t_x t_y t_z r_alpha r_beta r_gamma]. fold (rot p).
  assert (R : apply_rotation_matrix (apply_rotation_matrix s (transpose (rot p))) (rot p) = s).
  { change (rot p) with (transpose (transpose (rot p))) at 2. apply rotate_back. pose proof (rot_orthogonal p) as [O1 O2]. split; assumption. }
  rewrite R. unfold vadd, vx, vy, vz. cbn [fst snd]. destruct s as [[x y] z]. cbn [fst snd]. f_equal; [f_equal|]; ring.
Qed.

(** Desired: the angles belong to the line and not to the direction in which it is stored. False: for the opposite direction (local slopes of a DUT which is
    mounted with its z axis against the beam) alpha and beta change their signs. *)
Theorem C69_reversed_refuted s : vz s <> 0 -> vy s <> 0 -> exists t a b, angles s = (Some t, Some a, Some b) /\ angles (vscale (-1) s) = (Some t, Some (- a), Some (- b)) /\ angles (vscale (-1) s) <> angles s.
Proof.
  intros H Y. set (t := acos (Rabs (vz s) / sqrt (vdot s s))). exists t, (atan (vy s / Rabs (vz s))), (atan (- vx s / Rabs (vz s))).
  assert (E : angles (vscale (-1) s) = (Some t, Some (- atan (vy s / Rabs (vz s))), Some (- atan (- vx s / Rabs (vz s))))).
  { rewrite angles_eq by (unfold vscale, vz in *; cbn [snd]; lra). unfold t.
    assert (V : vdot (vscale (-1) s) (vscale (-1) s) = vdot s s) by (unfold vdot, vscale, vx, vy, vz; cbn [fst snd]; ring). rewrite V.
    change (vx (vscale (-1) s)) with (-1 * vx s). change (vy (vscale (-1) s)) with (-1 * vy s). change (vz (vscale (-1) s)) with (-1 * vz s). replace (-1 * vz s) with (- vz s) by ring. rewrite Rabs_Ropp. rewrite <- !atan_opp. f_equal; [f_equal|]; do 2 f_equal; unfold Rdiv; ring. }
  split; [now apply angles_eq|]. split; [assumption|]. rewrite E, angles_eq by assumption. intros K. injection K as K _.
  assert (Z : atan (vy s / Rabs (vz s)) = 0) by lra. rewrite <- atan_0 in Z. apply (f_equal tan) in Z. rewrite !tan_atan in Z. pose proof (Rabs_pos_lt _ H).
  apply Y. replace (vy s) with (vy s / Rabs (vz s) * Rabs (vz s)) by (field; lra). rewrite Z. ring.
Qed.

(** * Histograms *)
Definition in_range (lo hi : R) (x : option R) : bool := match x with Some x => Rleb lo x && Rleb x hi | None => false end.

Lemma not_nan_number f l : length (filter f (not_nan l)) = number (fun x => match x with Some x => f x | None => false end) l.
Proof. induction l as [|[x|] l IH]; [reflexivity| |exact IH]. cbn. destruct (f x); cbn; [f_equal; exact IH|exact IH]. Qed.
Lemma histogram_spec edges l : histogram edges l = map (fun i => number (fun x => match x with Some x => in_bin edges i x | None => false end) l) (seq 0 (n_edge_bins edges)).
Proof. apply map_ext. intros i. apply not_nan_number. Qed.
Lemma add_map (f g : nat -> nat) is : map (fun p => (fst p + snd p)%nat) (combine (map f is) (map g is)) = map (fun i => (f i + g i)%nat) is.
Proof. induction is as [|i is IH]; [reflexivity|]. cbn. now rewrite IH. Qed.
Lemma fold_hist edges cs : forall l, fold_left (fun h c => map (fun p => (fst p + snd p)%nat) (combine h (histogram edges c))) cs (histogram edges l) = histogram edges (l ++ concat cs).
Proof.
  induction cs as [|c cs IH]; intros l; cbn [fold_left concat]; [now rewrite app_nil_r|]. rewrite app_assoc, <- IH. f_equal.
  rewrite !histogram_spec, add_map. apply map_ext. intros i. now rewrite number_of_app.
Qed.
Lemma sum_map_swap {A B} (f : A -> B -> bool) (xs : list A) (ys : list B) :
  total (map (fun y => number (fun x => f x y) xs) ys) = fold_right (fun x n => (number (f x) ys + n)%nat) 0%nat xs.
Proof.
  unfold total. induction xs as [|x xs IH]; [induction ys; cbn in *; auto|]. cbn [fold_right number]. rewrite <- IH. clear IH. induction ys as [|y ys IH]; [reflexivity|]. cbn [map fold_right number]. rewrite IH. lia.
Qed.
Lemma linspace_increasing lo hi n : lo < hi -> (1 <= n)%nat -> increasing (linspace lo hi (n + 1)) /\ nth 0 (linspace lo hi (n + 1)) 0 = lo /\ nth (length (linspace lo hi (n + 1)) - 1) (linspace lo hi (n + 1)) 0 = hi.
Proof.
  intros H N. replace (n + 1)%nat with (S n) by lia. assert (P : 0 < INR n) by (apply lt_0_INR; lia). assert (Q : 0 < (hi - lo) / INR n) by (apply Rdiv_lt_0_compat; lra). rewrite linspace_length. split; [|split].
  - intros i L. rewrite linspace_length in L. rewrite !linspace_nth by lia. rewrite S_INR. lra.
  - rewrite linspace_nth by lia. cbn. lra.
  - rewrite linspace_nth by lia. replace (S n - 1)%nat with n by lia. field. lra.
Qed.

Lemma sum_nonneg l : (forall x, In x l -> 0 <= x) -> 0 <= sum l.
Proof. induction l as [|x l IH]; cbn; intros H; [lra|]. assert (0 <= x) by (apply H; now left). assert (0 <= sum l) by (apply IH; intros; apply H; now right). unfold sum in *. lra. Qed.
Lemma std_pos l : 0 <= std l.
Proof. apply sqrt_pos. Qed.
Lemma std_sum l : l <> [] -> sum (map (fun x => (x - mean l) ^ 2) l) = INR (length l) * (std l * std l).
Proof.
  intros H. assert (P : 0 < INR (length l)) by (apply lt_0_INR; destruct l; [congruence|cbn; lia]). unfold std. rewrite sqrt_sqrt. { field. lra. }
  apply Rmult_le_pos; [|left; now apply Rinv_0_lt_compat]. apply sum_nonneg. intros x I. apply in_map_iff in I as (y & <- & _). apply pow2_ge_0.
Qed.
Lemma std_zero l : std l = 0 -> forall x, In x l -> x = mean l.
Proof.
  intros H x I. assert (N : l <> []) by (intros ->; inversion I). pose proof (std_sum l N) as S. rewrite H in S. replace (INR (length l) * (0 * 0)) with 0 in S by ring.
  generalize dependent (mean l). intros m S. clear H N. assert (Z : (x - m) ^ 2 <= sum (map (fun x => (x - m) ^ 2) l)).
  { clear S. induction l as [|y l IH]; [inversion I|]. change (sum (map (fun x => (x - m) ^ 2) (y :: l))) with ((y - m) ^ 2 + sum (map (fun x => (x - m) ^ 2) l)).
    assert (0 <= sum (map (fun x => (x - m) ^ 2) l)). { apply sum_nonneg. intros z J. apply in_map_iff in J as (w & <- & _). apply pow2_ge_0. } pose proof (pow2_ge_0 (y - m)).
    destruct I as [-> | I]; [lra|]. specialize (IH I). lra. }
  rewrite S in Z. pose proof (pow2_ge_0 (x - m)). assert (Q : (x - m) ^ 2 = 0) by lra. destruct (Req_dec (x - m) 0) as [E|E]; [lra|]. exfalso. revert Q. apply pow_nonzero. assumption.
Qed.
(** Chebyshev's inequality *)
Lemma chebyshev l : 0 < std l -> (25 * number (fun x => negb (Rleb (mean l - 5 * std l) x && Rleb x (mean l + 5 * std l))) l <= length l)%nat.
Proof.
  intros H. destruct l as [|y l']; [cbn; lia|]. remember (y :: l') as l eqn:E. pose proof (std_sum l ltac:(subst; discriminate)) as S. clear E y l'. generalize dependent (std l). intros s H S. generalize dependent (mean l). intros m S.
  apply INR_le. rewrite mult_INR. apply Rmult_le_reg_r with (s * s); [nra|]. rewrite <- S. clear S. induction l as [|x l IH]; [cbn; lra|].
  change (sum (map (fun x => (x - m) ^ 2) (x :: l))) with ((x - m) ^ 2 + sum (map (fun x => (x - m) ^ 2) l)). cbn [number]. rewrite plus_INR.
  assert (C : INR 25 = 25) by (rewrite INR_IZR_INZ; reflexivity). rewrite C in *. pose proof (pow2_ge_0 (x - m)).
  destruct (Rleb (m - 5 * s) x && Rleb x (m + 5 * s)) eqn:B; cbn [negb INR]; [lra|]. apply andb_false_iff in B. assert (25 * (s * s) <= (x - m) ^ 2); [|lra].
  destruct B as [B|B]; apply Rleb_false in B; nra.
Qed.

(** The histogram counts every angle of all chunks which is inside of a range of +- 5 standard deviations around the mean of the first chunk (nans nowhere),
    each in exactly one of the n_bins bins; at least 96 % of the first chunk are inside. *)
Theorem C69_histogram n_bins c cs : (1 <= n_bins)%nat -> not_nan c <> [] ->
  exists h edges lo hi, angle_histogram n_bins (c :: cs) = Some (h, edges) /\ length edges = S n_bins /\ length h = n_bins /\ increasing edges /\
  h = map (fun i => number (fun x => match x with Some x => in_bin edges i x | None => false end) (c ++ concat cs)) (seq 0 n_bins) /\
  total h = number (in_range lo hi) (c ++ concat cs) /\ lo <= mean (not_nan c) - 5 * std (not_nan c) /\ mean (not_nan c) + 5 * std (not_nan c) <= hi /\
  (24 * length (not_nan c) <= 25 * number (in_range lo hi) c)%nat.
Proof.
  intros N H. unfold angle_histogram, angle_edges. destruct n_bins as [|n]; [lia|]. set (l := not_nan c) in *.
  set (r := hist_range (mean l - 5 * std l) (mean l + 5 * std l)). assert (R : fst r < snd r /\ fst r <= mean l - 5 * std l /\ mean l + 5 * std l <= snd r).
  { unfold r, hist_range. pose proof (std_pos l). destruct (Reqb _ _) eqn:E; cbn [fst snd]; [apply Reqb_true in E; lra|]. apply Reqb_false in E. lra. }
  destruct (linspace_increasing (fst r) (snd r) (S n)) as (I & E0 & E1); [apply R|lia|].
  set (edges := linspace (fst r) (snd r) (S n + 1)) in *. assert (L : length edges = S (S n)) by (unfold edges; rewrite linspace_length; lia).
  exists (histogram edges (c ++ concat cs)), edges, (fst r), (snd r).
  split; [fold l; unfold r in edges; rewrite <- (fold_hist edges cs c); unfold edges; clear -H; destruct l; [congruence|reflexivity]|]. split; [assumption|].
  assert (B : n_edge_bins edges = S n) by (unfold n_edge_bins; lia). split; [unfold histogram; rewrite map_length, seq_length; assumption|]. split; [assumption|].
  split; [rewrite histogram_spec, B; reflexivity|]. split; [|split; [apply R|split; [apply R|]]].
  - rewrite histogram_spec, sum_map_swap. generalize (c ++ concat cs). intros xs. induction xs as [|x xs IH]; [reflexivity|]. cbn [fold_right number]. rewrite IH. f_equal.
    destruct x as [x|]; [|cbn [in_range]; apply number_false]. rewrite bins_1d by (auto; lia). unfold within. rewrite E0, E1. reflexivity.
  - assert (G : number (in_range (fst r) (snd r)) c = number (fun x => Rleb (fst r) x && Rleb x (snd r)) l).
    { rewrite <- (number_filter _ l). unfold l. rewrite not_nan_number. apply number_ext. intros [x|] _; reflexivity. }
    rewrite G. destruct (Rle_lt_or_eq_dec 0 (std l) (std_pos l)) as [P|P].
    + pose proof (chebyshev l P) as K. assert (M : (number (fun x => Rleb (mean l - 5 * std l) x && Rleb x (mean l + 5 * std l)) l <= number (fun x => Rleb (fst r) x && Rleb x (snd r)) l)%nat).
      { apply number_le. intros x. rewrite !andb_true_iff, !Rleb_true. lra. }
      assert (T : forall (f : Rdefinitions.R -> bool) xs, (number f xs + number (fun x => negb (f x)) xs = length xs)%nat). { intros f xs. induction xs as [|x xs IH]; [reflexivity|]. cbn. destruct (f x); cbn; lia. }
      specialize (T (fun x => Rleb (mean l - 5 * std l) x && Rleb x (mean l + 5 * std l)) l). cbn beta in T. lia.
    + assert (K : number (fun x => Rleb (fst r) x && Rleb x (snd r)) l = length l); [|lia].
      assert (Z : forall x, In x l -> x = mean l) by (apply std_zero; auto). assert (F : forall x, In x l -> Rleb (fst r) x && Rleb x (snd r) = true). { intros x Ix. rewrite (Z x Ix). apply andb_true_iff. rewrite !Rleb_true. rewrite <- P in R. lra. }
      clearbody r l. clear -F. induction l as [|x l IH]; [reflexivity|]. cbn. rewrite (F x) by now left. rewrite IH; [reflexivity|]. intros; apply F; now right.
Qed.

(** Desired: the histogram does not depend on the chunk size. False: angles of later chunks outside of the range of the first chunk are lost. *)
Theorem C69_chunking_refuted : exists n_bins chunks chunks' h edges h' edges', concat chunks = concat chunks' /\
  angle_histogram n_bins chunks = Some (h, edges) /\ angle_histogram n_bins chunks' = Some (h', edges') /\ total h = 1%nat /\ total h' = 2%nat.
Proof.
  destruct (C69_histogram 1 [Some 0] [[Some 1]] (le_n 1) ltac:(discriminate)) as (h & edges & lo & hi & E & _ & _ & _ & _ & T & A & B & _).
  destruct (C69_histogram 1 [Some 0; Some 1] [] (le_n 1) ltac:(discriminate)) as (h' & edges' & lo' & hi' & E' & _ & _ & _ & _ & T' & A' & B' & _).
  exists 1%nat, [[Some 0]; [Some 1]], [[Some 0; Some 1]], h, edges, h', edges'. split; [reflexivity|]. split; [exact E|]. split; [exact E'|]. split.
  - unfold angle_histogram, angle_edges in E. cbn [not_nan flat_map app] in E.
    assert (M : mean [0] = 0) by (unfold mean; cbn; field). assert (S : std [0] = 0). { unfold std. rewrite M. cbn. replace ((0 - 0) * ((0 - 0) * 1) + 0) with 0 by ring. unfold Rdiv. rewrite Rmult_0_l. apply sqrt_0. }
    rewrite M, S in E. unfold hist_range in E. replace (0 - 5 * 0) with 0 in E by ring. replace (0 + 5 * 0) with 0 in E by ring. assert (Z : Reqb 0 0 = true) by (apply Reqb_true; reflexivity). rewrite Z in E. cbn [fst snd] in E.
    rewrite fold_hist in E. apply (f_equal (fun o => match o with Some (h, _) => h | None => [] end)) in E. cbv beta iota in E. rewrite <- E, histogram_spec. destruct (linspace_increasing (0 - 1 / 2) (0 + 1 / 2) 1) as (I & E0 & E1); [lra|lia|]. rewrite sum_map_swap. cbn [fold_right app concat].
    rewrite !bins_1d; [|assumption|rewrite linspace_length; lia|assumption|rewrite linspace_length; lia]. unfold within. rewrite E0, E1.
    assert (R1 : Rleb (0 - 1 / 2) 0 = true) by (apply Rleb_true; lra). assert (R2 : Rleb 0 (0 + 1 / 2) = true) by (apply Rleb_true; lra). assert (R3 : Rleb 1 (0 + 1 / 2) = false) by (apply Rleb_false; lra).
    rewrite R1, R2, R3, andb_false_r. reflexivity.
  - cbn [not_nan flat_map app] in A', B'. assert (M : mean [0; 1] = 1 / 2) by (unfold mean; cbn; field).
    assert (S : std [0; 1] = 1 / 2). { unfold std. rewrite M. cbn. replace (((0 - 1 / 2) * ((0 - 1 / 2) * 1) + ((1 - 1 / 2) * ((1 - 1 / 2) * 1) + 0)) / (1 + 1)) with ((1 / 2) * (1 / 2)) by field. apply sqrt_square. lra. }
    rewrite M, S in A', B'. rewrite T'. cbn [concat app number in_range]. assert (R1 : Rleb lo' 0 = true) by (apply Rleb_true; lra). assert (R2 : Rleb 0 hi' = true) by (apply Rleb_true; lra). assert (R3 : Rleb lo' 1 = true) by (apply Rleb_true; lra). assert (R4 : Rleb 1 hi' = true) by (apply Rleb_true; lra).
    rewrite R1, R2, R3, R4. reflexivity.
Qed.

Example C69_example : exists t, angles (0, 1, -1) = (Some t, Some (PI / 4), Some 0).
Proof.
  exists (acos (Rabs (-1) / sqrt (vdot (0, 1, -1) (0, 1, -1)))). rewrite angles_eq by (unfold vz; cbn; lra). unfold vx, vy, vz. cbn [fst snd]. rewrite (Rabs_left (-1)) by lra. repeat f_equal; [|].
  - replace (1 / - (-1)) with 1 by field. apply atan_1.
  - replace (- 0 / - (-1)) with 0 by field. apply atan_0.
Qed.

Print Assumptions C69_angles.
Print Assumptions C69_scale.
Print Assumptions C69_rotation.
Print Assumptions C69_global.
Print Assumptions C69_reversed_refuted.
Print Assumptions C69_histogram.
Print Assumptions C69_chunking_refuted.
