(** The number of bins of the efficiency histogram in double precision (C109). *)
From Coq Require Import Reals ZArith Bool Lra Lia.
From Flocq Require Import Core Relative.
From Verif Require Import GeometryModel GeometryProofs FloatModel FloatProps FloatBinsModel.
Local Open Scope R_scope.

Local Instance prec_gt_0_53b : Prec_gt_0 53 := eq_refl.
Local Notation format := (generic_format radix2 (FLT_exp (-1074) 53)).

(** *** Rounding *)
Lemma fl_opp x : fl (- x) = - fl x.
Proof. apply round_NE_opp. Qed.
Lemma fl_Z m : (Z.abs m < 2 ^ 53)%Z -> fl (IZR m) = IZR m.
Proof. intros H. apply fl_exact. replace (IZR m) with (IZR m * bpow radix2 0) by (cbn; ring). apply format_dyadic; lia. Qed.
Lemma fl_twice x : format x -> fl (2 * x) = 2 * x.
Proof.
  intros F. apply fl_exact. apply FLT_format_generic in F; [|exact eq_refl]. destruct F as [[m e] E M X]. cbn [Fnum Fexp] in *.
  rewrite E. unfold F2R. cbn [Fnum Fexp]. replace (2 * (IZR m * bpow radix2 e)) with (IZR m * bpow radix2 (e + 1)) by (rewrite bpow_plus; cbn; ring).
  apply format_dyadic; [exact M|lia].
Qed.
Lemma tiny60 : 0 < bpow radix2 (-1075) <= / 2 ^ 60 * / 2 ^ 100.
Proof.
  split; [apply bpow_gt_0|]. replace (/ 2 ^ 60 * / 2 ^ 100) with (bpow radix2 (-160)) by (rewrite <- Rinv_mult, <- pow_add; cbn; lra). apply bpow_le. lia.
Qed.
Lemma fl_near x : Rabs (fl x - x) <= / 2 ^ 53 * Rabs x + / 2 ^ 60.
Proof. eapply Rle_trans; [apply fl_error|]. apply Rplus_le_compat_l. destruct tiny60 as [_ T]. eapply Rle_trans; [exact T|]. lra. Qed.
Lemma fl_near_over x r : / 2 ^ 100 <= r -> Rabs (fl x / r - x / r) <= / 2 ^ 53 * Rabs (x / r) + / 2 ^ 60.
Proof.
  intros Hr. assert (R0 : 0 < r) by lra. replace (fl x / r - x / r) with ((fl x - x) * / r) by (field; lra). rewrite Rabs_mult, (Rabs_right (/ r)) by (left; apply Rinv_0_lt_compat; auto).
  unfold Rdiv at 1. rewrite Rabs_mult, (Rabs_right (/ r)) by (left; apply Rinv_0_lt_compat; auto).
  replace (/ 2 ^ 53 * (Rabs x * / r) + / 2 ^ 60) with ((/ 2 ^ 53 * Rabs x + / 2 ^ 60 * r) * / r) by (field; lra).
  apply Rmult_le_compat_r; [left; apply Rinv_0_lt_compat; auto|]. eapply Rle_trans; [apply fl_error|]. apply Rplus_le_compat_l. destruct tiny60 as [_ T]. eapply Rle_trans; [exact T|]. nra.
Qed.

Lemma Rabs_bounds x d : Rabs x <= d -> - d <= x <= d.
Proof. intros H. unfold Rabs in H. destruct (Rcase_abs x); lra. Qed.

(** the extent of a sensor *)
Lemma extent_value s n : (0 <= n <= 2 ^ 50)%Z -> 0 < s -> extent_double s n = Some (- fl (s * (IZR n / 2)), fl (s * (IZR n / 2))).
Proof.
  intros Hn Hs. destruct (exact_parts n Hn) as (E1 & E2 & _). assert (N0 : 0 <= IZR n) by (apply IZR_le; lia).
  unfold extent_double, index_to_local_double. rewrite E1, E2.
  rewrite (proj2 (Rleb_true (1 / 2) (1 / 2))), (proj2 (Rleb_true (1 / 2) (IZR n + 1 / 2))), (proj2 (Rleb_true (IZR n + 1 / 2) (IZR n + 1 / 2))) by lra. cbn [andb].
  replace (1 / 2 - 1 / 2) with (IZR 0 / 2) by lra. rewrite (fl_half 0) by lia. replace (IZR 0 / 2 - IZR n / 2) with (IZR (- n) / 2) by (rewrite opp_IZR; lra). rewrite fl_half by lia.
  replace (IZR n + 1 / 2 - 1 / 2) with (IZR (2 * n) / 2) by (rewrite mult_IZR; lra). rewrite fl_half by lia.
  replace (IZR (2 * n) / 2 - IZR n / 2) with (IZR n / 2) by (rewrite mult_IZR; lra). rewrite fl_half by lia.
  replace (s * (IZR (- n) / 2)) with (- (s * (IZR n / 2))) by (rewrite opp_IZR; lra). rewrite fl_opp.
  assert (P : 0 <= fl (s * (IZR n / 2))). { replace 0 with (fl 0) by (apply fl_exact, generic_format_0). apply fl_le. nra. }
  rewrite Rmin_left, Rmax_right by lra. reflexivity.
Qed.
Lemma sensor_value s n r e : (0 <= n <= 2 ^ 50)%Z -> 0 < s -> sensor_bins_double s n r e = Some (hist_bins_double (2 * fl (s * (IZR n / 2))) r e).
Proof.
  intros Hn Hs. unfold sensor_bins_double. rewrite extent_value by auto. cbn [option_map fst snd].
  replace (fl (s * (IZR n / 2)) - - fl (s * (IZR n / 2))) with (2 * fl (s * (IZR n / 2))) by ring. rewrite fl_twice; [reflexivity|apply fl_format].
Qed.

(** the number of whole bins which cover x *)
Lemma whole_near r x q : / 2 ^ 100 <= r -> 0 <= q <= 2 ^ 40 -> Rabs (x / r - q) <= / 2 ^ 10 ->
  exists c : Z, q - / 2 ^ 9 <= IZR c < q + 1 + / 2 ^ 9 /\ Rabs (whole_bins_double r x / r - IZR c) <= / 2 ^ 11.
Proof.
  intros Hr Hq Hx. exists (Zceil (fl (x / r))). set (y := fl (x / r)).
  assert (Y : Rabs (y - q) <= / 2 ^ 10 + / 2 ^ 12).
  { replace (y - q) with ((y - x / r) + (x / r - q)) by ring. eapply Rle_trans; [apply Rabs_triang|].
    pose proof (fl_near (x / r)) as N. fold y in N. assert (A : Rabs (x / r) <= 2 ^ 40 + 1). { replace (x / r) with ((x / r - q) + q) by ring. eapply Rle_trans; [apply Rabs_triang|]. rewrite (Rabs_right q) by lra. lra. }
    lra. }
  apply Rabs_bounds in Y. pose proof (Zceil_ub y) as U. pose proof (Zceil_lb y) as L. set (c := Zceil y) in *.
  split; [lra|]. unfold whole_bins_double. fold y c.
  assert (C : fl (IZR c) = IZR c).
  { apply fl_Z. assert (-1 <= c)%Z by (apply le_IZR; lra). assert (c <= 2 ^ 41)%Z by (apply le_IZR; replace (IZR (2 ^ 41)) with (2 ^ 41) by (cbn; lra); lra). lia. }
  rewrite C. assert (R0 : 0 < r) by lra.
  pose proof (fl_near_over (IZR c * r) r Hr) as N. replace (IZR c * r / r) with (IZR c) in N by (field; lra).
  assert (Rabs (IZR c) <= 2 ^ 40 + 2) by (apply Rabs_le; lra). lra.
Qed.
Lemma size_near s n r q : (0 <= n <= 2 ^ 50)%Z -> / 2 ^ 100 <= s -> / 2 ^ 100 <= r -> q = IZR n * s / r -> q <= 2 ^ 40 -> 0 <= q /\ Rabs (2 * fl (s * (IZR n / 2)) / r - q) <= / 2 ^ 10.
Proof.
  intros Hn Hs Hr Eq Lq. assert (N0 : 0 <= IZR n) by (apply IZR_le; lia). assert (R0 : 0 < r) by lra.
  assert (Q0 : 0 <= q). { subst q. apply Rmult_le_pos; [nra|left; apply Rinv_0_lt_compat; auto]. }
  split; [exact Q0|]. pose proof (fl_near_over (s * (IZR n / 2)) r Hr) as N. replace (s * (IZR n / 2) / r) with (q / 2) in N by (subst q; field; lra).
  rewrite (Rabs_right (q / 2)) in N by lra. replace (2 * fl (s * (IZR n / 2)) / r - q) with (2 * (fl (s * (IZR n / 2)) / r - q / 2)) by (field; lra). rewrite Rabs_mult, (Rabs_right 2) by lra. lra.
Qed.
Lemma trunc_near z c d : Rabs (z - IZR c) <= d -> d < 1 -> 1 <= IZR c -> (Ztrunc z = c \/ Ztrunc z = c - 1)%Z.
Proof.
  intros Hz Hd Hc. apply Rabs_bounds in Hz. rewrite Ztrunc_floor by lra.
  destruct (Rle_dec (IZR c) z) as [L|L]; [left|right]; apply Zfloor_imp; rewrite ?plus_IZR, ?minus_IZR; lra.
Qed.

(** *** C109 *)
(** Without an extended area the number of bins differs from the quotient of the size of the sensor and the resolution by hardly more than one. *)
Theorem C109_close : forall s n r, (1 <= n <= 2 ^ 50)%Z -> / 2 ^ 100 <= s -> / 2 ^ 100 <= r -> 1 <= IZR n * s / r <= 2 ^ 40 ->
  exists b, sensor_bins_double s n r None = Some b /\ Rabs (IZR b - IZR n * s / r) < 1 + / 2 ^ 8.
Proof.
  intros s n r Hn Hs Hr Hq. set (q := IZR n * s / r) in *. exists (hist_bins_double (2 * fl (s * (IZR n / 2))) r None).
  split; [apply sensor_value; [lia|lra]|]. destruct (size_near s n r q) as [Q0 Q1]; [lia|auto|auto|reflexivity|lra|].
  destruct (whole_near r _ q Hr ltac:(lra) Q1) as (c & C1 & C2). unfold hist_bins_double, hist_size_double. set (w := whole_bins_double r _ / r) in *.
  pose proof (Rabs_bounds _ _ C2) as W. pose proof (fl_near w) as N. assert (A : Rabs w <= 2 ^ 40 + 3) by (apply Rabs_le; lra).
  assert (C3 : (1 <= c)%Z). { assert (0 < c)%Z; [|lia]. apply lt_IZR. lra. }
  assert (C4 : 1 <= IZR c) by (apply IZR_le; lia).
  assert (Z1 : Rabs (fl w - IZR c) <= / 2 ^ 9). { replace (fl w - IZR c) with ((fl w - w) + (w - IZR c)) by ring. eapply Rle_trans; [apply Rabs_triang|]. lra. }
  destruct (trunc_near _ _ _ Z1 ltac:(lra) C4) as [-> | ->]; apply Rabs_def1; rewrite ?minus_IZR; lra.
Qed.
(** With the default resolution, the pitch, there is at most one bin more or less than pixels. *)
Theorem C109_default : forall s n, (1 <= n <= 2 ^ 40)%Z -> / 2 ^ 100 <= s -> exists b, sensor_bins_double s n s None = Some b /\ (n - 1 <= b <= n + 1)%Z.
Proof.
  intros s n Hn Hs. assert (E : IZR n * s / s = IZR n) by (field; lra). assert (1 <= IZR n) by (apply IZR_le; lia). assert (IZR n <= 2 ^ 40) by (replace (2 ^ 40) with (IZR (2 ^ 40)) by (cbn; lra); apply IZR_le; lia).
  destruct (C109_close s n s) as (b & B1 & B2); [lia|auto|auto|rewrite E; lra|]. exists b. split; [exact B1|]. rewrite E in B2. apply Rabs_def2 in B2.
  split.
  - assert (n - 2 < b)%Z; [|lia]. apply lt_IZR. rewrite minus_IZR. lra.
  - assert (b < n + 2)%Z; [|lia]. apply lt_IZR. rewrite plus_IZR. lra.
Qed.
(** An extended area adds the same number of bins on both sides, up to one bin in total. *)
Theorem C109_extended : forall s n r e, (1 <= n <= 2 ^ 50)%Z -> / 2 ^ 100 <= s -> / 2 ^ 100 <= r -> 1 <= IZR n * s / r <= 2 ^ 38 -> 0 <= e / r <= 2 ^ 38 ->
  exists b c d : Z, sensor_bins_double s n r (Some e) = Some b /\ (b = c + 2 * d \/ b = c + 2 * d - 1)%Z /\
  IZR n * s / r - / 2 ^ 9 <= IZR c < IZR n * s / r + 1 + / 2 ^ 9 /\ e / r - / 2 ^ 9 <= IZR d < e / r + 1 + / 2 ^ 9.
Proof.
  intros s n r e Hn Hs Hr Hq He. set (q := IZR n * s / r) in *. assert (R0 : 0 < r) by lra. destruct (size_near s n r q) as [Q0 Q1]; [lia|auto|auto|reflexivity|lra|].
  destruct (whole_near r _ q Hr ltac:(lra) Q1) as (c & C1 & C2). destruct (whole_near r e (e / r) Hr ltac:(lra)) as (d & D1 & D2). { replace (e / r - e / r) with 0 by ring. rewrite Rabs_R0. lra. }
  exists (hist_bins_double (2 * fl (s * (IZR n / 2))) r (Some e)), c, d. split; [apply sensor_value; [lia|lra]|]. split; [|split; [exact C1|exact D1]].
  unfold hist_bins_double, hist_size_double. set (v := whole_bins_double r (2 * fl (s * (IZR n / 2)))) in *. set (w := whole_bins_double r e) in *.
  assert (W : fl (w * 2) = w * 2) by (rewrite Rmult_comm; apply fl_twice, fl_format). rewrite W.
  pose proof (fl_near_over (v + w * 2) r Hr) as N1. pose proof (Rabs_bounds _ _ C2) as C3. pose proof (Rabs_bounds _ _ D2) as D3.
  assert (E : (v + w * 2) / r = v / r + w / r * 2) by (field; lra). rewrite E in N1. assert (A1 : Rabs (v / r + w / r * 2) <= 2 ^ 40 + 10) by (apply Rabs_le; lra).
  set (z := fl (v + w * 2) / r) in *. pose proof (Rabs_bounds _ _ (Rle_trans _ _ _ N1 (Rplus_le_compat_r _ _ _ (Rmult_le_compat_l (/ 2 ^ 53) _ _ ltac:(lra) A1)))) as N2.
  pose proof (fl_near z) as N3. assert (A2 : Rabs z <= 2 ^ 40 + 11) by (apply Rabs_le; lra).
  pose proof (Rabs_bounds _ _ (Rle_trans _ _ _ N3 (Rplus_le_compat_r _ _ _ (Rmult_le_compat_l (/ 2 ^ 53) _ _ ltac:(lra) A2)))) as N4.
  assert (C4 : 1 <= IZR c). { apply IZR_le. assert (0 < c)%Z; [|lia]. apply lt_IZR. lra. }
  assert (D4 : 0 <= IZR d). { apply IZR_le. assert (-1 < d)%Z; [|lia]. apply lt_IZR. lra. }
  apply (trunc_near (fl z) (c + 2 * d) (/ 2 ^ 8)); [|lra|rewrite plus_IZR, mult_IZR; lra]. rewrite plus_IZR, mult_IZR. apply Rabs_le. lra.
Qed.

(** Whole numbers: the pitch, the resolution and the extension in whole micrometres, up to 2^20, and up to 2^20 pixels.  Then the number of bins is exact. *)
Lemma ceil_quotient a r : (0 <= a <= 2 ^ 40)%Z -> (1 <= r <= 2 ^ 20)%Z -> exists c, Zceil (fl (IZR a / IZR r)) = c /\ (r * (c - 1) < a <= r * c)%Z.
Proof.
  intros Ha Hr. assert (R1 : 1 <= IZR r) by (apply IZR_le; lia). assert (A0 : 0 <= IZR a) by (apply IZR_le; lia). assert (A1 : IZR a <= 2 ^ 40) by (replace (2 ^ 40) with (IZR (2 ^ 40)) by (cbn; lra); apply IZR_le; lia).
  exists ((a + r - 1) / r)%Z. set (c := ((a + r - 1) / r)%Z). assert (B : (r * (c - 1) < a <= r * c)%Z). { unfold c. Z.div_mod_to_equations; nia. }
  split; [|exact B]. assert (C0 : (0 <= c <= 2 ^ 40)%Z) by nia. apply Zceil_imp.
  assert (Q : IZR a / IZR r <= IZR c). { apply Rmult_le_reg_r with (IZR r); [lra|]. unfold Rdiv. rewrite Rmult_assoc, Rinv_l, Rmult_1_r, <- mult_IZR by lra. apply IZR_le. lia. }
  assert (P : IZR (c - 1) + / IZR r <= IZR a / IZR r).
  { apply Rmult_le_reg_r with (IZR r); [lra|]. unfold Rdiv. rewrite Rmult_plus_distr_r, Rmult_assoc, Rinv_l, Rmult_1_r, <- mult_IZR by lra. rewrite <- plus_IZR. apply IZR_le. lia. }
  split.
  - pose proof (fl_error (IZR a / IZR r)) as N. rewrite (Rabs_right (IZR a / IZR r)) in N by (apply Rle_ge, Rmult_le_pos; [auto|left; apply Rinv_0_lt_compat; lra]).
    assert (I0 : 0 < / IZR r) by (apply Rinv_0_lt_compat; lra). assert (I1 : / 2 ^ 20 <= / IZR r). { apply Rinv_le_contravar; [lra|]. replace (2 ^ 20) with (IZR (2 ^ 20)) by (cbn; lra). apply IZR_le. lia. }
    assert (N2 : IZR a / IZR r <= 2 ^ 40 * / IZR r) by (unfold Rdiv; apply Rmult_le_compat_r; lra). destruct tiny60 as [_ T].
    pose proof (Rabs_bounds _ _ N) as [N3 _]. lra.
  - rewrite <- (fl_Z c) by lia. apply fl_le, Q.
Qed.
Lemma whole_value r x c : (1 <= r <= 2 ^ 20)%Z -> Zceil (fl (x / IZR r)) = c -> (0 <= c <= 2 ^ 40)%Z -> (r * c <= 2 ^ 50)%Z -> whole_bins_double (IZR r) x = IZR (r * c).
Proof. intros Hr E Hc Hp. unfold whole_bins_double. rewrite E, fl_Z by lia. rewrite <- mult_IZR, fl_Z by nia. f_equal. lia. Qed.
(** [is_ceil c a r]: c is the smallest number of bins of the size r which cover a *)
Definition is_ceil (c a r : Z) : Prop := (r * (c - 1) < a <= r * c)%Z.
Theorem C109_whole : forall s n r e, (1 <= s <= 2 ^ 20)%Z -> (1 <= n <= 2 ^ 20)%Z -> (1 <= r <= 2 ^ 20)%Z -> (0 <= e <= 2 ^ 40)%Z ->
  exists c d, is_ceil c (s * n) r /\ is_ceil d e r /\ sensor_bins_double (IZR s) n (IZR r) None = Some c /\ sensor_bins_double (IZR s) n (IZR r) (Some (IZR e)) = Some (c + 2 * d)%Z.
Proof.
  intros s n r e Hs Hn Hr He. assert (S1 : 1 <= IZR s) by (apply IZR_le; lia). assert (R1 : 1 <= IZR r) by (apply IZR_le; lia).
  destruct (ceil_quotient (s * n) r ltac:(nia) Hr) as (c & C1 & C2). destruct (ceil_quotient e r He Hr) as (d & D1 & D2). exists c, d. split; [exact C2|]. split; [exact D2|].
  rewrite !sensor_value by (lia || lra).
  assert (X : 2 * fl (IZR s * (IZR n / 2)) = IZR (s * n)). { replace (IZR s * (IZR n / 2)) with (IZR (s * n) / 2) by (rewrite mult_IZR; lra). rewrite fl_half by nia. lra. }
  rewrite X. assert (Lc : (0 <= c <= 2 ^ 40)%Z) by nia. assert (Ld : (0 <= d <= 2 ^ 40)%Z) by nia. assert (Pc : (r * c <= 2 ^ 41)%Z) by nia. assert (Pd : (r * d <= 2 ^ 41)%Z) by nia.
  unfold hist_bins_double, hist_size_double. rewrite (whole_value r _ c Hr C1) by lia. rewrite (whole_value r _ d Hr D1) by lia. split; f_equal.
  - replace (IZR (r * c) / IZR r) with (IZR c) by (rewrite mult_IZR; field; lra). rewrite fl_Z by lia. apply Ztrunc_IZR.
  - rewrite <- mult_IZR, fl_Z by nia. rewrite <- plus_IZR, fl_Z by nia. replace (IZR (r * c + r * d * 2) / IZR r) with (IZR (c + 2 * d)) by (rewrite !plus_IZR, !mult_IZR; field; lra).
    rewrite fl_Z by lia. apply Ztrunc_IZR.
Qed.

(** The default resolution is exact also if the product of the two mantissas has no carry, for example for every number of pixels which is a power of two. *)
Lemma product_back s n k j X : format s -> (0 <= k <= 40)%Z -> (-100 <= j)%Z -> bpow radix2 j <= s < bpow radix2 (j + 1) -> (2 ^ k <= n < 2 ^ (k + 1))%Z -> IZR n * s < bpow radix2 (k + j + 1) ->
  Rabs (X - IZR n * s) <= bpow radix2 (k + j - 53) -> (format (IZR n * s) -> X = IZR n * s) -> fl (X / s) = IZR n.
Proof.
  intros Fs Hk Hj Hs Hn Hp Hx He. assert (B0 : 0 < bpow radix2 j) by apply bpow_gt_0. assert (S0 : 0 < s) by lra.
  assert (L40 : (2 ^ (k + 1) <= 2 ^ 41)%Z) by (apply Z.pow_le_mono_r; lia).
  assert (Ex : X = IZR n * s -> fl (X / s) = IZR n). { intros ->. replace (IZR n * s / s) with (IZR n) by (field; lra). apply fl_Z. lia. }
  destruct (Z.eq_dec n (2 ^ k)) as [E|E].
  { apply Ex, He. rewrite E. destruct (FLT_format_generic radix2 (-1074) 53 s Fs) as [[m e] E2 M X2]. cbn [Fnum Fexp] in *. rewrite E2. unfold F2R. cbn [Fnum Fexp].
    change (2 ^ k)%Z with (Zpower radix2 k). rewrite IZR_Zpower by lia. replace (bpow radix2 k * (IZR m * bpow radix2 e)) with (IZR m * bpow radix2 (e + k)) by (rewrite bpow_plus; ring). apply format_dyadic; [exact M|lia]. }
  destruct (Req_dec s (bpow radix2 j)) as [E2|E2].
  { apply Ex, He. rewrite E2. apply format_dyadic; lia. }
  assert (Lt : bpow radix2 j < s) by lra.
  assert (N1 : bpow radix2 k + 1 <= IZR n). { rewrite <- IZR_Zpower by lia. rewrite <- plus_IZR. apply IZR_le. change (Zpower radix2 k) with (2 ^ k)%Z. lia. }
  assert (N2 : IZR n + 1 <= bpow radix2 (k + 1)). { rewrite <- IZR_Zpower by lia. rewrite <- plus_IZR. apply IZR_le. change (Zpower radix2 (k + 1)) with (2 ^ (k + 1))%Z. lia. }
  assert (D : Rabs (X / s - IZR n) < bpow radix2 (k - 53)).
  { replace (X / s - IZR n) with ((X - IZR n * s) * / s) by (field; lra). rewrite Rabs_mult, (Rabs_right (/ s)) by (left; apply Rinv_0_lt_compat; auto).
    apply Rmult_lt_reg_r with s; [auto|]. rewrite Rmult_assoc, Rinv_l, Rmult_1_r by lra. eapply Rle_lt_trans; [exact Hx|]. replace (k + j - 53)%Z with (k - 53 + j)%Z by lia. rewrite bpow_plus.
    apply Rmult_lt_compat_l; [apply bpow_gt_0|exact Lt]. }
  assert (Sm : bpow radix2 (k - 53) <= / 2). { apply Rle_trans with (bpow radix2 (-1)); [apply bpow_le; lia|cbn; lra]. }
  apply Rabs_def2 in D. assert (B1 : 0 < bpow radix2 k) by apply bpow_gt_0.
  rewrite (fl_value (X / s) (n * 2 ^ (52 - k)) (k - 52)).
  - rewrite mult_IZR. change (2 ^ (52 - k))%Z with (Zpower radix2 (52 - k)). rewrite IZR_Zpower by lia. rewrite Rmult_assoc, <- bpow_plus. replace (52 - k + (k - 52))%Z with 0%Z by lia. cbn. ring.
  - lia.
  - replace (k - 52 + 52)%Z with k by lia. replace (k - 52 + 53)%Z with (k + 1)%Z by lia. rewrite Rabs_right; lra.
  - rewrite mult_IZR. change (2 ^ (52 - k))%Z with (Zpower radix2 (52 - k)). rewrite IZR_Zpower by lia. replace (- (k - 52))%Z with (52 - k)%Z by lia.
    replace (X / s * bpow radix2 (52 - k) - IZR n * bpow radix2 (52 - k)) with ((X / s - IZR n) * bpow radix2 (52 - k)) by ring.
    assert (P : 0 < bpow radix2 (52 - k)) by apply bpow_gt_0. assert (Q : bpow radix2 (k - 53) * bpow radix2 (52 - k) = / 2). { rewrite <- bpow_plus. replace (k - 53 + (52 - k))%Z with (-1)%Z by lia. cbn. lra. }
    rewrite Rabs_mult, (Rabs_right (bpow radix2 (52 - k))) by lra. rewrite <- Q. apply Rmult_lt_compat_r; [exact P|]. apply Rabs_def1; lra.
Qed.
Lemma half_ulp x e : (-1074 <= e - 53)%Z -> 0 <= x < bpow radix2 e -> Rabs (fl x - x) <= bpow radix2 (e - 54).
Proof.
  intros He Hx. destruct (Req_dec x 0) as [->|N].
  - replace (fl 0) with 0 by (symmetry; apply fl_exact, generic_format_0). rewrite Rminus_0_r, Rabs_R0. apply bpow_ge_0.
  - unfold fl. eapply Rle_trans; [apply error_le_half_ulp; auto with typeclass_instances|]. rewrite ulp_neq_0 by exact N. unfold cexp.
    replace (bpow radix2 (e - 54)) with (/ 2 * bpow radix2 (e - 53)) by (replace (e - 53)%Z with (1 + (e - 54))%Z by lia; rewrite bpow_plus; cbn; lra).
    apply Rmult_le_compat_l; [lra|]. apply bpow_le. assert (M : (mag radix2 x <= e)%Z). { apply mag_le_bpow; [exact N|]. rewrite Rabs_right; lra. } unfold FLT_exp. lia.
Qed.
Theorem C109_no_carry : forall s n k j, format s -> (0 <= k <= 40)%Z -> (-100 <= j)%Z -> bpow radix2 j <= s < bpow radix2 (j + 1) -> (2 ^ k <= n < 2 ^ (k + 1))%Z -> IZR n * s < bpow radix2 (k + j + 1) ->
  sensor_bins_double s n s None = Some n.
Proof.
  intros s n k j Fs Hk Hj Hs Hn Hp. assert (B0 : 0 < bpow radix2 j) by apply bpow_gt_0. assert (S0 : 0 < s) by lra.
  assert (L40 : (2 ^ (k + 1) <= 2 ^ 41)%Z) by (apply Z.pow_le_mono_r; lia). assert (L0 : (0 < 2 ^ k)%Z) by (apply Z.pow_pos_nonneg; lia). assert (N0 : 1 <= IZR n) by (apply IZR_le; lia).
  rewrite sensor_value by (lia || lra). f_equal. unfold hist_bins_double, hist_size_double, whole_bins_double.
  assert (A : fl (2 * fl (s * (IZR n / 2)) / s) = IZR n).
  { apply (product_back s n k j); auto.
    - assert (H : Rabs (fl (s * (IZR n / 2)) - s * (IZR n / 2)) <= bpow radix2 (k + j - 54)).
      { apply half_ulp; [lia|]. split; [nra|]. replace (k + j + 1)%Z with (1 + (k + j))%Z in Hp by lia. rewrite bpow_plus in Hp. change (bpow radix2 1) with 2 in Hp. lra. }
      replace (2 * fl (s * (IZR n / 2)) - IZR n * s) with (2 * (fl (s * (IZR n / 2)) - s * (IZR n / 2))) by lra. rewrite Rabs_mult, (Rabs_right 2) by lra.
      replace (k + j - 53)%Z with (1 + (k + j - 54))%Z by lia. rewrite bpow_plus. change (bpow radix2 1) with 2. lra.
    - intros F. replace (fl (s * (IZR n / 2))) with (s * (IZR n / 2)); [lra|]. symmetry. apply fl_exact.
      destruct (FLT_format_generic radix2 (-1074) 53 _ F) as [[m e] E2 M X2]. cbn [Fnum Fexp] in *. unfold F2R in E2. cbn [Fnum Fexp] in E2.
      destruct (Z.eq_dec m 0) as [->|M0]. { exfalso. rewrite Rmult_0_l in E2. nra. }
      assert (M1 : (Z.abs m < 2 ^ 53)%Z) by exact M.
      (* the mantissa has at most 53 digits, so that the exponent is far above the smallest one *)
      assert (He : (-1073 <= e)%Z).
      { destruct (Z_le_gt_dec (-1073) e) as [|G]; [auto|exfalso]. assert (U : IZR n * s < bpow radix2 (-1020)).
        { rewrite E2. apply Rle_lt_trans with (IZR (2 ^ 53) * bpow radix2 (-1074)).
          - apply Rmult_le_compat; [|apply bpow_ge_0|apply IZR_le; lia|apply bpow_le; lia]. destruct (Rle_dec 0 (IZR m)) as [|Q]; auto. exfalso. assert (0 < bpow radix2 e) by apply bpow_gt_0. nra.
          - change (2 ^ 53)%Z with (Zpower radix2 53). rewrite IZR_Zpower by lia. rewrite <- bpow_plus. apply bpow_lt. lia. }
        assert (V : bpow radix2 (-1020) <= bpow radix2 j) by (apply bpow_le; lia). nra. }
      replace (s * (IZR n / 2)) with (IZR m * bpow radix2 (e + -1)); [apply format_dyadic; [exact M1|lia]|]. rewrite bpow_plus. change (bpow radix2 (-1)) with (/ 2). lra. }
  rewrite A, Zceil_IZR, fl_Z by lia.
  assert (B : fl (fl (IZR n * s) / s) = IZR n).
  { apply (product_back s n k j); auto.
    - replace (k + j - 53)%Z with (k + j + 1 - 54)%Z by lia. apply half_ulp; [lia|]. split; [nra|exact Hp].
    - apply fl_exact. }
  rewrite B. apply Ztrunc_IZR.
Qed.

(** A sensor with 1000 pixels of 17.1 um has 999 bins: the bins are wider than the pixels and do not match them. *)
Definition pitch_171 : R := IZR 4813222101752218 * bpow radix2 (-48).
Lemma pitch_171_double : fl (171 / 10) = pitch_171.
Proof. apply fl_value; [lia| |]. - cbn. rewrite Rabs_right by lra. lra. - cbn. apply Rabs_def1; lra. Qed.
Theorem C109_fewer_refuted : sensor_bins_double (fl (171 / 10)) 1000 (fl (171 / 10)) None = Some 999%Z.
Proof.
  rewrite pitch_171_double. assert (P0 : 17 < pitch_171 < 18) by (unfold pitch_171; cbn; lra). rewrite sensor_value by (lia || lra). f_equal. unfold hist_bins_double, hist_size_double, whole_bins_double.
  assert (H : fl (pitch_171 * (1000 / 2)) = 8550).
  { rewrite (fl_value _ 4700412208742400 (-39)); [cbn; lra|lia| |]; unfold pitch_171; cbn; [rewrite Rabs_right by lra; lra|apply Rabs_def1; lra]. }
  rewrite H.
  assert (D : fl (17100 / pitch_171) = IZR 8796093022207999 * bpow radix2 (-43)).
  { assert (M : 17100 / pitch_171 = 17100 * 281474976710656 / 4813222101752218) by (unfold pitch_171; cbn; field; lra). rewrite M. apply fl_value; [lia| |]; cbn; [rewrite Rabs_right by lra; lra|apply Rabs_def1; lra]. }
  replace (2 * 8550) with 17100 by lra. rewrite D.
  assert (C : Zceil (IZR 8796093022207999 * bpow radix2 (-43)) = 1000%Z) by (apply Zceil_imp; cbn; lra). rewrite C, fl_Z by lia.
  assert (W : fl (1000 * pitch_171) = 17100).
  { rewrite (fl_value _ 4700412208742400 (-38)); [cbn; lra|lia| |]; unfold pitch_171; cbn; [rewrite Rabs_right by lra; lra|apply Rabs_def1; lra]. }
  rewrite W, D. rewrite Ztrunc_floor by (cbn; lra). apply Zfloor_imp. cbn. lra.
Qed.
(** A sensor with 1000 pixels of 16.4 um has 1001 bins. *)
Definition pitch_164 : R := IZR 4616189618054758 * bpow radix2 (-48).
Lemma pitch_164_double : fl (164 / 10) = pitch_164.
Proof. apply fl_value; [lia| |]. - cbn. rewrite Rabs_right by lra. lra. - cbn. apply Rabs_def1; lra. Qed.
Theorem C109_more_refuted : sensor_bins_double (fl (164 / 10)) 1000 (fl (164 / 10)) None = Some 1001%Z.
Proof.
  rewrite pitch_164_double. assert (P0 : 16 < pitch_164 < 17) by (unfold pitch_164; cbn; lra). rewrite sensor_value by (lia || lra). f_equal. unfold hist_bins_double, hist_size_double, whole_bins_double.
  assert (H : fl (pitch_164 * (1000 / 2)) = 8200).
  { rewrite (fl_value _ 4507997673881600 (-39)); [cbn; lra|lia| |]; unfold pitch_164; cbn; [rewrite Rabs_right by lra; lra|apply Rabs_def1; lra]. }
  rewrite H.
  assert (D : fl (16400 / pitch_164) = IZR 8796093022208001 * bpow radix2 (-43)).
  { assert (M : 16400 / pitch_164 = 16400 * 281474976710656 / 4616189618054758) by (unfold pitch_164; cbn; field; lra). rewrite M. apply fl_value; [lia| |]; cbn; [rewrite Rabs_right by lra; lra|apply Rabs_def1; lra]. }
  replace (2 * 8200) with 16400 by lra. rewrite D.
  assert (C : Zceil (IZR 8796093022208001 * bpow radix2 (-43)) = 1001%Z) by (apply Zceil_imp; cbn; lra). rewrite C, fl_Z by lia.
  assert (W : fl (1001 * pitch_164) = IZR 4512505671555481 * bpow radix2 (-38)).
  { apply fl_value; [lia| |]; unfold pitch_164; cbn; [rewrite Rabs_right by lra; lra|apply Rabs_def1; lra]. }
  rewrite W.
  assert (Z : fl (IZR 4512505671555481 * bpow radix2 (-38) / pitch_164) = 1001).
  { assert (M : IZR 4512505671555481 * bpow radix2 (-38) / pitch_164 = 4512505671555481 * 1024 / 4616189618054758) by (unfold pitch_164; cbn; field; lra). rewrite M.
    rewrite (fl_value _ 8804889115230208 (-43)); [cbn; lra|lia| |]; cbn; [rewrite Rabs_right by lra; lra|apply Rabs_def1; lra]. }
  rewrite Z. apply Ztrunc_IZR.
Qed.

(** the MIMOSA26 sensor meets the hypotheses, with 1152 bins *)
Example C109_case : sensor_bins_double (fl (184 / 10)) 1152 (fl (184 / 10)) None = Some 1152%Z.
Proof.
  rewrite mimosa_pitch_double. apply (C109_no_carry mimosa_pitch 1152 10 4); try lia.
  - unfold mimosa_pitch. apply format_dyadic; lia.
  - unfold mimosa_pitch. cbn. lra.
  - unfold mimosa_pitch. cbn. lra.
Qed.
Example C109_case2 : exists b, sensor_bins_double 250 80 (/ 3) None = Some b /\ Rabs (IZR b - 60000) < 1 + / 2 ^ 8.
Proof. destruct (C109_close 250 80 (/ 3)) as (b & E & H); try lia; try lra. exists b. split; [exact E|]. replace 60000 with (80 * 250 / / 3) by lra. exact H. Qed.
Example C109_case3 : exists b c d, sensor_bins_double 250 80 (/ 3) (Some 1000) = Some b /\ (b = c + 2 * d \/ b = c + 2 * d - 1)%Z /\ 60000 - / 2 ^ 9 <= IZR c < 60001 + / 2 ^ 9.
Proof.
  destruct (C109_extended 250 80 (/ 3) 1000) as (b & c & d & E & H1 & H2 & _); try lia; try lra. exists b, c, d. split; [exact E|]. split; [exact H1|]. replace 60001 with (60000 + 1) by lra. replace 60000 with (80 * 250 / / 3) by lra. exact H2.
Qed.
Example C109_case4 : sensor_bins_double 250 80 30 (Some 1000) = Some 735%Z.
Proof.
  destruct (C109_whole 250 80 30 1000) as (c & d & H1 & H2 & _ & E); try lia. unfold is_ceil in *. rewrite E. f_equal. lia.
Qed.

Print Assumptions C109_close.
Print Assumptions C109_default.
Print Assumptions C109_extended.
Print Assumptions C109_whole.
Print Assumptions C109_no_carry.
Print Assumptions C109_fewer_refuted.
Print Assumptions C109_more_refuted.
