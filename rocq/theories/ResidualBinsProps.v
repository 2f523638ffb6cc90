(** C114: range and number of bins of the histogram of the residuals in double precision (result_analysis.calculate_residuals with nbins_per_pixel). *)
From Coq Require Import Reals ZArith Bool Lra Lia.
From Flocq Require Import Core.
From Verif Require Import GeometryModel GeometryProofs FloatModel FloatProps FloatBinsProps ResidualsModel ResidualsProps ResidualBinsModel.
Local Open Scope R_scope.

Lemma pow2_IZR n : (0 <= n)%Z -> IZR (2 ^ n) = bpow radix2 n.
Proof. intros H. rewrite <- (IZR_Zpower radix2 n H). reflexivity. Qed.

(** the number of pixels before it is made even *)
Definition pixels (s w : R) : Z := Z.max 6 (Zceil (fl (fl (6 * w) / s))).

Lemma quotient_near s w : / 2 ^ 100 <= s -> 0 <= w -> 6 * w / s <= 2 ^ 18 -> Rabs (fl (fl (6 * w) / s) - 6 * w / s) <= / 2 ^ 32 /\ 0 <= fl (fl (6 * w) / s).
Proof.
  intros Hs Hw Hq. assert (S0 : 0 < s) by lra. assert (Q0 : 0 <= 6 * w / s) by (apply Rmult_le_pos; [lra|left; apply Rinv_0_lt_compat; auto]).
  pose proof (fl_near_over (6 * w) s Hs) as N. rewrite (Rabs_right (6 * w / s)) in N by lra. apply Rabs_bounds in N.
  pose proof (fl_near (fl (6 * w) / s)) as N2. set (y := fl (6 * w) / s) in *.
  assert (Y : Rabs y <= 2 ^ 19) by (apply Rabs_le; lra). apply Rabs_bounds in N2. split; [apply Rabs_le; lra|].
  replace 0 with (fl 0) by (apply fl_exact, generic_format_0). apply fl_le. unfold y. apply Rmult_le_pos; [|left; apply Rinv_0_lt_compat; auto].
  replace 0 with (fl 0) by (apply fl_exact, generic_format_0). apply fl_le. lra.
Qed.

Lemma pixels_bounds s w : / 2 ^ 100 <= s -> 0 <= w -> 6 * w / s <= 2 ^ 18 -> (6 <= pixels s w <= 2 ^ 19)%Z /\
  6 * w / s - / 2 ^ 32 <= IZR (pixels s w) /\ (IZR (pixels s w) < 6 * w / s + 1 + / 2 ^ 32 \/ pixels s w = 6%Z).
Proof.
  intros Hs Hw Hq. destruct (quotient_near s w Hs Hw Hq) as [N P]. apply Rabs_bounds in N. unfold pixels. set (y := fl (fl (6 * w) / s)) in *.
  pose proof (Zceil_ub y) as U. pose proof (Zceil_lb y) as L.
  assert (B : (Zceil y < 2 ^ 18 + 2)%Z). { apply lt_IZR. rewrite plus_IZR. replace (IZR (2 ^ 18)) with (2 ^ 18) by (cbn; lra). lra. }
  split; [lia|]. split.
  - assert (IZR (Zceil y) <= IZR (Z.max 6 (Zceil y))) by (apply IZR_le; lia). lra.
  - destruct (Z.max_spec 6 (Zceil y)) as [[H ->]|[H ->]]; [left|right]; [lra|reflexivity].
Qed.

Lemma first_width s w : / 2 ^ 100 <= s -> 0 <= w -> 6 * w / s <= 2 ^ 18 -> first_width_double s w = fl (s * IZR (pixels s w)).
Proof.
  intros Hs Hw Hq. pose proof (pixels_bounds s w Hs Hw Hq) as [B _]. unfold first_width_double, pixels in *. set (c := Zceil (fl (fl (6 * w) / s))) in *.
  assert (C0 : (0 <= c)%Z). { apply le_IZR. destruct (quotient_near s w Hs Hw Hq) as [_ P]. pose proof (Zceil_ub (fl (fl (6 * w) / s))) as U. fold c in U. cbn in *. lra. }
  rewrite (fl_Z c) by lia. destruct (Z.max_spec 6 c) as [[H ->]|[H ->]].
  - apply Rmax_right. apply fl_le. apply IZR_lt in H. nra.
  - rewrite Rmax_left; [f_equal; ring|]. apply fl_le. apply IZR_le in H. nra.
Qed.

(** the quotient of the width and the pitch is close to the number of pixels *)
Lemma width_near s m : / 2 ^ 100 <= s -> (0 <= m <= 2 ^ 19)%Z -> Rabs (fl (s * IZR m) / s - IZR m) <= / 2 ^ 33 /\ Rabs (fl (fl (s * IZR m) / s) - IZR m) <= / 2 ^ 32.
Proof.
  intros Hs Hm. assert (M0 : 0 <= IZR m) by (apply IZR_le; lia). assert (M1 : IZR m <= 2 ^ 19) by (replace (2 ^ 19) with (IZR (2 ^ 19)) by (cbn; lra); apply IZR_le; lia).
  pose proof (fl_near_over (s * IZR m) s Hs) as N. replace (s * IZR m / s) with (IZR m) in N by (field; lra). rewrite (Rabs_right (IZR m)) in N by lra. apply Rabs_bounds in N.
  pose proof (fl_near (fl (s * IZR m) / s)) as N2. set (y := fl (s * IZR m) / s) in *. assert (Y : Rabs y <= 2 ^ 20) by (apply Rabs_le; lra). apply Rabs_bounds in N2.
  split; apply Rabs_le; lra.
Qed.

Lemma mod_2_zero a m : Rabs (a - IZR m) < 1 / 2 -> mod_2 a = 0 -> a = IZR m /\ Z.Even m.
Proof.
  intros Ha H. unfold mod_2 in H. set (q := Int_part (a / 2)) in *. assert (E : a = IZR (2 * q)) by (rewrite mult_IZR; lra).
  rewrite E in *. rewrite <- minus_IZR in Ha. apply Rabs_def2 in Ha. assert (D : (2 * q = m)%Z).
  { assert (-1 < 2 * q - m < 1)%Z; [|lia]. split; apply lt_IZR; lra. }
  rewrite D. split; [reflexivity|]. exists q. lia.
Qed.

(** [m] pixels stay [m] pixels only if m is even and the division of the rounded width by the pitch gives back m; otherwise a pixel is added *)
Lemma even_width s m : / 2 ^ 100 <= s -> (0 <= m <= 2 ^ 19)%Z -> exists k, Rabs (even_width_double s (fl (s * IZR m)) / s - IZR k) <= / 2 ^ 32 /\
  (k = m /\ Z.Even m /\ fl (fl (s * IZR m) / s) = IZR m /\ even_width_double s (fl (s * IZR m)) = fl (s * IZR m) \/
   k = (m + 1)%Z /\ (Z.Odd m \/ fl (fl (s * IZR m) / s) <> IZR m) /\ even_width_double s (fl (s * IZR m)) = fl (fl (s * IZR m) + s)).
Proof.
  intros Hs Hm. destruct (width_near s m Hs Hm) as [N1 N2]. unfold even_width_double. destruct (Reqb (mod_2 (fl (fl (s * IZR m) / s))) 0) eqn:E.
  - apply Reqb_true in E. destruct (mod_2_zero (fl (fl (s * IZR m) / s)) m ltac:(lra) E) as [E1 E2]. exists m. split; [eapply Rle_trans; [exact N1|lra]|]. left. auto.
  - apply Reqb_false in E. exists (m + 1)%Z. split.
    + pose proof (fl_near_over (fl (s * IZR m) + s) s Hs) as N. replace ((fl (s * IZR m) + s) / s) with (fl (s * IZR m) / s + 1) in N by (field; lra).
      assert (M1 : 0 <= IZR m <= 2 ^ 19) by (split; [apply IZR_le; lia|replace (2 ^ 19) with (IZR (2 ^ 19)) by (cbn; lra); apply IZR_le; lia]).
      set (y := fl (s * IZR m) / s) in *. apply Rabs_bounds in N1. assert (Y : Rabs (y + 1) <= 2 ^ 19 + 2) by (apply Rabs_le; lra). apply Rabs_bounds in N. rewrite plus_IZR. apply Rabs_le. lra.
    + right. split; [reflexivity|]. split; [|reflexivity]. destruct (Z.Even_or_Odd m) as [Ev|Od]; [right|left; exact Od].
      intros E1. apply E. rewrite E1, mod_2_IZR. destruct Ev as [q ->]. rewrite Z.mul_comm, Z.mod_mul by lia. reflexivity.
Qed.

Lemma bins_near s W n k : / 2 ^ 100 <= s -> (1 <= n <= 2 ^ 20)%Z -> (1 <= k <= 2 ^ 20)%Z -> Rabs (W / s - IZR k) <= / 2 ^ 32 ->
  let nb := Ztrunc (fl (fl (IZR n * W) / s)) in (nb = n * k \/ nb = n * k - 1)%Z.
Proof.
  intros Hs Hn Hk HW nb. assert (N1 : 1 <= IZR n <= 2 ^ 20) by (split; [apply IZR_le; lia|replace (2 ^ 20) with (IZR (2 ^ 20)) by (cbn; lra); apply IZR_le; lia]).
  assert (K1 : 1 <= IZR k <= 2 ^ 20) by (split; [apply IZR_le; lia|replace (2 ^ 20) with (IZR (2 ^ 20)) by (cbn; lra); apply IZR_le; lia]).
  pose proof (fl_near_over (IZR n * W) s Hs) as N. replace (IZR n * W / s) with (IZR n * (W / s)) in N by (field; lra). set (y := W / s) in *. apply Rabs_bounds in HW.
  assert (P1 : Rabs (IZR n * y - IZR n * IZR k) <= / 2 ^ 12) by (apply Rabs_le; nra). apply Rabs_bounds in P1.
  assert (P2 : 0 <= IZR n * IZR k <= 2 ^ 40) by (split; [nra|]; replace (2 ^ 40) with (2 ^ 20 * 2 ^ 20) by lra; nra).
  assert (P3 : Rabs (IZR n * y) <= 2 ^ 41) by (apply Rabs_le; lra). apply Rabs_bounds in N.
  pose proof (fl_near (fl (IZR n * W) / s)) as N2. set (z := fl (IZR n * W) / s) in *. assert (P4 : Rabs z <= 2 ^ 42) by (apply Rabs_le; lra). apply Rabs_bounds in N2.
  apply trunc_near with (d := / 2); [|lra|rewrite mult_IZR; nra]. rewrite mult_IZR. apply Rabs_le. lra.
Qed.

(** *** C114 *)
(** The range covers a whole number k of pixels up to rounding, at least 6 pixels and 6 FWHM (3 FWHM in both directions) and less than two pixels more, and
    it has n bins per pixel or, in total, one bin less. *)
Theorem C114_range : forall s w n, / 2 ^ 100 <= s -> 0 <= w -> 6 * w / s <= 2 ^ 18 -> (1 <= n <= 2 ^ 20)%Z ->
  exists k, (6 <= k)%Z /\ Rabs (residual_width_double s w / s - IZR k) <= / 2 ^ 32 /\
  (residual_bins_double s w n = n * k \/ residual_bins_double s w n = n * k - 1)%Z /\
  6 * w / s - / 2 ^ 32 <= IZR k /\ (IZR k < 6 * w / s + 2 + / 2 ^ 32 \/ (k <= 7)%Z).
Proof.
  intros s w n Hs Hw Hq Hn. destruct (pixels_bounds s w Hs Hw Hq) as (B1 & B2 & B3). destruct (even_width s (pixels s w) Hs ltac:(lia)) as (k & K1 & K2).
  assert (K : (k = pixels s w \/ k = pixels s w + 1)%Z) by tauto. unfold residual_width_double, residual_bins_double in *. rewrite (first_width s w Hs Hw Hq).
  assert (K3 : IZR (pixels s w) <= IZR k <= IZR (pixels s w) + 1) by (rewrite <- plus_IZR; split; apply IZR_le; lia).
  exists k. split; [lia|]. split; [exact K1|]. split.
  - unfold residual_width_double. rewrite (first_width s w Hs Hw Hq). apply bins_near; [exact Hs|exact Hn|lia|exact K1].
  - split; [lra|]. destruct B3 as [B3|B3]; [left; lra|right; lia].
Qed.
(** With a pitch of whole micrometers there is no rounding: an even number of pixels with exactly n bins each. *)
Theorem C114_whole : forall s w n, (1 <= s <= 2 ^ 20)%Z -> 0 <= w -> 6 * w / IZR s <= 2 ^ 18 -> (1 <= n <= 2 ^ 12)%Z ->
  exists k, Z.Even k /\ (6 <= k)%Z /\ residual_width_double (IZR s) w = IZR (k * s) /\ residual_bins_double (IZR s) w n = (n * k)%Z /\
  6 * w / IZR s - / 2 ^ 32 <= IZR k.
Proof.
  intros s w n Hs Hw Hq Hn. assert (S1 : 1 <= IZR s) by (apply IZR_le; lia). assert (S2 : / 2 ^ 100 <= IZR s) by lra.
  destruct (pixels_bounds _ w S2 Hw Hq) as (B1 & B2 & _). set (m := pixels (IZR s) w) in *.
  assert (P : forall q, (0 <= q <= 2 ^ 20)%Z -> fl (IZR s * IZR q) = IZR (q * s)) by (intros q Hq0; rewrite <- mult_IZR, fl_Z by nia; f_equal; ring).
  assert (D : forall q, (0 <= q <= 2 ^ 20)%Z -> fl (IZR (q * s) / IZR s) = IZR q) by (intros q Hq0; rewrite mult_IZR; replace (IZR q * IZR s / IZR s) with (IZR q) by (field; lra); apply fl_Z; lia).
  assert (E : exists k, Z.Even k /\ (m <= k <= m + 1)%Z /\ residual_width_double (IZR s) w = IZR (k * s)).
  { unfold residual_width_double. rewrite (first_width _ w S2 Hw Hq). fold m. unfold even_width_double. rewrite P, D, mod_2_IZR by lia.
    destruct (Reqb (IZR (m mod 2)) 0) eqn:Q.
    - apply Reqb_true in Q. apply eq_IZR in Q. exists m. split; [apply Z.even_spec; rewrite Zeven_mod, Q; reflexivity|]. split; [lia|reflexivity].
    - apply Reqb_false in Q. assert (Q' : (m mod 2 = 1)%Z). { assert (m mod 2 <> 0)%Z by (intros Z0; apply Q; rewrite Z0; reflexivity). pose proof (Z.mod_pos_bound m 2). lia. }
      exists (m + 1)%Z. split; [exists (m / 2 + 1)%Z; pose proof (Z.div_mod m 2); lia|]. split; [lia|]. rewrite <- plus_IZR. replace (m * s + s)%Z with ((m + 1) * s)%Z by ring. apply fl_Z. nia. }
  destruct E as (k & K1 & K2 & K3). exists k. split; [exact K1|]. split; [lia|]. split; [exact K3|]. split.
  - unfold residual_bins_double. rewrite K3, <- mult_IZR. assert (k * s <= 2 ^ 40)%Z by nia. assert (0 <= k * s)%Z by nia. rewrite fl_Z by nia.
    replace (n * (k * s))%Z with (n * k * s)%Z by ring. rewrite mult_IZR. replace (IZR (n * k) * IZR s / IZR s) with (IZR (n * k)) by (field; lra). rewrite fl_Z by nia. apply Ztrunc_IZR.
  - assert (IZR m <= IZR k) by (apply IZR_le; lia). lra.
Qed.
Local Notation format := (generic_format radix2 (FLT_exp (-1074) 53)).
(** With narrow residuals (FWHM of at most half a pixel) the range is 6 pixels if the pitch is less than 4/3 of a power of 2. *)
Theorem C114_six : forall s w j, format s -> (-100 <= j)%Z -> bpow radix2 j <= s -> 3 * s < 4 * bpow radix2 j -> 0 <= w <= s / 2 ->
  residual_width_double s w = fl (6 * s).
Proof.
  intros s w j Fs Hj Hs H3 Hw. assert (B0 : 0 < bpow radix2 j) by apply bpow_gt_0. assert (S0 : 0 < s) by lra.
  assert (S1 : / 2 ^ 100 <= s). { eapply Rle_trans; [|exact Hs]. replace (/ 2 ^ 100) with (bpow radix2 (-100)) by (cbn; lra). apply bpow_le. lia. }
  assert (Q : 6 * w / s <= 3). { apply Rmult_le_reg_r with s; [exact S0|]. unfold Rdiv. rewrite Rmult_assoc, Rinv_l by lra. lra. }
  assert (P : pixels s w = 6%Z). { destruct (pixels_bounds s w S1 (proj1 Hw) ltac:(lra)) as (B1 & B2 & [B3|B3]); [|exact B3]. assert (pixels s w < 6)%Z; [|lia]. apply lt_IZR. lra. }
  unfold residual_width_double. rewrite (first_width s w S1 (proj1 Hw) ltac:(lra)), P. unfold even_width_double.
  assert (E : fl (fl (s * 6) / s) = IZR 6).
  { apply (product_back s 6 2 j); [exact Fs|lia|exact Hj|split; [exact Hs|]|lia| | |].
    - rewrite bpow_plus. cbn. lra.
    - replace (2 + j + 1)%Z with (j + 3)%Z by lia. rewrite bpow_plus. cbn. lra.
    - replace (IZR 6 * s) with (s * 6) by ring. replace (2 + j - 53)%Z with ((j + 3) - 54)%Z by lia. apply half_ulp; [lia|]. rewrite bpow_plus. cbn. lra.
    - intros F. rewrite (Rmult_comm s 6). apply fl_exact. exact F. }
  rewrite E, mod_2_IZR. replace (6 mod 2)%Z with 0%Z by reflexivity. rewrite (proj2 (Reqb_true 0 0) eq_refl). f_equal. ring.
Qed.

(** Refuted: the range is not always an even number of pixels. With the pitch 18.4 um of Mimosa26 and a FWHM of 90 um, 30 pixels cover 6 FWHM; but 30 * 18.4 / 18.4
    is more than 30 in double precision, and a pixel is added: the range is 31 pixels, with 620 bins for 20 bins per pixel. *)
Theorem C114_odd_refuted : residual_width_double (fl (184 / 10)) 90 = fl (fl (fl (184 / 10) * 30) + fl (184 / 10)) /\
  Rabs (residual_width_double (fl (184 / 10)) 90 / fl (184 / 10) - 31) <= / 2 ^ 32 /\ residual_bins_double (fl (184 / 10)) 90 20 = 620%Z.
Proof.
  rewrite mimosa_pitch_double. assert (P0 : 18 < mimosa_pitch < 19) by (unfold mimosa_pitch; cbn; lra).
  assert (Q : 6 * 90 / mimosa_pitch <= 2 ^ 18). { apply Rmult_le_reg_r with mimosa_pitch; [lra|]. unfold Rdiv. rewrite Rmult_assoc, Rinv_l by lra. lra. }
  assert (Px : pixels mimosa_pitch 90 = 30%Z).
  { unfold pixels. rewrite <- mult_IZR, fl_Z by lia. replace (Zceil (fl (IZR (6 * 90) / mimosa_pitch))) with 30%Z; [reflexivity|]. symmetry. apply Zceil_imp.
    assert (D : 29 + / 8 <= IZR (6 * 90) / mimosa_pitch <= 30).
    { split; apply Rmult_le_reg_r with mimosa_pitch; try lra; unfold Rdiv; rewrite Rmult_assoc, Rinv_l by lra; unfold mimosa_pitch; cbn; lra. }
    pose proof (fl_near (IZR (6 * 90) / mimosa_pitch)) as N. rewrite (Rabs_right (IZR (6 * 90) / mimosa_pitch)) in N by lra. split.
    - change (IZR (30 - 1)) with 29. apply Rabs_bounds in N. lra.
    - replace 30 with (fl 30) by (apply (fl_Z 30); lia). apply fl_le. lra. }
  assert (X : fl (mimosa_pitch * 30) = 552).
  { rewrite (fl_value _ 4855443348258816 (-43)); [cbn; lra|lia| |]; unfold mimosa_pitch; cbn; [rewrite Rabs_right by lra; lra|apply Rabs_def1; lra]. }
  assert (D : fl (552 / mimosa_pitch) <> 30).
  { assert (V : fl (552 / mimosa_pitch) = IZR 8444249301319681 * bpow radix2 (-48)).
    { assert (L : 30 + / 2 ^ 49 <= 552 / mimosa_pitch <= 30 + 3 * / 2 ^ 49).
      { split; apply Rmult_le_reg_r with mimosa_pitch; try lra; unfold Rdiv; rewrite ?Rmult_assoc, ?Rinv_l by lra; unfold mimosa_pitch; cbn; lra. }
      apply fl_value; [lia| |].
      - rewrite Rabs_right by lra. cbn. lra.
      - assert (L2 : 30 + / 2 ^ 48 * (6 / 10) <= 552 / mimosa_pitch <= 30 + / 2 ^ 48 * (14 / 10)).
        { split; apply Rmult_le_reg_r with mimosa_pitch; try lra; unfold Rdiv; rewrite ?Rmult_assoc, ?Rinv_l by lra; unfold mimosa_pitch; cbn; lra. }
        cbn. apply Rabs_def1; lra. }
    rewrite V. cbn. lra. }
  assert (W : residual_width_double mimosa_pitch 90 = fl (552 + mimosa_pitch)).
  { unfold residual_width_double. rewrite first_width by lra. rewrite Px. destruct (even_width mimosa_pitch 30 ltac:(lra) ltac:(lia)) as (k & _ & [(_ & _ & E & _)|(_ & _ & E)]).
    - exfalso. apply D. rewrite <- X. exact E.
    - rewrite E, X. reflexivity. }
  assert (W2 : fl (552 + mimosa_pitch) = IZR 5017291459867443 * bpow radix2 (-43)).
  { apply fl_value; [lia| |]; unfold mimosa_pitch; cbn; [rewrite Rabs_right by lra; lra|apply Rabs_def1; lra]. }
  split; [rewrite W, X; reflexivity|]. split.
  - rewrite W, W2. replace (IZR 5017291459867443 * bpow radix2 (-43) / mimosa_pitch - 31) with ((IZR 5017291459867443 * bpow radix2 (-43) - 31 * mimosa_pitch) * / mimosa_pitch) by (field; lra).
    rewrite Rabs_mult, (Rabs_right (/ mimosa_pitch)) by (left; apply Rinv_0_lt_compat; lra). apply Rmult_le_reg_r with mimosa_pitch; [lra|]. rewrite Rmult_assoc, Rinv_l, Rmult_1_r by lra.
    apply Rabs_le. unfold mimosa_pitch. cbn. lra.
  - unfold residual_bins_double. rewrite W, W2.
    assert (N1 : fl (20 * (IZR 5017291459867443 * bpow radix2 (-43))) = IZR 6271614324834304 * bpow radix2 (-39)).
    { apply fl_value; [lia| |]; cbn; [rewrite Rabs_right by lra; lra|apply Rabs_def1; lra]. }
    rewrite N1. assert (L : 620 <= IZR 6271614324834304 * bpow radix2 (-39) / mimosa_pitch <= 620 + / 2).
    { split; apply Rmult_le_reg_r with mimosa_pitch; try lra; unfold Rdiv; rewrite ?Rmult_assoc, ?Rinv_l by lra; unfold mimosa_pitch; cbn; lra. }
    assert (F1 : 620 <= fl (IZR 6271614324834304 * bpow radix2 (-39) / mimosa_pitch)) by (rewrite <- (fl_Z 620) at 1 by lia; apply fl_le; lra).
    assert (F2 : fl (IZR 6271614324834304 * bpow radix2 (-39) / mimosa_pitch) < 621).
    { pose proof (fl_near (IZR 6271614324834304 * bpow radix2 (-39) / mimosa_pitch)) as N. rewrite (Rabs_right (IZR 6271614324834304 * bpow radix2 (-39) / mimosa_pitch)) in N by lra. apply Rabs_bounds in N. lra. }
    rewrite Ztrunc_floor by lra. apply Zfloor_imp. change (IZR (620 + 1)) with 621. lra.
Qed.
(** Refuted: the number of bins is not always the number of pixels times the bins per pixel. With the pitch of Mimosa26 and narrow residuals, 6 pixels with 21 bins
    per pixel have 125 bins. *)
Theorem C114_fewer_refuted : forall w, 0 <= w <= 9 -> residual_width_double (fl (184 / 10)) w = fl (6 * fl (184 / 10)) /\ residual_bins_double (fl (184 / 10)) w 21 = 125%Z.
Proof.
  intros w Hw. assert (F : format (fl (184 / 10))) by apply fl_format. rewrite mimosa_pitch_double in *. assert (P0 : 184 / 10 - / 2 ^ 40 < mimosa_pitch < 19) by (unfold mimosa_pitch; cbn; lra).
  assert (W : residual_width_double mimosa_pitch w = fl (6 * mimosa_pitch)). { apply (C114_six _ _ 4); [exact F|lia|cbn; lra|cbn; lra|lra]. }
  split; [exact W|]. unfold residual_bins_double. rewrite W.
  assert (X : fl (6 * mimosa_pitch) = IZR 7768709357214105 * bpow radix2 (-46)).
  { apply fl_value; [lia| |]; unfold mimosa_pitch; cbn; [rewrite Rabs_right by lra; lra|apply Rabs_def1; lra]. }
  rewrite X. assert (Y : fl (21 * (IZR 7768709357214105 * bpow radix2 (-46))) = IZR 5098215515671756 * bpow radix2 (-41)).
  { apply fl_value; [lia| |]; cbn; [rewrite Rabs_right by lra; lra|apply Rabs_def1; lra]. }
  rewrite Y. assert (L : 125 + / 2 <= IZR 5098215515671756 * bpow radix2 (-41) / mimosa_pitch <= 126 - / 2 ^ 46 * (6 / 10)).
  { split; apply Rmult_le_reg_r with mimosa_pitch; try lra; unfold Rdiv; rewrite ?Rmult_assoc, ?Rinv_l by lra; unfold mimosa_pitch; cbn; lra. }
  assert (L2 : 126 - / 2 ^ 46 * (8 / 10) <= IZR 5098215515671756 * bpow radix2 (-41) / mimosa_pitch).
  { apply Rmult_le_reg_r with mimosa_pitch; try lra; unfold Rdiv; rewrite ?Rmult_assoc, ?Rinv_l by lra; unfold mimosa_pitch; cbn; lra. }
  assert (V : fl (IZR 5098215515671756 * bpow radix2 (-41) / mimosa_pitch) = IZR 8866461766385663 * bpow radix2 (-46)).
  { set (q := IZR 5098215515671756 * bpow radix2 (-41) / mimosa_pitch) in *. apply fl_value; [lia| |].
    - rewrite Rabs_right by lra. cbn. lra.
    - cbn. apply Rabs_def1; lra. }
  rewrite V. rewrite Ztrunc_floor by (cbn; lra). apply Zfloor_imp. change (IZR (125 + 1)) with 126. cbn. lra.
Qed.
(** The limits are half of the width on both sides of the peak, up to rounding. *)
Theorem C114_limits : forall s w c, let W := residual_width_double s w in let (a, b) := residual_limits_double s w c in
  Rabs (a - (c - W / 2)) <= / 2 ^ 51 * (Rabs c + Rabs W) + / 2 ^ 58 /\ Rabs (b - (c + W / 2)) <= / 2 ^ 51 * (Rabs c + Rabs W) + / 2 ^ 58.
Proof.
  intros s w c W. unfold residual_limits_double. fold W. pose proof (fl_near (1 / 2 * W)) as H. set (h := fl (1 / 2 * W)) in *.
  replace (1 / 2 * W) with (W / 2) in H by lra. assert (A : Rabs (W / 2) = Rabs W / 2) by (unfold Rdiv; rewrite Rabs_mult, (Rabs_right (/ 2)) by lra; reflexivity). rewrite A in H.
  pose proof (Rabs_pos c) as C0. pose proof (Rabs_pos W) as W0. apply Rabs_bounds in H.
  assert (Hh : Rabs h <= Rabs W). { pose proof (Rle_abs W). pose proof (Rle_abs (- W)) as X. rewrite Rabs_Ropp in X. unfold h. rewrite <- (Rabs_pos_eq (Rabs W)) by auto.
    destruct (Rle_dec 0 W) as [L|L].
    - rewrite (Rabs_pos_eq W) by lra. assert (0 <= fl (1 / 2 * W)) by (replace 0 with (fl 0) by (apply fl_exact, generic_format_0); apply fl_le; lra). rewrite (Rabs_pos_eq W), (Rabs_pos_eq (fl _)) by lra.
      assert (E : W = fl W). { symmetry. apply fl_exact. unfold W, residual_width_double, even_width_double, first_width_double. destruct (Reqb _ _); [|apply fl_format]. apply Rmax_case; apply fl_format. }
      rewrite E at 2. apply fl_le. lra.
    - assert (fl (1 / 2 * W) <= 0) by (replace 0 with (fl 0) by (apply fl_exact, generic_format_0); apply fl_le; lra). rewrite (Rabs_left1 (fl _)) by lra. rewrite (Rabs_left1 W) by lra. rewrite (Rabs_pos_eq (- W)) by lra.
      assert (E : W = fl W). { symmetry. apply fl_exact. unfold W, residual_width_double, even_width_double, first_width_double. destruct (Reqb _ _); [|apply fl_format]. apply Rmax_case; apply fl_format. }
      apply Ropp_le_contravar. rewrite E at 1. apply fl_le. lra. }
  pose proof (fl_near (c - h)) as N1. pose proof (fl_near (c + h)) as N2.
  assert (T1 : Rabs (c - h) <= Rabs c + Rabs W) by (unfold Rminus; eapply Rle_trans; [apply Rabs_triang|]; rewrite Rabs_Ropp; lra).
  assert (T2 : Rabs (c + h) <= Rabs c + Rabs W) by (eapply Rle_trans; [apply Rabs_triang|]; lra).
  apply Rabs_bounds in N1. apply Rabs_bounds in N2. split; apply Rabs_le; lra.
Qed.

Example C114_ex_range : / 2 ^ 100 <= fl (184 / 10) /\ 6 * 90 / fl (184 / 10) <= 2 ^ 18.
Proof.
  rewrite mimosa_pitch_double. assert (P0 : 18 < mimosa_pitch < 19) by (unfold mimosa_pitch; cbn; lra). split; [lra|].
  apply Rmult_le_reg_r with mimosa_pitch; [lra|]. unfold Rdiv. rewrite Rmult_assoc, Rinv_l by lra. lra.
Qed.
(** FEI4: 250 um, FWHM 100 um: 6 pixels, 120 bins *)
Example C114_ex_whole : exists k, Z.Even k /\ (6 <= k)%Z /\ residual_width_double 250 100 = IZR (k * 250) /\ residual_bins_double 250 100 20 = (20 * k)%Z.
Proof. destruct (C114_whole 250 100 20) as (k & K1 & K2 & K3 & K4 & _); try lia; try lra. exists k. auto. Qed.

Print Assumptions C114_range.
Print Assumptions C114_whole.
Print Assumptions C114_six.
Print Assumptions C114_odd_refuted.
Print Assumptions C114_fewer_refuted.
Print Assumptions C114_limits.
