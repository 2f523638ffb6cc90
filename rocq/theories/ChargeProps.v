(** The fractions of charge of the simulation (C100). *)
From Coq Require Import Reals ZArith List Lra Lia.
From Coquelicot Require Import Coquelicot.
From Verif Require Import GeometryModel GeometryProofs FitResidualsModel GaussProps ErfProofs ChargeModel.
Import ListNotations.
Local Open Scope R_scope.

(** *** Specification *)
(** the density of the normal distribution *)
Definition density (mu sigma t : R) : R := exp (- ((t - mu) * (t - mu)) / (2 * (sigma * sigma))) / (sqrt (2 * PI) * sigma).
(** the sum of f over n numbers from i on *)
Fixpoint sum_from (i : Z) (n : nat) (f : Z -> R) : R := match n with O => 0 | S n => f i + sum_from (i + 1) n f end.

(** *** Integrals *)
Lemma density_integral mu sigma a b : 0 < sigma -> RInt (density mu sigma) a b = 1 / 2 * (erf ((b - mu) / (sqrt 2 * sigma)) - erf ((a - mu) / (sqrt 2 * sigma))).
Proof.
  intros S0. assert (P2 : 0 < sqrt 2) by (apply sqrt_lt_R0; lra). assert (PP : 0 < sqrt PI) by (apply sqrt_lt_R0, PI_RGT_0).
  assert (S2 : sqrt 2 * sqrt 2 = 2) by (apply sqrt_sqrt; lra).
  set (u := 1 / (sqrt 2 * sigma)). set (v := - mu / (sqrt 2 * sigma)).
  rewrite (RInt_ext _ (fun t => (/ sqrt PI) * (u * bell (u * t + v)))).
  - rewrite RInt_const_mult by (apply ex_RInt_linear, bell_ex). rewrite RInt_linear by apply bell_ex.
    assert (Ea : u * a + v = (a - mu) / (sqrt 2 * sigma)) by (unfold u, v; field; lra). assert (Eb : u * b + v = (b - mu) / (sqrt 2 * sigma)) by (unfold u, v; field; lra). rewrite Ea, Eb.
    set (p := (a - mu) / (sqrt 2 * sigma)). set (q := (b - mu) / (sqrt 2 * sigma)). rewrite !erf_eq. unfold bell_integral.
    assert (C : RInt bell 0 p + RInt bell p q = RInt bell 0 q) by (apply (RInt_Chasles (V := R_CompleteNormedModule) bell); apply bell_ex).
    rewrite <- C. match goal with |- @eq _ ?x ?y => change (@eq R x y) end. field. lra.
  - intros t _. unfold density, bell, u, v. rewrite sqrt_mult by (try lra; left; apply PI_RGT_0).
    replace (- ((t - mu) * (t - mu)) / (2 * (sigma * sigma))) with (- ((1 / (sqrt 2 * sigma) * t + - mu / (sqrt 2 * sigma)) * (1 / (sqrt 2 * sigma) * t + - mu / (sqrt 2 * sigma)))).
    + generalize (exp (- ((1 / (sqrt 2 * sigma) * t + - mu / (sqrt 2 * sigma)) * (1 / (sqrt 2 * sigma) * t + - mu / (sqrt 2 * sigma))))). intros e.
      match goal with |- @eq _ ?x ?y => change (@eq R x y) end. field. repeat split; lra.
    + set (r := sqrt 2) in *. transitivity (- ((t - mu) * (t - mu)) / ((r * r) * (sigma * sigma))); [field; split; lra|rewrite S2; reflexivity].
Qed.
Lemma sqrt_two_square s : 0 < s -> sqrt (2 * (s * s)) = sqrt 2 * s.
Proof. intros H. rewrite sqrt_mult by nra. rewrite sqrt_square by lra. reflexivity. Qed.

(** the normal cumulative distribution *)
Definition cdf (mu sigma x : R) : R := 1 / 2 * (1 + erf ((x - mu) / (sqrt 2 * sigma))).
Lemma cdf_bound mu sigma x : 0 < cdf mu sigma x < 1.
Proof. unfold cdf. pose proof (erf_bound ((x - mu) / (sqrt 2 * sigma))). lra. Qed.
Lemma cdf_increasing mu sigma x y : 0 < sigma -> x < y -> cdf mu sigma x < cdf mu sigma y.
Proof.
  intros S0 H. unfold cdf. assert (P2 : 0 < sqrt 2) by (apply sqrt_lt_R0; lra). assert (erf ((x - mu) / (sqrt 2 * sigma)) < erf ((y - mu) / (sqrt 2 * sigma))); [|lra].
  apply erf_increasing. unfold Rdiv. apply Rmult_lt_compat_r; [apply Rinv_0_lt_compat; nra|lra].
Qed.

(** the sigma of the charge cloud *)
Definition cloud_sigma (z temperature bias cc : R) : R := cc * z * sqrt (2 * (86173324 / 10 ^ 12) * temperature / bias).
Lemma cloud_sigma_eq z t b cc : calc_sigma_diffusion z t b * cc = cloud_sigma z t b cc.
Proof.
  unfold calc_sigma_diffusion, cloud_sigma, boltzman_constant. replace (2 * t / b * (86173324 / 10 ^ 12)) with (2 * (86173324 / 10 ^ 12) * t / b) by (unfold Rdiv; ring). ring.
Qed.
Lemma cloud_sigma_pos z t b cc : 0 < z -> 0 < t -> 0 < b -> 0 < cc -> 0 < cloud_sigma z t b cc.
Proof.
  intros. unfold cloud_sigma. apply Rmult_lt_0_compat; [nra|]. apply sqrt_lt_R0. apply Rdiv_lt_0_compat; auto. apply Rmult_lt_0_compat; auto. lra.
Qed.
Definition pixel_cdf (mu sigma size : R) (i : Z) : R := cdf mu sigma (size * (IZR i - 1 / 2)).
Lemma fraction_eq x y z i j px py t b cc : 0 < cloud_sigma z t b cc ->
  calc_charge_fraction (x, y) z i j px py t b cc =
  (pixel_cdf x (cloud_sigma z t b cc) px (i + 1) - pixel_cdf x (cloud_sigma z t b cc) px i) * (pixel_cdf y (cloud_sigma z t b cc) py (j + 1) - pixel_cdf y (cloud_sigma z t b cc) py j).
Proof.
  intros H. unfold calc_charge_fraction. rewrite cloud_sigma_eq. cbv zeta. rewrite (proj2 (Reqb_false _ _)) by lra. unfold bivariante_normal_cdf. rewrite sqrt_two_square by auto.
  unfold pixel_cdf, cdf. cbn [fst snd]. rewrite !plus_IZR. replace (IZR i + 1 - 1 / 2) with (IZR i + 1 / 2) by field. replace (IZR j + 1 - 1 / 2) with (IZR j + 1 / 2) by field. field.
Qed.

(** *** C100 *)
(** The fraction of a pixel is the integral of the product of two normal distributions with the sigma cc * z * sqrt(2 k T / V) over the area of the pixel. *)
Theorem C100_integral : forall x y z i j px py t b cc, 0 < z -> 0 < t -> 0 < b -> 0 < cc ->
  exists s, 0 < s /\ s * s = cc * cc * (z * z) * (2 * (86173324 / 10 ^ 12) * t / b) /\
  calc_charge_fraction (x, y) z i j px py t b cc =
    RInt (density x s) (px * (IZR i - 1 / 2)) (px * (IZR i + 1 / 2)) * RInt (density y s) (py * (IZR j - 1 / 2)) (py * (IZR j + 1 / 2)).
Proof.
  intros x y z i j px py t b cc Hz Ht Hb Hc. pose proof (cloud_sigma_pos z t b cc Hz Ht Hb Hc) as S0. exists (cloud_sigma z t b cc). split; [exact S0|]. split.
  - unfold cloud_sigma. set (A := 2 * (86173324 / 10 ^ 12) * t / b). replace (cc * z * sqrt A * (cc * z * sqrt A)) with (cc * cc * (z * z) * (sqrt A * sqrt A)) by ring.
    rewrite sqrt_sqrt; [reflexivity|]. unfold A. apply Rlt_le, Rdiv_lt_0_compat; auto. apply Rmult_lt_0_compat; auto. lra.
  - rewrite fraction_eq by auto. rewrite !density_integral by auto. unfold pixel_cdf, cdf. rewrite !plus_IZR.
    replace (IZR i + 1 - 1 / 2) with (IZR i + 1 / 2) by field. replace (IZR j + 1 - 1 / 2) with (IZR j + 1 / 2) by field. field.
Qed.
Lemma step_positive mu s p i : 0 < s -> 0 < p -> 0 < pixel_cdf mu s p (i + 1) - pixel_cdf mu s p i < 1.
Proof.
  intros Hs Hp. unfold pixel_cdf. pose proof (cdf_bound mu s (p * (IZR (i + 1) - 1 / 2))). pose proof (cdf_bound mu s (p * (IZR i - 1 / 2))).
  assert (cdf mu s (p * (IZR i - 1 / 2)) < cdf mu s (p * (IZR (i + 1) - 1 / 2))) by (apply cdf_increasing; auto; rewrite plus_IZR; nra). lra.
Qed.
(** Every fraction is between 0 and 1. *)
Theorem C100_range : forall x y z i j px py t b cc, 0 < z -> 0 < t -> 0 < b -> 0 < cc -> 0 < px -> 0 < py ->
  0 < calc_charge_fraction (x, y) z i j px py t b cc < 1.
Proof.
  intros x y z i j px py t b cc Hz Ht Hb Hc Hpx Hpy. pose proof (cloud_sigma_pos z t b cc Hz Ht Hb Hc) as S0. rewrite fraction_eq by auto.
  pose proof (step_positive x _ px i S0 Hpx). pose proof (step_positive y _ py j S0 Hpy). split; [apply Rmult_lt_0_compat; lra|].
  set (A := pixel_cdf x _ px (i + 1) - _) in *. set (B := pixel_cdf y _ py (j + 1) - _) in *. nra.
Qed.

Lemma sum_from_ext i n f g : (forall k, f k = g k) -> sum_from i n f = sum_from i n g.
Proof. intros H. revert i. induction n as [|n IH]; intros i; cbn [sum_from]; [reflexivity|rewrite H, IH; reflexivity]. Qed.
Lemma sum_from_scale i n f c : sum_from i n (fun k => f k * c) = sum_from i n f * c.
Proof. revert i. induction n as [|n IH]; intros i; cbn [sum_from]; [ring|rewrite IH; ring]. Qed.
Lemma sum_from_telescope F i n : sum_from i n (fun k => F (k + 1)%Z - F k) = F (i + Z.of_nat n)%Z - F i.
Proof.
  revert i. induction n as [|n IH]; intros i; cbn [sum_from]; [rewrite Z.add_0_r; ring|]. rewrite IH. replace (i + 1 + Z.of_nat n)%Z with (i + Z.of_nat (S n))%Z by lia. ring.
Qed.
Lemma block_sum x y z px py t b cc i n j m : 0 < cloud_sigma z t b cc ->
  sum_from i n (fun k => sum_from j m (fun l => calc_charge_fraction (x, y) z k l px py t b cc)) =
  (pixel_cdf x (cloud_sigma z t b cc) px (i + Z.of_nat n) - pixel_cdf x (cloud_sigma z t b cc) px i) * (pixel_cdf y (cloud_sigma z t b cc) py (j + Z.of_nat m) - pixel_cdf y (cloud_sigma z t b cc) py j).
Proof.
  intros H. set (s := cloud_sigma z t b cc) in *.
  rewrite (sum_from_ext _ _ _ (fun k => (pixel_cdf x s px (k + 1) - pixel_cdf x s px k) * (pixel_cdf y s py (j + Z.of_nat m) - pixel_cdf y s py j))).
  - rewrite sum_from_scale, sum_from_telescope. reflexivity.
  - intros k. rewrite <- (sum_from_telescope (pixel_cdf y s py)), Rmult_comm, <- sum_from_scale. apply sum_from_ext. intros l. rewrite fraction_eq by exact H. fold s. ring.
Qed.
(** The fractions of a block of pixels sum up to less than 1 ... *)
Theorem C100_sum : forall x y z px py t b cc, 0 < z -> 0 < t -> 0 < b -> 0 < cc -> 0 < px -> 0 < py -> forall i n j m,
  sum_from i n (fun k => sum_from j m (fun l => calc_charge_fraction (x, y) z k l px py t b cc)) < 1.
Proof.
  intros x y z px py t b cc Hz Ht Hb Hc Hpx Hpy i n j m. pose proof (cloud_sigma_pos z t b cc Hz Ht Hb Hc) as S0. rewrite block_sum by auto.
  assert (K : forall mu p i n, 0 < p -> 0 <= pixel_cdf mu (cloud_sigma z t b cc) p (i + Z.of_nat n) - pixel_cdf mu (cloud_sigma z t b cc) p i < 1).
  { intros mu p i0 n0 Hp. unfold pixel_cdf. split.
    - destruct n0 as [|n0]; [rewrite Z.add_0_r; lra|]. apply Rlt_le, Rlt_Rminus, cdf_increasing; auto. rewrite plus_IZR. assert (1 <= IZR (Z.of_nat (S n0))) by (apply IZR_le; lia). nra.
    - match goal with |- ?a - ?c < 1 => pose proof (cdf_bound mu (cloud_sigma z t b cc) (p * (IZR (i0 + Z.of_nat n0) - 1 / 2))); pose proof (cdf_bound mu (cloud_sigma z t b cc) (p * (IZR i0 - 1 / 2))); lra end. }
  pose proof (K x px i n Hpx). pose proof (K y py j m Hpy). set (A := pixel_cdf x _ px _ - _) in *. set (B := pixel_cdf y _ py _ - _) in *. nra.
Qed.
Lemma exp_small eps : 0 < eps -> exists x, 0 <= x /\ forall y, x <= y -> 4 / PI * exp (- (y * y)) < eps.
Proof.
  intros He. pose proof PI_RGT_0 as HP. exists (Rmax 1 (4 / PI / eps)). split; [apply Rle_trans with 1; [lra|apply Rmax_l]|]. intros y Hy.
  assert (Y1 : 1 <= y) by (eapply Rle_trans; [apply Rmax_l|exact Hy]). assert (Y2 : 4 / PI / eps <= y) by (eapply Rle_trans; [apply Rmax_r|exact Hy]).
  rewrite exp_Ropp. assert (E : y < exp (y * y)). { pose proof (exp_ineq1 (y * y) ltac:(nra)). nra. }
  assert (K : 0 < 4 / PI) by (apply Rdiv_lt_0_compat; lra). apply Rmult_lt_reg_r with (exp (y * y)); [apply exp_pos|]. rewrite Rmult_assoc, Rinv_l by (pose proof (exp_pos (y * y)); lra).
  assert (4 / PI <= y * eps). { apply Rmult_le_compat_r with (r := eps) in Y2; [|lra]. unfold Rdiv in *. rewrite (Rmult_assoc _ (/ eps) eps), Rinv_l in Y2 by lra. lra. }
  nra.
Qed.
Lemma cdf_tails mu s p eps : 0 < s -> 0 < p -> 0 < eps -> exists N, forall i, (N <= i)%Z -> 1 - eps < pixel_cdf mu s p i /\ pixel_cdf mu s p (- i) < eps.
Proof.
  intros Hs Hp He. destruct (exp_small eps He) as (x0 & X0 & X1). assert (P2 : 0 < sqrt 2) by (apply sqrt_lt_R0; lra). assert (S1 : 0 < sqrt 2 * s) by nra.
  exists (up ((x0 * (sqrt 2 * s) + Rabs mu) / p + 1)). intros i Hi. apply IZR_le in Hi. destruct (archimed ((x0 * (sqrt 2 * s) + Rabs mu) / p + 1)) as [A _].
  assert (B : (x0 * (sqrt 2 * s) + Rabs mu) / p <= IZR i - 1) by lra. apply Rmult_le_compat_r with (r := p) in B; [|lra]. unfold Rdiv in B at 1. rewrite Rmult_assoc, Rinv_l, Rmult_1_r in B by lra.
  pose proof (Rle_abs mu). pose proof (Rle_abs (- mu)) as M2. rewrite Rabs_Ropp in M2.
  assert (Q1 : x0 <= (p * (IZR i - 1 / 2) - mu) / (sqrt 2 * s)). { apply Rmult_le_reg_r with (sqrt 2 * s); auto. replace ((p * (IZR i - 1 / 2) - mu) / (sqrt 2 * s) * (sqrt 2 * s)) with (p * (IZR i - 1 / 2) - mu) by (field; lra). lra. }
  assert (Q2 : x0 <= - ((p * (IZR (- i) - 1 / 2) - mu) / (sqrt 2 * s))).
  { apply Rmult_le_reg_r with (sqrt 2 * s); auto. rewrite opp_IZR. replace (- ((p * (- IZR i - 1 / 2) - mu) / (sqrt 2 * s)) * (sqrt 2 * s)) with (p * (IZR i + 1 / 2) + mu) by (field; lra). lra. }
  unfold pixel_cdf, cdf. set (q1 := (p * (IZR i - 1 / 2) - mu) / (sqrt 2 * s)) in *. set (q2 := (p * (IZR (- i) - 1 / 2) - mu) / (sqrt 2 * s)) in *.
  pose proof (erf_tail q1 ltac:(lra)). pose proof (X1 q1 Q1). pose proof (erf_tail (- q2) ltac:(lra)) as T2. pose proof (X1 (- q2) Q2). rewrite erf_odd in T2. pose proof (erf_bound q2). lra.
Qed.
(** ... and the sum over all pixels is 1: large blocks around the seed miss less than every eps. *)
Theorem C100_total : forall x y z px py t b cc, 0 < z -> 0 < t -> 0 < b -> 0 < cc -> 0 < px -> 0 < py -> forall eps, 0 < eps ->
  exists N, forall n, (N <= n)%nat ->
  1 - eps < sum_from (- Z.of_nat n) (2 * n) (fun k => sum_from (- Z.of_nat n) (2 * n) (fun l => calc_charge_fraction (x, y) z k l px py t b cc)).
Proof.
  intros x y z px py t b cc Hz Ht Hb Hc Hpx Hpy eps He. pose proof (cloud_sigma_pos z t b cc Hz Ht Hb Hc) as S0.
  destruct (cdf_tails x _ px (eps / 4) S0 Hpx ltac:(lra)) as (N1 & H1). destruct (cdf_tails y _ py (eps / 4) S0 Hpy ltac:(lra)) as (N2 & H2).
  exists (Z.to_nat (Z.max N1 N2)). intros n Hn. rewrite block_sum by auto. replace (- Z.of_nat n + Z.of_nat (2 * n))%Z with (Z.of_nat n) by lia.
  destruct (H1 (Z.of_nat n) ltac:(lia)) as [A1 A2]. destruct (H2 (Z.of_nat n) ltac:(lia)) as [B1 B2].
  assert (C : forall mu s p i, 0 < pixel_cdf mu s p i < 1) by (intros; apply cdf_bound).
  pose proof (C x (cloud_sigma z t b cc) px (Z.of_nat n)). pose proof (C x (cloud_sigma z t b cc) px (- Z.of_nat n)%Z).
  pose proof (C y (cloud_sigma z t b cc) py (Z.of_nat n)). pose proof (C y (cloud_sigma z t b cc) py (- Z.of_nat n)%Z).
  set (a := pixel_cdf x _ px (Z.of_nat n)) in *. set (a' := pixel_cdf x _ px (- Z.of_nat n)) in *. set (c := pixel_cdf y _ py (Z.of_nat n)) in *. set (c' := pixel_cdf y _ py (- Z.of_nat n)) in *.
  assert (U : 1 - eps / 2 < a - a') by lra. assert (V : 1 - eps / 2 < c - c') by lra. destruct (Rle_lt_dec 1 (eps / 2)).
  - assert (0 <= (a - a') * (c - c') \/ 2 <= eps) by (right; lra). assert (-1 < a - a' < 1) by lra. assert (-1 < c - c' < 1) by lra. assert (-1 <= (a - a') * (c - c')) by nra. nra.
  - nra.
Qed.

(** the step of the cumulative distribution over one pixel *)
Definition share (mu s p : R) (i : Z) : R := pixel_cdf mu s p (i + 1) - pixel_cdf mu s p i.
Lemma share_box mu s p i : 0 < s -> share mu s p i = gauss_box_erf 1 mu s p (p * IZR i).
Proof.
  intros Hs. assert (P2 : 0 < sqrt 2) by (apply sqrt_lt_R0; lra). unfold share, pixel_cdf, cdf, gauss_box_erf. rewrite plus_IZR.
  replace ((mu + p * (1 / 2) - p * IZR i) / (sqrt 2 * s)) with (- ((p * (IZR i - 1 / 2) - mu) / (sqrt 2 * s))) by (field; lra). rewrite erf_odd.
  replace (p * IZR i - mu + p * (1 / 2)) with (p * (IZR i + 1 - 1 / 2) - mu) by field. ring.
Qed.
Lemma share_abs mu s p i : 0 < s -> share mu s p i = gauss_box_erf 1 mu s p (mu + Rabs (p * IZR i - mu)).
Proof.
  intros Hs. rewrite share_box by auto. unfold Rabs. destruct (Rcase_abs (p * IZR i - mu)).
  - rewrite C94_symmetric. f_equal. ring.
  - f_equal. ring.
Qed.
Lemma share_decreasing mu s p i i' : 0 < s -> 0 < p -> Rabs (p * IZR i - mu) < Rabs (p * IZR i' - mu) -> share mu s p i' < share mu s p i.
Proof. intros Hs Hp H. rewrite !share_abs by auto. pose proof (Rabs_pos (p * IZR i - mu)). apply C94_decreasing; lra. Qed.
Lemma share_le mu s p i i' : 0 < s -> 0 < p -> Rabs (p * IZR i - mu) <= Rabs (p * IZR i' - mu) -> share mu s p i' <= share mu s p i.
Proof. intros Hs Hp [H|H]; [left; apply share_decreasing; auto|right]. rewrite !share_abs, H by auto. reflexivity. Qed.
(** Of two pixels in a row or column the one with its centre nearer to the charge gets more. *)
Theorem C100_nearer : forall x y z px py t b cc, 0 < z -> 0 < t -> 0 < b -> 0 < cc -> 0 < px -> 0 < py -> forall i j k,
  (Rabs (px * IZR i - x) < Rabs (px * IZR k - x) -> calc_charge_fraction (x, y) z k j px py t b cc < calc_charge_fraction (x, y) z i j px py t b cc) /\
  (Rabs (py * IZR j - y) < Rabs (py * IZR k - y) -> calc_charge_fraction (x, y) z i k px py t b cc < calc_charge_fraction (x, y) z i j px py t b cc).
Proof.
  intros x y z px py t b cc Hz Ht Hb Hc Hpx Hpy i j k. pose proof (cloud_sigma_pos z t b cc Hz Ht Hb Hc) as S0. rewrite !fraction_eq by auto. split; intros H.
  - apply Rmult_lt_compat_r; [apply step_positive; auto|]. apply (share_decreasing x (cloud_sigma z t b cc) px i k); auto.
  - apply Rmult_lt_compat_l; [apply step_positive; auto|]. apply (share_decreasing y (cloud_sigma z t b cc) py j k); auto.
Qed.
Lemma away p mu i : 0 < p -> Rabs mu <= p / 2 -> (0 <= i)%Z -> Rabs (p * IZR i - mu) <= Rabs (p * IZR (i + 1) - mu) /\ Rabs (p * IZR (- i) - mu) <= Rabs (p * IZR (- i - 1) - mu).
Proof.
  intros Hp Hm Hi. apply IZR_le in Hi. rewrite minus_IZR, opp_IZR, plus_IZR. unfold Rabs in *.
  destruct (Rcase_abs mu); destruct (Rcase_abs (p * IZR i - mu)); destruct (Rcase_abs (p * (IZR i + 1) - mu)); destruct (Rcase_abs (p * - IZR i - mu)); destruct (Rcase_abs (p * (- IZR i - 1) - mu)); nra.
Qed.
(** For a charge inside of the seed pixel the fractions do not increase away from the seed, along rows and columns (the abort conditions of _create_cs_hits rely on it);
    in each column the pixel in the row of the seed has the largest fraction. *)
Theorem C100_abort : forall x y z px py t b cc, 0 < z -> 0 < t -> 0 < b -> 0 < cc -> 0 < px -> 0 < py -> Rabs x <= px / 2 -> Rabs y <= py / 2 ->
  let f i j := calc_charge_fraction (x, y) z i j px py t b cc in
  (forall i j, (0 <= i)%Z -> f (i + 1)%Z j <= f i j /\ f (- i - 1)%Z j <= f (- i)%Z j) /\
  (forall i j, (0 <= j)%Z -> f i (j + 1)%Z <= f i j /\ f i (- j - 1)%Z <= f i (- j)%Z) /\
  (forall i j, f i j <= f i 0%Z).
Proof.
  intros x y z px py t b cc Hz Ht Hb Hc Hpx Hpy Hx Hy f. pose proof (cloud_sigma_pos z t b cc Hz Ht Hb Hc) as S0.
  assert (F1 : forall i k j, Rabs (px * IZR i - x) <= Rabs (px * IZR k - x) -> f k j <= f i j).
  { intros i k j H. unfold f. rewrite !fraction_eq by auto. apply Rmult_le_compat_r; [apply Rlt_le, step_positive; auto|]. apply (share_le x (cloud_sigma z t b cc) px i k); auto. }
  assert (F2 : forall i j k, Rabs (py * IZR j - y) <= Rabs (py * IZR k - y) -> f i k <= f i j).
  { intros i j k H. unfold f. rewrite !fraction_eq by auto. apply Rmult_le_compat_l; [apply Rlt_le, step_positive; auto|]. apply (share_le y (cloud_sigma z t b cc) py j k); auto. }
  assert (G : forall i j, (0 <= j)%Z -> f i (j + 1)%Z <= f i j /\ f i (- j - 1)%Z <= f i (- j)%Z) by (intros i j Hj; destruct (away py y j Hpy Hy Hj); split; apply F2; auto).
  split; [intros i j Hi; destruct (away px x i Hpx Hx Hi); split; apply F1; auto|]. split; [exact G|].
  assert (K : forall n i, f i (Z.of_nat n) <= f i 0%Z /\ f i (- Z.of_nat n)%Z <= f i 0%Z).
  { induction n as [|n IH]; intros i; [cbn; lra|]. destruct (IH i) as [I1 I2]. destruct (G i (Z.of_nat n) ltac:(lia)) as [G1 G2].
    replace (Z.of_nat (S n)) with (Z.of_nat n + 1)%Z by lia. replace (- (Z.of_nat n + 1))%Z with (- Z.of_nat n - 1)%Z by lia. lra. }
  intros i j. destruct (Z_le_gt_dec 0 j) as [L|L].
  - destruct (K (Z.to_nat j) i) as [K1 _]. rewrite Z2Nat.id in K1 by lia. exact K1.
  - destruct (K (Z.to_nat (- j)) i) as [_ K2]. rewrite Z2Nat.id, Z.opp_involutive in K2 by lia. exact K2.
Qed.

(** Without diffusion (temperature 0) every pixel gets the full charge: the fractions of n x m pixels sum up to n m. *)
Theorem C100_no_diffusion_refuted : forall x y z px py b cc i n j m,
  sum_from i n (fun k => sum_from j m (fun l => calc_charge_fraction (x, y) z k l px py 0 b cc)) = INR n * INR m.
Proof.
  intros x y z px py b cc i n j m. assert (F : forall k l, calc_charge_fraction (x, y) z k l px py 0 b cc = 1).
  { intros k l. unfold calc_charge_fraction, calc_sigma_diffusion. replace (2 * 0 / b * boltzman_constant) with 0 by (unfold Rdiv; ring). rewrite sqrt_0, (proj2 (Reqb_true _ _)) by ring. reflexivity. }
  assert (S1 : forall (g : Z -> R) c, (forall k, g k = c) -> forall n i, sum_from i n g = INR n * c).
  { intros g c H. induction n0 as [|n0 IH]; intros i0; [cbn; ring|]. cbn [sum_from]. rewrite IH, H, S_INR. ring. }
  rewrite (S1 _ (INR m)); [reflexivity|]. intros k. rewrite (S1 _ 1); [ring|]. intros l. apply F.
Qed.
(** "Distribute total charge with maximum 1% loss": with a cloud of more than five pixels the fraction of every pixel is less than 1%, all of them are left out. *)
Theorem C100_loss_refuted : forall x y z p t b cc i j, 0 < z -> 0 < t -> 0 < b -> 0 < cc -> 0 < p -> 5 * p <= cc * z * sqrt (2 * (86173324 / 10 ^ 12) * t / b) ->
  calc_charge_fraction (x, y) z i j p p t b cc < 1 / 100.
Proof.
  intros x y z p t b cc i j Hz Ht Hb Hc Hp H. fold (cloud_sigma z t b cc) in H. pose proof (cloud_sigma_pos z t b cc Hz Ht Hb Hc) as S0. rewrite fraction_eq by auto.
  set (s := cloud_sigma z t b cc) in *. assert (P2 : 0 < sqrt 2) by (apply sqrt_lt_R0; lra). pose proof PI2_1 as P1. assert (S2 : 0 < sqrt (2 * PI)) by (apply sqrt_lt_R0; lra).
  assert (S3 : 2 < sqrt (2 * PI)). { assert (Q : sqrt (2 * 2) < sqrt (2 * PI)) by (apply sqrt_lt_1; lra). rewrite sqrt_square in Q by lra. exact Q. }
  assert (B : forall mu k, share mu s p k < 1 / 10).
  { intros mu k. unfold share, pixel_cdf, cdf. rewrite plus_IZR.
    assert (E : RInt (density mu s) (p * (IZR k - 1 / 2)) (p * (IZR k + 1 - 1 / 2)) <= RInt (fun _ => / (sqrt (2 * PI) * s)) (p * (IZR k - 1 / 2)) (p * (IZR k + 1 - 1 / 2))).
    { apply RInt_le; [nra| |apply (ex_RInt_const (V := R_NormedModule))|].
      - apply (ex_RInt_continuous (V := R_CompleteNormedModule)). intros u _. apply (ex_derive_continuous (V := R_NormedModule)). unfold density. auto_derive. exact I.
      - intros u _. unfold density. assert (Q : 0 < / (sqrt (2 * PI) * s)) by (apply Rinv_0_lt_compat, Rmult_lt_0_compat; lra).
        assert (X : exp (- ((u - mu) * (u - mu)) / (2 * (s * s))) <= 1).
        { rewrite <- exp_0. assert (Y : - ((u - mu) * (u - mu)) / (2 * (s * s)) <= 0).
          { unfold Rdiv. assert (0 < / (2 * (s * s))) by (apply Rinv_0_lt_compat; nra). pose proof (Rle_0_sqr (u - mu)). unfold Rsqr in *. nra. }
          destruct Y as [Y|Y]; [left; apply exp_increasing, Y|rewrite Y; lra]. }
        unfold Rdiv at 1. nra. }
    rewrite density_integral, (RInt_const (V := R_CompleteNormedModule)) in E by auto. unfold scal in E. cbn in E. unfold mult in E. cbn in E.
    assert (W : (p * (IZR k + 1 - 1 / 2) - p * (IZR k - 1 / 2)) * / (sqrt (2 * PI) * s) < 1 / 10).
    { apply Rmult_lt_reg_r with (sqrt (2 * PI) * s); [apply Rmult_lt_0_compat; lra|]. rewrite Rmult_assoc, Rinv_l by (apply Rgt_not_eq, Rmult_lt_0_compat; lra). nra. }
    unfold Rminus in *. lra. }
  pose proof (B x i). pose proof (B y j). pose proof (step_positive x s p i S0 Hp). pose proof (step_positive y s p j S0 Hp). unfold share in *.
  set (u := pixel_cdf x s p (i + 1) - _) in *. set (v := pixel_cdf y s p (j + 1) - _) in *. nra.
Qed.

(** the values of the simulation: a sensor of 100 um at 300 K and 50 V, pixels of 50 um *)
Example C100_case : 0 < 50 /\ 0 < 300 /\ 0 < 135 / 100 /\ Rabs 20 <= 50 / 2.
Proof. rewrite Rabs_right; lra. Qed.
Example C100_loss_case : let b := (86173324 / 10 ^ 12) in 5 * 1 <= 1 * 10 * sqrt (2 * (86173324 / 10 ^ 12) * 2 / b).
Proof. cbv zeta. replace (2 * (86173324 / 10 ^ 12) * 2 / (86173324 / 10 ^ 12)) with (2 * 2) by (field; lra). rewrite sqrt_square by lra. lra. Qed.

Print Assumptions C100_integral.
Print Assumptions C100_range.
Print Assumptions C100_sum.
Print Assumptions C100_total.
Print Assumptions C100_nearer.
Print Assumptions C100_abort.
Print Assumptions C100_no_diffusion_refuted.
Print Assumptions C100_loss_refuted.
