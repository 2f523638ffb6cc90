(** Conversion of indices and positions in double precision (C101). *)
From Coq Require Import Reals ZArith Bool Lra Lia.
From Flocq Require Import Core Relative.
From Verif Require Import GeometryModel GeometryProofs FloatModel.
Local Open Scope R_scope.

Local Instance prec_gt_0_53 : Prec_gt_0 53 := eq_refl.
Local Notation format := (generic_format radix2 (FLT_exp (-1074) 53)).

(** *** Rounding *)
Lemma fl_le a b : a <= b -> fl a <= fl b.
Proof. apply round_le; auto with typeclass_instances. Qed.
Lemma fl_format x : format (fl x).
Proof. apply generic_format_round; auto with typeclass_instances. Qed.
Lemma fl_exact x : format x -> fl x = x.
Proof. apply round_generic; auto with typeclass_instances. Qed.
Lemma format_dyadic m e : (Z.abs m < 2 ^ 53)%Z -> (-1074 <= e)%Z -> format (IZR m * bpow radix2 e).
Proof.
  intros Hm He. apply generic_format_FLT. exists (Float radix2 m e); auto.
Qed.
(** the half-integers up to 2^52 are doubles *)
Lemma format_half m : (Z.abs m < 2 ^ 53)%Z -> format (IZR m / 2).
Proof. intros Hm. replace (IZR m / 2) with (IZR m * bpow radix2 (-1)) by (cbn; lra). apply format_dyadic; [exact Hm|lia]. Qed.
Lemma fl_half m : (Z.abs m < 2 ^ 53)%Z -> fl (IZR m / 2) = IZR m / 2.
Proof. intros Hm. apply fl_exact, format_half, Hm. Qed.
(** the error of rounding: relative 2^-53, absolute 2^-1075 *)
Lemma fl_error x : Rabs (fl x - x) <= / 2 ^ 53 * Rabs x + bpow radix2 (-1075).
Proof.
  destruct (relative_error_N_FLT'_ex radix2 (-1074) 53 eq_refl (fun x => negb (Z.even x)) x) as (eps & eta & H1 & H2 & _ & E).
  unfold fl. rewrite E. replace (x * (1 + eps) + eta - x) with (eps * x + eta) by ring.
  eapply Rle_trans; [apply Rabs_triang|]. rewrite Rabs_mult. apply Rplus_le_compat.
  - apply Rmult_le_compat_r; [apply Rabs_pos|]. unfold u_ro in H1. eapply Rle_trans; [exact H1|]. cbn. lra.
  - eapply Rle_trans; [exact H2|]. change (-1075)%Z with (-1 + -1074)%Z. rewrite bpow_plus. cbn [bpow]. right. cbn; lra.
Qed.
Lemma tiny : 0 < bpow radix2 (-1075) <= / 2 ^ 60 * bpow radix2 (-1000).
Proof.
  split; [apply bpow_gt_0|]. replace (/ 2 ^ 60) with (bpow radix2 (-60)) by (cbn; lra). rewrite <- bpow_plus. apply bpow_le. lia.
Qed.

(** *** C101 *)
Lemma exact_parts n : (0 <= n <= 2 ^ 50)%Z -> fl (IZR n + 1 / 2) = IZR n + 1 / 2 /\ fl (1 / 2 * IZR n) = IZR n / 2 /\ fl (- (1 / 2) * IZR n) = - (IZR n / 2).
Proof.
  intros Hn. split; [|split].
  - replace (IZR n + 1 / 2) with (IZR (2 * n + 1) / 2) by (rewrite plus_IZR, mult_IZR; lra). apply fl_half. lia.
  - replace (1 / 2 * IZR n) with (IZR n / 2) by lra. apply fl_half. lia.
  - replace (- (1 / 2) * IZR n) with (IZR (- n) / 2) by (rewrite opp_IZR; lra). rewrite fl_half by lia. rewrite opp_IZR. lra.
Qed.
(** the difference to the centre stays in range *)
Lemma offset_range n c : (0 <= n <= 2 ^ 50)%Z -> 1 / 2 <= c <= IZR n + 1 / 2 -> 0 <= fl (c - 1 / 2) <= IZR n /\ - (IZR n / 2) <= fl (fl (c - 1 / 2) - IZR n / 2) <= IZR n / 2.
Proof.
  intros Hn Hc.
  assert (A : 0 <= fl (c - 1 / 2) <= IZR n).
  { split.
    - replace 0 with (fl 0) by (apply fl_exact, generic_format_0). apply fl_le. lra.
    - replace (IZR n) with (fl (IZR n)) at 1; [apply fl_le; lra|]. replace (IZR n) with (IZR (2 * n) / 2) by (rewrite mult_IZR; lra). apply fl_half. lia. }
  split; [exact A|]. split.
  - replace (- (IZR n / 2)) with (IZR (- n) / 2) by (rewrite opp_IZR; lra). rewrite <- (fl_half (- n)) by lia. apply fl_le. rewrite opp_IZR. lra.
  - rewrite <- (fl_half n) at 2 by lia. apply fl_le. lra.
Qed.
(** Every index on the sensor is converted to a position and back without an error, and the result differs from the index by less than 2^-49 (n + 1).  The index may be
    the position of a cluster; the pitch is at least 2^-100. *)
Theorem C101_round_trip : forall size n c, (0 <= n <= 2 ^ 50)%Z -> / 2 ^ 100 <= size -> 1 / 2 <= c <= IZR n + 1 / 2 ->
  exists x c', index_to_local_double size n c = Some x /\ local_to_index_double size n x = Some c' /\ Rabs (c' - c) <= / 2 ^ 49 * (IZR n + 1).
Proof.
  intros size n c Hn Hs Hc. assert (N0 : 0 <= IZR n) by (apply IZR_le; lia).
  assert (N1 : IZR n <= 1125899906842624) by (apply IZR_le; lia). destruct (exact_parts n Hn) as (E1 & E2 & E3). destruct (offset_range n c Hn Hc) as [H1 H2].
  assert (S0 : 0 < size) by lra.
  set (d := fl (c - 1 / 2)) in *. set (h := fl (d - IZR n / 2)) in *. set (x := fl (size * h)). set (q := fl (x / size)). set (r := fl (q + 1 / 2)). exists x, (fl (r + IZR n / 2)).
  split; [|split].
  - unfold index_to_local_double. rewrite E1, E2, (proj2 (Rleb_true _ _)), (proj2 (Rleb_true _ _)) by lra. reflexivity.
  - unfold local_to_index_double. rewrite E2, E3.
    assert (L : fl (- (IZR n / 2) * size) <= x). { unfold x. apply fl_le. nra. }
    assert (U : x <= fl (IZR n / 2 * size)). { unfold x. apply fl_le. nra. }
    rewrite (proj2 (Rleb_true _ _) L), (proj2 (Rleb_true _ _) U). reflexivity.
  - set (u := / 2 ^ 53). set (t := bpow radix2 (-1075)). pose proof tiny as [T0 T1]. fold t in T0, T1.
    assert (T2 : bpow radix2 (-1000) <= / 2 ^ 100) by (replace (/ 2 ^ 100) with (bpow radix2 (-100)) by (cbn; lra); apply bpow_le; lia).
    assert (T3 : t / size <= / 2 ^ 60). { apply Rmult_le_reg_r with size; auto. unfold Rdiv. rewrite Rmult_assoc, Rinv_l by lra. assert (0 < / 2 ^ 60) by lra. nra. }
    assert (T4 : t <= / 2 ^ 60) by (assert (0 < / 2 ^ 60) by lra; assert (/ 2 ^ 100 < 1) by lra; nra).
    assert (Ed : Rabs (d - (c - 1 / 2)) <= u * IZR n + t).
    { unfold d. eapply Rle_trans; [apply fl_error|]. fold u t. apply Rplus_le_compat_r. apply Rmult_le_compat_l; [unfold u; lra|]. apply Rabs_le. lra. }
    assert (Eh : Rabs (h - (d - IZR n / 2)) <= u * (IZR n / 2) + t).
    { unfold h. eapply Rle_trans; [apply fl_error|]. fold u t. apply Rplus_le_compat_r. apply Rmult_le_compat_l; [unfold u; lra|]. apply Rabs_le. lra. }
    assert (Ha : Rabs h <= IZR n / 2) by (apply Rabs_le; lra).
    assert (Ex : Rabs (x / size - h) <= u * (IZR n / 2) + t / size).
    { assert (K : Rabs (x - size * h) <= u * (size * (IZR n / 2)) + t).
      { unfold x. eapply Rle_trans; [apply fl_error|]. fold u t. apply Rplus_le_compat_r. apply Rmult_le_compat_l; [unfold u; lra|]. rewrite Rabs_mult, (Rabs_right size) by lra. apply Rmult_le_compat_l; lra. }
      replace (x / size - h) with ((x - size * h) / size) by (field; lra). unfold Rdiv at 1. rewrite Rabs_mult, (Rabs_right (/ size)) by (left; apply Rinv_0_lt_compat; auto).
      replace (u * (IZR n / 2) + t / size) with ((u * (size * (IZR n / 2)) + t) * / size) by (field; lra). apply Rmult_le_compat_r; auto. left. apply Rinv_0_lt_compat. auto. }
    assert (U0 : 0 < u < / 1000) by (unfold u; lra).
    assert (Aq : Rabs (x / size) <= IZR n + 1).
    { replace (x / size) with ((x / size - h) + h) by ring. eapply Rle_trans; [apply Rabs_triang|]. unfold u in *. lra. }
    assert (Eq : Rabs (q - x / size) <= u * (IZR n + 1) + t).
    { unfold q. eapply Rle_trans; [apply fl_error|]. fold u t. apply Rplus_le_compat_r. apply Rmult_le_compat_l; lra. }
    assert (Aq2 : Rabs q <= IZR n + 2).
    { replace q with ((q - x / size) + ((x / size - h) + h)) by ring. eapply Rle_trans; [apply Rabs_triang|]. eapply Rle_trans; [apply Rplus_le_compat_l, Rabs_triang|]. unfold u in *. lra. }
    assert (Er : Rabs (r - (q + 1 / 2)) <= u * (IZR n + 3) + t).
    { unfold r. eapply Rle_trans; [apply fl_error|]. fold u t. apply Rplus_le_compat_r. apply Rmult_le_compat_l; [lra|]. eapply Rle_trans; [apply Rabs_triang|]. rewrite (Rabs_right (1 / 2)) by lra. lra. }
    assert (Sum : Rabs (r + IZR n / 2 - c) <= u * (4 * IZR n + 4) + 3 * t + / 2 ^ 60 + t).
    { replace (r + IZR n / 2 - c) with ((r - (q + 1 / 2)) + ((q - x / size) + ((x / size - h) + ((h - (d - IZR n / 2)) + (d - (c - 1 / 2)))))) by ring.
      eapply Rle_trans; [apply Rabs_triang|]. eapply Rle_trans; [apply Rplus_le_compat_l, Rabs_triang|]. eapply Rle_trans; [do 2 apply Rplus_le_compat_l; apply Rabs_triang|].
      eapply Rle_trans; [do 3 apply Rplus_le_compat_l; apply Rabs_triang|]. unfold u in *. lra. }
    assert (Ac : Rabs (r + IZR n / 2) <= IZR n + 2).
    { replace (r + IZR n / 2) with ((r + IZR n / 2 - c) + c) by ring. eapply Rle_trans; [apply Rabs_triang|]. rewrite (Rabs_right c) by lra. unfold u in *. lra. }
    assert (Ec : Rabs (fl (r + IZR n / 2) - (r + IZR n / 2)) <= u * (IZR n + 2) + t).
    { eapply Rle_trans; [apply fl_error|]. fold u t. apply Rplus_le_compat_r. apply Rmult_le_compat_l; lra. }
    replace (fl (r + IZR n / 2) - c) with ((fl (r + IZR n / 2) - (r + IZR n / 2)) + (r + IZR n / 2 - c)) by ring. eapply Rle_trans; [apply Rabs_triang|]. unfold u in *. lra.
Qed.
(** On sensors with less than 2^40 pixels per axis the nearest integer of the result is the index. *)
Theorem C101_nearest : forall size n k, (1 <= k <= n)%Z -> (n <= 2 ^ 40)%Z -> / 2 ^ 100 <= size ->
  exists x c', index_to_local_double size n (IZR k) = Some x /\ local_to_index_double size n x = Some c' /\ ZnearestE c' = k.
Proof.
  intros size n k Hk Hn Hs. assert (K1 : 1 <= IZR k) by (apply IZR_le; lia). assert (K2 : IZR k <= IZR n) by (apply IZR_le; lia).
  destruct (C101_round_trip size n (IZR k)) as (x & c' & X1 & X2 & X3); [lia|auto|lra|]. exists x, c'. split; [exact X1|]. split; [exact X2|].
  apply Znearest_imp. assert (IZR n <= IZR (2 ^ 40)) by (apply IZR_le; lia). assert (E : IZR (2 ^ 40) = 2 ^ 40) by (cbn; lra). rewrite E in H. lra.
Qed.
(** An index which is not on the sensor is an error, for every pitch. *)
Theorem C101_outside : forall size n k, (1 <= n <= 2 ^ 20)%Z -> (k < 1 \/ n < k)%Z -> there_and_back size n k = None.
Proof.
  intros size n k Hn Hk. destruct (exact_parts n ltac:(lia)) as (E1 & _). unfold there_and_back, index_to_local_double. rewrite E1. destruct Hk as [Hk|Hk].
  - assert (IZR k <= 0) by (apply IZR_le; lia). rewrite (proj2 (Rleb_false _ _)) by lra. reflexivity.
  - assert (IZR (n + 1) <= IZR k) by (apply IZR_le; lia). rewrite plus_IZR in *. rewrite (proj2 (Rleb_false (IZR k) _)) by lra. rewrite andb_false_r. reflexivity.
Qed.
(** With a pitch of whole micrometres (up to 2^20) and up to 2^20 pixels per axis the conversion there and back is exact, also when the index is truncated. *)
Theorem C101_exact : forall s n k, (1 <= s <= 2 ^ 20)%Z -> (1 <= k <= n)%Z -> (n <= 2 ^ 20)%Z -> there_and_back (IZR s) n k = Some k.
Proof.
  intros s n k Hs Hk Hn. assert (K1 : 1 <= IZR k) by (apply IZR_le; lia). assert (K2 : IZR k <= IZR n) by (apply IZR_le; lia). assert (S0 : 1 <= IZR s) by (apply IZR_le; lia).
  destruct (exact_parts n ltac:(lia)) as (E1 & E2 & E3). unfold there_and_back, index_to_local_double. rewrite E1, E2, (proj2 (Rleb_true _ _)), (proj2 (Rleb_true _ _)) by lra.
  replace (IZR k - 1 / 2) with (IZR (2 * k - 1) / 2) by (rewrite minus_IZR, mult_IZR; lra). rewrite fl_half by lia.
  replace (IZR (2 * k - 1) / 2 - IZR n / 2) with (IZR (2 * k - 1 - n) / 2) by (rewrite (minus_IZR (2 * k - 1)); lra). rewrite fl_half by lia.
  replace (IZR s * (IZR (2 * k - 1 - n) / 2)) with (IZR (s * (2 * k - 1 - n)) / 2) by (rewrite mult_IZR; lra). rewrite fl_half by nia. cbn [andb].
  set (h := IZR (2 * k - 1 - n) / 2). assert (H0 : - (IZR n / 2) <= h <= IZR n / 2) by (unfold h; rewrite !minus_IZR, mult_IZR; lra).
  unfold local_to_index_double. rewrite E2, E3.
  replace (- (IZR n / 2) * IZR s) with (IZR (- n * s) / 2) by (rewrite mult_IZR, opp_IZR; lra). replace (IZR n / 2 * IZR s) with (IZR (n * s) / 2) by (rewrite mult_IZR; lra). rewrite !fl_half by nia.
  rewrite (proj2 (Rleb_true _ _)), (proj2 (Rleb_true _ _)).
  - cbn [andb option_map]. replace (IZR (s * (2 * k - 1 - n)) / 2 / IZR s) with h by (unfold h; rewrite mult_IZR; field; lra). unfold h. rewrite fl_half by lia.
    replace (IZR (2 * k - 1 - n) / 2 + 1 / 2) with (IZR (2 * k - n) / 2) by (rewrite !minus_IZR; lra). rewrite fl_half by lia.
    replace (IZR (2 * k - n) / 2 + IZR n / 2) with (IZR (2 * k) / 2) by (rewrite minus_IZR; lra). rewrite fl_half by lia.
    unfold stored_index. replace (IZR (2 * k) / 2) with (IZR k) by (rewrite mult_IZR; lra). rewrite Ztrunc_IZR. reflexivity.
  - apply Rmult_le_compat_r; [lra|]. apply IZR_le. nia.
  - apply Rmult_le_compat_r; [lra|]. apply IZR_le. nia.
Qed.

(** evaluation of the rounding at a number with the exponent e *)
Lemma fl_value x m e : (-1074 <= e)%Z -> bpow radix2 (e + 52) <= Rabs x < bpow radix2 (e + 53) -> Rabs (x * bpow radix2 (- e) - IZR m) < / 2 -> fl x = IZR m * bpow radix2 e.
Proof.
  intros He Hx Hm. unfold fl, round, F2R. cbn [Fnum Fexp].
  assert (C : cexp radix2 (FLT_exp (-1074) 53) x = e).
  { unfold cexp. rewrite (mag_unique radix2 x (e + 53)); [unfold FLT_exp; lia|]. replace (e + 53 - 1)%Z with (e + 52)%Z by lia. exact Hx. }
  unfold scaled_mantissa. rewrite C. f_equal. f_equal. apply Znearest_imp. exact Hm.
Qed.
(** the pitch of the MIMOSA26 sensor: the double 18.4 *)
Definition mimosa_pitch : R := IZR 5179139571476070 * bpow radix2 (-48).
Lemma mimosa_pitch_double : fl (184 / 10) = mimosa_pitch.
Proof. apply fl_value; [lia| |]. - cbn. rewrite Rabs_right by lra. lra. - cbn. apply Rabs_def1; lra. Qed.
(** Column 69 of the MIMOSA26 sensor (18.4 um, 1152 columns) becomes column 68. *)
Theorem C101_mimosa_refuted : there_and_back (fl (184 / 10)) 1152 69 = Some 68%Z.
Proof.
  rewrite mimosa_pitch_double. destruct (exact_parts 1152 ltac:(lia)) as (E1 & E2 & E3). unfold there_and_back, index_to_local_double. rewrite E1, E2.
  rewrite (proj2 (Rleb_true (1 / 2) 69)), (proj2 (Rleb_true 69 (1152 + 1 / 2))) by lra. cbn [andb].
  replace (69 - 1 / 2) with (IZR 137 / 2) by lra. rewrite fl_half by lia. replace (IZR 137 / 2 - 1152 / 2) with (IZR (- 1015) / 2) by lra. rewrite fl_half by lia.
  assert (X : fl (mimosa_pitch * (IZR (-1015) / 2)) = IZR (-9338)).
  { rewrite (fl_value _ (-5133619790086144) (-39)); [unfold mimosa_pitch; cbn; lra|lia| |]; unfold mimosa_pitch; cbn; [rewrite Rabs_left by lra; lra|apply Rabs_def1; lra]. }
  rewrite X. unfold local_to_index_double. rewrite E2, E3.
  assert (L : fl (- (1152 / 2) * mimosa_pitch) <= -9338). { rewrite <- X. apply fl_le. unfold mimosa_pitch. cbn. lra. }
  assert (U : -9338 <= fl (1152 / 2 * mimosa_pitch)). { rewrite <- X. apply fl_le. unfold mimosa_pitch. cbn. lra. }
  rewrite (proj2 (Rleb_true _ _) L), (proj2 (Rleb_true _ _) U). cbn [andb option_map].
  assert (Q : fl (-9338 / mimosa_pitch) = IZR (-8928034417541121) * bpow radix2 (-44)).
  { assert (M : -9338 / mimosa_pitch = -9338 * 281474976710656 / 5179139571476070) by (unfold mimosa_pitch; cbn; field; lra). rewrite M.
    apply fl_value; [lia| |]; cbn; [rewrite Rabs_left by lra; lra|apply Rabs_def1; lra]. }
  rewrite Q.
  assert (R1 : fl (IZR (-8928034417541121) * bpow radix2 (-44) + 1 / 2) = IZR (-8919238324518913) * bpow radix2 (-44)).
  { replace (IZR (-8928034417541121) * bpow radix2 (-44) + 1 / 2) with (IZR (-8919238324518913) * bpow radix2 (-44)) by (cbn; lra). apply fl_exact, format_dyadic; lia. }
  rewrite R1.
  assert (C : fl (IZR (-8919238324518913) * bpow radix2 (-44) + 1152 / 2) = IZR 4855443348258812 * bpow radix2 (-46)).
  { replace (IZR (-8919238324518913) * bpow radix2 (-44) + 1152 / 2) with (IZR 4855443348258812 * bpow radix2 (-46)) by (cbn; lra). apply fl_exact, format_dyadic; lia. }
  rewrite C. f_equal. unfold stored_index. rewrite Ztrunc_floor by (cbn; lra). apply Zfloor_imp. cbn. lra.
Qed.

Example C101_case : (1 <= 69 <= 1152)%Z /\ (1152 <= 2 ^ 40)%Z /\ / 2 ^ 100 <= fl (184 / 10) /\ 1 / 2 <= 69 + 1 / 3 <= IZR 1152 + 1 / 2.
Proof. rewrite mimosa_pitch_double. split; [lia|]. split; [lia|]. split; [unfold mimosa_pitch; cbn; lra|lra]. Qed.

Print Assumptions C101_round_trip.
Print Assumptions C101_nearest.
Print Assumptions C101_outside.
Print Assumptions C101_exact.
Print Assumptions C101_mimosa_refuted.
