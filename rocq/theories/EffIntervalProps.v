(** C105: the confidence interval of the efficiency. *)
From Coq Require Import List Arith Reals Lra Lia Bool Sorted.
From Coquelicot Require Import Coquelicot.
From Verif Require Import GeometryModel GeometryProofs PrealignModel BeamAlignModel BeamAlignProps HoughProps EfficiencyModel EffIntervalModel EffIntervalProofs.
Import ListNotations.
Local Open Scope R_scope.

Definition norm (k n : nat) : R := INR (fact (n + 1)) / (INR (fact k) * INR (fact (n - k))).
Lemma norm_pos k n : 0 < norm k n.
Proof. unfold norm. apply Rdiv_lt_0_compat; [apply fact_pos|apply Rmult_lt_0_compat; apply fact_pos]. Qed.
Definition dens (k n : nat) (x : R) : R := norm k n * mono k (n - k) x.
Definition cumul (k n : nat) (x : R) : R := RInt (dens k n) 0 x.
Lemma pdf_dens k n x : 0 <= x <= 1 -> eff_pdf k n x = dens k n x.
Proof. intros H. unfold eff_pdf, dens, norm, mono. rewrite !(proj2 (Rltb_false _ _)) by lra. cbn [orb]. ring. Qed.
Lemma dens_continuous k n x : continuous (dens k n) x.
Proof. apply (continuous_scal_r (V := R_NormedModule) (norm k n) (mono k (n - k))). apply mono_continuous. Qed.
Lemma dens_ex k n a b : ex_RInt (dens k n) a b.
Proof. apply (ex_RInt_continuous (V := R_CompleteNormedModule)). intros t _. apply dens_continuous. Qed.
Lemma cumul_derive k n x : is_derive (cumul k n) x (dens k n x).
Proof.
  apply (is_derive_RInt (V := R_NormedModule) (dens k n) (cumul k n) 0 x); [|apply dens_continuous].
  exists (mkposreal 1 Rlt_0_1). intros y _. apply (RInt_correct (V := R_CompleteNormedModule)). apply dens_ex.
Qed.
Lemma pdf_int k n a b : 0 <= a -> a <= b -> b <= 1 -> RInt (eff_pdf k n) a b = cumul k n b - cumul k n a.
Proof.
  intros Ha Hab Hb. rewrite (RInt_ext (eff_pdf k n) (dens k n)).
  - assert (C := RInt_Chasles (V := R_CompleteNormedModule) (dens k n) 0 a b (dens_ex _ _ _ _) (dens_ex _ _ _ _)). unfold cumul. rewrite <- C. unfold plus. cbn. match goal with |- @eq _ ?x ?y => change (@eq R x y) end. ring.
  - intros x Hx. rewrite Rmin_left, Rmax_right in Hx by lra. apply pdf_dens. lra.
Qed.
Lemma cumul_0 k n : cumul k n 0 = 0.
Proof. unfold cumul. apply (RInt_point (V := R_CompleteNormedModule)). Qed.
Lemma cumul_1 k n : (k <= n)%nat -> cumul k n 1 = 1.
Proof.
  intros H. unfold cumul. unfold dens. rewrite RInt_scale by apply mono_ex. rewrite beta_value. unfold norm. replace (k + (n - k) + 1)%nat with (n + 1)%nat by lia.
  assert (A := fact_pos k). assert (B := fact_pos (n - k)). assert (C := fact_pos (n + 1)). match goal with |- @eq _ ?x ?y => change (@eq R x y) end. field. lra.
Qed.
Lemma cdf_cumul k n x : 0 <= x <= 1 -> eff_cdf k n x = cumul k n x.
Proof. intros H. unfold eff_cdf. rewrite pdf_int by lra. rewrite cumul_0. match goal with |- @eq _ ?x ?y => change (@eq R x y) end. ring. Qed.
Lemma integ_cumul k n a b : 0 <= a -> a <= b -> b <= 1 -> interval_integ a b k n = cumul k n b - cumul k n a.
Proof. intros Ha Hab Hb. unfold interval_integ. rewrite !cdf_cumul by lra. reflexivity. Qed.

Lemma dens_pos k n x : 0 < x < 1 -> 0 < dens k n x.
Proof. intros H. apply Rmult_lt_0_compat; [apply norm_pos|apply mono_pos, H]. Qed.
Lemma rate_bounds k n : (k <= n)%nat -> (1 <= n)%nat -> 0 <= INR k / INR n <= 1.
Proof.
  intros H N. assert (P : 0 < INR n) by (apply lt_0_INR; lia). assert (K := pos_INR k). assert (L := le_INR _ _ H). split; [apply Rmult_le_pos; [lra|apply Rlt_le, Rinv_0_lt_compat, P]|].
  apply Rmult_le_reg_r with (INR n); [exact P|]. unfold Rdiv. rewrite Rmult_assoc, Rinv_l; lra.
Qed.
Lemma rate_mult k n : (1 <= n)%nat -> INR n * (INR k / INR n) = INR k.
Proof. intros N. assert (P : 0 < INR n) by (apply lt_0_INR; lia). field. lra. Qed.
Lemma dens_up k n x y : (k <= n)%nat -> (1 <= n)%nat -> 0 <= x -> x < y -> y <= INR k / INR n -> dens k n x < dens k n y.
Proof.
  intros H N Hx Hxy Hy. assert (P : 0 < INR n) by (apply lt_0_INR; lia). apply Rmult_lt_compat_l; [apply norm_pos|]. pose proof (rate_bounds k n H N). apply mono_up; [lia|lra|lra|lra|].
  replace (INR k + INR (n - k)) with (INR n) by (rewrite minus_INR by lia; ring). rewrite <- (rate_mult k n N). apply Rmult_le_compat_l; lra.
Qed.
Lemma dens_down k n x y : (k <= n)%nat -> (1 <= n)%nat -> INR k / INR n <= x -> x < y -> y <= 1 -> dens k n y < dens k n x.
Proof.
  intros H N Hx Hxy Hy. assert (P : 0 < INR n) by (apply lt_0_INR; lia). apply Rmult_lt_compat_l; [apply norm_pos|]. pose proof (rate_bounds k n H N). apply mono_down; [lia|lra|lra|lra|].
  replace (INR k + INR (n - k)) with (INR n) by (rewrite minus_INR by lia; ring). rewrite <- (rate_mult k n N). apply Rmult_le_compat_l; lra.
Qed.
Lemma dens_top k n x : (k <= n)%nat -> (1 <= n)%nat -> 0 <= x <= 1 -> dens k n x <= dens k n (INR k / INR n).
Proof.
  intros H N Hx. destruct (Rtotal_order x (INR k / INR n)) as [X|[X|X]].
  - apply Rlt_le, dens_up; auto; lra.
  - rewrite X. lra.
  - apply Rlt_le, dens_down; auto; lra.
Qed.
Definition best_limits (k n : nat) (alpha : R) : R * R -> Prop := best (cumul k n) alpha.
Lemma solution_best k n alpha x : (k <= n)%nat -> (1 <= n)%nat -> 0 < alpha < 1 -> solution k n alpha x <-> best_limits k n alpha x.
Proof.
  intros H N A. pose proof (rate_bounds k n H N) as He.
  assert (Mode : forall x, best_limits k n alpha x -> fst x <= INR k / INR n <= snd x).
  { intros y. apply (best_mode (cumul k n) (dens k n) (INR k / INR n) (dens k n (INR k / INR n)) alpha); auto.
    - intros; apply cumul_derive.
    - intros; apply dens_pos; auto.
    - intros; apply dens_top; auto.
    - intros; apply dens_up; auto.
    - intros; apply dens_down; auto. }
  assert (Ab : forall y, best_limits k n alpha y -> allowed k n alpha y).
  { intros y By. pose proof (Mode y By) as M. destruct By as (B1 & B2 & B3 & B4 & _). unfold allowed. split; [lra|]. split; [lra|]. rewrite integ_cumul by lra. rewrite B4. replace (alpha - alpha) with 0 by ring. apply Rabs_R0. }
  assert (Al : forall y, allowed k n alpha y -> 0 <= fst y /\ fst y <= snd y /\ snd y <= 1 /\ cumul k n (snd y) - cumul k n (fst y) = alpha).
  { intros y (A1 & A2 & A3). rewrite integ_cumul in A3 by lra. destruct (Req_dec (cumul k n (snd y) - cumul k n (fst y) - alpha) 0) as [Z|Z]; [lra|]. destruct (Rabs_no_R0 _ Z A3). }
  split.
  - intros [Sa Sm]. destruct (exists_best (cumul k n) (dens k n) (dens k n (INR k / INR n)) alpha) as (z & Bz); auto.
    { intros; apply cumul_derive. } { apply cumul_0. } { apply cumul_1, H. } { intros; apply dens_pos; auto. } { intros; apply dens_top; auto. }
    destruct (Al x Sa) as (A1 & A2 & A3 & A4). specialize (Sm z (Ab z Bz)). unfold minimize_me in Sm. destruct Bz as (B1 & B2 & B3 & B4 & B5). unfold best_limits, best.
    split; [lra|]. split; [destruct A2 as [A2|A2]; [exact A2|rewrite A2 in A4; lra]|]. split; [lra|]. split; [exact A4|]. intros c d C1 C2 C3 C4. specialize (B5 c d C1 C2 C3 C4). lra.
  - intros B. split; [apply Ab, B|]. intros y Sy. destruct (Al y Sy) as (A1 & A2 & A3 & A4). destruct B as (B1 & B2 & B3 & B4 & B5). unfold minimize_me. apply B5; lra.
Qed.

(** The density of the efficiency is a probability density on the interval from 0 to 1. *)
Theorem C105_density k n : (k <= n)%nat -> (forall x, 0 <= eff_pdf k n x) /\ (forall x, x < 0 \/ 1 < x -> eff_pdf k n x = 0) /\ RInt (eff_pdf k n) 0 1 = 1.
Proof.
  intros H. split; [|split].
  - intros x. destruct (Rle_or_lt 0 x) as [A|A]; [destruct (Rle_or_lt x 1) as [B|B]|].
    + rewrite pdf_dens by lra. apply Rmult_le_pos; [apply Rlt_le, norm_pos|apply mono_nonneg; lra].
    + unfold eff_pdf. rewrite (proj2 (Rltb_true 1 x)) by lra. rewrite orb_true_r. lra.
    + unfold eff_pdf. rewrite (proj2 (Rltb_true x 0)) by lra. cbn [orb]. lra.
  - intros x [A|A]; unfold eff_pdf; [rewrite (proj2 (Rltb_true x 0)) by lra|rewrite (proj2 (Rltb_true 1 x)) by lra; rewrite orb_true_r]; reflexivity.
  - rewrite pdf_int by lra. rewrite cumul_0, cumul_1 by exact H. match goal with |- @eq _ ?x ?y => change (@eq R x y) end. ring.
Qed.
(** The efficiency is the most probable value: the density grows up to it and falls behind it. *)
Theorem C105_mode k n : (k <= n)%nat -> (1 <= n)%nat ->
  (forall x y, 0 <= x < y -> y <= INR k / INR n -> eff_pdf k n x < eff_pdf k n y) /\ (forall x y, INR k / INR n <= x < y -> y <= 1 -> eff_pdf k n y < eff_pdf k n x).
Proof.
  intros H N. pose proof (rate_bounds k n H N). split; intros x y Hx Hy; rewrite !pdf_dens by lra; [apply dens_up|apply dens_down]; auto; lra.
Qed.
Lemma moment_1 k n : (k <= n)%nat -> RInt (fun x => x * dens k n x) 0 1 = (INR k + 1) / (INR n + 2).
Proof.
  intros H. rewrite (RInt_ext _ (fun x => norm k n * mono (S k) (n - k) x)).
  - rewrite RInt_scale by apply mono_ex. rewrite beta_value. replace (S k + (n - k) + 1)%nat with (S (n + 1)) by lia. rewrite (fact_simpl (n + 1)), (fact_simpl k), !mult_INR, !S_INR, plus_INR. unfold norm.
    assert (A := fact_pos k). assert (B := fact_pos (n - k)). assert (C := fact_pos (n + 1)). assert (D := pos_INR n). match goal with |- @eq _ ?x ?y => change (@eq R x y) end. cbn [INR]. field. lra.
  - intros x _. unfold dens, mono. cbn [pow]. match goal with |- @eq _ ?x ?y => change (@eq R x y) end. ring.
Qed.
Lemma moment_2 k n : (k <= n)%nat -> RInt (fun x => x * x * dens k n x) 0 1 = (INR k + 1) * (INR k + 2) / ((INR n + 2) * (INR n + 3)).
Proof.
  intros H. rewrite (RInt_ext _ (fun x => norm k n * mono (S (S k)) (n - k) x)).
  - rewrite RInt_scale by apply mono_ex. rewrite beta_value. replace (S (S k) + (n - k) + 1)%nat with (S (S (n + 1))) by lia. rewrite (fact_simpl (S (n + 1))), (fact_simpl (n + 1)), (fact_simpl (S k)), (fact_simpl k), !mult_INR, !S_INR, plus_INR. unfold norm.
    assert (A := fact_pos k). assert (B := fact_pos (n - k)). assert (C := fact_pos (n + 1)). assert (D := pos_INR n). match goal with |- @eq _ ?x ?y => change (@eq R x y) end. cbn [INR]. field. lra.
  - intros x _. unfold dens, mono. cbn [pow]. match goal with |- @eq _ ?x ?y => change (@eq R x y) end. ring.
Qed.
(** The mean of the density is (k + 1) / (n + 2).  It is the returned efficiency only if half of the tracks have a hit. *)
Theorem C105_expectation k n : (k <= n)%nat -> (1 <= n)%nat ->
  RInt (fun x => x * eff_pdf k n x) 0 1 = (INR k + 1) / (INR n + 2) /\ (RInt (fun x => x * eff_pdf k n x) 0 1 = INR k / INR n <-> n = (2 * k)%nat).
Proof.
  intros H N. assert (E : RInt (fun x => x * eff_pdf k n x) 0 1 = (INR k + 1) / (INR n + 2)).
  { rewrite <- (moment_1 k n H). apply RInt_ext. intros x Hx. rewrite Rmin_left, Rmax_right in Hx by lra. rewrite pdf_dens by lra. reflexivity. }
  split; [exact E|]. rewrite E. assert (P : 0 < INR n) by (apply lt_0_INR; lia). split.
  - intros Q. match type of Q with @eq _ ?x ?y => change (@eq R x y) in Q end. assert (Q2 : (INR k + 1) * INR n = INR k * (INR n + 2)).
    { replace ((INR k + 1) * INR n) with ((INR k + 1) / (INR n + 2) * (INR n * (INR n + 2))) by (field; lra). rewrite Q. field. lra. }
    apply INR_eq. rewrite mult_INR. cbn [INR]. lra.
  - intros ->. rewrite mult_INR in *. cbn [INR] in *. match goal with |- @eq _ ?x ?y => change (@eq R x y) end. field. lra.
Qed.
(** The problem posed to the optimizer has exactly one solution, and it is the shortest of all intervals that contain the probability: the bounds on the limits exclude nothing shorter. *)
Theorem C105_interval k n alpha : (k <= n)%nat -> (1 <= n)%nat -> 0 < alpha < 1 ->
  exists x, solution k n alpha x /\ (forall y, solution k n alpha y -> y = x) /\ RInt (eff_pdf k n) (fst x) (snd x) = alpha /\
    forall c d, 0 <= c <= d -> d <= 1 -> alpha <= RInt (eff_pdf k n) c d -> snd x - fst x <= d - c.
Proof.
  intros H N A. pose proof (rate_bounds k n H N) as He. destruct (exists_best (cumul k n) (dens k n) (dens k n (INR k / INR n)) alpha) as (z & Bz); auto.
  { intros; apply cumul_derive. } { apply cumul_0. } { apply cumul_1, H. } { intros; apply dens_pos; auto. } { intros; apply dens_top; auto. }
  exists z. split; [apply solution_best; auto|]. split; [|split].
  - intros y Sy. apply solution_best in Sy; auto. apply (best_unique (cumul k n) (dens k n) (INR k / INR n) (dens k n (INR k / INR n)) alpha); auto.
    + intros; apply cumul_derive.
    + intros; apply dens_pos; auto.
    + intros; apply dens_top; auto.
    + intros; apply dens_up; auto.
    + intros; apply dens_down; auto.
  - destruct Bz as (B1 & B2 & B3 & B4 & B5). rewrite pdf_int by lra. exact B4.
  - intros c d C1 C2 C3. destruct Bz as (B1 & B2 & B3 & B4 & B5). rewrite pdf_int in C3 by lra. apply B5; lra.
Qed.
Lemma cumul_full n x : cumul n n x = x ^ (n + 1).
Proof.
  replace (n + 1)%nat with (S n) by lia. unfold cumul. replace (x ^ S n) with (x ^ S n - 0 ^ S n) by (rewrite pow_i by lia; ring). apply is_RInt_unique.
  assert (Q := fact_pos n). assert (P := pos_INR n). assert (C : norm n n = INR n + 1). { unfold norm. replace (n - n)%nat with O by lia. replace (n + 1)%nat with (S n) by lia. rewrite fact_simpl, mult_INR, S_INR. cbn [fact INR]. field. lra. }
  apply (is_RInt_derive (V := R_CompleteNormedModule) (fun x => x ^ S n) (dens n n)).
  - intros t _. unfold dens, mono. rewrite C. replace (n - n)%nat with O by lia. auto_derive; [exact I|].
    replace (match n with O => 1 | S _ => INR n + 1 end) with (INR n + 1) by (destruct n; cbn; ring). cbn [pred]. rewrite pow_O. ring.
  - intros t _. apply dens_continuous.
Qed.
Lemma dens_mirror k n x : (k <= n)%nat -> dens (n - k) n x = dens k n (1 - x).
Proof. intros H. unfold dens, norm, mono. replace (n - (n - k))%nat with k by lia. replace (1 - (1 - x)) with x by ring. rewrite (Rmult_comm (INR (fact k))). ring. Qed.
Lemma cumul_mirror k n x : (k <= n)%nat -> cumul (n - k) n x = 1 - cumul k n (1 - x).
Proof.
  intros H. assert (D : is_RInt (dens (n - k) n) 0 x ((1 - cumul k n (1 - x)) - (1 - cumul k n (1 - 0)))).
  { apply (is_RInt_derive (V := R_CompleteNormedModule) (fun x => 1 - cumul k n (1 - x)) (dens (n - k) n)); [|intros t _; apply dens_continuous].
    intros t _. rewrite dens_mirror by exact H. replace (dens k n (1 - t)) with (minus 0 (scal (Ropp 1) (dens k n (1 - t)))) by (unfold minus, plus, opp, scal; cbn; unfold mult; cbn; ring).
    apply (is_derive_minus (V := R_NormedModule) (fun _ => 1) (fun x => cumul k n (1 - x))); [apply (is_derive_const (V := R_NormedModule))|].
    apply (is_derive_comp (V := R_NormedModule) (cumul k n) (fun a => 1 - a)); [apply cumul_derive|]. auto_derive; [exact I|]. ring. }
  unfold cumul at 1. rewrite (is_RInt_unique _ _ _ _ D). replace (1 - 0) with 1 by ring. rewrite cumul_1 by exact H. match goal with |- @eq _ ?x ?y => change (@eq R x y) end. ring.
Qed.
(** If more than zero and fewer than all [n] tracks have a hit, the limits are inside of the range and equally probable.  Without hit the lower limit is 0, with hits for all tracks the upper limit is 1. *)
Theorem C105_limits k n alpha x : (k <= n)%nat -> (1 <= n)%nat -> 0 < alpha < 1 -> solution k n alpha x ->
  ((0 < k < n)%nat -> 0 < fst x /\ snd x < 1 /\ eff_pdf k n (fst x) = eff_pdf k n (snd x)) /\
  (k = 0%nat -> fst x = 0 /\ (1 - snd x) ^ (n + 1) = 1 - alpha) /\ (k = n -> snd x = 1 /\ fst x ^ (n + 1) = 1 - alpha).
Proof.
  intros H N A Sx. pose proof (rate_bounds k n H N) as He. apply solution_best in Sx; auto.
  assert (Lo := best_lower (cumul k n) (dens k n) (INR k / INR n) (dens k n (INR k / INR n)) alpha). assert (Hi := best_upper (cumul k n) (dens k n) (INR k / INR n) (dens k n (INR k / INR n)) alpha).
  assert (Lv := best_level (cumul k n) (dens k n) (dens k n (INR k / INR n)) alpha).
  assert (Mo := best_mode (cumul k n) (dens k n) (INR k / INR n) (dens k n (INR k / INR n)) alpha).
  specialize (Lo ltac:(intros; apply cumul_derive) He ltac:(intros; apply dens_pos; auto) ltac:(intros; apply dens_top; auto) ltac:(intros; apply dens_up; auto) ltac:(intros; apply dens_down; auto) x Sx).
  specialize (Hi ltac:(intros; apply cumul_derive) He ltac:(intros; apply dens_pos; auto) ltac:(intros; apply dens_top; auto) ltac:(intros; apply dens_up; auto) ltac:(intros; apply dens_down; auto) x Sx).
  specialize (Mo ltac:(intros; apply cumul_derive) He ltac:(intros; apply dens_pos; auto) ltac:(intros; apply dens_top; auto) ltac:(intros; apply dens_up; auto) ltac:(intros; apply dens_down; auto) x Sx).
  specialize (Lv ltac:(intros; apply cumul_derive) ltac:(intros; apply dens_pos; auto) ltac:(intros; apply dens_top; auto) x Sx).
  assert (P : 0 < INR n) by (apply lt_0_INR; lia). destruct Sx as (B1 & B2 & B3 & B4 & B5). split; [|split].
  - intros K. assert (Z0 : dens k n 0 = 0). { unfold dens, mono. rewrite pow_i by lia. ring. } assert (Z1 : dens k n 1 = 0). { unfold dens, mono. replace (1 - 1) with 0 by ring. rewrite (pow_i (n - k)) by lia. ring. }
    assert (X : 0 < fst x). { destruct B1 as [B1|B1]; [exact B1|]. exfalso. rewrite <- B1, Z0 in *. destruct B3 as [B3|B3]; [apply Lo; [exact B3|apply dens_pos; lra]|]. rewrite B3, cumul_0, cumul_1 in B4 by exact H. lra. }
    assert (Y : snd x < 1). { destruct B3 as [B3|B3]; [exact B3|]. exfalso. rewrite B3, Z1 in *. apply Hi; [exact X|apply dens_pos; lra]. }
    split; [exact X|]. split; [exact Y|]. rewrite !pdf_dens by lra. apply Lv; auto.
  - intros ->. assert (E : INR 0 / INR n = 0) by (cbn [INR]; field; lra). rewrite E in Mo. assert (F0 : fst x = 0) by lra. split; [exact F0|]. rewrite F0, cumul_0 in B4.
    pose proof (cumul_mirror n n (snd x) (le_n n)) as M. replace (n - n)%nat with O in M by lia. rewrite cumul_full in M. lra.
  - intros ->. assert (E : INR n / INR n = 1) by (field; lra). rewrite E in Mo. assert (F1 : snd x = 1) by lra. split; [exact F1|]. rewrite F1, !cumul_full, pow1 in B4. lra.
Qed.
(** The errors have the right signs, the limits are possible efficiencies, and an error is zero only at the ends of the range.  The exception: no tracks, or more tracks with hit than tracks. *)
Theorem C105_errors pass all alpha x : 0 < alpha < 1 -> let k := total pass in let n := total all in
  (efficiency_errors pass all x = None <-> n = 0%nat \/ (n < k)%nat) /\
  forall eff lo hi, efficiency_errors pass all x = Some (eff, lo, hi) -> solution k n alpha x ->
    eff = INR k / INR n /\ lo <= 0 <= hi /\ 0 <= eff + lo /\ eff + hi <= 1 /\ RInt (eff_pdf k n) (eff + lo) (eff + hi) = alpha /\ (lo = 0 <-> k = 0%nat) /\ (hi = 0 <-> k = n).
Proof.
  intros A k n. unfold efficiency_errors, mean_efficiency. fold k n. destruct (Nat.eqb_spec n 0) as [Z|Z]; [cbn [orb]; split; [tauto|discriminate]|].
  destruct (Nat.ltb_spec n k) as [L|L]; cbn [orb]; [split; [split; [auto|reflexivity]|discriminate]|]. split; [split; [discriminate|lia]|].
  intros eff lo hi E Sx. injection E as <- <- <-. split; [reflexivity|]. assert (N : (1 <= n)%nat) by lia. pose proof (C105_limits k n alpha x L N A Sx) as (L1 & L2 & L3).
  assert (P : 0 < INR n) by (apply lt_0_INR; lia).
  assert (Sx' := Sx). destruct Sx as [(S1 & S2 & S3) _]. apply solution_best in Sx'; auto. destruct Sx' as (B1 & B2 & B3 & B4 & B5).
  replace (INR k / INR n + (fst x - INR k / INR n)) with (fst x) by ring. replace (INR k / INR n + (snd x - INR k / INR n)) with (snd x) by ring.
  split; [lra|]. split; [lra|]. split; [lra|]. split; [rewrite pdf_int by lra; exact B4|].
  assert (K : k = 0%nat \/ k = n \/ (0 < k < n)%nat) by lia. destruct K as [K|[K|K]].
  - destruct (L2 K) as [F0 _]. assert (Ek : INR k / INR n = 0) by (rewrite K; cbn [INR]; field; lra). split; (split; [intros; lia || lra|intros; lra || (exfalso; lia)]).
  - destruct (L3 K) as [F1 _]. assert (Ek : INR k / INR n = 1) by (rewrite K; field; lra). split; (split; [intros; lia || (exfalso; lra)|intros; lra || (exfalso; lia)]).
  - destruct (L1 K) as (F0 & F1 & Fe). rewrite !pdf_dens in Fe by lra. split; (split; [intros Q; exfalso|intros Q; exfalso; lia]).
    + assert (fst x = INR k / INR n) by lra. assert (dens k n (snd x) < dens k n (fst x)) by (apply dens_down; auto; lra). lra.
    + assert (snd x = INR k / INR n) by lra. assert (dens k n (fst x) < dens k n (snd x)) by (apply dens_up; auto; lra). lra.
Qed.
(** Tracks with and without hit play symmetric roles: the interval of the inefficiency is the mirrored interval. *)
Theorem C105_mirror k n alpha x : (k <= n)%nat -> (1 <= n)%nat -> 0 < alpha < 1 -> solution k n alpha x -> solution (n - k) n alpha (1 - snd x, 1 - fst x).
Proof.
  intros H N A Sx. apply solution_best in Sx; auto. apply solution_best; [lia|exact N|exact A|]. destruct Sx as (B1 & B2 & B3 & B4 & B5). unfold best_limits, best. cbn [fst snd].
  split; [lra|]. split; [lra|]. split; [lra|]. rewrite !cumul_mirror by exact H. replace (1 - (1 - fst x)) with (fst x) by ring. replace (1 - (1 - snd x)) with (snd x) by ring. split; [lra|].
  intros c d C1 C2 C3 C4. rewrite !cumul_mirror in C4 by exact H. specialize (B5 (1 - d) (1 - c) ltac:(lra) ltac:(lra) ltac:(lra) ltac:(lra)). lra.
Qed.
(** The interval is not longer than 1 / sqrt((1 - alpha) (n + 3)): the errors vanish for many tracks (Chebyshev's inequality). *)
Theorem C105_width k n alpha x : (k <= n)%nat -> (1 <= n)%nat -> 0 < alpha < 1 -> solution k n alpha x ->
  (snd x - fst x) ^ 2 <= 4 * (INR k + 1) * (INR n - INR k + 1) / ((INR n + 2) ^ 2 * (INR n + 3) * (1 - alpha)) /\ (snd x - fst x) ^ 2 <= 1 / ((INR n + 3) * (1 - alpha)).
Proof.
  intros H N A Sx. apply solution_best in Sx; auto. assert (P : 0 < INR n) by (apply lt_0_INR; lia). assert (K := pos_INR k). assert (L := le_INR _ _ H).
  set (mu := (INR k + 1) / (INR n + 2)). set (var := (INR k + 1) * (INR n - INR k + 1) / ((INR n + 2) ^ 2 * (INR n + 3))).
  assert (Q2 : 0 < (INR n + 2) ^ 2) by (apply pow_lt; lra). assert (Q3 : 0 < (INR n + 2) ^ 2 * (INR n + 3)) by (apply Rmult_lt_0_compat; lra).
  assert (Vp : 0 < var). { apply Rdiv_lt_0_compat; [apply Rmult_lt_0_compat; lra|exact Q3]. }
  assert (Mu : 0 < mu < 1). { split; [apply Rdiv_lt_0_compat; lra|]. apply Rmult_lt_reg_r with (INR n + 2); [lra|]. unfold mu. replace ((INR k + 1) / (INR n + 2) * (INR n + 2)) with (INR k + 1) by (field; lra). lra. }
  set (w := fun t => (t - mu) ^ 2 * dens k n t). set (V := fun t => RInt w 0 t).
  assert (wc : forall t, continuous w t).
  { intros t. apply (continuous_mult (K := R_AbsRing) (fun t => (t - mu) ^ 2) (dens k n)); [|apply dens_continuous]. apply (ex_derive_continuous (fun t => (t - mu) ^ 2)). auto_derive. exact I. }
  assert (wi : forall a b, ex_RInt w a b) by (intros a b; apply (ex_RInt_continuous (V := R_CompleteNormedModule)); intros t _; apply wc).
  assert (Vd : forall t, is_derive V t (w t)).
  { intros t. apply (is_derive_RInt (V := R_NormedModule) w V 0 t); [|apply wc]. exists (mkposreal 1 Rlt_0_1). intros y _. apply (RInt_correct (V := R_CompleteNormedModule)). apply wi. }
  assert (V0 : V 0 = 0) by apply (RInt_point (V := R_CompleteNormedModule)).
  assert (V1 : V 1 = var).
  { assert (i1 : ex_RInt (fun t => t * dens k n t) 0 1). { apply (ex_RInt_continuous (V := R_CompleteNormedModule)). intros t _. apply (continuous_mult (K := R_AbsRing) (fun t => t) (dens k n)); [apply continuous_id|apply dens_continuous]. }
    assert (i2 : ex_RInt (fun t => t * t * dens k n t) 0 1). { apply (ex_RInt_continuous (V := R_CompleteNormedModule)). intros t _. apply (continuous_mult (K := R_AbsRing) (fun t => t * t) (dens k n)); [apply (continuous_mult (K := R_AbsRing)); apply continuous_id|apply dens_continuous]. }
    assert (I1 := RInt_correct (V := R_CompleteNormedModule) _ _ _ i1). assert (I2 := RInt_correct (V := R_CompleteNormedModule) _ _ _ i2). assert (I0 := RInt_correct (V := R_CompleteNormedModule) _ _ _ (dens_ex k n 0 1)).
    rewrite (moment_1 k n H) in I1. rewrite (moment_2 k n H) in I2. change (RInt (dens k n) 0 1) with (cumul k n 1) in I0. rewrite (cumul_1 k n H) in I0.
    assert (J := is_RInt_plus (V := R_NormedModule) _ _ _ _ _ _ (is_RInt_minus (V := R_NormedModule) _ _ _ _ _ _ I2 (is_RInt_scal (V := R_NormedModule) _ _ _ (2 * mu) _ I1)) (is_RInt_scal (V := R_NormedModule) _ _ _ (mu ^ 2) _ I0)).
    unfold V. apply is_RInt_unique. match type of J with is_RInt _ _ _ ?v => replace var with v end.
    - apply (is_RInt_ext (V := R_NormedModule) _ w _ _ _) in J; [exact J|]. intros t _. unfold w, minus, plus, opp, scal. cbn -[pow]. unfold mult. cbn -[pow]. ring.
    - unfold minus, plus, opp, scal. cbn -[pow]. unfold mult. cbn -[pow]. unfold var, mu. field. lra. }
  set (d2 := var / (1 - alpha)). assert (D2 : 0 < d2) by (apply Rdiv_lt_0_compat; lra). set (d := sqrt d2). assert (Dp : 0 < d) by (apply sqrt_lt_R0, D2). assert (Ds : d * d = d2) by (apply sqrt_sqrt; lra).
  set (a := Rmax 0 (mu - d)). set (b := Rmin 1 (mu + d)).
  assert (a0 : 0 <= a) by apply Rmax_l. assert (b1 : b <= 1) by apply Rmin_l. assert (am : a < mu) by (apply Rmax_lub_lt; lra). assert (bm : mu < b) by (apply Rmin_glb_lt; lra).
  assert (a2 : mu - d <= a) by apply Rmax_r. assert (b2 : b <= mu + d) by apply Rmin_r.
  set (G := fun t => V t - d2 * cumul k n t). assert (Gd : forall t, is_derive G t (((t - mu) ^ 2 - d2) * dens k n t)).
  { intros t. replace (((t - mu) ^ 2 - d2) * dens k n t) with (minus (w t) (scal d2 (dens k n t))) by (unfold w, minus, plus, opp, scal; cbn -[pow]; unfold mult; cbn -[pow]; ring).
    apply (is_derive_minus (V := R_NormedModule) V (fun t => d2 * cumul k n t)); [apply Vd|]. apply (is_derive_scal (cumul k n) t d2 (dens k n t)). apply cumul_derive. }
  assert (Ga : G 0 <= G a).
  { destruct a0 as [a0|a0]; [|rewrite <- a0; lra]. apply Rlt_le, (increasing_by G (fun t => ((t - mu) ^ 2 - d2) * dens k n t)); [exact a0|intros; apply Gd|]. intros t Ht.
    assert (ae : a = mu - d). { unfold a in *. unfold Rmax in *. destruct (Rle_dec 0 (mu - d)); lra. }
    apply Rmult_lt_0_compat; [|apply dens_pos; lra]. rewrite <- Ds. assert (0 < (mu - t - d) * (mu - t + d)) by (apply Rmult_lt_0_compat; lra). cbn [pow]. lra. }
  assert (Gb : G b <= G 1).
  { destruct b1 as [b1|b1]; [|rewrite b1; lra]. apply Rlt_le, (increasing_by G (fun t => ((t - mu) ^ 2 - d2) * dens k n t)); [exact b1|intros; apply Gd|]. intros t Ht.
    assert (be : b = mu + d). { unfold b in *. unfold Rmin in *. destruct (Rle_dec 1 (mu + d)); lra. }
    apply Rmult_lt_0_compat; [|apply dens_pos; lra]. rewrite <- Ds. assert (0 < (t - mu - d) * (t - mu + d)) by (apply Rmult_lt_0_compat; lra). cbn [pow]. lra. }
  assert (Vm : V a <= V b).
  { assert (V a <= V mu /\ V mu <= V b); [|lra]. split; apply Rlt_le, (increasing_by V w); try lra; try (intros; apply Vd); intros t Ht; (apply Rmult_lt_0_compat; [apply pow2_gt_0; lra|apply dens_pos; lra]). }
  unfold G in Ga, Gb. rewrite V0, cumul_0 in Ga. rewrite V1, cumul_1 in Gb by exact H.
  assert (C : alpha <= cumul k n b - cumul k n a).
  { assert (X : d2 * (1 - (cumul k n b - cumul k n a)) <= var) by lra. assert (Y : var = d2 * (1 - alpha)) by (unfold d2; field; lra). rewrite Y in X. apply Rmult_le_reg_l in X; lra. }
  destruct Sx as (B1 & B2 & B3 & B4 & B5). specialize (B5 a b ltac:(lra) ltac:(lra) ltac:(lra) C). assert (W : (snd x - fst x) ^ 2 <= 4 * d2). { rewrite <- Ds. replace (4 * (d * d)) with ((2 * d) ^ 2) by ring. apply pow_incr. lra. }
  assert (E : 4 * d2 = 4 * (INR k + 1) * (INR n - INR k + 1) / ((INR n + 2) ^ 2 * (INR n + 3) * (1 - alpha))) by (unfold d2, var; field; lra).
  split; [rewrite <- E; exact W|]. apply Rle_trans with (1 := W). rewrite E.
  assert (R1 : 4 * (INR k + 1) * (INR n - INR k + 1) <= (INR n + 2) ^ 2). { assert (S0 := pow2_ge_0 ((INR k + 1) - (INR n - INR k + 1))). cbn [pow] in *. lra. }
  assert (P3 : 0 < (INR n + 3) * (1 - alpha)) by (apply Rmult_lt_0_compat; lra).
  replace (1 / ((INR n + 3) * (1 - alpha))) with ((INR n + 2) ^ 2 * / ((INR n + 2) ^ 2 * (INR n + 3) * (1 - alpha))) by (field; lra).
  apply Rmult_le_compat_r; [|exact R1]. apply Rlt_le, Rinv_0_lt_compat. rewrite Rmult_assoc. apply Rmult_lt_0_compat; lra.
Qed.
(** Probabilities above 1 or below 0 have no interval. *)
Theorem C105_impossible k n alpha x : (k <= n)%nat -> (1 <= n)%nat -> alpha < 0 \/ 1 < alpha -> ~ allowed k n alpha x.
Proof.
  intros H N A (A1 & A2 & A3). pose proof (rate_bounds k n H N) as He. rewrite integ_cumul in A3 by lra.
  assert (E : cumul k n (snd x) - cumul k n (fst x) = alpha). { destruct (Req_dec (cumul k n (snd x) - cumul k n (fst x) - alpha) 0) as [Z|Z]; [lra|]. destruct (Rabs_no_R0 _ Z A3). }
  assert (M : forall u v, 0 <= u -> u <= v -> v <= 1 -> cumul k n u <= cumul k n v).
  { intros u v. apply (F_le (cumul k n) (dens k n)); [intros; apply cumul_derive|intros; apply dens_pos; auto]. }
  assert (M1 := M 0 (fst x) ltac:(lra) ltac:(lra) ltac:(lra)). assert (M2 := M (fst x) (snd x) ltac:(lra) ltac:(lra) ltac:(lra)). assert (M3 := M (snd x) 1 ltac:(lra) ltac:(lra) ltac:(lra)).
  rewrite cumul_0 in M1. rewrite cumul_1 in M3 by exact H. lra.
Qed.

(** ** Start values *)
Lemma sorted_filter (f : R -> bool) l : StronglySorted Rle l -> StronglySorted Rle (filter f l).
Proof.
  induction 1 as [|x l Hs IH Hf]; cbn [filter]; [constructor|]. destruct (f x); [|exact IH]. constructor; [exact IH|]. rewrite Forall_forall in *. intros y Hy. apply filter_In in Hy. apply Hf, Hy.
Qed.
Lemma sorted_nth l : StronglySorted Rle l -> forall i j, (i <= j)%nat -> (j < length l)%nat -> nth i l 0 <= nth j l 0.
Proof.
  induction 1 as [|x l Hs IH Hf]; cbn [length]; intros i j Hij Hj; [lia|]. rewrite Forall_forall in Hf. destruct i as [|i], j as [|j]; cbn [nth]; try lia; [lra| |].
  - apply Hf, nth_In. lia.
  - apply IH; lia.
Qed.
Lemma sorted_map f n s : (forall i j, (i <= j)%nat -> f i <= f j) -> StronglySorted Rle (map f (seq s n)).
Proof.
  intros M. revert s. induction n as [|n IH]; intros s; cbn [seq map]; [constructor|]. constructor; [apply IH|]. rewrite Forall_forall. intros y Hy. apply in_map_iff in Hy. destruct Hy as (i & <- & Hi). apply in_seq in Hi. apply M. lia.
Qed.
Lemma linspace_sorted a b n : a <= b -> StronglySorted Rle (linspace a b n) /\ forall x, In x (linspace a b n) -> a <= x <= b.
Proof.
  intros H. destruct n as [|[|n]]; cbn [linspace].
  - split; [constructor|intros x []].
  - split; [repeat constructor|]. intros x [<-|[]]. lra.
  - assert (P : 0 < INR (S n)) by (apply lt_0_INR; lia). assert (Q : 0 <= (b - a) / INR (S n)) by (apply Rmult_le_pos; [lra|apply Rlt_le, Rinv_0_lt_compat, P]). split.
    + apply sorted_map. intros i j Hij. apply le_INR in Hij. assert (INR i * ((b - a) / INR (S n)) <= INR j * ((b - a) / INR (S n))) by (apply Rmult_le_compat_r; lra). lra.
    + intros x Hx. apply in_map_iff in Hx. destruct Hx as (i & <- & Hi). apply in_seq in Hi. assert (Li : INR i <= INR (S n)) by (apply le_INR; lia). assert (Pi := pos_INR i).
      assert (0 <= INR i * ((b - a) / INR (S n))) by (apply Rmult_le_pos; lra). assert (INR i * ((b - a) / INR (S n)) <= INR (S n) * ((b - a) / INR (S n))) by (apply Rmult_le_compat_r; lra).
      replace (INR (S n) * ((b - a) / INR (S n))) with (b - a) in * by (field; lra). lra.
Qed.
Lemma argmin_some l : l <> [] -> exists i, argmin l = Some i /\ (i < length l)%nat.
Proof. intros H. destruct (argmin l) as [i|] eqn:E; [|destruct l; [congruence|discriminate]]. exists i. split; [reflexivity|]. apply argmin_spec in E. tauto. Qed.
Lemma level_indices_spec p m y : (m < length p)%nat -> exists l r, level_indices p m y = Some (l, r) /\ (l <= m)%nat /\ (m <= r < length p)%nat.
Proof.
  intros H. unfold level_indices.
  assert (R0 : exists r, argmin (map (fun v => Rabs (y - v)) (skipn m p)) = Some r /\ (r < length p - m)%nat).
  { destruct (argmin_some (map (fun v => Rabs (y - v)) (skipn m p))) as (r & E & Hr). { intros E. apply (f_equal (@length R)) in E. rewrite map_length, skipn_length in E. cbn in E. lia. } exists r. rewrite map_length, skipn_length in Hr. auto. }
  destruct R0 as (r & -> & Hr). destruct (Nat.ltb_spec 0 m) as [M|M].
  - destruct (argmin_some (map (fun v => Rabs (y - v)) (firstn m p))) as (l & -> & Hl). { intros E. apply (f_equal (@length R)) in E. rewrite map_length, firstn_length in E. cbn in E. lia. }
    rewrite map_length, firstn_length in Hl. exists l, (r + m)%nat. split; [reflexivity|lia].
  - exists 0%nat, (r + m)%nat. split; [reflexivity|lia].
Qed.
Lemma level_loop_spec p step alpha m ys : (m < length p)%nat -> forall last, (forall l r, last = Some (l, r) -> (l <= m)%nat /\ (m <= r < length p)%nat) -> (ys = [] -> last <> None) ->
  exists l r, level_loop p step alpha m last ys = Some (l, r) /\ (l <= m)%nat /\ (m <= r < length p)%nat.
Proof.
  intros H. induction ys as [|y ys IH]; intros last Hl Hn; cbn [level_loop].
  - destruct last as [[l r]|]; [|destruct (Hn eq_refl eq_refl)]. exists l, r. split; [reflexivity|apply Hl; reflexivity].
  - destruct (level_indices_spec p m y H) as (l & r & -> & L). destruct (Rltb _ _); [exists l, r; auto|]. apply IH; [|discriminate]. intros l' r' E. injection E as <- <-. exact L.
Qed.
(** The start values of the optimizer exist and are efficiencies in the right order, within 20 % of the efficiency. *)
Theorem C105_start num levels k n alpha : (k <= n)%nat -> (1 <= n)%nat -> (1 <= num)%nat -> (1 <= levels)%nat ->
  exists a b, start_values num levels k n alpha = Some (a, b) /\ 8 / 10 * (INR k / INR n) <= a /\ a <= b /\ b <= 1 /\ b <= 12 / 10 * (INR k / INR n).
Proof.
  intros H N Nn Nl. pose proof (rate_bounds k n H N) as He. set (e := INR k / INR n) in *. destruct (linspace_sorted (8 / 10 * e) (12 / 10 * e) num ltac:(lra)) as [Ls Lb].
  unfold start_values. fold e. set (eff := start_grid num k n). assert (Sg : StronglySorted Rle eff) by (apply sorted_filter, Ls).
  assert (In1 : forall x, In x eff -> 8 / 10 * e <= x <= 12 / 10 * e /\ x <= 1). { intros x Hx. apply filter_In in Hx. destruct Hx as [Hx Hy]. apply Rleb_true in Hy. fold e in Hx. split; [apply Lb, Hx|exact Hy]. }
  assert (Ne : eff <> []).
  { intros E. assert (X : In (8 / 10 * e) eff); [|rewrite E in X; destruct X]. apply filter_In. split; [|apply Rleb_true; lra]. fold e. destruct num as [|[|m]]; [lia|left; reflexivity|].
    cbn [linspace]. apply in_map_iff. exists 0%nat. split; [cbn [INR]; ring|apply in_seq; lia]. }
  destruct (argmin_some (map (fun x => Rabs (x - e)) eff)) as (m & -> & Hm). { intros E. apply map_eq_nil in E. auto. } rewrite map_length in Hm.
  destruct (level_loop_spec (map (eff_pdf k n) eff) (nth 1 eff 0 - nth 0 eff 0) alpha m (linspace (nth m (map (eff_pdf k n) eff) 0 * (9 / 10)) 0 levels)) with (last := @None (nat * nat)) as (l & r & -> & Hl & Hr).
  - rewrite map_length. exact Hm.
  - discriminate.
  - intros E. exfalso. destruct levels as [|[|q]]; [lia| |]; discriminate.
  - rewrite map_length in Hr. exists (nth l eff 0), (nth r eff 0). split; [reflexivity|]. destruct (In1 (nth l eff 0)) as [I1 I2]; [apply nth_In; lia|]. destruct (In1 (nth r eff 0)) as [I3 I4]; [apply nth_In; lia|].
    assert (nth l eff 0 <= nth r eff 0) by (apply sorted_nth; [exact Sg|lia|lia]). lra.
Qed.

(** One of two tracks with hit: the probability 11/16 is in the interval from 1/4 to 3/4. *)
Lemma case_cumul x : cumul 1 2 x = 3 * x ^ 2 - 2 * x ^ 3.
Proof.
  unfold cumul. replace (3 * x ^ 2 - 2 * x ^ 3) with ((3 * x ^ 2 - 2 * x ^ 3) - (3 * 0 ^ 2 - 2 * 0 ^ 3)) by ring. apply is_RInt_unique.
  apply (is_RInt_derive (V := R_CompleteNormedModule) (fun x => 3 * x ^ 2 - 2 * x ^ 3) (dens 1 2)); [|intros t _; apply dens_continuous].
  intros t _. unfold dens, norm, mono. cbn [fact Init.Nat.add Init.Nat.mul Init.Nat.sub INR]. auto_derive; [exact I|]. cbn [pow pred]. field.
Qed.
Example C105_case : solution 1 2 (11 / 16) (1 / 4, 3 / 4) /\ efficiency_errors [1; 0]%nat [1; 1]%nat (1 / 4, 3 / 4) = Some (1 / 2, - 1 / 4, 1 / 4).
Proof.
  split.
  - destruct (C105_interval 1 2 (11 / 16)) as (x & Sx & _ & Px & _); [lia|lia|lra|]. destruct (C105_limits 1 2 (11 / 16) x) as (L & _ & _); [lia|lia|lra|exact Sx|]. destruct (L ltac:(lia)) as (L1 & L2 & L3).
    assert (B := proj1 (solution_best 1 2 (11 / 16) x ltac:(lia) ltac:(lia) ltac:(lra)) Sx). destruct B as (B1 & B2 & B3 & B4 & _). rewrite !case_cumul in B4. rewrite !pdf_dens in L3 by lra. unfold dens, norm, mono in L3. cbn [fact Init.Nat.add Init.Nat.mul Init.Nat.sub INR pow] in L3.
    assert (E : snd x = 1 - fst x). { assert (Q : (fst x - snd x) * (1 - fst x - snd x) = 0) by lra. apply Rmult_integral in Q. destruct Q; lra. }
    rewrite E in B4. assert (E2 : fst x = 1 / 4).
    { set (a := fst x) in *. assert (a < 1 / 2) by lra. assert (Q : (a - 1 / 4) * (64 * a ^ 2 - 80 * a - 20) = 0) by (cbn [pow] in *; lra). apply Rmult_integral in Q. destruct Q as [Q|Q]; [lra|]. exfalso. assert (0 <= a * a) by (apply Rmult_le_pos; lra). assert (a * a <= a * (1 / 2)) by (apply Rmult_le_compat_l; lra). cbn [pow] in Q. lra. }
    replace (1 / 4, 3 / 4) with x; [exact Sx|]. destruct x as [u v]. cbn [fst snd] in *. f_equal; lra.
  - unfold efficiency_errors, mean_efficiency. cbn. f_equal. f_equal; [f_equal|]; field.
Qed.

Print Assumptions C105_density.
Print Assumptions C105_mode.
Print Assumptions C105_expectation.
Print Assumptions C105_interval.
Print Assumptions C105_limits.
Print Assumptions C105_errors.
Print Assumptions C105_mirror.
Print Assumptions C105_width.
Print Assumptions C105_impossible.
Print Assumptions C105_start.
