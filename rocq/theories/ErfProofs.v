(** The error function: bounded by 1, tends to 1, strictly increasing (used for C100). *)
From Coq Require Import Reals Lra Lia.
From Coquelicot Require Import Coquelicot.
From Verif Require Import FitResidualsModel GaussProps.
Local Open Scope R_scope.

Definition bell_integral (x : R) : R := RInt bell 0 x.
Definition kernel (x t : R) : R := exp (- (x * x * (1 + t * t))) / (1 + t * t).
Definition kernel_integral (x : R) : R := RInt (kernel x) 0 1.

Lemma one_square t : 0 < 1 + t * t.
Proof. pose proof (Rle_0_sqr t). unfold Rsqr in *. lra. Qed.
Lemma bell_integral_derive x : is_derive bell_integral x (bell x).
Proof.
  apply (is_derive_RInt bell bell_integral 0); [|apply bell_continuous].
  exists (mkposreal 1 Rlt_0_1). intros y _. apply (RInt_correct (V := R_CompleteNormedModule)), bell_ex.
Qed.
Lemma kernel_derive x t : is_derive (fun u => kernel u t) x (- 2 * x * exp (- (x * x * (1 + t * t)))).
Proof. pose proof (one_square t). unfold kernel. auto_derive; [lra|]. field. lra. Qed.
Lemma kernel_continuous x t : continuous (kernel x) t.
Proof.
  apply (ex_derive_continuous (V := R_NormedModule)). pose proof (one_square t). unfold kernel. auto_derive. lra.
Qed.
Lemma kernel_ex x a b : ex_RInt (kernel x) a b.
Proof. apply (ex_RInt_continuous (V := R_CompleteNormedModule)). intros t _. apply kernel_continuous. Qed.
Lemma kernel_integral_derive x : is_derive kernel_integral x (- 2 * bell x * bell_integral x).
Proof.
  assert (D : is_derive kernel_integral x (RInt (fun t => Derive (fun u => kernel u t) x) 0 1)).
  { apply (is_derive_RInt_param kernel 0 1 x).
    - exists (mkposreal 1 Rlt_0_1). intros y _ t _. eexists. apply kernel_derive.
    - intros t _. apply (continuity_2d_pt_ext (fun u v => - 2 * u * exp (- (u * u * (1 + v * v))))).
      { intros u v. symmetry. apply is_derive_unique, kernel_derive. }
      apply continuity_2d_pt_mult; [apply continuity_2d_pt_mult; [apply continuity_2d_pt_const|apply continuity_2d_pt_id1]|].
      apply (continuity_1d_2d_pt_comp exp).
      + apply derivable_continuous_pt, derivable_pt_exp.
      + apply continuity_2d_pt_opp. apply continuity_2d_pt_mult; [apply continuity_2d_pt_mult; apply continuity_2d_pt_id1|].
        apply continuity_2d_pt_plus; [apply continuity_2d_pt_const|apply continuity_2d_pt_mult; apply continuity_2d_pt_id2].
    - exists (mkposreal 1 Rlt_0_1). intros y _. apply kernel_ex. }
  assert (E : RInt (fun t => Derive (fun u => kernel u t) x) 0 1 = - 2 * bell x * bell_integral x).
  { rewrite (RInt_ext _ (fun t => (- 2 * bell x) * (x * bell (x * t + 0)))).
    - rewrite RInt_const_mult by (apply ex_RInt_linear, bell_ex). rewrite RInt_linear by apply bell_ex. unfold bell_integral.
      rewrite !Rplus_0_r, Rmult_0_r, Rmult_1_r. reflexivity.
    - intros t _. etransitivity; [apply is_derive_unique, kernel_derive|]. unfold bell.
      replace (- (x * x * (1 + t * t))) with (- (x * x) + - ((x * t + 0) * (x * t + 0))) by ring. rewrite exp_plus.
      match goal with |- @eq _ ?x ?y => change (@eq R x y) end. ring. }
  rewrite E in D. exact D.
Qed.
Lemma constant_zero f : (forall t, is_derive f t 0) -> forall x, f x = f 0.
Proof.
  intros H x. destruct (Rtotal_order x 0) as [L|[->|L]]; [|reflexivity|].
  - apply (eq_is_derive (V := R_NormedModule) f x 0); [intros t _; apply H|exact L].
  - symmetry. apply (eq_is_derive (V := R_NormedModule) f 0 x); [intros t _; apply H|exact L].
Qed.
Lemma kernel_integral_zero : kernel_integral 0 = PI / 4.
Proof.
  unfold kernel_integral. rewrite (RInt_ext _ (fun t => / (1 + t²))).
  - assert (E : is_RInt (fun t => / (1 + t²)) 0 1 (minus (atan 1) (atan 0))).
    { apply (is_RInt_derive (V := R_CompleteNormedModule) atan).
      - intros t _. apply is_derive_atan.
      - intros t _. apply (ex_derive_continuous (V := R_NormedModule)). pose proof (one_square t). unfold Rsqr. auto_derive. lra. }
    rewrite (is_RInt_unique _ _ _ _ E). unfold minus, plus, opp. cbn. rewrite atan_1, atan_0. ring.
  - intros t _. unfold kernel, Rsqr. replace (- (0 * 0 * (1 + t * t))) with 0 by ring. rewrite exp_0. unfold Rdiv. apply Rmult_1_l.
Qed.
(** Gauss' integral *)
Lemma bell_kernel x : bell_integral x * bell_integral x + kernel_integral x = PI / 4.
Proof.
  rewrite (constant_zero (fun x => bell_integral x * bell_integral x + kernel_integral x)).
  - rewrite kernel_integral_zero. unfold bell_integral. rewrite (RInt_point (V := R_CompleteNormedModule)). unfold zero. cbn. ring.
  - intros t. pose proof (bell_integral_derive t) as D1. pose proof (kernel_integral_derive t) as D2.
    assert (D3 := is_derive_mult _ _ t _ _ D1 D1 Rmult_comm). assert (D := is_derive_plus _ _ t _ _ D3 D2).
    match type of D with is_derive _ _ ?v => assert (V : v = 0) end. { unfold plus, mult. cbn. ring. }
    rewrite V in D. exact D.
Qed.
Lemma kernel_integral_pos x : 0 < kernel_integral x.
Proof.
  apply RInt_gt_0; [lra| |intros; apply kernel_continuous]. intros t _. apply Rdiv_lt_0_compat; [apply exp_pos|apply one_square].
Qed.
Lemma kernel_integral_le x : kernel_integral x <= bell x.
Proof.
  replace (bell x) with (RInt (fun _ : R => bell x) 0 1).
  - apply RInt_le; [lra|apply kernel_ex|apply (ex_RInt_const (V := R_NormedModule))|]. intros t Ht. unfold kernel, bell. pose proof (one_square t) as P0.
    apply Rmult_le_reg_r with (1 + t * t); auto. unfold Rdiv. rewrite Rmult_assoc, Rinv_l by lra.
    assert (E1 : exp (- (x * x * (1 + t * t))) <= exp (- (x * x))).
    { pose proof (Rle_0_sqr x) as X0. pose proof (Rle_0_sqr t) as T0. unfold Rsqr in *. assert (0 <= x * x * (t * t)) by (apply Rmult_le_pos; auto).
      destruct (Req_dec (x * x * (t * t)) 0) as [Z|Z]; [right; f_equal; lra|left; apply exp_increasing; lra]. }
    pose proof (exp_pos (- (x * x))). pose proof (Rle_0_sqr t) as T0. unfold Rsqr in *. nra.
  - rewrite (RInt_const (V := R_CompleteNormedModule)). unfold scal. cbn. unfold mult. cbn. ring.
Qed.
Lemma erf_eq x : erf x = 2 / sqrt PI * bell_integral x.
Proof. reflexivity. Qed.
Lemma erf_square x : erf x * erf x = 1 - 4 / PI * kernel_integral x.
Proof.
  pose proof PI_RGT_0 as HPI. rewrite erf_eq. replace (2 / sqrt PI * bell_integral x * (2 / sqrt PI * bell_integral x)) with (4 / (sqrt PI * sqrt PI) * (bell_integral x * bell_integral x)).
  - rewrite sqrt_sqrt by lra. replace (bell_integral x * bell_integral x) with (PI / 4 - kernel_integral x) by (rewrite <- (bell_kernel x); ring). field. lra.
  - assert (0 < sqrt PI) by (apply sqrt_lt_R0; auto). field. lra.
Qed.
Lemma erf_bound x : - 1 < erf x < 1.
Proof.
  pose proof (erf_square x) as E. pose proof (kernel_integral_pos x). pose proof PI_RGT_0. assert (0 < 4 / PI * kernel_integral x) by (apply Rmult_lt_0_compat; [apply Rdiv_lt_0_compat; lra|auto]).
  split; nra.
Qed.
Lemma erf_increasing x y : x < y -> erf x < erf y.
Proof.
  intros H. destruct (MVT_cor2 erf (fun x => 2 / sqrt PI * bell x) x y H) as (c & E & _). { intros c _. apply is_derive_Reals, erf_derive. }
  assert (0 < 2 / sqrt PI * bell c). { apply Rmult_lt_0_compat; [apply Rdiv_lt_0_compat; [lra|apply sqrt_lt_R0, PI_RGT_0]|apply exp_pos]. }
  assert (0 < y - x) by lra. nra.
Qed.
Lemma erf_zero : erf 0 = 0.
Proof. pose proof (erf_odd 0) as E. replace (- 0) with 0 in E by ring. lra. Qed.
(** the missing part decreases as exp(-x^2) *)
Lemma erf_tail x : 0 <= x -> 1 - erf x <= 4 / PI * exp (- (x * x)).
Proof.
  intros H. assert (P0 : 0 <= erf x). { destruct H as [H|<-]; [|rewrite erf_zero; lra]. rewrite <- erf_zero. left. apply erf_increasing, H. }
  pose proof (erf_square x) as E. pose proof (kernel_integral_le x) as K. unfold bell in K. pose proof (erf_bound x). pose proof PI_RGT_0.
  assert (4 / PI * kernel_integral x <= 4 / PI * exp (- (x * x))) by (apply Rmult_le_compat_l; [apply Rlt_le, Rdiv_lt_0_compat; lra|auto]). nra.
Qed.
