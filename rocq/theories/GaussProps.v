(** C94: the Gaussian functions for the fit of residuals. *)
From Coq Require Import Reals Lra Lia.
From Coquelicot Require Import Coquelicot.
From Verif Require Import FitResidualsModel.
Local Open Scope R_scope.

Definition bell (t : R) : R := exp (- (t * t)).
Lemma bell_derive t : is_derive bell t (- 2 * t * bell t).
Proof. unfold bell. auto_derive; [exact I|]. ring. Qed.
Lemma bell_continuous t : continuous bell t.
Proof. apply (ex_derive_continuous bell). exists (- 2 * t * bell t). apply bell_derive. Qed.
Lemma bell_ex a b : ex_RInt bell a b.
Proof. apply (ex_RInt_continuous (V := R_CompleteNormedModule)). intros t _. apply bell_continuous. Qed.
Lemma RInt_const_mult k f a b : ex_RInt f a b -> RInt (fun t => k * f t) a b = k * RInt f a b.
Proof. intros H. apply is_RInt_unique. apply (is_RInt_scal f). apply (RInt_correct (V := R_CompleteNormedModule)). exact H. Qed.
Lemma RInt_linear f u v a b : ex_RInt f (u * a + v) (u * b + v) -> RInt (fun t => u * f (u * t + v)) a b = RInt f (u * a + v) (u * b + v).
Proof. intros H. apply (RInt_comp_lin (V := R_CompleteNormedModule) f u v a b). exact H. Qed.
Lemma ex_RInt_linear f u v a b : ex_RInt f (u * a + v) (u * b + v) -> ex_RInt (fun t => u * f (u * t + v)) a b.
Proof. intros H. apply (ex_RInt_comp_lin (V := R_CompleteNormedModule) f u v a b). exact H. Qed.
Lemma bell_even a : RInt bell 0 (- a) = - RInt bell 0 a.
Proof.
  assert (E := RInt_linear bell (Ropp 1) 0 0 a (bell_ex _ _)).
  replace (Ropp 1 * 0 + 0) with 0 in E by ring. replace (Ropp 1 * a + 0) with (- a) in E by ring. rewrite <- E.
  rewrite (RInt_ext _ (fun t => Ropp 1 * bell t)).
  - rewrite RInt_const_mult by apply bell_ex. match goal with |- @eq _ ?x ?y => change (@eq R x y) end. ring.
  - intros t _. f_equal. unfold bell. f_equal. ring.
Qed.
Lemma erf_odd x : erf (- x) = - erf x.
Proof. unfold erf. change (fun t => exp (- (t * t))) with bell. rewrite bell_even. ring. Qed.
(** The function with erf is the convolution of the Gaussian function with the rectangle. *)
Theorem C94_convolution A mu sigma a x : sigma <> 0 -> gauss_box_erf A mu sigma a x = gauss_box A mu sigma a x.
Proof.
  intros S0. assert (P2 : 0 < sqrt 2) by (apply sqrt_lt_R0; lra). assert (PP : 0 < sqrt PI) by (apply sqrt_lt_R0, PI_RGT_0).
  assert (S2 : sqrt 2 * sqrt 2 = 2) by (apply sqrt_sqrt; lra).
  set (u := - 1 / (sqrt 2 * sigma)). set (v := (x - mu) / (sqrt 2 * sigma)).
  unfold gauss_box. rewrite (RInt_ext _ (fun t => (- A / sqrt PI) * (u * bell (u * t + v)))).
  - rewrite RInt_const_mult.
    + rewrite RInt_linear by apply bell_ex.
      set (p := (x - mu + a * (1 / 2)) / (sqrt 2 * sigma)). set (q := - ((mu + a * (1 / 2) - x) / (sqrt 2 * sigma))).
      replace (u * (- a / 2) + v) with p by (unfold u, v, p; field; split; lra). replace (u * (a / 2) + v) with q by (unfold u, v, q; field; split; lra).
      unfold gauss_box_erf. fold p. replace ((mu + a * (1 / 2) - x) / (sqrt 2 * sigma)) with (- q) by (unfold q; ring). rewrite erf_odd. unfold erf. change (fun t => exp (- (t * t))) with bell.
      assert (C : RInt bell 0 p + RInt bell p q = RInt bell 0 q) by (apply (RInt_Chasles (V := R_CompleteNormedModule) bell); apply bell_ex). rewrite <- C. match goal with |- @eq _ ?x ?y => change (@eq R x y) end. field. lra.
    + apply ex_RInt_linear, bell_ex.
  - intros t _. unfold gauss, bell, u, v. rewrite sqrt_mult by (try lra; left; apply PI_RGT_0).
    replace (- ((x - t - mu) * (x - t - mu)) / (2 * (sigma * sigma))) with (- ((-1 / (sqrt 2 * sigma) * t + (x - mu) / (sqrt 2 * sigma)) * (-1 / (sqrt 2 * sigma) * t + (x - mu) / (sqrt 2 * sigma)))).
    + generalize (exp (- ((-1 / (sqrt 2 * sigma) * t + (x - mu) / (sqrt 2 * sigma)) * (-1 / (sqrt 2 * sigma) * t + (x - mu) / (sqrt 2 * sigma))))). intros e. match goal with |- @eq _ ?x ?y => change (@eq R x y) end. field. repeat split; lra.
    + set (r := sqrt 2) in *. transitivity (- ((x - t - mu) * (x - t - mu)) / ((r * r) * (sigma * sigma))); [field; split; lra|rewrite S2; reflexivity].
Qed.
(** It is symmetric, positive, and decreases on both sides of the mean. *)
Lemma erf_derive x : is_derive erf x (2 / sqrt PI * bell x).
Proof.
  unfold erf. change (fun t => exp (- (t * t))) with bell. apply (is_derive_scal (fun x => RInt bell 0 x)).
  apply (is_derive_RInt bell (fun x => RInt bell 0 x) 0); [|apply bell_continuous].
  exists (mkposreal 1 Rlt_0_1). intros y _. apply (RInt_correct (V := R_CompleteNormedModule)), bell_ex.
Qed.
Theorem C94_symmetric A mu sigma a d : gauss_box_erf A mu sigma a (mu + d) = gauss_box_erf A mu sigma a (mu - d).
Proof.
  unfold gauss_box_erf. replace (mu + d - mu + a * (1 / 2)) with (mu + a * (1 / 2) - (mu - d)) by ring. replace (mu + a * (1 / 2) - (mu + d)) with (mu - d - mu + a * (1 / 2)) by ring. ring.
Qed.
Definition box_slope (A mu sigma a x : R) : R := A / (sqrt PI * (sqrt 2 * sigma)) * (bell ((x - mu + a * (1 / 2)) / (sqrt 2 * sigma)) - bell ((mu + a * (1 / 2) - x) / (sqrt 2 * sigma))).
Lemma box_derive A mu sigma a x : sigma <> 0 -> is_derive (gauss_box_erf A mu sigma a) x (box_slope A mu sigma a x).
Proof.
  intros S0. assert (P2 : 0 < sqrt 2) by (apply sqrt_lt_R0; lra). assert (PP : 0 < sqrt PI) by (apply sqrt_lt_R0, PI_RGT_0). unfold gauss_box_erf, box_slope.
  set (p := fun x : R => (x - mu + a * (1 / 2)) / (sqrt 2 * sigma)). set (q := fun x : R => (mu + a * (1 / 2) - x) / (sqrt 2 * sigma)).
  assert (Dp : is_derive p x (1 / (sqrt 2 * sigma))) by (unfold p; auto_derive; [exact I|]; field; split; lra).
  assert (Dq : is_derive q x (- 1 / (sqrt 2 * sigma))) by (unfold q; auto_derive; [exact I|]; field; split; lra).
  assert (E1 := is_derive_comp erf p x _ _ (erf_derive (p x)) Dp). assert (E2 := is_derive_comp erf q x _ _ (erf_derive (q x)) Dq).
  assert (F1 := is_derive_scal _ x (1 / 2 * A) _ E1). assert (F2 := is_derive_scal _ x (1 / 2 * A) _ E2). assert (F := is_derive_plus _ _ x _ _ F1 F2).
  match type of F with is_derive _ _ ?v => assert (V : v = A / (sqrt PI * (sqrt 2 * sigma)) * (bell (p x) - bell (q x))) end.
  { unfold plus, scal. cbn. unfold mult. cbn. field. repeat split; lra. }
  rewrite V in F. exact F.
Qed.
Theorem C94_decreasing A mu sigma a x y : 0 < A -> 0 < sigma -> 0 < a -> mu <= x -> x < y -> gauss_box_erf A mu sigma a y < gauss_box_erf A mu sigma a x.
Proof.
  intros HA Hs Ha Hx Hy. assert (P2 : 0 < sqrt 2) by (apply sqrt_lt_R0; lra). assert (PP : 0 < sqrt PI) by (apply sqrt_lt_R0, PI_RGT_0).
  destruct (MVT_cor2 (gauss_box_erf A mu sigma a) (box_slope A mu sigma a) x y Hy) as (c & E & Hc).
  { intros c _. apply is_derive_Reals, box_derive. lra. }
  assert (N : box_slope A mu sigma a c < 0).
  { unfold box_slope. assert (K : 0 < A / (sqrt PI * (sqrt 2 * sigma))) by (apply Rdiv_lt_0_compat; [lra|]; repeat apply Rmult_lt_0_compat; lra).
    enough (bell ((c - mu + a * (1 / 2)) / (sqrt 2 * sigma)) < bell ((mu + a * (1 / 2) - c) / (sqrt 2 * sigma))) by nra. unfold bell. apply exp_increasing.
    assert (Q : 0 < / (sqrt 2 * sigma)) by (apply Rinv_0_lt_compat; nra). unfold Rdiv. set (k := / (sqrt 2 * sigma)) in *. assert (K2 : 0 < k * k) by nra.
    replace (- ((c - mu + a * (1 * / 2)) * k * ((c - mu + a * (1 * / 2)) * k))) with (- ((c - mu + a / 2) * (c - mu + a / 2) * (k * k))) by field.
    replace (- ((mu + a * (1 * / 2) - c) * k * ((mu + a * (1 * / 2) - c) * k))) with (- ((c - mu - a / 2) * (c - mu - a / 2) * (k * k))) by field.
    assert (D : (c - mu + a / 2) * (c - mu + a / 2) - (c - mu - a / 2) * (c - mu - a / 2) = 2 * a * (c - mu)) by field. assert (0 < a * (c - mu)) by (apply Rmult_lt_0_compat; lra). nra. }
  assert (0 < y - x) by lra. nra.
Qed.
Theorem C94_positive A mu sigma a x : 0 < A -> 0 < sigma -> 0 < a -> 0 < gauss_box_erf A mu sigma a x.
Proof.
  intros HA Hs Ha. rewrite C94_convolution by lra. unfold gauss_box. assert (K : 0 < sqrt (2 * PI) * sigma) by (apply Rmult_lt_0_compat; [apply sqrt_lt_R0; assert (H := PI_RGT_0); lra|lra]).
  apply RInt_gt_0; [lra| |].
  - intros t _. unfold gauss. apply Rdiv_lt_0_compat; [|exact K]. apply Rmult_lt_0_compat; [lra|apply exp_pos].
  - intros t _. apply (ex_derive_continuous (V := R_NormedModule)). unfold gauss. auto_derive. exact I.
Qed.
Theorem C94_half_maximum A mu sigma : sigma <> 0 -> gauss A mu sigma mu = A /\ gauss A mu sigma (mu + sigma * sqrt (2 * ln 2)) = A / 2 /\ gauss A mu sigma (mu - sigma * sqrt (2 * ln 2)) = A / 2.
Proof.
  intros S0. assert (L : 0 < ln 2) by (rewrite <- ln_1; apply ln_increasing; lra). assert (Q : sqrt (2 * ln 2) * sqrt (2 * ln 2) = 2 * ln 2) by (apply sqrt_sqrt; lra). unfold gauss.
  assert (E : exp (- ln 2) = / 2) by (rewrite exp_Ropp, exp_ln by lra; reflexivity). split; [|split].
  - replace (- ((mu - mu) * (mu - mu)) / (2 * (sigma * sigma))) with 0 by (field; lra). rewrite exp_0. ring.
  - replace (- ((mu + sigma * sqrt (2 * ln 2) - mu) * (mu + sigma * sqrt (2 * ln 2) - mu)) / (2 * (sigma * sigma))) with (- (sqrt (2 * ln 2) * sqrt (2 * ln 2)) / 2) by (field; lra). rewrite Q. replace (- (2 * ln 2) / 2) with (- ln 2) by field. rewrite E. reflexivity.
  - replace (- ((mu - sigma * sqrt (2 * ln 2) - mu) * (mu - sigma * sqrt (2 * ln 2) - mu)) / (2 * (sigma * sigma))) with (- (sqrt (2 * ln 2) * sqrt (2 * ln 2)) / 2) by (field; lra). rewrite Q. replace (- (2 * ln 2) / 2) with (- ln 2) by field. rewrite E. reflexivity.
Qed.
Example C94_gauss_example : 0 < gauss_box_erf 100 0 5 50 0 /\ gauss_box_erf 100 0 5 50 30 < gauss_box_erf 100 0 5 50 0.
Proof. split; [apply C94_positive; lra|apply C94_decreasing; lra]. Qed.

Print Assumptions C94_convolution.
Print Assumptions C94_symmetric.
Print Assumptions C94_decreasing.
Print Assumptions C94_positive.
Print Assumptions C94_half_maximum.
