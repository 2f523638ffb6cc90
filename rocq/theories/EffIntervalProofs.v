(** Lemmas for C105: beta integrals, the shape of the density and the shortest interval. *)
From Coq Require Import List Arith Reals Lra Lia Bool.
From Coquelicot Require Import Coquelicot.
From Verif Require Import GeometryModel GeometryProofs EffIntervalModel.
Import ListNotations.
Local Open Scope R_scope.

Definition mono (k m : nat) (x : R) : R := x ^ k * (1 - x) ^ m.
Definition dmono (k m : nat) (x : R) : R := INR k * x ^ (pred k) * (1 - x) ^ m - INR m * x ^ k * (1 - x) ^ (pred m).
Lemma mono_derive k m x : is_derive (mono k m) x (dmono k m x).
Proof. unfold mono, dmono. auto_derive; [exact I|]. unfold Rminus. ring. Qed.
Lemma mono_continuous k m x : continuous (mono k m) x.
Proof. apply (ex_derive_continuous (mono k m)). exists (dmono k m x). apply mono_derive. Qed.
Lemma mono_ex k m a b : ex_RInt (mono k m) a b.
Proof. apply (ex_RInt_continuous (V := R_CompleteNormedModule)). intros t _. apply mono_continuous. Qed.
Lemma dmono_continuous k m x : continuous (dmono k m) x.
Proof. apply (ex_derive_continuous (dmono k m)). unfold dmono. auto_derive. exact I. Qed.
Lemma RInt_scale c f a b : ex_RInt f a b -> RInt (fun t => c * f t) a b = c * RInt f a b.
Proof. intros H. apply is_RInt_unique. apply (is_RInt_scal f). apply (RInt_correct (V := R_CompleteNormedModule)). exact H. Qed.

Lemma beta_step k m : (INR k + 1) * RInt (mono k (S m)) 0 1 = (INR m + 1) * RInt (mono (S k) m) 0 1.
Proof.
  assert (D : is_RInt (dmono (S k) (S m)) 0 1 (mono (S k) (S m) 1 - mono (S k) (S m) 0)).
  { apply (is_RInt_derive (V := R_CompleteNormedModule)); intros; [apply mono_derive|apply dmono_continuous]. }
  assert (E : mono (S k) (S m) 1 - mono (S k) (S m) 0 = 0) by (unfold mono; cbn [pow]; ring). rewrite E in D.
  assert (A : is_RInt (fun x => minus (scal (INR k + 1) (mono k (S m) x)) (scal (INR m + 1) (mono (S k) m x))) 0 1 (minus (scal (INR k + 1) (RInt (mono k (S m)) 0 1)) (scal (INR m + 1) (RInt (mono (S k) m) 0 1)))).
  { apply (is_RInt_minus (V := R_NormedModule)); apply (is_RInt_scal (V := R_NormedModule)); apply (RInt_correct (V := R_CompleteNormedModule)); apply mono_ex. }
  apply (is_RInt_ext (V := R_NormedModule) _ (dmono (S k) (S m))) in A.
  - pose proof (is_RInt_unique (V := R_CompleteNormedModule) _ _ _ _ A) as U1. pose proof (is_RInt_unique (V := R_CompleteNormedModule) _ _ _ _ D) as U2. rewrite U1 in U2.
    set (u := RInt (mono k (S m)) 0 1) in *. set (v := RInt (mono (S k) m) 0 1) in *. change ((INR k + 1) * u + - ((INR m + 1) * v) = 0) in U2. change ((INR k + 1) * u = (INR m + 1) * v). lra.
  - intros x _. unfold dmono, mono, minus, plus, opp, scal. cbn -[INR pow]. unfold mult. cbn -[INR pow]. rewrite !S_INR. cbn [pow]. ring.
Qed.
Lemma fact_pos n : 0 < INR (fact n).
Proof. apply INR_fact_lt_0. Qed.
Lemma beta_value m : forall k, RInt (mono k m) 0 1 = INR (fact k) * INR (fact m) / INR (fact (k + m + 1)).
Proof.
  induction m as [|m IH]; intros k.
  - assert (D : is_RInt (mono k 0) 0 1 (1 ^ (S k) / (INR k + 1) - 0 ^ (S k) / (INR k + 1))).
    { assert (P := pos_INR k). apply (is_RInt_ext (V := R_NormedModule) (fun x => (INR k + 1) * x ^ k / (INR k + 1))).
      { intros x _. unfold mono. cbn [pow]. match goal with |- @eq _ ?x ?y => change (@eq R x y) end. field. lra. }
      apply (is_RInt_derive (V := R_CompleteNormedModule) (fun x => x ^ (S k) / (INR k + 1)) (fun x => (INR k + 1) * x ^ k / (INR k + 1))).
      - intros x _. auto_derive; [lra|]. replace (match k with O => 1 | S _ => INR k + 1 end) with (INR k + 1) by (destruct k; cbn; ring). field. lra.
      - intros x _. apply (ex_derive_continuous (fun x => (INR k + 1) * x ^ k / (INR k + 1))). auto_derive. lra. }
    rewrite (is_RInt_unique (V := R_CompleteNormedModule) _ _ _ _ D). rewrite pow1, pow_i by lia. replace (k + 0 + 1)%nat with (S k) by lia. rewrite fact_simpl, mult_INR, S_INR.
    assert (P := pos_INR k). assert (Q := fact_pos k). cbn [fact INR]. match goal with |- @eq _ ?x ?y => change (@eq R x y) end. field. lra.
  - pose proof (beta_step k m) as B. rewrite (IH (S k)) in B. replace (S k + m + 1)%nat with (k + S m + 1)%nat in B by lia.
    assert (P := pos_INR k). assert (P2 := pos_INR m). assert (Q := fact_pos (k + S m + 1)).
    rewrite (fact_simpl k), mult_INR, S_INR in B. rewrite (fact_simpl m), mult_INR, S_INR.
    apply Rmult_eq_reg_l with (INR k + 1); [|lra]. rewrite B. match goal with |- @eq _ ?x ?y => change (@eq R x y) end. field. lra.
Qed.
Lemma mono_pos k m x : 0 < x < 1 -> 0 < mono k m x.
Proof. intros H. unfold mono. apply Rmult_lt_0_compat; apply pow_lt; lra. Qed.
Lemma mono_nonneg k m x : 0 <= x <= 1 -> 0 <= mono k m x.
Proof. intros H. unfold mono. apply Rmult_le_pos; apply pow_le; lra. Qed.
Lemma dmono_sign k m x : dmono k m x * (x * (1 - x)) = mono k m x * (INR k - (INR k + INR m) * x).
Proof. unfold dmono, mono. destruct k, m; cbn [pred pow INR]; rewrite ?S_INR; ring. Qed.
Lemma increasing_by (f df : R -> R) a b : a < b -> (forall c, a <= c <= b -> is_derive f c (df c)) -> (forall c, a < c < b -> 0 < df c) -> f a < f b.
Proof.
  intros H D P. destruct (MVT_cor2 f df a b H) as (c & E & Hc). { intros c Hc. apply is_derive_Reals, D, Hc. }
  specialize (P c Hc). assert (0 < df c * (b - a)) by (apply Rmult_lt_0_compat; lra). lra.
Qed.
Lemma decreasing_by (f df : R -> R) a b : a < b -> (forall c, a <= c <= b -> is_derive f c (df c)) -> (forall c, a < c < b -> df c < 0) -> f b < f a.
Proof.
  intros H D P. destruct (MVT_cor2 f df a b H) as (c & E & Hc). { intros c Hc. apply is_derive_Reals, D, Hc. }
  specialize (P c Hc). assert (0 < (- df c) * (b - a)) by (apply Rmult_lt_0_compat; lra). lra.
Qed.
Lemma mono_up k m a b : (1 <= k + m)%nat -> 0 <= a -> a < b -> b <= 1 -> (INR k + INR m) * b <= INR k -> mono k m a < mono k m b.
Proof.
  intros N Ha Hab Hb He. apply (increasing_by (mono k m) (dmono k m)); [exact Hab|intros; apply mono_derive|]. intros c Hc.
  assert (P : 0 < INR k + INR m) by (rewrite <- plus_INR; apply lt_0_INR; lia).
  assert (S1 := dmono_sign k m c). assert (P1 : 0 < mono k m c) by (apply mono_pos; lra). assert (P2 : 0 < c * (1 - c)) by (apply Rmult_lt_0_compat; lra).
  assert (P3 : 0 < INR k - (INR k + INR m) * c). { assert ((INR k + INR m) * c < (INR k + INR m) * b) by (apply Rmult_lt_compat_l; lra). lra. }
  assert (P4 : 0 < mono k m c * (INR k - (INR k + INR m) * c)) by (apply Rmult_lt_0_compat; lra). rewrite <- S1 in P4.
  apply Rmult_lt_reg_r with (c * (1 - c)); [exact P2|]. lra.
Qed.
Lemma mono_down k m a b : (1 <= k + m)%nat -> 0 <= a -> a < b -> b <= 1 -> INR k <= (INR k + INR m) * a -> mono k m b < mono k m a.
Proof.
  intros N Ha Hab Hb He. apply (decreasing_by (mono k m) (dmono k m)); [exact Hab|intros; apply mono_derive|]. intros c Hc.
  assert (P : 0 < INR k + INR m) by (rewrite <- plus_INR; apply lt_0_INR; lia).
  assert (S1 := dmono_sign k m c). assert (P1 : 0 < mono k m c) by (apply mono_pos; lra). assert (P2 : 0 < c * (1 - c)) by (apply Rmult_lt_0_compat; lra).
  assert (P3 : 0 < (INR k + INR m) * c - INR k). { assert ((INR k + INR m) * a < (INR k + INR m) * c) by (apply Rmult_lt_compat_l; lra). lra. }
  assert (P4 : 0 < mono k m c * ((INR k + INR m) * c - INR k)) by (apply Rmult_lt_0_compat; lra).
  apply Rmult_lt_reg_r with (c * (1 - c)); [exact P2|]. lra.
Qed.

(** ** The shortest interval of a unimodal density *)
Section Shortest.
  Variables (F p : R -> R) (e top alpha : R).
  Hypotheses (D : forall x, is_derive F x (p x)) (F0 : F 0 = 0) (F1 : F 1 = 1) (He : 0 <= e <= 1).
  Hypotheses (Pos : forall x, 0 < x < 1 -> 0 < p x) (Top : forall x, 0 <= x <= 1 -> p x <= top).
  Hypotheses (Up : forall x y, 0 <= x -> x < y -> y <= e -> p x < p y) (Down : forall x y, e <= x -> x < y -> y <= 1 -> p y < p x).
  Hypothesis (Alpha : 0 < alpha < 1).

  Lemma F_up x y : 0 <= x -> x < y -> y <= 1 -> F x < F y.
  Proof. intros Hx Hxy Hy. apply (increasing_by F p); [exact Hxy|intros; apply D|]. intros c Hc. apply Pos. lra. Qed.
  Lemma F_le x y : 0 <= x -> x <= y -> y <= 1 -> F x <= F y.
  Proof. intros Hx [H| ->] Hy; [apply Rlt_le, F_up; auto|lra]. Qed.
  Lemma F_lipschitz x y : 0 <= x -> x <= y -> y <= 1 -> F y - F x <= top * (y - x).
  Proof.
    intros Hx [H| ->] Hy; [|lra]. destruct (MVT_cor2 F p x y H) as (c & E & Hc). { intros c _. apply is_derive_Reals, D. }
    rewrite E. apply Rmult_le_compat_r; [lra|]. apply Top. lra.
  Qed.
  Lemma top_pos : 0 < top.
  Proof. assert (H := Top (1/2) ltac:(lra)). assert (P := Pos (1/2) ltac:(lra)). lra. Qed.

  (** lengths such that no interval of the length contains more than alpha *)
  Definition short (L : R) : Prop := 0 <= L <= 1 /\ forall a, 0 <= a -> a + L <= 1 -> F (a + L) - F a <= alpha.
  Definition best (x : R * R) : Prop :=
    0 <= fst x /\ fst x < snd x /\ snd x <= 1 /\ F (snd x) - F (fst x) = alpha /\
    forall c d, 0 <= c -> c <= d -> d <= 1 -> alpha <= F d - F c -> snd x - fst x <= d - c.
  Lemma g_derive L x : is_derive (fun a => F (a + L) - F a) x (p (x + L) - p x).
  Proof.
    apply (is_derive_minus (V := R_NormedModule) (fun a => F (a + L)) F); [|apply D].
    replace (p (x + L)) with (scal 1 (p (x + L))) by (unfold scal; cbn; unfold mult; cbn; ring).
    apply (is_derive_comp (V := R_NormedModule) F (fun a => a + L)); [apply D|]. auto_derive; [exact I|]. ring.
  Qed.
  Lemma exists_best : exists x, best x.
  Proof.
    assert (T := top_pos).
    assert (B : bound short) by (exists 1; intros L [H _]; lra).
    assert (S0 : short 0). { split; [lra|]. intros a _ _. replace (a + 0) with a by ring. lra. }
    destruct (completeness short B (ex_intro _ 0 S0)) as (L & Ub & Lub).
    assert (L0 : 0 <= L) by (apply Ub, S0). assert (L1 : L <= 1) by (apply Lub; intros l [H _]; lra).
    assert (Near : forall eps, 0 < eps -> exists l, short l /\ L - eps < l <= L).
    { intros eps He'. destruct (Classical_Prop.classic (exists l, short l /\ L - eps < l <= L)) as [X|X]; [exact X|]. exfalso.
      assert (L <= L - eps); [|lra]. apply Lub. intros l Hl. destruct (Rle_or_lt l (L - eps)) as [Y|Y]; [exact Y|]. exfalso. apply X. exists l. split; [exact Hl|]. split; [exact Y|]. apply Ub, Hl. }
    assert (SL : forall a, 0 <= a -> a + L <= 1 -> F (a + L) - F a <= alpha).
    { intros a Ha Hb. destruct (Rle_or_lt (F (a + L) - F a) alpha) as [X|X]; [exact X|]. exfalso.
      set (eps := (F (a + L) - F a - alpha) / top). assert (E0 : 0 < eps) by (apply Rdiv_lt_0_compat; lra).
      destruct (Near eps E0) as (l & [[Hl0 Hl1] Hl] & Hl2). specialize (Hl a Ha ltac:(lra)).
      pose proof (F_lipschitz (a + l) (a + L) ltac:(lra) ltac:(lra) ltac:(lra)) as K.
      assert (top * (a + L - (a + l)) < top * eps) by (apply Rmult_lt_compat_l; lra).
      assert (top * eps = F (a + L) - F a - alpha) by (unfold eps; field; lra). lra. }
    assert (Lt1 : L < 1). { destruct L1 as [X| ->]; [exact X|]. specialize (SL 0 ltac:(lra) ltac:(lra)). rewrite Rplus_0_l, F0, F1 in SL. lra. }
    destruct (continuity_ab_maj (fun a => F (a + L) - F a) 0 (1 - L)) as (a & Ma & Ha); [lra| |].
    { intros c _. apply derivable_continuous_pt. exists (p (c + L) - p c). apply is_derive_Reals, g_derive. }
    assert (Eq : F (a + L) - F a = alpha).
    { destruct (SL a ltac:(lra) ltac:(lra)) as [X|X]; [|exact X]. exfalso.
      set (d := Rmin ((alpha - (F (a + L) - F a)) / top) (1 - L)).
      assert (d0 : 0 < d). { unfold d. apply Rmin_glb_lt; [apply Rdiv_lt_0_compat; lra|lra]. }
      assert (d1 : d <= (alpha - (F (a + L) - F a)) / top) by apply Rmin_l. assert (d2 : d <= 1 - L) by apply Rmin_r.
      assert (top * d <= alpha - (F (a + L) - F a)). { apply Rle_trans with (top * ((alpha - (F (a + L) - F a)) / top)); [apply Rmult_le_compat_l; lra|]. right. field. lra. }
      assert (short (L + d)).
      { split; [lra|]. intros b Hb Hb1. specialize (Ma b ltac:(lra)). pose proof (F_lipschitz (b + L) (b + (L + d)) ltac:(lra) ltac:(lra) ltac:(lra)) as K.
        replace (b + (L + d) - (b + L)) with d in K by ring. lra. }
      assert (L + d <= L) by (apply Ub; assumption). lra. }
    assert (Lp : 0 < L). { destruct L0 as [X|X]; [exact X|]. exfalso. rewrite <- X, Rplus_0_r in Eq. lra. }
    exists (a, a + L). unfold best. cbn [fst snd]. split; [lra|]. split; [lra|]. split; [lra|]. split; [exact Eq|].
    intros c d Hc Hcd Hd Hal. destruct (Rle_or_lt (a + L - a) (d - c)) as [X|X]; [exact X|]. exfalso.
    destruct (Near (L - (d - c)) ltac:(lra)) as (l & [[Hl0 Hl1] Hl] & Hl2).
    set (c' := Rmin c (1 - l)). assert (c1 : c' <= c) by apply Rmin_l. assert (c2 : c' <= 1 - l) by apply Rmin_r.
    assert (c3 : 0 <= c') by (apply Rmin_glb; lra). specialize (Hl c' c3 ltac:(lra)).
    assert (d <= c' + l). { unfold c'. unfold Rmin; destruct (Rle_dec c (1 - l)); lra. }
    destruct c1 as [c1|c1].
    - pose proof (F_up c' c c3 c1 ltac:(lra)). pose proof (F_le d (c' + l) ltac:(lra) ltac:(assumption) ltac:(lra)). lra.
    - rewrite c1 in *. pose proof (F_up d (c + l) ltac:(lra) ltac:(lra) ltac:(lra)). lra.
  Qed.
  (** the best interval contains more than all intervals of the same length *)
  Lemma best_content x a : best x -> 0 <= a -> a + (snd x - fst x) <= 1 -> F (a + (snd x - fst x)) - F a <= alpha.
  Proof.
    intros (B1 & B2 & B3 & B4 & B5) Ha Hb. set (L := snd x - fst x) in *. destruct (Rle_or_lt (F (a + L) - F a) alpha) as [X|X]; [exact X|]. exfalso.
    assert (T := top_pos). set (eps := Rmin ((F (a + L) - F a - alpha) / top) L).
    assert (E0 : 0 < eps). { unfold eps. apply Rmin_glb_lt; [apply Rdiv_lt_0_compat; lra|unfold L; lra]. }
    assert (E1 : eps <= (F (a + L) - F a - alpha) / top) by apply Rmin_l. assert (E2 : eps <= L) by apply Rmin_r.
    assert (top * eps <= F (a + L) - F a - alpha). { apply Rle_trans with (top * ((F (a + L) - F a - alpha) / top)); [apply Rmult_le_compat_l; lra|]. right. field. lra. }
    pose proof (F_lipschitz (a + L - eps) (a + L) ltac:(lra) ltac:(lra) ltac:(lra)) as K. replace (a + L - (a + L - eps)) with eps in K by ring.
    specialize (B5 a (a + L - eps) ltac:(lra) ltac:(lra) ltac:(lra) ltac:(lra)). lra.
  Qed.
  Lemma best_mode x : best x -> fst x <= e <= snd x.
  Proof.
    intros B. pose proof (best_content x) as Mx. destruct B as (B1 & B2 & B3 & B4 & B5). set (L := snd x - fst x) in *. assert (Lp : 0 < L) by (unfold L; lra).
    assert (El : fst x + L = snd x) by (unfold L; ring). split.
    - destruct (Rle_or_lt (fst x) e) as [X|X]; [exact X|]. exfalso.
      assert (G : F (fst x + L) - F (fst x) < F (e + L) - F e).
      { apply (decreasing_by (fun a => F (a + L) - F a) (fun a => p (a + L) - p a)); [exact X|intros; apply g_derive|]. intros c Hc. assert (p (c + L) < p c) by (apply Down; lra). lra. }
      rewrite El in G. specialize (Mx e ltac:(unfold best; auto) ltac:(lra) ltac:(lra)). lra.
    - destruct (Rle_or_lt e (snd x)) as [X|X]; [exact X|]. exfalso.
      assert (G : F (fst x + L) - F (fst x) < F ((e - L) + L) - F (e - L)).
      { apply (increasing_by (fun a => F (a + L) - F a) (fun a => p (a + L) - p a)); [lra|intros; apply g_derive|]. intros c Hc. assert (p c < p (c + L)) by (apply Up; lra). lra. }
      rewrite El in G. specialize (Mx (e - L) ltac:(unfold best; auto) ltac:(lra) ltac:(lra)). lra.
  Qed.
  Lemma best_unique x y : best x -> best y -> x = y.
  Proof.
    assert (W : forall x y, best x -> best y -> fst x < fst y -> False).
    { intros a b A B H. assert (LA := best_mode a A). assert (LB := best_mode b B). assert (Mx := best_content a). assert (A' := A).
      destruct A as (A1 & A2 & A3 & A4 & A5), B as (B1 & B2 & B3 & B4 & B5).
      assert (E1 := A5 (fst b) (snd b) ltac:(lra) ltac:(lra) ltac:(lra) ltac:(lra)). assert (E2 := B5 (fst a) (snd a) ltac:(lra) ltac:(lra) ltac:(lra) ltac:(lra)).
      set (L := snd a - fst a) in *. assert (El : fst a + L = snd a) by (unfold L; ring). assert (Er : fst b + L = snd b) by (unfold L; lra).
      destruct (MVT_cor2 (fun a => F (a + L) - F a) (fun a => p (a + L) - p a) (fst a) (fst b) H) as (c & Ec & Hc). { intros c _. apply is_derive_Reals, g_derive. }
      rewrite El, Er, A4, B4 in Ec. assert (Z0 : p (c + L) - p c = 0). { assert (Q : (p (c + L) - p c) * (fst b - fst a) = 0) by lra. apply Rmult_integral in Q. destruct Q; lra. }
      assert (G : F (fst a + L) - F (fst a) < F (c + L) - F c).
      { apply (increasing_by (fun a => F (a + L) - F a) (fun a => p (a + L) - p a)); [lra|intros; apply g_derive|]. intros d Hd.
        assert (p d < p c) by (apply Up; lra). assert (p (c + L) < p (d + L)) by (apply Down; lra). lra. }
      rewrite El, A4 in G. specialize (Mx c A' ltac:(lra) ltac:(lra)). lra. }
    intros A B. destruct (Rtotal_order (fst x) (fst y)) as [H|[H|H]]; [destruct (W x y A B H)| |destruct (W y x B A H)].
    destruct x as [x1 x2], y as [y1 y2]. cbn [fst] in H. subst y1. f_equal. destruct A as (A1 & A2 & A3 & A4 & A5), B as (B1 & B2 & B3 & B4 & B5). cbn [fst snd] in *.
    assert (E1 := A5 x1 y2 ltac:(lra) ltac:(lra) ltac:(lra) ltac:(lra)). assert (E2 := B5 x1 x2 ltac:(lra) ltac:(lra) ltac:(lra) ltac:(lra)). lra.
  Qed.
  (** inside of the range the density is the same at both limits *)
  Lemma best_level x : best x -> 0 < fst x -> snd x < 1 -> p (fst x) = p (snd x).
  Proof.
    intros B X Y. pose proof (best_content x) as Mx. assert (B' := B). destruct B as (B1 & B2 & B3 & B4 & B5). set (L := snd x - fst x) in *. assert (El : fst x + L = snd x) by (unfold L; ring).
    set (g := fun a => F (a + L) - F a). assert (dg : derivable_pt_lim g (fst x) (p (snd x) - p (fst x))). { rewrite <- El at 1. apply is_derive_Reals, g_derive. }
    assert (E := deriv_maximum g 0 (1 - L) (fst x) (exist _ _ dg)). cbn in E. unfold derive_pt in E. cbn in E. assert (Q : p (snd x) - p (fst x) = 0); [|lra].
    apply E; [lra|lra|]. intros a H1 H2. unfold g. rewrite El, B4. apply Mx; [exact B'|lra|lra].
  Qed.
  Lemma best_lower x : best x -> snd x < 1 -> p (fst x) < p (snd x) -> False.
  Proof.
    intros B Y Lt. pose proof (best_mode x B) as M. pose proof (best_content x) as Mx. assert (B' := B). destruct B as (B1 & B2 & B3 & B4 & B5). set (L := snd x - fst x) in *. assert (El : fst x + L = snd x) by (unfold L; ring).
    (* derivative positive at fst x: a larger start is better *)
    assert (dg := g_derive L (fst x)). apply is_derive_Reals in dg. rewrite El in dg.
    destruct (dg ((p (snd x) - p (fst x)) / 2) ltac:(lra)) as (delta & Hd).
    set (h := Rmin (delta / 2) (1 - snd x)). assert (Pd := cond_pos delta). assert (h0 : 0 < h) by (apply Rmin_glb_lt; lra). assert (h1 : h <= delta / 2) by apply Rmin_l. assert (h2 : h <= 1 - snd x) by apply Rmin_r.
    assert (Ah : Rabs h < delta) by (rewrite Rabs_pos_eq; lra). specialize (Hd h ltac:(lra) Ah). rewrite El, B4 in Hd.
    specialize (Mx (fst x + h) B' ltac:(lra) ltac:(lra)). apply Rabs_def2 in Hd. destruct Hd as [_ Hd].
    assert (Q : (F (fst x + h + L) - F (fst x + h) - alpha) / h <= 0). { unfold Rdiv. apply Rmult_le_0_r; [lra|apply Rlt_le, Rinv_0_lt_compat; lra]. }
    lra.
  Qed.
  Lemma best_upper x : best x -> 0 < fst x -> p (snd x) < p (fst x) -> False.
  Proof.
    intros B Y Lt. pose proof (best_mode x B) as M. pose proof (best_content x) as Mx. assert (B' := B). destruct B as (B1 & B2 & B3 & B4 & B5). set (L := snd x - fst x) in *. assert (El : fst x + L = snd x) by (unfold L; ring).
    assert (dg := g_derive L (fst x)). apply is_derive_Reals in dg. rewrite El in dg.
    destruct (dg ((p (fst x) - p (snd x)) / 2) ltac:(lra)) as (delta & Hd).
    set (h := Rmin (delta / 2) (fst x)). assert (Pd := cond_pos delta). assert (h0 : 0 < h) by (apply Rmin_glb_lt; lra). assert (h1 : h <= delta / 2) by apply Rmin_l. assert (h2 : h <= fst x) by apply Rmin_r.
    assert (Ah : Rabs (- h) < delta) by (rewrite Rabs_Ropp, Rabs_pos_eq; lra). specialize (Hd (- h) ltac:(lra) Ah). rewrite El, B4 in Hd.
    specialize (Mx (fst x + - h) B' ltac:(lra) ltac:(lra)). apply Rabs_def2 in Hd. destruct Hd as [Hd _].
    assert (Q : 0 <= (F (fst x + - h + L) - F (fst x + - h) - alpha) / (- h)).
    { replace ((F (fst x + - h + L) - F (fst x + - h) - alpha) / - h) with ((alpha - (F (fst x + - h + L) - F (fst x + - h))) / h) by (field; lra). apply Rmult_le_pos; [lra|apply Rlt_le, Rinv_0_lt_compat; lra]. }
    lra.
  Qed.
End Shortest.
