(** Algebra of quadratic forms, used by KalmanFilterProps. *)
From mathcomp Require Import all_ssreflect all_algebra.
From Coq Require Import Ring.
From Verif Require Import KalmanFilterModel.
Set Implicit Arguments.
Unset Strict Implicit.
Unset Printing Implicit Defensive.
Import Order.Theory GRing.Theory Num.Theory.
Local Open Scope ring_scope.

Section Forms.
Variable F : realFieldType.

Definition fadd (x y : F) : F := x + y.
Definition fopp (x : F) : F := - x.
Definition fmul (x y : F) : F := x * y.
Lemma F_ring : ring_theory (0 : F) 1 fadd fmul (fun x y => fadd x (fopp y)) fopp eq.
Proof.
split=> //.
- exact: add0r.
- exact: addrC.
- exact: addrA.
- exact: mul1r.
- exact: mulrC.
- exact: mulrA.
- exact: mulrDl.
- exact: subrr.
Qed.
Add Ring F_as_ring : F_ring.
(** The bilinear form of a matrix; [bil A v v] is a weighted sum of squares *)
Definition bil k l (A : 'M[F]_(k, l)) (u : 'cV[F]_k) (v : 'cV[F]_l) : F := (u^T *m A *m v) 0 0.

Ltac fring :=
  match goal with |- @eq _ ?a ?b => change (@eq (Num.RealField.sort F) a b) end;
  repeat match goal with
  | |- context [@GRing.add ?Z ?x ?y] => progress change (@GRing.add Z x y) with (fadd x y)
  | |- context [@GRing.opp ?Z ?x] => progress change (@GRing.opp Z x) with (fopp x)
  | |- context [@GRing.mul ?Z ?x ?y] => progress change (@GRing.mul Z x y) with (fmul x y)
  end;
  repeat match goal with |- context [@bil ?a ?b ?A ?u ?v] => let x := fresh in set x := (@bil a b A u v : F); clearbody x end; ring.

Lemma quadE k (A : 'M[F]_k) v : quad A v = bil A v v.
Proof. by rewrite /quad /bil mulmxA. Qed.
Lemma bilDl k l (A : 'M[F]_(k, l)) u u' v : bil A (u + u') v = bil A u v + bil A u' v.
Proof. by rewrite /bil linearD /= !mulmxDl mxE. Qed.
Lemma bilDr k l (A : 'M[F]_(k, l)) u v v' : bil A u (v + v') = bil A u v + bil A u v'.
Proof. by rewrite /bil mulmxDr mxE. Qed.
Lemma bilNl k l (A : 'M[F]_(k, l)) u v : bil A (- u) v = - bil A u v.
Proof. by rewrite /bil linearN /= !mulNmx mxE. Qed.
Lemma bilNr k l (A : 'M[F]_(k, l)) u v : bil A u (- v) = - bil A u v.
Proof. by rewrite /bil mulmxN mxE. Qed.
Lemma bilDm k l (A B : 'M[F]_(k, l)) u v : bil (A + B) u v = bil A u v + bil B u v.
Proof. by rewrite /bil mulmxDr mulmxDl mxE. Qed.
Lemma bilNm k l (A : 'M[F]_(k, l)) u v : bil (- A) u v = - bil A u v.
Proof. by rewrite /bil mulmxN mulNmx mxE. Qed.
Lemma bilMl k l h (A : 'M[F]_(k, l)) (X : 'M[F]_(k, h)) u v : bil A (X *m u) v = bil (X^T *m A) u v.
Proof. by rewrite /bil trmx_mul !mulmxA. Qed.
Lemma bilMr k l h (A : 'M[F]_(k, l)) (X : 'M[F]_(l, h)) u v : bil A u (X *m v) = bil (A *m X) u v.
Proof. by rewrite /bil !mulmxA. Qed.
Lemma bilT k l (A : 'M[F]_(k, l)) u v : bil A u v = bil A^T v u.
Proof. by rewrite /bil -[LHS]trace_mx11 -mxtrace_tr !trmx_mul trmxK mulmxA trace_mx11. Qed.
Lemma bil0l k l (A : 'M[F]_(k, l)) v : bil A 0 v = 0.
Proof. by rewrite /bil trmx0 !mul0mx mxE. Qed.
Lemma bil0r k l (A : 'M[F]_(k, l)) u : bil A u 0 = 0.
Proof. by rewrite /bil mulmx0 mxE. Qed.
Lemma bil0m k l u v : bil (0 : 'M[F]_(k, l)) u v = 0.
Proof. by rewrite /bil mulmx0 mul0mx mxE. Qed.

(** Positive semi-definite and positive definite *)
Definition psd k (A : 'M[F]_k) := A^T = A /\ forall v, 0 <= bil A v v.
Definition pd k (A : 'M[F]_k) := A^T = A /\ forall v, v != 0 -> 0 < bil A v v.

Lemma pd_psd k (A : 'M[F]_k) : pd A -> psd A.
Proof.
move=> [S N]; split=> // v; case: (eqVneq v 0) => [-> | Z]; first by rewrite bil0l.
exact: ltW (N _ Z).
Qed.
Lemma pd_unit k (A : 'M[F]_k) : pd A -> A \in unitmx.
Proof.
move=> [S N]; rewrite unitmxE unitfE; apply/negP=> /det0P [v Z E].
have Zt : v^T != 0 by apply: contraNneq Z => T; rewrite -[v]trmxK T trmx0.
by have := N _ Zt; rewrite /bil trmxK E mul0mx mxE ltxx.
Qed.
Lemma mat_inverse_unit k (A : 'M[F]_k) : A \in unitmx -> mat_inverse A = invmx A.
Proof. by rewrite /mat_inverse unitmxE unitfE; case: eqP. Qed.
Lemma mat_inverse_pd k (A : 'M[F]_k) : pd A -> mat_inverse A = invmx A.
Proof. by move=> /pd_unit; exact: mat_inverse_unit. Qed.

Lemma psd_add k (A B : 'M[F]_k) : psd A -> psd B -> psd (A + B).
Proof.
move=> [SA NA] [SB NB]; split; first by rewrite linearD /= SA SB.
by move=> v; rewrite bilDm addr_ge0.
Qed.
Lemma psd_pd_add k (A B : 'M[F]_k) : psd A -> pd B -> pd (A + B).
Proof.
move=> [SA NA] [SB NB]; split; first by rewrite linearD /= SA SB.
by move=> v Z; rewrite bilDm ltr_paddl // NB.
Qed.
Lemma pd_psd_add k (A B : 'M[F]_k) : pd A -> psd B -> pd (A + B).
Proof. by move=> PA PB; rewrite addrC; exact: psd_pd_add. Qed.
Lemma pd_add k (A B : 'M[F]_k) : pd A -> pd B -> pd (A + B).
Proof. by move=> /pd_psd PA PB; exact: psd_pd_add. Qed.
Lemma psd_conj k l (A : 'M[F]_k) (X : 'M[F]_(l, k)) : psd A -> psd (X *m A *m X^T).
Proof.
move=> [S N]; split; first by rewrite !trmx_mul trmxK S mulmxA.
by move=> v; have := N (X^T *m v); rewrite bilMl bilMr trmxK.
Qed.
Lemma pd_conj k (A : 'M[F]_k) (X : 'M[F]_k) : X \in unitmx -> pd A -> pd (X *m A *m X^T).
Proof.
move=> U [S N]; split; first by rewrite !trmx_mul trmxK S mulmxA.
move=> v Z; have Z' : X^T *m v != 0.
  have UT : X^T \in unitmx by rewrite unitmx_tr.
  by apply: contraNneq Z => E; rewrite -[v](mulKmx UT) E mulmx0.
by have := N _ Z'; rewrite bilMl bilMr trmxK.
Qed.
Lemma inv_sym k (A : 'M[F]_k) : A^T = A -> (invmx A)^T = invmx A.
Proof. by move=> S; rewrite trmx_inv S. Qed.
Lemma pd_inv k (A : 'M[F]_k) : pd A -> pd (invmx A).
Proof.
move=> D; have U := pd_unit D; have := @pd_conj k A (invmx A).
rewrite unitmx_inv => /(_ U D); rewrite mulVmx // mul1mx inv_sym //; exact: (proj1 D).
Qed.
Lemma pd_scalar k (a : F) : 0 < a -> pd (a%:M : 'M[F]_k).
Proof.
move=> P; split; first exact: tr_scalar_mx.
move=> v Z; rewrite /bil -mulmxA mul_scalar_mx -scalemxAr mxE mulr_gt0 //.
rewrite mxE lt0r; apply/andP; split; last by apply: sumr_ge0 => i _; rewrite mxE -expr2 sqr_ge0.
apply: contraNneq Z => E; apply/eqP/matrixP=> i j; rewrite ord1 mxE.
have: forall i, true -> 0 <= v^T 0 i * v i 0 by move=> i' _; rewrite mxE -expr2 sqr_ge0.
move=> /psumr_eq0P /(_ E) /(_ i isT) /eqP; rewrite mxE mulf_eq0 orbb => /eqP //.
Qed.

(** A matrix is larger than another one *)
Definition above k (B A : 'M[F]_k) := forall v, bil A v v <= bil B v v.
Lemma psd_above k (A B : 'M[F]_k) : A^T = A -> B^T = B -> above B A -> psd (B - A).
Proof.
move=> SA SB N; split; first by rewrite linearB /= SA SB.
by move=> v; rewrite bilDm bilNm subr_ge0.
Qed.

(** Completing the square *)
Lemma square k (A : 'M[F]_k) b y : A^T = A -> A \in unitmx ->
  bil A y y - (bil 1%:M b y + bil 1%:M b y) = bil A (y - invmx A *m b) (y - invmx A *m b) - bil (invmx A) b b.
Proof.
move=> S U; rewrite !(bilDl, bilDr, bilNl, bilNr).
have E1 : bil A y (invmx A *m b) = bil 1%:M b y by rewrite bilMr mulmxV // bilT trmx1.
have E2 : bil A (invmx A *m b) y = bil 1%:M b y by rewrite bilMl inv_sym // mulVmx.
have E3 : bil A (invmx A *m b) (invmx A *m b) = bil (invmx A) b b by rewrite bilMl bilMr inv_sym // mulVmx // mul1mx.
rewrite E1 E2 E3; fring.
Qed.
Lemma inv_antitone k (A B : 'M[F]_k) : pd A -> pd B -> above B A -> above (invmx A) (invmx B).
Proof.
move=> PA PB N v; have [SA _] := PA; have [SB _] := PB.
set y := invmx B *m v.
have EA := square v y SA (pd_unit PA).
have EB : bil (invmx B) v v = (bil 1%:M v y + bil 1%:M v y) - bil B y y.
  have := square v y SB (pd_unit PB); rewrite subrr bil0l sub0r => /(congr1 -%R); rewrite opprK => <-; fring.
have := proj2 (pd_psd PA) (y - invmx A *m v); have := N y; rewrite EB => L1 L2.
have -> : bil (invmx A) v v = (bil 1%:M v y + bil 1%:M v y) - bil A y y + bil A (y - invmx A *m v) (y - invmx A *m v).
  apply/eqP; rewrite addrC -subr_eq; apply/eqP.
  have -> : bil (invmx A) v v = bil A (y - invmx A *m v) (y - invmx A *m v) - (bil A y y - (bil 1%:M v y + bil 1%:M v y)) by rewrite EA; fring.
  fring.
by rewrite ler_paddr // ler_sub.
Qed.
(** The weighted mean is the minimum of the sum of two forms *)
Lemma sum_of_forms k (A B : 'M[F]_k) a b y : A^T = A -> B^T = B -> A + B \in unitmx ->
  let c := invmx (A + B) *m (A *m a + B *m b) in
  bil A (y - a) (y - a) + bil B (y - b) (y - b) = bil (A + B) (y - c) (y - c) + (bil A (c - a) (c - a) + bil B (c - b) (c - b)).
Proof.
move=> SA SB U c.
have E : A *m (c - a) + B *m (c - b) = 0.
  by rewrite !mulmxBr addrACA -mulmxDl -opprD /c mulKVmx // subrr.
have C : bil A (y - c) (c - a) = - bil B (y - c) (c - b).
  apply/eqP; rewrite -addr_eq0 -[A]mul1mx -[B]mul1mx -!bilMr -bilDr.
  by rewrite E bil0r.
have -> : y - a = (y - c) + (c - a) by rewrite addrA subrK.
have -> : y - b = (y - c) + (c - b) by rewrite addrA subrK.
rewrite !(bilDl _ (y - c)) !(bilDr _ _ (y - c)) bilDm (bilT A (c - a) (y - c)) SA (bilT B (c - b) (y - c)) SB C; fring.
Qed.

(** Taking a hit out of a minimum *)
Lemma without_hit n m (A : 'M[F]_n) (Hm : 'M[F]_(m, n)) (W : 'M[F]_m) (s : 'cV[F]_n) (r0 : 'cV[F]_m) :
  W^T = W -> A^T = A -> A - Hm^T *m W *m Hm \in unitmx ->
  let D := A - Hm^T *m W *m Hm in
  let t := s - invmx D *m (Hm^T *m (W *m r0)) in
  (forall y, bil A (y - s) (y - s) - bil W (r0 - Hm *m (y - s)) (r0 - Hm *m (y - s))
     = bil D (y - t) (y - t) - (bil (invmx D) (Hm^T *m (W *m r0)) (Hm^T *m (W *m r0)) + bil W r0 r0))
  /\ A *m (s - t) = Hm^T *m (W *m (r0 + Hm *m (s - t))).
Proof.
move=> SW SA U D t; set b := Hm^T *m (W *m r0).
have Est : s - t = invmx D *m b by rewrite /t opprB addrC subrK.
have SD : D^T = D by rewrite /D linearB /= !trmx_mul trmxK SW SA mulmxA.
split.
- move=> y; set e := y - s.
  have -> : y - t = e - invmx D *m (- b) by rewrite mulmxN opprK -Est addrA /e subrK.
  have := square (- b) e SD U; rewrite !(bilNl, bilNr) => Q.
  have -> : bil D (e - invmx D *m - b) (e - invmx D *m - b) = bil D e e - (- bil 1%:M b e - bil 1%:M b e) + bil (invmx D) b b.
    by apply/eqP; rewrite -subr_eq; apply/eqP; rewrite -[bil (invmx D) b b]opprK -[in LHS]Q.
  have C1 : bil W r0 (Hm *m e) = bil 1%:M b e by rewrite bilMr /b !bilMl mulmx1 trmxK SW.
  have C2 : bil W (Hm *m e) r0 = bil 1%:M b e by rewrite bilT SW C1.
  have C3 : bil A e e = bil D e e + bil W (Hm *m e) (Hm *m e) by rewrite bilMl bilMr -bilDm /D subrK.
  rewrite !(bilDl W) !(bilDr W) !(bilNl, bilNr) C1 C2 C3; fring.
- rewrite Est mulmxDr mulmxDr -/b.
  have {1}-> : A = D + Hm^T *m W *m Hm by rewrite /D subrK.
  by rewrite mulmxDl mulKVmx // !mulmxA.
Qed.

(** The update with one hit *)
Section Update.
Variables n m : nat.
Variables (P : 'M[F]_n) (H : 'M[F]_(m, n)) (V : 'M[F]_m).
Hypotheses (DP : psd P) (DV : pd V).
Let S := H *m (P *m H^T) + V.
Let K := P *m (H^T *m mat_inverse S).
Let Pf := P - K *m (H *m P).

Lemma residual_pd : pd S.
Proof using DP DV. by rewrite /S mulmxA; apply: psd_pd_add => //; exact: psd_conj. Qed.
Let US := pd_unit residual_pd.
Let UV := pd_unit DV.
Lemma gain_eq : K = P *m H^T *m invmx S.
Proof using DP DV. by rewrite /K mat_inverse_unit // mulmxA. Qed.
Lemma gain_S : K *m S = P *m H^T.
Proof using DP DV. by rewrite gain_eq mulmxKV. Qed.
Lemma HPH : H *m P *m H^T = S - V.
Proof using. by rewrite /S mulmxA addrK. Qed.
Lemma H_gain : H *m K = 1%:M - V *m invmx S.
Proof using DP DV. by rewrite gain_eq !mulmxA HPH mulmxBl mulmxV. Qed.
Lemma Pf_H : Pf *m H^T = K *m V.
Proof using DP DV. by rewrite /Pf mulmxBl -gain_S -(mulmxA K) HPH mulmxBr subKr. Qed.
Lemma gain_tr : K^T = invmx S *m (H *m P).
Proof using DP DV. by rewrite gain_eq !trmx_mul trmxK inv_sym ?(proj1 DP) //; exact: (proj1 residual_pd). Qed.
Lemma KHP : K *m (H *m P) = K *m S *m K^T.
Proof using DP DV. by rewrite gain_tr -mulmxA mulKVmx. Qed.
Lemma joseph : Pf = (1%:M - K *m H) *m P *m (1%:M - K *m H)^T + K *m V *m K^T.
Proof using DP DV.
have -> : (1%:M - K *m H) *m P = Pf by rewrite mulmxBl mul1mx -mulmxA.
by rewrite linearB /= trmx1 trmx_mul mulmxBr mulmx1 mulmxA Pf_H subrK.
Qed.
Lemma update_psd : psd Pf.
Proof using DP DV. by rewrite joseph; apply: psd_add; apply: psd_conj => //; exact: pd_psd. Qed.
Lemma update_smaller : psd (P - Pf).
Proof using DP DV. by rewrite /Pf subKr KHP; apply: psd_conj; apply: pd_psd; exact: residual_pd. Qed.
Lemma residual_cov : V - H *m (Pf *m H^T) = V *m invmx S *m V.
Proof using DP DV. by rewrite Pf_H mulmxA H_gain mulmxBl mul1mx subKr. Qed.
Lemma residual_cov_pd : pd (V - H *m (Pf *m H^T)).
Proof using DP DV.
rewrite residual_cov; have := pd_conj UV (pd_inv residual_pd); by rewrite (proj1 DV).
Qed.
Lemma chi2_eq (r : 'cV[F]_m) : quad (mat_inverse (V - H *m (Pf *m H^T))) (r - H *m (K *m r)) = bil (invmx S) r r.
Proof using DP DV.
rewrite (mat_inverse_pd residual_cov_pd) residual_cov quadE.
have -> : r - H *m (K *m r) = V *m (invmx S *m r).
  by rewrite mulmxA H_gain mulmxBl mul1mx subKr mulmxA.
rewrite !bilMl !bilMr (proj1 DV) inv_sym; last exact: (proj1 residual_pd).
have UM : V *m invmx S *m V \in unitmx by rewrite !unitmx_mul UV unitmx_inv US.
have -> : invmx (V *m invmx S *m V) = invmx V *m S *m invmx V.
  apply: (can_inj (mulKmx UM)).
  by rewrite mulmxV // -!mulmxA (mulKVmx UV) (mulKmx US) mulmxV.
by rewrite -!mulmxA (mulKVmx UV) (mulKmx US) (mulKmx UV).
Qed.

Section Information.
Hypothesis PP : pd P.
Let UP := pd_unit PP.
Let L := invmx P + H^T *m invmx V *m H.
Lemma information_pd : pd L.
Proof using DV PP.
apply: pd_psd_add; first exact: pd_inv.
rewrite -{2}[H]trmxK; apply: psd_conj; apply: pd_psd; exact: pd_inv.
Qed.
Lemma L_gain : L *m K = H^T *m invmx V.
Proof using DP DV PP.
rewrite gain_eq.
have -> : L *m (P *m H^T *m invmx S) = (H^T *m invmx V *m S) *m invmx S.
  rewrite !mulmxA; congr (_ *m _).
  by rewrite /L !mulmxDl mulVmx // mul1mx mulmxDr mulmxKV // addrC !mulmxA.
by rewrite mulmxK.
Qed.
Lemma information : invmx Pf = L.
Proof using DP DV PP.
have E : L *m Pf = 1%:M.
  rewrite /Pf mulmxBr (mulmxA L K) L_gain /L mulmxDl mulVmx // !mulmxA addrK //.
have UPf : Pf \in unitmx by case: (mulmx1_unit E).
by apply: (can_inj (mulmxK UPf)); rewrite E mulVmx.
Qed.
Lemma update_pd : pd Pf.
Proof using DP DV PP.
have E : L *m Pf = 1%:M.
  rewrite /Pf mulmxBr (mulmxA L K) L_gain /L mulmxDl mulVmx // !mulmxA addrK //.
have -> : Pf = invmx L by rewrite -information invmxK.
exact: pd_inv information_pd.
Qed.
(** The cost of the deviation [e] from the prediction and of what it leaves of the residual [r] *)
Lemma update_cost (e : 'cV[F]_n) (r : 'cV[F]_m) :
  bil (invmx P) e e + bil (invmx V) (r - H *m e) (r - H *m e)
  = bil (invmx S) r r + bil (invmx Pf) (e - K *m r) (e - K *m r).
Proof using DP DV PP.
rewrite information.
have SL := proj1 information_pd.
have SVi := inv_sym (proj1 DV).
rewrite !(bilDl (invmx V)) !(bilDr (invmx V)) !(bilDl L) !(bilDr L) !(bilNl, bilNr).
have E1 : bil L e (K *m r) = bil (invmx V) r (H *m e).
  by rewrite bilMr L_gain bilMr bilT !trmx_mul trmxK SVi.
have E2 : bil L (K *m r) e = bil (invmx V) r (H *m e) by rewrite bilT SL E1.
have E3 : bil (invmx V) (H *m e) r = bil (invmx V) r (H *m e) by rewrite bilT SVi.
have E4 : bil L (K *m r) (K *m r) = bil (invmx V) r r - bil (invmx S) r r.
  rewrite bilMr bilMl L_gain mulmxA -trmx_mul H_gain.
  rewrite linearB /= trmx1 trmx_mul (proj1 DV) inv_sym ?(proj1 residual_pd) //.
  by rewrite mulmxBl mul1mx mulmxK // bilDm bilNm.
have E5 : bil L e e = bil (invmx P) e e + bil (invmx V) (H *m e) (H *m e).
  by rewrite /L bilDm bilMl bilMr.
rewrite E1 E2 E3 E4 E5; fring.
Qed.
End Information.
End Update.

Lemma residual_of_information n m (D C : 'M[F]_n) (H : 'M[F]_(m, n)) (V : 'M[F]_m) :
  pd D -> pd V -> invmx C = D + H^T *m invmx V *m H -> pd (V - H *m (C *m H^T)).
Proof.
move=> DD DV E; have DP := pd_inv DD.
have := information H (pd_psd DP) DV DP; rewrite invmxK -E => /(congr1 (@invmx F n)); rewrite !invmxK => <-.
exact: residual_cov_pd (pd_psd DP) DV.
Qed.

(** The prediction: a step J of the state and a kick through M *)
Section Predict.
Variables n q : nat.
Variables (P : 'M[F]_n) (Q : 'M[F]_q) (J : 'M[F]_n) (M : 'M[F]_(n, q)).
Let P' := J *m (P *m J^T) + M *m (Q *m M^T).
Lemma predict_psd : psd P -> psd Q -> psd P'.
Proof using. by move=> DP DQ; rewrite /P' !mulmxA; apply: psd_add; exact: psd_conj. Qed.
Lemma predict_pd : J \in unitmx -> pd P -> psd Q -> pd P'.
Proof using. by move=> U DP DQ; rewrite /P' !mulmxA; apply: pd_psd_add; [exact: pd_conj | exact: psd_conj]. Qed.
Lemma predict_cost (e : 'cV[F]_n) (w : 'cV[F]_q) : J \in unitmx -> pd P -> pd Q ->
  let d := J *m e + M *m w in
  let e' := P *m (J^T *m (invmx P' *m d)) in
  let w' := Q *m (M^T *m (invmx P' *m d)) in
  J *m e' + M *m w' = d /\
  bil (invmx P) e e + bil (invmx Q) w w
  = bil (invmx P') d d + (bil (invmx P) (e - e') (e - e') + bil (invmx Q) (w - w') (w - w')).
Proof using.
move=> U DP DQ d e' w'; have DP' := predict_pd U DP (pd_psd DQ); have UP' := pd_unit DP'.
have SP' := inv_sym (proj1 DP').
have E : J *m e' + M *m w' = d.
  rewrite -[RHS](mulKVmx UP') /P' mulmxDl /e' /w'; set g := _ *m d.
  by rewrite -!mulmxA.
split=> //.
have X : forall k (A : 'M[F]_k) u v, A^T = A -> bil A u u = bil A (u - v) (u - v) + (bil A u v + bil A u v - bil A v v).
  by move=> k A u v S; rewrite !(bilDl, bilDr, bilNl, bilNr) (bilT A v u) S; fring.
rewrite (X _ _ e e') ?inv_sym ?(proj1 DP) // (X _ _ w w') ?inv_sym ?(proj1 DQ) //.
have C1 u : bil (invmx P) u e' = bil 1%:M (J *m u) (invmx P' *m d).
  by rewrite bilMl bilMr mulVmx ?pd_unit // bilMr mul1mx mulmx1.
have C2 u : bil (invmx Q) u w' = bil 1%:M (M *m u) (invmx P' *m d).
  by rewrite bilMl bilMr mulVmx ?pd_unit // bilMr mul1mx mulmx1.
rewrite !C1 !C2.
have C3 u1 u2 : J *m u1 + M *m u2 = d -> bil 1%:M (J *m u1) (invmx P' *m d) = bil (invmx P') d d - bil 1%:M (M *m u2) (invmx P' *m d).
  move=> D; have -> : bil (invmx P') d d = bil 1%:M (J *m u1 + M *m u2) (invmx P' *m d) by rewrite D bilMr mul1mx.
  by rewrite bilDl addrK.
rewrite (C3 e w) // (C3 e' w') //; fring.
Qed.
End Predict.
End Forms.
