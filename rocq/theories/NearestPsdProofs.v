(** The polar decomposition of symmetric matrices and the nearest positive semi-definite matrix, used by NearestPsdProps. *)
From mathcomp Require Import all_ssreflect all_algebra.
From Verif Require Import KalmanFilterModel KalmanFilterProofs.
Set Implicit Arguments.
Unset Strict Implicit.
Unset Printing Implicit Defensive.
Import Order.Theory GRing.Theory Num.Theory.
Local Open Scope ring_scope.

Section Nearest.
Variable F : realFieldType.
Variable n : nat.
Implicit Types A B P Q X : 'M[F]_n.

(** The sum of the squares of the entries *)
Definition squares A : F := \sum_i \sum_j A i j ^+ 2.
Lemma squares_tr A : squares A = \tr (A *m A^T).
Proof. by rewrite /squares /mxtrace; apply: eq_bigr => i _; rewrite mxE; apply: eq_bigr => j _; rewrite mxE expr2. Qed.
Lemma squares_ge0 A : 0 <= squares A.
Proof. by apply: sumr_ge0 => i _; apply: sumr_ge0 => j _; exact: sqr_ge0. Qed.
Lemma squares_eq0 A : squares A = 0 -> A = 0.
Proof.
move=> E; apply/matrixP => i j; rewrite mxE.
have N : forall k, true -> 0 <= \sum_l A k l ^+ 2 by move=> k _; apply: sumr_ge0 => l _; exact: sqr_ge0.
have := psumr_eq0P N E; move=> /(_ i isT) E'.
have N' : forall l, true -> 0 <= A i l ^+ 2 by move=> l _; exact: sqr_ge0.
by have := psumr_eq0P N' E'; move=> /(_ j isT) /eqP; rewrite sqrf_eq0 => /eqP.
Qed.

Lemma psd_trace A : psd A -> 0 <= \tr A.
Proof.
move=> [S N]; apply: sumr_ge0 => i _; have := N (delta_mx i 0).
by rewrite /bil trmx_delta -rowE -colE !mxE.
Qed.
Lemma psd_diag_ge0 A i : psd A -> 0 <= A i i.
Proof. by move=> [S N]; have := N (delta_mx i 0); rewrite /bil trmx_delta -rowE -colE !mxE. Qed.
Lemma diag_psd (s : 'rV[F]_n) : (forall i, 0 <= s 0 i) -> psd (diag_mx s).
Proof.
move=> N; split; first by rewrite tr_diag_mx.
move=> v; rewrite /bil -mulmxA mul_diag_mx mxE; apply: sumr_ge0 => i _.
by rewrite !mxE mulrCA -expr2 mulr_ge0 // sqr_ge0.
Qed.

Add Ring F_as_ring : (F_ring F).
Ltac fring :=
  match goal with |- @eq _ ?a ?b => change (@eq (Num.RealField.sort F) a b) end;
  repeat match goal with
  | |- context [@GRing.add ?Z ?x ?y] => progress change (@GRing.add Z x y) with (fadd x y)
  | |- context [@GRing.opp ?Z ?x] => progress change (@GRing.opp Z x) with (fopp x)
  | |- context [@GRing.mul ?Z ?x ?y] => progress change (@GRing.mul Z x y) with (fmul x y)
  end; ring.

(** the form vanishes only in the kernel *)
Lemma psd_kernel A (v : 'cV[F]_n) : psd A -> bil A v v = 0 -> A *m v = 0.
Proof.
move=> [S N] Z; apply/eqP/negPn/negP => Nz.
pose w := A *m v.
have W : 0 < bil (1%:M : 'M[F]_n) w w by apply: (proj2 (pd_scalar n (ltr01 : 0 < (1 : F)))).
have E : bil A w v = bil 1%:M w w by rewrite /bil mulmx1 -mulmxA.
have E' : bil A v w = bil 1%:M w w by rewrite bilT S.
have := N w; set q := bil A w w => Q.
move: W E E'; set W := bil 1%:M w w => PW E E'.
have Q1 : 0 < q + 1 by rewrite ltr_paddl // ltr01.
pose t := W / (q + 1).
have T : 0 < t by rewrite divr_gt0.
have Bz : forall u, bil A u (t *: w) = t * bil A u w by move=> u; rewrite /bil -scalemxAr mxE.
have Bz' : forall u, bil A (t *: w) u = t * bil A w u by move=> u; rewrite /bil linearZ /= -!scalemxAl mxE.
have := N (v - t *: w).
rewrite bilDl !bilDr !bilNl !bilNr Z !Bz !Bz' E E' -/q => L.
have H : t * q < W.
  rewrite /t mulrAC ltr_pdivr_mulr // ltr_pmul2l // ltr_addl; exact: ltr01.
have M : t * (t * q) < t * W by rewrite ltr_pmul2l.
have M' : 0 < t * W by rewrite mulr_gt0.
have L' : t * W + t * W <= t * (t * q).
  by rewrite -subr_ge0; move: L; congr (0 <= _); fring.
have := le_lt_trans L' M; rewrite -subr_gt0.
have -> : t * W - (t * W + t * W) = - (t * W) by fring.
by rewrite oppr_gt0 ltNge (ltW M').
Qed.

(** A positive semi-definite matrix is determined by its square *)
Lemma mulmx_cols (A B : 'M[F]_n) : (forall v : 'cV[F]_n, A *m v = B *m v) -> A = B.
Proof.
by move=> E; apply/matrixP => i j; have := E (delta_mx j 0); rewrite -!colE => /matrixP /(_ i 0); rewrite !mxE.
Qed.
Lemma psd_trace0 A : psd A -> \tr A = 0 -> A = 0.
Proof.
move=> D E; apply/matrixP => i j; rewrite [RHS]mxE.
have N : forall k, true -> 0 <= A k k by move=> k _; exact: psd_diag_ge0.
have := psumr_eq0P N E => /(_ j isT) Z.
have: A *m delta_mx j 0 = 0 :> 'cV[F]_n by apply: psd_kernel => //; rewrite /bil trmx_delta -rowE -colE !mxE.
by rewrite -colE => /matrixP /(_ i 0); rewrite !mxE.
Qed.
Lemma root_unique P Q : psd P -> psd Q -> P *m P = Q *m Q -> P = Q.
Proof.
move=> DP DQ E; pose D := P - Q; pose S := P + Q.
have SP := proj1 DP; have SQ := proj1 DQ.
have SD : D^T = D by rewrite /D linearB /= SP SQ.
have DS : psd S by apply: psd_add.
have A1 : S *m D = - (D *m S).
  rewrite /S /D !mulmxBl !mulmxDl !mulmxBr !mulmxDr E.
  by apply/matrixP => i j; rewrite !mxE; fring.
have A2 : \tr (D *m S *m D) = 0.
  have X : \tr (D *m S *m D) = - \tr (D *m S *m D).
    by rewrite -[in LHS]mulmxA A1 mulmxN linearN /= mxtrace_mulC.
  have: \tr (D *m S *m D) + \tr (D *m S *m D) = 0 by rewrite {1}X addNr.
  by rewrite -mulr2n -mulr_natr => /eqP; rewrite mulf_eq0 pnatr_eq0 orbF => /eqP.
have DDS : psd (D *m S *m D) by rewrite -{2}SD; exact: psd_conj.
have Z := psd_trace0 DDS A2.
have K : forall v : 'cV[F]_n, D *m v = 0.
  move=> v; pose y := D *m v.
  have: bil S y y = 0 by rewrite /y bilMl bilMr SD Z bil0m.
  rewrite /S bilDm => /eqP; rewrite paddr_eq0; [|exact: (proj2 DP)|exact: (proj2 DQ)].
  move=> /andP [/eqP ZP /eqP ZQ]; have KP := psd_kernel DP ZP; have KQ := psd_kernel DQ ZQ.
  have Dy : D *m y = 0 by rewrite /D mulmxBl KP KQ subrr.
  apply/eqP/negPn/negP => Ny; have := proj2 (pd_scalar n (ltr01 : 0 < (1 : F))) _ Ny.
  by rewrite /bil mulmx1 /y trmx_mul SD -mulmxA -/y Dy mulmx0 mxE ltxx.
by apply/eqP; rewrite -subr_eq0; apply/eqP/mulmx_cols => v; rewrite K mul0mx.
Qed.

(** The decomposition of a symmetric matrix B = U diag(s) V *)
Variables (B U V : 'M[F]_n) (s : 'rV[F]_n).
Hypotheses (SB : B^T = B) (EB : B = U *m (diag_mx s *m V)) (UU : U^T *m U = 1%:M) (VV : V *m V^T = 1%:M) (Ns : forall i, 0 <= s 0 i).
Let d := diag_mx s.
Let H := V^T *m (d *m V).
Lemma UU' : U *m U^T = 1%:M. Proof using UU. exact: mulmx1C. Qed.
Lemma VV' : V^T *m V = 1%:M. Proof using VV. exact: mulmx1C. Qed.
Lemma H_psd : psd H.
Proof using Ns. by rewrite /H mulmxA -{2}[V]trmxK; apply: psd_conj; exact: diag_psd. Qed.
Lemma P_psd : psd (U *m d *m U^T).
Proof using Ns. by apply: psd_conj; exact: diag_psd. Qed.
Lemma dT : d^T = d. Proof using. exact: tr_diag_mx. Qed.
Lemma B_alt : B = V^T *m (d *m U^T).
Proof using SB EB. by rewrite -SB EB !trmx_mul dT mulmxA. Qed.
Lemma P_H : U *m d *m U^T = H.
Proof using SB EB UU VV Ns.
apply: root_unique; [exact: P_psd | exact: H_psd |].
have -> : U *m d *m U^T *m (U *m d *m U^T) = B *m B.
  rewrite {1}EB B_alt -!mulmxA; congr (_ *m (_ *m _)).
  by rewrite !mulmxA UU VV.
rewrite {1}B_alt EB /H -!mulmxA; congr (_ *m (_ *m _)).
by rewrite !mulmxA UU VV.
Qed.
Lemma H_plus : B + H = 2%:R^-1 *: ((U + V^T) *m d *m (U + V^T)^T).
Proof using SB EB UU VV Ns.
rewrite linearD /= trmxK !mulmxDl !mulmxDr P_H -[U *m d *m V]mulmxA -EB -[V^T *m d *m U^T]mulmxA -B_alt -[V^T *m d *m V]mulmxA -/H.
apply/matrixP => i j; rewrite !mxE; set x := B i j; set y := (\sum_k _).
have -> : y + x + (x + y) = 2%:R * (x + y) by rewrite mulr_natl mulr2n; fring.
by rewrite mulrA mulVf ?mul1r // pnatr_eq0.
Qed.
Lemma H_minus : H - B = 2%:R^-1 *: ((U - V^T) *m d *m (U - V^T)^T).
Proof using SB EB UU VV Ns.
rewrite linearB /= trmxK !mulmxBl !mulmxBr P_H -[U *m d *m V]mulmxA -EB -[V^T *m d *m U^T]mulmxA -B_alt -[V^T *m d *m V]mulmxA -/H.
apply/matrixP => i j; rewrite !mxE; set x := B i j; set y := (\sum_k _).
have -> : y - x - (x - y) = 2%:R * (y - x) by rewrite mulr_natl mulr2n; fring.
by rewrite mulrA mulVf ?mul1r // pnatr_eq0.
Qed.
Lemma half_gt0 : 0 < (2%:R^-1 : F).
Proof using. by rewrite invr_gt0 ltr0n. Qed.
Lemma psd_scale k (a : F) (A : 'M[F]_k) : 0 <= a -> psd A -> psd (a *: A).
Proof using.
move=> Na [SA NA]; split; first by rewrite linearZ /= SA.
by move=> v; rewrite /bil -scalemxAr -scalemxAl mxE mulr_ge0 // NA.
Qed.
Lemma closest_psd : psd (2%:R^-1 *: (B + H)).
Proof using SB EB UU VV Ns.
rewrite H_plus; do 2 (apply: psd_scale; first exact: ltW half_gt0).
by apply: psd_conj; exact: diag_psd.
Qed.
Lemma H_B : H *m B = B *m H.
Proof using SB EB UU VV Ns.
by rewrite -{1}P_H {1}EB {1}EB /H !mulmxA -[U *m d *m U^T *m U]mulmxA UU mulmx1 -[U *m d *m V *m V^T]mulmxA VV mulmx1.
Qed.
Lemma H_H : H *m H = B *m B.
Proof using SB EB UU VV.
rewrite {1}B_alt EB /H -!mulmxA; congr (_ *m (_ *m _)).
by rewrite !mulmxA UU VV.
Qed.
Lemma trace_minus X : psd X -> 0 <= \tr (X *m (H - B)).
Proof using SB EB UU VV Ns.
move=> DX; rewrite H_minus -scalemxAr linearZ /= mulr_ge0 ?(ltW half_gt0) //.
set Y := U - V^T; have DY : psd (Y^T *m X *m Y) by rewrite -{2}[Y]trmxK; exact: psd_conj.
rewrite mulmxA mxtrace_mulC !mulmxA; apply: sumr_ge0 => i _.
by rewrite mul_mx_diag mxE mulr_ge0 // psd_diag_ge0.
Qed.
Let C := 2%:R^-1 *: (B + H).
Lemma trace_sq A A' : A^T = A -> A'^T = A' -> squares (A - A') = squares A - 2%:R * \tr (A *m A') + squares A'.
Proof using.
move=> SA SA'; rewrite !squares_tr linearB /= SA SA' mulmxBl !mulmxBr !linearB /= [\tr (A' *m A)]mxtrace_mulC mulr_natl mulr2n; move: (\tr (A *m A)) (\tr (A *m A')) (\tr (A' *m A')) => a b c; fring.
Qed.
Lemma distance X : psd X -> squares (B - X) = squares (C - X) + squares (C - B) + \tr (X *m (H - B)).
Proof using SB EB UU VV Ns.
move=> DX; have SX := proj1 DX; have SC := proj1 closest_psd; have SH := proj1 H_psd.
pose N := 2%:R^-1 *: (H - B).
have H2 : 2%:R * 2%:R^-1 = 1 :> F by rewrite mulfV // pnatr_eq0.
have EC : C - B = N.
  rewrite /C /N; move: (H) => K; apply/matrixP => i j; rewrite !mxE; move: (B i j) (K i j) => x y.
  have E : x = 2%:R * 2%:R^-1 * x by rewrite H2 mul1r.
  rewrite [X in _ - X]E mulr_natl; move: (2%:R^-1) => h; rewrite (mulr2n h); fring.
have SN : N^T = N by rewrite -EC linearB /= SC SB.
have -> : B - X = (C - X) - N by rewrite -EC; apply/matrixP => i j; rewrite !mxE; fring.
rewrite trace_sq //; last by rewrite linearB /= SC SX.
rewrite EC mulmxBl linearB /=.
have -> : \tr (C *m N) = 0.
  rewrite /C /N -scalemxAl -scalemxAr !linearZ /= mulmxDl !mulmxBr H_H H_B.
  have -> : B *m H - B *m B + (B *m B - B *m H) = 0 by rewrite addrA subrK subrr.
  by rewrite mxtrace0 !mulr0.
have -> : \tr (X *m (H - B)) = 2%:R * \tr (X *m N).
  by rewrite /N -scalemxAr linearZ /= mulrA H2 mul1r.
by rewrite sub0r mulrN opprK addrAC.
Qed.
Lemma closest_best X : psd X -> squares (B - C) <= squares (B - X) /\ (squares (B - X) <= squares (B - C) -> X = C).
Proof using SB EB UU VV Ns.
move=> DX; have D0 := distance DX; have T := trace_minus DX.
have Sw : squares (C - B) = squares (B - C).
  by rewrite /squares; apply: eq_bigr => i _; apply: eq_bigr => j _; rewrite !mxE -sqrrN opprB.
have P := squares_ge0 (C - X); rewrite D0 Sw; split.
  by rewrite -addrA addrCA ler_addl addr_ge0.
rewrite -addrA addrCA ger_addl => L.
have Z : squares (C - X) = 0.
  apply/eqP; rewrite eq_le P andbT; apply: le_trans L; by rewrite ler_addl.
by have /eqP := squares_eq0 Z; rewrite subr_eq0 => /eqP.
Qed.
End Nearest.
