(** C96: the correction of covariance matrices *)
From mathcomp Require Import all_ssreflect all_algebra.
From Verif Require Import KalmanFilterModel KalmanFilterProofs NearestPsdModel NearestPsdProofs.
Set Implicit Arguments.
Unset Strict Implicit.
Unset Printing Implicit Defensive.
Import Order.Theory GRing.Theory Num.Theory.
Local Open Scope ring_scope.

(** Specification.  Positive semi-definite is [psd] (symmetric, no negative value of the quadratic form), the distance of two matrices is the sum of the squares of
    the differences of their entries. *)
Definition dist2 (F : realFieldType) n (A B : 'M[F]_n) : F := \sum_i \sum_j (A i j - B i j) ^+ 2.
(** s and V belong to a singular value decomposition of B *)
Definition is_svd (F : realFieldType) n (B : 'M[F]_n) (d : 'rV[F]_n * 'M[F]_n) : Prop :=
  exists U, [/\ B = U *m (diag_mx d.1 *m d.2), U^T *m U = 1%:M, d.2 *m d.2^T = 1%:M & forall i, 0 <= d.1 0 i].
(** es are the eigenvalues of the symmetric matrix A *)
Definition is_spectrum (F : realFieldType) n (A : 'M[F]_n) (es : seq F) : Prop :=
  size es = n /\ exists W : 'M[F]_n, W *m W^T = 1%:M /\ A = W^T *m diag_mx (\row_i nth 0 es i) *m W.
(** every entry of R is close to the one of A *)
Definition entries_close (F : realFieldType) n (A R : 'M[F]_n) : Prop :=
  forall i j, `|A i j - R i j| <= 10%:R ^- 5 + 10%:R ^- 8 * `|R i j|.

Section Props.
Variable F : realFieldType.
Variable n : nat.
Variable svd : 'M[F]_n -> 'rV[F]_n * 'M[F]_n.
Variable eigvalsh : 'M[F]_n -> seq F.
Variable spacing : 'M[F]_n -> F.
Notation closest := (closest svd).
Notation make := (make_matrix_psd svd eigvalsh spacing).
Notation check := (check_covariance_matrix svd eigvalsh spacing).
Implicit Types A R X : 'M[F]_n.
Definition sym_part A := 2%:R^-1 *: (A + A^T).

Lemma dist2_squares A R : dist2 A R = squares (A - R).
Proof. by apply: eq_bigr => i _; apply: eq_bigr => j _; rewrite !mxE. Qed.
Lemma half2 : 2%:R^-1 * 2%:R = 1 :> F. Proof. by rewrite mulVf // pnatr_eq0. Qed.
Lemma half_twice k l (X : 'M[F]_(k, l)) : 2%:R^-1 *: (X + X) = X.
Proof. by rewrite -mulr2n -scaler_nat scalerA half2 scale1r. Qed.
Lemma sym_part_sym A : (sym_part A)^T = sym_part A.
Proof. by rewrite /sym_part linearZ /= linearD /= trmxK addrC. Qed.
Lemma sym_part_id A : A^T = A -> sym_part A = A.
Proof. by move=> S; rewrite /sym_part S half_twice. Qed.

Lemma spectrum_psd A es : is_spectrum A es -> (all (fun e => 0 <= e) es <-> psd A).
Proof.
move=> [Sz [W [WW EA]]]; have DM := tr_diag_mx (\row_i nth 0 es i); split.
  move=> /allP N; rewrite EA -{2}[W]trmxK; apply: psd_conj; apply: diag_psd => i.
  by rewrite mxE; apply: N; apply: mem_nth; rewrite Sz.
move=> [S N]; apply/allP => e /(nthP 0) [k]; rewrite Sz => Lk <-.
have := N (W^T *m delta_mx (Ordinal Lk) 0).
rewrite bilMl bilMr trmxK EA !mulmxA WW mul1mx -mulmxA WW mulmx1 /bil trmx_delta -rowE -colE !mxE eqxx mulr1n //.
Qed.
Lemma min_le (e : F) es x : x \in e :: es -> foldr Order.min e es <= x.
Proof.
elim: es => [|y es IH]; first by rewrite inE => /eqP ->.
rewrite !inE /= => H; rewrite le_minl; case/or3P: H => [H|/eqP ->|H]; last by rewrite IH ?orbT // inE H orbT.
  by rewrite IH ?orbT // inE H.
by rewrite lexx.
Qed.
Lemma min_spectrum A : is_spectrum A (eigvalsh A) -> (0 < n)%N -> psd (A - (min_eigenvalue eigvalsh A)%:M).
Proof.
move=> [Sz [W [WW EA]]] Pn; set m := min_eigenvalue _ _.
have L : forall i : 'I_n, m <= nth 0 (eigvalsh A) i.
  move=> i; have: nth 0 (eigvalsh A) i \in eigvalsh A by apply: mem_nth; rewrite Sz.
  rewrite /m /min_eigenvalue; case: (eigvalsh A) => [|e es]; first by rewrite in_nil.
  by move=> I; exact: min_le.
have -> : A - m%:M = W^T *m diag_mx (\row_i (nth 0 (eigvalsh A) i - m)) *m W.
  have -> : diag_mx (\row_i (nth 0 (eigvalsh A) i - m)) = diag_mx (\row_i nth 0 (eigvalsh A) i) - m%:M :> 'M[F]_n.
    by apply/matrixP => i j; rewrite !mxE -mulrnBl.
  rewrite mulmxBr mulmxBl -EA; congr (_ - _).
  by rewrite scalar_mxC -mulmxA (mulmx1C WW) mulmx1.
by rewrite -{2}[W]trmxK; apply: psd_conj; apply: diag_psd => i; rewrite mxE subr_ge0.
Qed.

Lemma closest_eq A : is_svd (sym_part A) (svd (sym_part A)) ->
  psd (closest A) /\
  (forall X, psd X -> squares (sym_part A - closest A) <= squares (sym_part A - X) /\ (squares (sym_part A - X) <= squares (sym_part A - closest A) -> X = closest A)).
Proof.
rewrite /closest -/(sym_part A); case: (svd _) => s V [U [EB UU VV Ns]].
have D := closest_psd (sym_part_sym A) EB UU VV Ns.
rewrite (proj1 D) half_twice; split=> // X DX.
exact: (closest_best (sym_part_sym A) EB UU VV Ns DX).
Qed.
Lemma skew_split A X : X^T = X -> squares (A - X) = squares (sym_part A - X) + squares (A - sym_part A).
Proof.
move=> S; pose K := A - sym_part A.
have EK : K^T = - K.
  have T : sym_part A + sym_part A = A + A^T by rewrite /sym_part -scalerDr half_twice.
  by rewrite /K linearB /= sym_part_sym opprB; apply/eqP; rewrite subr_eq addrAC T addrC addKr.
have -> : A - X = (sym_part A - X) + K by rewrite /K [RHS]addrC addrA subrK.
have ST : (sym_part A - X)^T = sym_part A - X by rewrite linearB /= sym_part_sym S.
rewrite -/K; move: (sym_part A - X) ST (K) EK => Y ST {}K EK.
rewrite !squares_tr linearD /= ST EK mulmxDl !mulmxDr !mulmxN !linearD /= !linearN /= [\tr (K *m Y)]mxtrace_mulC.
move: (\tr (Y *m Y)) (\tr (Y *m K)) (\tr (K *m K)) => a b c; by rewrite addrA addrNK.
Qed.

(** With an exact singular value decomposition the result is the nearest positive semi-definite matrix, the only one at this distance, and it is refused if and only if an entry is
    changed by more than the tolerance.  The loop of shifts is not entered. *)
Theorem C96_nearest fuel A : is_svd (sym_part A) (svd (sym_part A)) -> is_spectrum (closest A) (eigvalsh (closest A)) ->
  exists R, [/\ psd R, forall X, psd X -> dist2 A R <= dist2 A X, forall X, psd X -> dist2 A X <= dist2 A R -> X = R,
    entries_close A R -> make fuel A = Matrix R & ~ entries_close A R -> make fuel A = RuntimeError F n].
Proof.
move=> V E; have [D N] := closest_eq V; exists (closest A).
have Cl : entries_close A (closest A) <-> ~~ differs_too_much A (closest A).
  rewrite /differs_too_much; split.
    by move=> C; apply/existsP => -[i /existsP [j]]; rewrite ltNge C.
  by rewrite negb_exists => /forallP C i j; have := C i; rewrite negb_exists => /forallP /(_ j); rewrite -leNgt.
have T : no_negative eigvalsh (closest A) by apply/(spectrum_psd E).
split=> //.
- move=> X DX; rewrite !dist2_squares (skew_split _ (proj1 D)) (skew_split _ (proj1 DX)) ler_add2r; exact: (proj1 (N _ DX)).
- move=> X DX; rewrite !dist2_squares (skew_split _ (proj1 D)) (skew_split _ (proj1 DX)) ler_add2r; exact: (proj2 (N _ DX)).
- by rewrite /make_matrix_psd T => /Cl /negbTE ->.
- by rewrite /make_matrix_psd T => C; case: ifP => // /negbT /Cl.
Qed.

(** A positive semi-definite matrix is not changed *)
Theorem C96_unchanged fuel A : psd A -> is_svd A (svd A) -> is_spectrum A (eigvalsh A) -> make fuel A = Matrix A.
Proof.
move=> D V E; have SA := sym_part_id (proj1 D).
have V' : is_svd (sym_part A) (svd (sym_part A)) by rewrite SA.
have [_ N] := closest_eq V'; have [_] := N _ D.
rewrite SA subrr => /(_ _) H; have EA : A = closest A.
  apply: H; rewrite squares_tr mul0mx mxtrace0; exact: squares_ge0.
rewrite /make_matrix_psd -EA.
have T : no_negative eigvalsh A by apply/(spectrum_psd E).
rewrite T; case: ifP => // /existsP [i /existsP [j]]; rewrite subrr normr0 ltNge addr_ge0 //.
  by rewrite invr_ge0 exprn_ge0 // ler0n.
by rewrite mulr_ge0 // invr_ge0 exprn_ge0 // ler0n.
Qed.

(** Whatever np.linalg.svd gives, the loop ends after at most one shift, and the result is positive semi-definite and close to the input, or an error *)
Theorem C96_any_svd fuel A : (forall X, X^T = X -> is_spectrum X (eigvalsh X)) -> 0 <= spacing A -> (0 < fuel)%N ->
  match make fuel A with
  | Matrix R => psd R /\ entries_close A R
  | RuntimeError => True
  | OutOfFuel => False
  end.
Proof.
move=> E Ns; case: fuel => [//|fuel _].
have Sc : (closest A)^T = closest A.
  by rewrite /closest; case: (svd _) => s V; rewrite linearZ /= linearD /= trmxK addrC.
have Good : forall R, R^T = R -> no_negative eigvalsh R ->
    match (if differs_too_much A R then RuntimeError F n else Matrix R) with Matrix R => psd R /\ entries_close A R | RuntimeError => True | OutOfFuel => False end.
  move=> R SR NR; case: ifP => // /negbT; rewrite /differs_too_much negb_exists => /forallP C; split; first by apply/(spectrum_psd (E _ SR)).
  by move=> i j; have := C i; rewrite negb_exists => /forallP /(_ j); rewrite -leNgt.
rewrite /make_matrix_psd; case: ifP => T; first exact: Good.
have Pn : (0 < n)%N.
  rewrite lt0n; apply/negP => /eqP Z; move/negP: T; apply; rewrite /no_negative.
  by have [Sz _] := E _ Sc; have -> : eigvalsh (closest A) = [::] by apply: size0nil; rewrite Sz.
rewrite /= T expr1n mulr1.
set R := closest A + _.
have SR : R^T = R by rewrite /R linearD /= Sc tr_scalar_mx.
have DR : psd R.
  rewrite /R; have -> : - min_eigenvalue eigvalsh (closest A) + spacing A = spacing A - min_eigenvalue eigvalsh (closest A) by rewrite addrC.
  rewrite raddfB /= [_%:M - _]addrC addrA; apply: psd_add; first by apply: min_spectrum => //; exact: E.
  split; first exact: tr_scalar_mx.
  move=> v; rewrite /bil -mulmxA mul_scalar_mx -scalemxAr mxE mulr_ge0 // mxE.
  by apply: sumr_ge0 => i _; rewrite mxE -expr2 sqr_ge0.
have NR : no_negative eigvalsh R by apply/(spectrum_psd (E _ SR)).
have -> : shift_loop eigvalsh fuel (spacing A) 2 R = Some R by case: fuel => [|fuel]; rewrite /= NR.
exact: Good.
Qed.

(** All matrices of a chunk: positive semi-definite ones are kept, every other one is replaced by its correction; an error is raised if and only if one correction fails *)
Definition bad_selection covs := map (fun c => has (fun e => e < 0) (eigvalsh c)) covs.
Lemma has_neg c : has (fun e => e < 0) (eigvalsh c) = ~~ no_negative eigvalsh c.
Proof. by rewrite /no_negative -has_predC; apply: eq_has => e /=; rewrite -ltNge. Qed.
Theorem C96_chunk fuel covs : (forall c, c \in covs -> is_spectrum c (eigvalsh c)) ->
  (forall out, check fuel covs = Some out -> size out = size covs /\
    forall i, (i < size covs)%N -> let c := nth 0 covs i in let r := nth 0 out i in
      (psd c -> r = c) /\ (~ psd c -> make fuel c = Matrix r)) /\
  (check fuel covs = None <-> exists c, [/\ c \in covs, ~ psd c & forall R, make fuel c <> Matrix R]).
Proof.
move=> E.
have P : forall c, c \in covs -> (no_negative eigvalsh c <-> psd c) by move=> c I; exact: spectrum_psd (E _ I).
have G : forall cs, {subset cs <= covs} ->
  match make_matrices_psd svd eigvalsh spacing fuel (mask (bad_selection cs) cs) with
  | Some vs => size (assign cs (bad_selection cs) vs) = size cs /\
     forall i, (i < size cs)%N -> let c := nth 0 cs i in let r := nth 0 (assign cs (bad_selection cs) vs) i in
       (psd c -> r = c) /\ (~ psd c -> make fuel c = Matrix r)
  | None => exists c, [/\ c \in cs, ~ psd c & forall R, make fuel c <> Matrix R]
  end.
  elim=> [|c cs IH] Sub //=.
  have Ic : c \in covs by apply: Sub; rewrite mem_head.
  have Sub' : {subset cs <= covs} by move=> x Ix; apply: Sub; rewrite in_cons Ix orbT.
  move: (IH Sub') => {IH}; have := has_neg c; rewrite /bad_selection /=; case: (has _ (eigvalsh c)) => /= Hn.
    have Nc : ~ psd c by move=> /(P _ Ic); apply/negP; rewrite -Hn.
    case M : (make fuel c) => [R||].
    - case: (make_matrices_psd _ _ _ _ _) => [vs|] /=.
        move=> [Sz N]; split; first by rewrite Sz.
        by case=> [|i] L /=; [split | exact: N].
      by move=> [c' [I N R']]; exists c'; split=> //; rewrite in_cons I orbT.
    - by move=> _; exists c; split=> //; [rewrite mem_head | rewrite M].
    - by move=> _; exists c; split=> //; [rewrite mem_head | rewrite M].
  have Dc : psd c by apply/(P _ Ic); apply/negPn; rewrite -Hn.
  case: (make_matrices_psd _ _ _ _ _) => [vs|] /=.
    move=> [Sz N]; split; first by rewrite Sz.
    by case=> [|i] L /=; [split | exact: N].
  by move=> [c' [I N R']]; exists c'; split=> //; rewrite in_cons I orbT.
have := G covs (fun x I => I); rewrite /check_covariance_matrix -/(bad_selection covs).
case: ifP => [/allP A|A].
  move=> _; split.
    move=> out [<-]; split=> // i L /=; split=> // N; exfalso; apply: N; apply/P; first exact: mem_nth.
    by apply: A; exact: mem_nth.
  by split=> // -[c [I N _]]; exfalso; apply: N; apply/(P _ I); exact: A.
case M : (make_matrices_psd _ _ _ _ _) => [vs|] /= H; last by split=> //.
split; first by move=> out [<-].
split=> // -[c [I N R]]; exfalso.
have L : (index c covs < size covs)%N by rewrite index_mem.
by have := (proj2 H) _ L; rewrite /= nth_index // => -[_ /(_ N)]; exact: R.
Qed.
End Props.

(** A covariance with the eigenvalues 1 and -e: for e = 10^-6 the negative one is set to zero, for e = 1 the matrix is refused *)
Definition ex_matrix (e : rat) : 'M[rat]_2 := diag_mx (\row_i if i == 0 then 1 else - e).
Definition ex_svd (e : rat) (_ : 'M[rat]_2) : 'rV[rat]_2 * 'M[rat]_2 := (\row_i (if i == 0 then 1 else e), 1%:M).
Definition ex_eigvalsh (_ : 'M[rat]_2) : seq rat := [:: 1; 0].
Lemma ex_svd_ok e : 0 <= e -> is_svd (sym_part (ex_matrix e)) (ex_svd e (sym_part (ex_matrix e))).
Proof.
move=> Ne; have S : sym_part (ex_matrix e) = ex_matrix e by apply: sym_part_id; exact: tr_diag_mx.
rewrite S; exists (diag_mx (\row_i (if i == 0 then 1 else -1))); rewrite /= mulmx1 trmx1 mulmx1 tr_diag_mx; split=> //.
- by rewrite mulmx_diag; congr diag_mx; apply/matrixP => i j; rewrite !mxE; case: (j == 0); rewrite ?mulr1 ?mulN1r.
- by rewrite mulmx_diag; apply/matrixP => i j; rewrite !mxE; case: i => -[|[|//]] Li; case: j => -[|[|//]] Lj; apply/eqP.
- by move=> i; rewrite mxE; case: (i == 0).
Qed.
Lemma ex_closest e : closest (ex_svd e) (ex_matrix e) = diag_mx (\row_i nth 0 [:: 1; 0] i).
Proof.
rewrite /closest /ex_svd -/(sym_part (ex_matrix e)) trmx1 mul1mx mulmx1 sym_part_id ?tr_diag_mx //.
apply/matrixP => i j; rewrite !mxE; case: i => -[|[|//]] Li; case: j => -[|[|//]] Lj; rewrite -?val_eqE /= ?mulr1n ?mulr0n ?addNr //.
Qed.
Lemma ten5 : (0 < atol [realFieldType of rat]) /\ (atol [realFieldType of rat] < 1).
Proof.
rewrite /atol.
split; first by rewrite invr_gt0 exprn_gt0.
by rewrite invf_lt1 ?exprn_gt0 // exprn_egt1.
Qed.
Lemma ten8 : 0 <= rtol [realFieldType of rat].
Proof. by rewrite /rtol; rewrite invr_ge0 exprn_ge0. Qed.
Example C96_corrected e : 0 <= e <= atol [realFieldType of rat] ->
  is_svd (sym_part (ex_matrix e)) (ex_svd e (sym_part (ex_matrix e))) /\
  is_spectrum (closest (ex_svd e) (ex_matrix e)) (ex_eigvalsh (closest (ex_svd e) (ex_matrix e))) /\
  make_matrix_psd (ex_svd e) ex_eigvalsh (fun _ => 0) 0 (ex_matrix e) = Matrix (diag_mx (\row_i nth 0 [:: 1; 0] i)).
Proof.
move=> /andP [Ne Le]; have V := ex_svd_ok Ne.
have E : is_spectrum (closest (ex_svd e) (ex_matrix e)) (ex_eigvalsh (closest (ex_svd e) (ex_matrix e))).
  by rewrite ex_closest; split=> //; exists 1%:M; rewrite trmx1 !mul1mx mulmx1.
split=> //; split=> //; rewrite /make_matrix_psd ex_closest (_ : no_negative _ _ = true) //; case: ifP => // /existsP [i /existsP [j]]; rewrite !mxE.
have T := ltW (proj1 ten5); have T' := ten8; rewrite ltNge => /negP []; move: (atol _) (rtol _) T T' Le => a r T T' Le.
case: i => -[|[|//]] Li; case: j => -[|[|//]] Lj; rewrite -?val_eqE /= ?mulr1n ?mulr0n ?subrr ?normr0 ?mulr0 ?addr0 //.
all: rewrite ?subr0 ?normr0 ?mulr0 ?addr0 ?normrN ?(ger0_norm Ne) //.
all: by rewrite addr_ge0 // mulr_ge0.
Qed.
Example C96_refused : make_matrix_psd (ex_svd 1) ex_eigvalsh (fun _ => 0) 0 (ex_matrix 1) = RuntimeError _ _.
Proof.
rewrite /make_matrix_psd ex_closest (_ : no_negative _ _ = true) //; case: ifP => // /negbT /existsP [].
have := proj2 ten5; rewrite /differs_too_much; move: (atol _) (rtol _) => a r L.
exists (Ordinal (isT : (1 < 2)%N)); apply/existsP; exists (Ordinal (isT : (1 < 2)%N)); rewrite !mxE -!val_eqE /= !mulr1n subr0 normr0 mulr0 addr0 normrN normr1.
exact: L.
Qed.
(** One by one matrices, and an svd that is wrong: the loop is entered *)
Definition ex1_eigvalsh (A : 'M[rat]_1) : seq rat := [:: A 0 0].
Example C96_shifted : (forall X : 'M[rat]_1, X^T = X -> is_spectrum X (ex1_eigvalsh X)) /\
  make_matrix_psd (fun _ => (0, 1%:M)) ex1_eigvalsh (fun _ => 0) 1 (- atol [realFieldType of rat])%:M = Matrix 0.
Proof.
split.
  move=> X _; split=> //; exists 1%:M; rewrite trmx1 !mul1mx mulmx1; split=> //.
  by apply/matrixP => i j; rewrite !ord1 !mxE.
have P := proj1 ten5.
have P' := ten8.
rewrite /make_matrix_psd /differs_too_much; move: (atol _) (rtol _) P P' => a r P P'.
set C := closest _ _.
have EC : C = (2%:R^-1 * - a)%:M.
  rewrite /C /closest tr_scalar_mx half_twice trmx1 mul1mx mulmx1.
  have -> : diag_mx (0 : 'rV[rat]_1) = 0 by apply/matrixP => i j; rewrite !mxE mul0rn.
  by rewrite addr0 linearZ /= tr_scalar_mx half_twice scale_scalar_mx.
have H : 0 < 2%:R^-1 * a by rewrite mulr_gt0.
have N : no_negative ex1_eigvalsh C = false.
  by rewrite /no_negative /ex1_eigvalsh EC /= mxE mulr1n mulrN oppr_ge0 leNgt H.
rewrite N /= N expr1n mulr1 addr0.
have -> : C + (- min_eigenvalue ex1_eigvalsh C)%:M = 0.
  by rewrite /min_eigenvalue /ex1_eigvalsh /= {2}EC mxE mulr1n EC -raddfD /= subrr raddf0.
rewrite (_ : no_negative _ 0 = true); last by rewrite /no_negative /ex1_eigvalsh /= mxE lexx.
case: ifP => // /existsP [i /existsP [j]]; rewrite !ord1 !mxE mulr1n subr0 normr0 mulr0 addr0 normrN gtr0_norm //.
by rewrite ltxx.
Qed.

Print Assumptions C96_nearest.
Print Assumptions C96_unchanged.
Print Assumptions C96_any_svd.
Print Assumptions C96_chunk.
