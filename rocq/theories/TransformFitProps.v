(** C70, C71: the iterations of calculate_transformation for one chunk. *)
From mathcomp Require Import all_ssreflect all_algebra.
From mathcomp Require Import ring.
From Verif Require Import TransformModel.
Set Implicit Arguments.
Unset Strict Implicit.
Unset Printing Implicit Defensive.
Import Order.Theory GRing.Theory Num.Theory.
Local Open Scope ring_scope.

(** * Three dimensions *)
Definition o0 : 'I_3 := ord0.
Definition o1 : 'I_3 := lift ord0 ord0.
Definition o2 : 'I_3 := lift ord0 (lift ord0 ord0).
Lemma sum3 (V : zmodType) (f : 'I_3 -> V) : \sum_(i < 3) f i = f o0 + f o1 + f o2.
Proof. by rewrite !big_ord_recl big_ord0 addr0 addrA. Qed.
Lemma ord3 (P : 'I_3 -> Prop) : P o0 -> P o1 -> P o2 -> forall i, P i.
Proof.
  move=> H0 H1 H2 [[|[|[|i]]] Hi] //; [move: H0|move: H1|move: H2]; by congr (P _); apply: val_inj.
Qed.

Section Fit.
Variable F : realFieldType.
Notation vec := 'cV[F]_3.

(** Specification: cross product, square of the length, square of the distance of a point to a line. *)
Definition cross (v w : vec) : vec := \col_i
  (if i == o0 then v o1 0 * w o2 0 - v o2 0 * w o1 0 else if i == o1 then v o2 0 * w o0 0 - v o0 0 * w o2 0 else v o0 0 * w o1 0 - v o1 0 * w o0 0).
Definition norm2 k (v : 'cV[F]_k) : F := \sum_i v i 0 ^+ 2.

Lemma inord3 k : (k < 3)%N -> inord k = (if k == 0%N then o0 else if k == 1%N then o1 else o2) :> 'I_3.
Proof. by case: k => [|[|[|k]]] // _; apply: val_inj; rewrite /= inordK. Qed.
Lemma skew_cross v w : skew v *m w = cross v w.
Proof.
  apply/matrixP => i j. rewrite (ord1 j) mxE sum3 !mxE /rolled. move: i; apply: ord3; rewrite /= !inord3 //=; ring.
Qed.
Lemma cross_anti v w : cross v w = - cross w v.
Proof. by apply/matrixP => i j; rewrite (ord1 j) !mxE; move: i; apply: ord3; rewrite /=; ring. Qed.

Lemma norm2E k (v : 'cV[F]_k) : norm2 v = (v^T *m v) 0 0.
Proof. by rewrite mxE; apply: eq_bigr => i _; rewrite mxE expr2. Qed.
Lemma norm2_ge0 k (v : 'cV[F]_k) : 0 <= norm2 v.
Proof. by apply: sumr_ge0 => i _; apply: sqr_ge0. Qed.
Lemma norm2_eq0 k (v : 'cV[F]_k) : norm2 v = 0 -> v = 0.
Proof.
  move/eqP. rewrite psumr_eq0; last by move=> i _; apply: sqr_ge0. move/allP => H. apply/matrixP => i j. rewrite (ord1 j) mxE. apply/eqP. have := H i. by rewrite mem_index_enum sqrf_eq0; apply.
Qed.
Lemma norm2D k (v w : 'cV[F]_k) : v^T *m w = 0 -> norm2 (v + w) = norm2 v + norm2 w.
Proof.
  move=> H. have H' : w^T *m v = 0 by apply: trmx_inj; rewrite trmx_mul trmxK H trmx0. rewrite !norm2E. have -> : (v + w)^T = v^T + w^T by apply/matrixP => i j; rewrite !mxE. by rewrite mulmxDl !mulmxDr H H' addr0 add0r mxE.
Qed.

Notation resid t q := (l_matr t *m (offset t - q)).
(** With a slope of length one this is the distance of the point q to the track. *)
Lemma l_matr_distance (t : track F) (q : vec) : norm2 (slope t) = 1 ->
  (forall x, norm2 (resid t q) <= norm2 (offset t + x *: slope t - q)) /\ exists x, norm2 (resid t q) = norm2 (offset t + x *: slope t - q).
Proof.
  move=> S. set d := offset t - q. have SS : (slope t)^T *m slope t = 1 by apply/matrixP => i j; rewrite !ord1 -norm2E S mxE eqxx.
  pose y := ((slope t)^T *m d) 0 0. have Ld : l_matr t *m d = d - y *: slope t.
    rewrite /l_matr mulmxBl mul1mx -mulmxA [(slope t)^T *m d]mx11_scalar -/y. by rewrite mul_mx_scalar.
  have O : forall x, (l_matr t *m d)^T *m (x *: slope t) = 0.
    move=> x. rewrite -scalemxAr. suff -> : (l_matr t *m d)^T *m slope t = 0 by rewrite scaler0. apply: trmx_inj. rewrite trmx_mul trmxK trmx0 Ld mulmxBr -scalemxAr SS [_ *m d]mx11_scalar -/y scalemx1. exact: subrr.
  have E : forall x, offset t + x *: slope t - q = l_matr t *m d + (x + y) *: slope t.
    move=> x. rewrite Ld /d scalerDl. apply/matrixP => i j; rewrite !mxE; ring.
  split.
  - move=> x. rewrite E norm2D ?O // ler_addl. exact: norm2_ge0.
  - exists (- y). by rewrite E addNr scale0r addr0.
Qed.

(** * The stacked system *)
Section Stack.
Variable n : nat.
Implicit Types f : 'I_n -> vec.
Definition stack f : 'cV[F]_(n * 3) := (mxvec (\matrix_(i, j) f i j 0))^T.
Lemma stackE f i j : stack f (mxvec_index i j) 0 = f i j 0.
Proof. by rewrite mxE mxvecE mxE. Qed.
Lemma sum_stack (g : 'I_(n * 3) -> F) : \sum_k g k = \sum_i \sum_j g (mxvec_index i j).
Proof.
  rewrite pair_bigA (reindex _ (curry_mxvec_bij n 3)) /=. by apply: eq_bigr => -[].
Qed.
Lemma norm2_stack f : norm2 (stack f) = \sum_i norm2 (f i).
Proof. rewrite /norm2 sum_stack. apply: eq_bigr => i _. apply: eq_bigr => j _. by rewrite stackE. Qed.
Lemma stackD f g : stack f + stack g = stack (fun i => f i + g i).
Proof. apply/matrixP => k l. rewrite (ord1 l). case/mxvec_indexP: k => i j. by rewrite mxE !stackE mxE. Qed.
Variable tracks : 'I_n -> track F.
Lemma tot_matrE R i j c : tot_matr tracks R (mxvec_index i j) c = block R (tracks i) j c.
Proof. by rewrite mxE mxvecE mxE. Qed.
Lemma tot_matr_stack R x : tot_matr tracks R *m x = stack (fun i => block R (tracks i) *m x).
Proof.
  apply/matrixP => k l. rewrite (ord1 l). case/mxvec_indexP: k => i j. rewrite stackE !mxE. apply: eq_bigr => c _. by rewrite mxE mxvecE mxE.
Qed.
Lemma tot_b_stack R T : tot_b tracks R T = stack (fun i => block_b R T (tracks i)).
Proof. by []. Qed.
End Stack.

(** The position of a hit after an infinitesimal rotation around the global axes and a translation *)
Definition moved (R : 'M[F]_3) (T omega v : vec) (t : track F) : vec := R *m hit t + cross omega (R *m hit t) + (T + v).
Lemma block_resid R T x (t : track F) : block R t *m x + block_b R T t = resid t (moved R T (usubmx x) (dsubmx x) t).
Proof.
  rewrite -{1}[x]vsubmxK /block mul_row_col -!mulmxA skew_cross cross_anti mulNmx mul1mx /block_b /moved -mulmxDr -mulmxBr -mulmxDr. congr (_ *m _).
  move: (R *m hit t) => y. move: (cross _ _) (dsubmx x) => c w. apply/matrixP => i j. rewrite !mxE. move: (offset t i j) (y i j) (c i j) (w i j) (T i j) => a1 a2 a3 a4 a5. ring.
Qed.
Lemma system_resid n (tracks : 'I_n -> track F) R T x :
  tot_matr tracks R *m x + tot_b tracks R T = stack (fun i => resid (tracks i) (moved R T (usubmx x) (dsubmx x) (tracks i))).
Proof.
  rewrite tot_matr_stack tot_b_stack stackD. apply/matrixP => k l. rewrite (ord1 l). case/mxvec_indexP: k => i j. by rewrite !stackE block_resid.
Qed.

(** * Singular value decompositions *)
Definition is_svd p q k (A : 'M[F]_(p, q)) (u : 'M[F]_(p, k)) (s : 'rV[F]_k) (v : 'M[F]_(k, q)) : Prop :=
  [/\ A = u *m diag_mx s *m v, u^T *m u = 1%:M, v *m v^T = 1%:M & forall i, 0 <= s 0 i].

Lemma diag_inv k (s : 'rV[F]_k) : (forall j, s 0 j != 0) -> diag_mx s *m diag_mx (\row_j (s 0 j)^-1) = 1%:M.
Proof.
  move=> H. apply/matrixP => i j. rewrite mul_diag_mx !mxE. case: eqP => [E|_]; last by rewrite mulr0n mulr0. by rewrite mulr1n ?E mulfV.
Qed.
Lemma diag_inv' k (s : 'rV[F]_k) : (forall j, s 0 j != 0) -> diag_mx (\row_j (s 0 j)^-1) *m diag_mx s = 1%:M.
Proof.
  move=> H. apply/matrixP => i j. rewrite mul_diag_mx !mxE. case: eqP => [E|_]; last by rewrite mulr0n mulr0. by rewrite mulr1n ?E mulVf.
Qed.

Section Chunk.
Variables (n : nat) (tracks : 'I_n -> track F) (selected : 'I_(3 + 3) -> bool).
Implicit Types (st : state F) (d : decompositions F n).

(** The decompositions of an iteration are right *)
Definition valid st d : Prop :=
  is_svd (tot_matr tracks (rotation st)) (d_u d) (d_s d) (d_v d) /\
  forall x, solve d (tot_b tracks (rotation st) (trans st)) = Some x -> is_svd (turned (delta st) (fix_parameters selected x) (rotation st)) (r_u d) (r_s d) (r_v d).

Lemma solve_normal (A : 'M[F]_(n * 3, 3 + 3)) d b x : is_svd A (d_u d) (d_s d) (d_v d) -> solve d b = Some x -> A^T *m (A *m x + b) = 0.
Proof.
  case=> EA U V _. rewrite /solve. case: ifP => // /forallP N [<-]. set D := diag_mx (\row_j _).
  have X : A *m ((d_v d)^T *m (D *m (d_u d)^T) *m (- 1 *: b)) = - (d_u d *m ((d_u d)^T *m b)).
    rewrite EA scaleN1r mulmxN mulmxN -!mulmxA (mulmxA (d_v d)) V mul1mx (mulmxA (diag_mx (d_s d))) diag_inv // mul1mx. by [].
  rewrite X EA !trmx_mul -!mulmxA mulmxDr mulmxN (mulmxA _ (d_u d)) U mul1mx addNr !mulmx0. by [].
Qed.

(** [R] is the orthogonal matrix of the polar decomposition of [M], the orthogonal matrix next to [M] *)
Definition polar (M R : 'M[F]_3) : Prop := R^T *m R = 1 /\ exists P, [/\ P^T = P, forall w : vec, 0 <= (w^T *m P *m w) 0 0 & M = R *m P].
Lemma svd_polar M (u : 'M[F]_3) s v : is_svd M u s v -> polar M (u *m v).
Proof.
  case=> E U V P. have V' : v^T *m v = 1%:M by apply: mulmx1C. split; first by rewrite trmx_mul mulmxA -(mulmxA v^T) U mulmx1.
  exists (v^T *m diag_mx s *m v). split.
  - by rewrite !trmx_mul trmxK tr_diag_mx mulmxA.
  - move=> w. set z := v *m w. have -> : w^T *m (v^T *m diag_mx s *m v) *m w = z^T *m (diag_mx s *m z) by rewrite trmx_mul !mulmxA.
    rewrite mxE. apply: sumr_ge0 => i _. rewrite mul_diag_mx !mxE mulrCA. by apply: mulr_ge0 => //; rewrite -expr2 sqr_ge0.
  - by rewrite E !mulmxA -(mulmxA u v) V mulmx1.
Qed.

(** If all parameters are selected, the direction of a step is the best solution of the linear problem: no other infinitesimal rotation and translation
    has a smaller sum of squared distances of hits to tracks. *)
Theorem C70_least_squares st d T R : valid st d -> (forall i, selected i) -> (forall i, norm2 (slope (tracks i)) = 1) -> step tracks selected d st = Some (T, R) ->
  exists omega v, [/\ T = trans st + delta st *: v,
    polar ((1 + delta st *: skew omega) *m rotation st) R &
    forall omega' v', \sum_i norm2 (resid (tracks i) (moved (rotation st) (trans st) omega v (tracks i))) <=
                      \sum_i norm2 (resid (tracks i) (moved (rotation st) (trans st) omega' v' (tracks i)))].
Proof.
  case=> A B sel _. rewrite /step. case E: (solve _ _) => [x|//] [<- <-]. have fx : fix_parameters selected x = x by apply/matrixP => i j; rewrite (ord1 j) mxE sel.
  exists (usubmx x), (dsubmx x). have := B _ E. rewrite fx => /svd_polar B'. split=> // omega' v'. have NE := solve_normal A E.
  set b := tot_b _ _ _ in E NE. have := system_resid tracks (rotation st) (trans st) (col_mx omega' v'). rewrite col_mxKu col_mxKd => S'.
  rewrite -!norm2_stack -S' -system_resid. set x' := col_mx _ _. rewrite -/b. set M := tot_matr _ _ in NE *.
  have -> : M *m x' + b = (M *m x + b) + M *m (x' - x) by rewrite mulmxBr; apply/matrixP => i j; rewrite !mxE; ring.
  have OO : (M *m x + b)^T *m (M *m (x' - x)) = 0.
    rewrite mulmxA. have -> : (M *m x + b)^T *m M = 0 by apply: trmx_inj; rewrite trmx_mul trmxK NE trmx0. by rewrite mul0mx.
  rewrite (norm2D OO) ler_addl. exact: norm2_ge0.
Qed.

(** * Rotations *)
Definition is_rotation (R : 'M[F]_3) : Prop := R^T *m R = 1 /\ \det R = 1.

Lemma det3 (M : 'M[F]_3) : \det M = M o0 o0 * (M o1 o1 * M o2 o2 - M o1 o2 * M o2 o1) - M o0 o1 * (M o1 o0 * M o2 o2 - M o1 o2 * M o2 o0) + M o0 o2 * (M o1 o0 * M o2 o1 - M o1 o1 * M o2 o0).
Proof.
  have det2 : forall N : 'M[F]_2, \det N = N 0 0 * N 1 1 - N 0 1 * N 1 0.
    move=> N. rewrite (expand_det_row _ 0) !big_ord_recl big_ord0 /cofactor !det_mx11 !mxE /= addr0 expr0 expr1 mul1r mulN1r mulrN.
    by congr (_ * N _ _ - N _ _ * N _ _); apply: val_inj.
  rewrite (expand_det_row _ o0) sum3 /cofactor !det2 !mxE.
  have L0 : lift o0 0 = o1 by apply: val_inj. have L1 : lift o0 1 = o2 by apply: val_inj.
  have L2 : lift o1 0 = o0 by apply: val_inj. have L3 : lift o1 1 = o2 by apply: val_inj.
  have L4 : lift o2 0 = o0 by apply: val_inj. have L5 : lift o2 1 = o1 by apply: val_inj.
  rewrite L0 L1 L2 L3 L4 L5 /=. ring.
Qed.
Lemma det_turn (a : F) (w : vec) : \det (1 + a *: skew w) = 1 + a ^+ 2 * norm2 w.
Proof.
  rewrite det3 /norm2 sum3 !mxE /rolled /= !inord3 //=. ring.
Qed.
Lemma turned_det a x R : is_rotation R -> 0 < \det (turned a x R).
Proof.
  case=> _ D. rewrite /turned det_mulmx D mulr1 det_turn. apply: ltr_paddr; last by rewrite ltr01. by rewrite mulr_ge0 ?sqr_ge0 ?norm2_ge0.
Qed.
Lemma svd_rotation M (u : 'M[F]_3) s v : is_svd M u s v -> 0 < \det M -> is_rotation (u *m v).
Proof.
  move=> H. have [O _] := svd_polar H. case: H => -> U V P. rewrite !det_mulmx => D. split=> //.
  have S : 0 <= \det (diag_mx s) by rewrite det_diag; apply: prodr_ge0 => i _.
  have Q : \det (u *m v) ^+ 2 = 1 by rewrite expr2 -{1}det_tr -det_mulmx O det1.
  have {}D : 0 < \det (diag_mx s) * \det (u *m v) by rewrite det_mulmx mulrA (mulrC (\det (diag_mx s))).
  have D' : 0 < \det (u *m v) by rewrite -(pmulr_rgt0 (\det (u *m v)) (x := \det (diag_mx s))) // lt_neqAle S andbT; apply/eqP => E; rewrite -E mul0r ltxx in D.
  move/eqP: Q. rewrite sqrf_eq1 => /orP[/eqP H|/eqP H]; first by []. by rewrite H oppr_gt0 ltr10 in D'.
Qed.
(** a rotation is its own polar factor *)
Lemma svd_self (R u : 'M[F]_3) s v : R^T *m R = 1 -> is_svd R u s v -> u *m v = R.
Proof.
  move=> O [E U V P]. have V' : v^T *m v = 1%:M by apply: mulmx1C.
  have Q : diag_mx s *m diag_mx s = 1%:M.
    have -> : diag_mx s *m diag_mx s = v *m (R^T *m R) *m v^T.
      rewrite E !trmx_mul tr_diag_mx !mulmxA V mul1mx -(mulmxA _ u^T) U mulmx1 -(mulmxA _ v) V mulmx1. by [].
    by rewrite O mulmx1 V.
  suff S : diag_mx s = 1%:M by rewrite E S mulmx1.
  apply/matrixP => i j. move/matrixP/(_ i j): Q. rewrite mul_diag_mx !mxE. case: eqP => [_|_]; last by rewrite !mulr0n. rewrite !mulr1n -expr2 => /eqP.
  rewrite sqrf_eq1 => /orP[/eqP H|/eqP K]; first by []. have := P i. by rewrite K oppr_ge0 ler10.
Qed.

(** * The iterations *)
Variable ds : nat -> decompositions F n.
(** Iterations which are carried out by the loop *)
Inductive reach (st0 : state F) : nat -> state F -> Prop :=
  | reach_start : reach st0 0 st0
  | reach_next i st st' : reach st0 i st -> next tracks selected i (ds i) st = Some (false, st') -> reach st0 i.+1 st'.
Definition valid_run m st0 : Prop := forall i st, (i < m)%N -> reach st0 i st -> valid st (ds i).

Lemma next_step i d st b st' : next tracks selected i d st = Some (b, st') -> exists T R, [/\ step tracks selected d st = Some (T, R), trans st' = T & rotation st' = R].
Proof.
  rewrite /next. case E: (step _ _ _ _) => [[T R]|//] H. exists T, R. split=> //; move: H; case: (old st) => [[T2 R2]|]; [case: ifP => _; [case: ifP => _|]| |case: ifP => _; [case: ifP => _|]|]; by case=> _ <-.
Qed.
(** A property of translation and rotation which every right step keeps holds in the end. *)
Lemma run_invariant (P : vec -> 'M[F]_3 -> Prop) m st0 : valid_run m st0 -> P (trans st0) (rotation st0) ->
  (forall st d T R, valid st d -> P (trans st) (rotation st) -> step tracks selected d st = Some (T, R) -> P T R) ->
  forall st', iterate tracks selected m 0 ds st0 = Some st' -> P (trans st') (rotation st').
Proof.
  move=> V P0 K. have G : forall fuel i st st', (i + fuel <= m)%N -> reach st0 i st -> P (trans st) (rotation st) -> iterate tracks selected fuel i ds st = Some st' -> P (trans st') (rotation st').
    elim=> [|fuel IH] i st st' L Re Pst /=; first by case=> <-.
    case E: (next _ _ _ _ _) => [[b st1]|//]. have [T [R [S ET ER]]] := next_step E. have P1 : P (trans st1) (rotation st1) by rewrite ET ER; apply: (K st (ds i)) => //; apply: V => //; apply: leq_trans L; rewrite -addSnnS leq_addr.
    case: b E => E; first by case=> <-. apply: IH => //; first by rewrite addSnnS. exact: reach_next E.
  move=> st'. apply: G => //. exact: reach_start.
Qed.

Variables (T0 : vec) (R0 : 'M[F]_3) (iterations : nat).
Hypothesis run : valid_run iterations (start T0 R0).
Lemma result_invariant (P : vec -> 'M[F]_3 -> Prop) T R : P T0 R0 -> (forall st d T R, valid st d -> P (trans st) (rotation st) -> step tracks selected d st = Some (T, R) -> P T R) ->
  chunk_result tracks selected iterations ds T0 R0 = Some (T, R) -> P T R.
Proof.
  move=> P0 K. rewrite /chunk_result. case E: (iterate _ _ _ _ _ _) => [st|//] [<- <-]. exact: (run_invariant run P0 K E).
Qed.

(** Starting from a rotation (orthogonal, determinant 1) the result is a rotation, for all tracks and selected parameters: its angles can be calculated. *)
Theorem C71_rotation T R : is_rotation R0 -> chunk_result tracks selected iterations ds T0 R0 = Some (T, R) -> is_rotation R.
Proof.
  move=> H0. apply: (result_invariant (P := fun _ R => is_rotation R)) => // st d T1 R1 [_ B] Rst. rewrite /step. case E: (solve _ _) => [x|//] [_ <-].
  by apply: (svd_rotation (B _ E)); apply: turned_det.
Qed.

(** A translation which is not selected is not changed. *)
Theorem C71_translation_fixed T R (i : 'I_3) : ~~ selected (rshift 3 i) -> chunk_result tracks selected iterations ds T0 R0 = Some (T, R) -> T i 0 = T0 i 0.
Proof.
  move=> N. apply: (result_invariant (P := fun T _ => T i 0 = T0 i 0)) => // st d T1 R1 _ <-. rewrite /step. case E: (solve _ _) => [x|//] [<- _].
  by rewrite !mxE (negbTE N) mulr0 addr0.
Qed.
(** Without any selected rotation the rotation is not changed. *)
Theorem C71_rotation_fixed T R : is_rotation R0 -> (forall i : 'I_3, ~~ selected (lshift 3 i)) -> chunk_result tracks selected iterations ds T0 R0 = Some (T, R) -> R = R0.
Proof.
  move=> [O _] N. apply: (result_invariant (P := fun _ R => R = R0)) => // st d T1 R1 [_ B] Rst. rewrite /step. case E: (solve _ _) => [x|//] [_ <-].
  have := B _ E. have Z : usubmx (fix_parameters selected x) = 0 by apply/matrixP => i j; rewrite !mxE (negbTE (N i)).
  have Z' : skew (0 : vec) = 0 by apply/matrixP => i j; rewrite !mxE /rolled; do 2 case: ifP => _; rewrite ?mxE subrr.
  rewrite /turned Z Z' scaler0 addr0 mul1mx Rst. exact: svd_self.
Qed.

(** Tracks which go through all hits of the DUT do not change its alignment. *)
Theorem C71_aligned T R : is_rotation R0 -> (forall i, resid (tracks i) (R0 *m hit (tracks i) + T0) = 0) -> chunk_result tracks selected iterations ds T0 R0 = Some (T, R) -> T = T0 /\ R = R0.
Proof.
  move=> [O _] H. apply: (result_invariant (P := fun T R => T = T0 /\ R = R0)) => // st d T1 R1 [A B] [ET ER]. rewrite /step. 
  have b0 : tot_b tracks (rotation st) (trans st) = 0.
    apply/matrixP => k l. rewrite (ord1 l) tot_b_stack. case/mxvec_indexP: k => i j. by rewrite stackE ET ER /block_b -mulmxBr H !mxE.
  case E: (solve _ _) => [x|//] [<- <-]. have x0 : x = 0. { move: E. rewrite /solve b0. case: ifP => // _ [<-]. by rewrite scaler0 mulmx0. }
  have Z : fix_parameters selected x = 0 by apply/matrixP => i j; rewrite (ord1 j) !mxE x0 mxE; case: ifP.
  have := B _ E. have Z' : skew (0 : vec) = 0 by apply/matrixP => i j; rewrite !mxE /rolled; do 2 case: ifP => _; rewrite ?mxE subrr.
  have Zu : usubmx (0 : 'cV[F]_(3 + 3)) = 0 by apply/matrixP => i j; rewrite !mxE. have Zd : dsubmx (0 : 'cV[F]_(3 + 3)) = 0 by apply/matrixP => i j; rewrite !mxE.
  rewrite /turned Z Zu Zd Z' scaler0 addr0 mul1mx scaler0 addr0 ER ET => S. split=> //. exact: svd_self S.
Qed.

(** The iterations end after the given number or with a last step (not one of the first two) which changes the translation by at most 0.0001 and the entries of the rotation by at most 0.00001. *)
Theorem C71_converged T R : chunk_result tracks selected iterations ds T0 R0 = Some (T, R) ->
  (exists st, [/\ reach (start T0 R0) iterations st, T = trans st & R = rotation st]) \/
  (exists i st, [/\ reach (start T0 R0) i st, (2 <= i < iterations)%N, step tracks selected (ds i) st = Some (T, R),
                   forall j, `|T j 0 - trans st j 0| <= 1 / 10%:R ^+ 4 & forall j k, `|R j k - rotation st j k| <= 1 / 10%:R ^+ 5]).
Proof.
  rewrite /chunk_result. case E: (iterate _ _ _ _ _ _) => [st|//] [<- <-].
  have G : forall fuel i st0 st', reach (start T0 R0) i st0 -> iterate tracks selected fuel i ds st0 = Some st' ->
    reach (start T0 R0) (i + fuel) st' \/ exists j st1, [/\ reach (start T0 R0) j st1, (2 <= j < i + fuel)%N, step tracks selected (ds j) st1 = Some (trans st', rotation st'),
      forall k, `|trans st' k 0 - trans st1 k 0| <= 1 / 10%:R ^+ 4 & forall k l, `|rotation st' k l - rotation st1 k l| <= 1 / 10%:R ^+ 5].
    elim=> [|fuel IH] i st0 st' Re /=; first by rewrite addn0 => - [<-]; left. case N: (next _ _ _ _ _) => [[[] st1]|//].
    - move=> [<-]. right. exists i, st0. move: N. rewrite /next. case S: (step _ _ _ _) => [[T1 R1]|//]. case: (old st0) => [[T2 R2]|//]. case: ifP => // i2. case: ifP => // /andP[cr ct] [<-] /=. split=> //.
      + by rewrite -addSnnS leq_addr.
      + move=> k. move/forallP/(_ k)/forallP/(_ 0): ct. by rewrite div1r.
      + move=> k l. move/forallP/(_ k)/forallP/(_ l): cr. by rewrite div1r.
    - move=> I. rewrite addnS -addSn. apply: IH I. exact: reach_next N.
  case: (G _ _ _ _ (reach_start _) E) => [H|[j [st1 [H1 H2 H3 H4 H5]]]]; first by left; exists st.
  right. exists j, st1. by [].
Qed.
(** Before the last step no step (apart from the first two) was so small. *)
Theorem C71_not_before i st st' : reach (start T0 R0) i st -> (2 <= i)%N -> next tracks selected i (ds i) st = Some (false, st') ->
  ~ ((forall j, `|trans st' j 0 - trans st j 0| <= 1 / 10%:R ^+ 4) /\ forall j k, `|rotation st' j k - rotation st j k| <= 1 / 10%:R ^+ 5).
Proof.
  move=> Re i2 N [A B]. have O : old st <> None.
    case: Re i2 {N A B} => // j st1 st2 _ N _. move: N. rewrite /next. case: (step _ _ _ _) => [[T1 R1]|//]. by case: (old st1) => [[T2 R2]|]; [case: ifP => _; [case: ifP => _|]|]; case=> // <-.
  move: N A B. rewrite /next. case: (step _ _ _ _) => [[T1 R1]|//]. case: (old st) O => [[T2 R2]|//] _. rewrite i2. case: ifP => // /negP C [<-] /= A B. apply: C. apply/andP. split; apply/forallP => j; apply/forallP => k; rewrite /e_minus -div1r.
  - exact: B.
  - by rewrite (ord1 k); apply: A.
Qed.

(** * Where it fails *)
Lemma svd_rank p q k (A : 'M[F]_(p, q)) (u : 'M[F]_(p, k)) s v : is_svd A u s v -> (forall j, s 0 j != 0) -> \rank A = k.
Proof.
  case=> -> U V _ N. rewrite -mulmxA mxrankMfree.
  - apply/eqP. rewrite -mxrank_tr. have : row_free u^T by apply/row_freeP; exists u. by [].
  - apply/row_freeP. exists (v^T *m diag_mx (\row_j (s 0 j)^-1)). by rewrite mulmxA -(mulmxA _ v) V mulmx1 diag_inv.
Qed.
Lemma solve_kernel d b (A : 'M[F]_(n * 3, 3 + 3)) (x : 'cV[F]_(3 + 3)) : is_svd A (d_u d) (d_s d) (d_v d) -> (1 < n)%N -> x != 0 -> A *m x = 0 -> solve d b = None.
Proof.
  move=> S n1 x0 Ax. rewrite /solve. case: ifP => // /forallP N. have R := svd_rank S N. exfalso. move/negP: x0; apply.
  have K : k_svd n = (3 + 3)%N by rewrite /k_svd; apply/minn_idPr; rewrite (leq_mul2r 3 2 n) n1 orbT.
  have Fr : row_free A^T by rewrite /row_free mxrank_tr R K. rewrite -(inj_eq (@trmx_inj _ _ _)) trmx0 -(mulmx_free_eq0 _ Fr) -trmx_mul Ax trmx0. by [].
Qed.
Lemma solve_cokernel d b (A : 'M[F]_(n * 3, 3 + 3)) (w : 'rV[F]_(n * 3)) : is_svd A (d_u d) (d_s d) (d_v d) -> (n <= 2)%N -> w != 0 -> w *m A = 0 -> solve d b = None.
Proof.
  move=> S n1 w0 wA. rewrite /solve. case: ifP => // /forallP N. have R := svd_rank S N. exfalso. move/negP: w0; apply.
  have K : k_svd n = (n * 3)%N by rewrite /k_svd; apply/minn_idPl; rewrite (leq_mul2r 3 n 2) n1 orbT.
  have Fr : row_free A by rewrite /row_free R K. by rewrite -(mulmx_free_eq0 _ Fr) wA.
Qed.
Lemma l_matr_slope (t : track F) : norm2 (slope t) = 1 -> l_matr t *m slope t = 0.
Proof.
  move=> S. have SS : (slope t)^T *m slope t = 1 by apply/matrixP => i j; rewrite !ord1 -norm2E S mxE eqxx. by rewrite /l_matr mulmxBl mul1mx -mulmxA SS mulmx1 subrr.
Qed.
Lemma l_matr_sym (t : track F) : (l_matr t)^T = l_matr t.
Proof. rewrite /l_matr. by apply/matrixP => i j; rewrite !mxE eq_sym; congr (_ - _); apply: eq_bigr => k _; rewrite !mxE mulrC. Qed.
Lemma iterations_none : (0 < iterations)%N -> (forall d b, is_svd (tot_matr tracks R0) (d_u d) (d_s d) (d_v d) -> solve d b = None) -> chunk_result tracks selected iterations ds T0 R0 = None.
Proof.
  move: run. case: iterations => [//|k] V _ H. rewrite /chunk_result /= /next /step H //. have [] := V 0%N _ isT (reach_start _). by [].
Qed.

(** Parallel tracks: the step cannot be calculated (a singular value is zero), even if only parameters are selected which are determined by the tracks. *)
Theorem C71_parallel s : norm2 s = 1 -> (forall i, slope (tracks i) = s) -> (1 < n)%N -> (0 < iterations)%N -> chunk_result tracks selected iterations ds T0 R0 = None.
Proof.
  move=> S H n1 it. apply: iterations_none => // d b V. apply: (solve_kernel (x := col_mx 0 s) b V n1).
  - apply/eqP => E. have E' : s = 0 by rewrite -[s](col_mxKd (0 : vec)) E; apply/matrixP => i j; rewrite !mxE. move: S. rewrite E' /norm2 big1; first by move/eqP; rewrite eq_sym oner_eq0. by move=> i _; rewrite mxE expr0n.
  - rewrite tot_matr_stack. apply/matrixP => k l. rewrite (ord1 l). case/mxvec_indexP: k => i j. rewrite stackE /block mul_row_col mulmx0 add0r -mulmxA mulNmx mul1mx mulmxN -(H i) l_matr_slope ?H //. by rewrite oppr0 !mxE.
Qed.

(** One or two tracks are not enough. *)
Theorem C71_few_tracks : (forall i, norm2 (slope (tracks i)) = 1) -> (0 < n <= 2)%N -> (0 < iterations)%N -> chunk_result tracks selected iterations ds T0 R0 = None.
Proof.
  move=> S /andP[n0 n2] it. apply: iterations_none => // d b V. pose i0 := Ordinal n0. pose f i : vec := if i == i0 then slope (tracks i0) else 0.
  apply: (solve_cokernel (w := (stack f)^T) b V n2).
  - apply/eqP => E. have Z : slope (tracks i0) = 0.
      apply/matrixP => j l. rewrite (ord1 l) mxE. have := stackE f i0 j. rewrite /f eqxx => <-. move/matrixP/(_ 0 (mxvec_index i0 j)): E. by rewrite !mxE.
    move: (S i0). rewrite Z /norm2 big1; first by move/eqP; rewrite eq_sym oner_eq0. by move=> i _; rewrite mxE expr0n.
  - apply/matrixP => l c. rewrite (ord1 l) mxE sum_stack (bigD1 i0) //= [X in _ + X]big1.
    + rewrite addr0. have Z : (slope (tracks i0))^T *m block R0 (tracks i0) = 0.
        by rewrite /block mul_mx_row !mulmxA -(l_matr_sym (tracks i0)) -trmx_mul l_matr_slope // trmx0 !mul0mx row_mx0.
      have Z' := congr1 (fun M : 'rV_(3 + 3) => M 0 c) Z. transitivity (((slope (tracks i0))^T *m block R0 (tracks i0)) 0 c); last by rewrite Z' !mxE. rewrite [RHS]mxE. apply: eq_bigr => j _. rewrite [in LHS]mxE stackE /f eqxx [in RHS]mxE. congr (_ * _). by rewrite tot_matrE.
    + move=> i ni. apply: big1 => j _. by rewrite mxE stackE /f (negbTE ni) mxE mul0r.
Qed.

(** A chunk without tracks keeps the alignment. *)
Theorem C71_no_tracks : is_rotation R0 -> n = 0%N -> chunk_result tracks selected iterations ds T0 R0 = Some (T0, R0).
Proof.
  move=> Rot E. have K : k_svd n = 0%N by rewrite /k_svd E. have S : forall d b, solve d b <> None.
    move=> d b. rewrite /solve. case: ifP => // /negbT/negP; case. apply/forallP => j. by have := ltn_ord j; rewrite {2}K.
  have G : forall fuel i st, iterate tracks selected fuel i ds st <> None.
    elim=> [//|fuel IH] i st /=. rewrite /next /step. case Es: (solve _ _) => [x|]; last by have := S _ _ Es. by case: (old st) => [[T2 R2]|] //; case: ifP => // _; case: ifP.
  case C: (chunk_result _ _ _ _ _ _) => [[T R]|].
    have H : forall i : 'I_n, resid (tracks i) (R0 *m hit (tracks i) + T0) = 0 by move=> i; have := ltn_ord i; rewrite {2}E. by have [-> ->] := C71_aligned Rot H C.
  move: C. rewrite /chunk_result. case I: (iterate _ _ _ _ _ _) => [//|]. by have := G _ _ _ I.
Qed.
End Chunk.
End Fit.

Print Assumptions C70_least_squares.
Print Assumptions C71_rotation.
Print Assumptions C71_translation_fixed.
Print Assumptions C71_rotation_fixed.
Print Assumptions C71_aligned.
Print Assumptions C71_converged.
Print Assumptions C71_not_before.
Print Assumptions C71_parallel.
Print Assumptions C71_few_tracks.
Print Assumptions C71_no_tracks.
