(** C70, C71: cases of the alignment of one chunk with their decompositions. *)
From mathcomp Require Import all_ssreflect all_algebra.
From mathcomp Require Import ring.
From Verif Require Import TransformModel TransformFitProps.
Set Implicit Arguments.
Unset Strict Implicit.
Unset Printing Implicit Defensive.
Import Order.Theory GRing.Theory Num.Theory.
Local Open Scope ring_scope.

(** * Cases *)
Section Cases.
Variable F : rcfType.
Notation vec := 'cV[F]_3.
Definition v3 (a b c : F) : vec := \col_i (if i == o0 then a else if i == o1 then b else c).

(** Hits on the axes of the DUT, tracks in eight directions *)
Definition case_slope (k : nat) : vec :=
  match k with
  | 0 | 2 => v3 (4%:R / 5%:R) 0 (3%:R / 5%:R) | 1 | 3 => v3 (- (4%:R / 5%:R)) 0 (3%:R / 5%:R)
  | 4 | 6 => v3 0 (4%:R / 5%:R) (3%:R / 5%:R) | _ => v3 0 (- (4%:R / 5%:R)) (3%:R / 5%:R)
  end.
Definition case_point (k : nat) : vec := match k with 0 | 1 => v3 1 0 0 | 2 | 3 => v3 (- 1) 0 0 | 4 | 5 => v3 0 1 0 | _ => v3 0 (- 1) 0 end.
(** Squares of the singular values *)
Definition case_sq : 'rV[F]_(3 + 3) := row_mx (v3 (64%:R / 25%:R) (64%:R / 25%:R) 8%:R)^T (v3 (136%:R / 25%:R) (136%:R / 25%:R) (128%:R / 25%:R))^T.

Definition m3 (a b c d e f g h k : F) : 'M[F]_3 := \matrix_(i, j)
  (if i == o0 then if j == o0 then a else if j == o1 then b else c else if i == o1 then if j == o0 then d else if j == o1 then e else f
   else if j == o0 then g else if j == o1 then h else k).
Lemma m3_mul a b c d e f g h k a' b' c' d' e' f' g' h' k' : m3 a b c d e f g h k *m m3 a' b' c' d' e' f' g' h' k' =
  m3 (a * a' + b * d' + c * g') (a * b' + b * e' + c * h') (a * c' + b * f' + c * k')
     (d * a' + e * d' + f * g') (d * b' + e * e' + f * h') (d * c' + e * f' + f * k')
     (g * a' + h * d' + k * g') (g * b' + h * e' + k * h') (g * c' + h * f' + k * k').
Proof. apply/matrixP => i j. rewrite mxE sum3 !mxE. by move: i j; apply: ord3; apply: ord3. Qed.
Lemma m3_tr a b c d e f g h k : (m3 a b c d e f g h k)^T = m3 a d g b e h c f k.
Proof. apply/matrixP => i j. rewrite !mxE. by move: i j; apply: ord3; apply: ord3. Qed.
Lemma m3_add a b c d e f g h k a' b' c' d' e' f' g' h' k' : m3 a b c d e f g h k + m3 a' b' c' d' e' f' g' h' k' =
  m3 (a + a') (b + b') (c + c') (d + d') (e + e') (f + f') (g + g') (h + h') (k + k').
Proof. apply/matrixP => i j. rewrite !mxE. by move: i j; apply: ord3; apply: ord3. Qed.
Lemma m3_opp a b c d e f g h k : - m3 a b c d e f g h k = m3 (- a) (- b) (- c) (- d) (- e) (- f) (- g) (- h) (- k).
Proof. apply/matrixP => i j. rewrite !mxE. by move: i j; apply: ord3; apply: ord3. Qed.
Lemma m3_scale x a b c d e f g h k : x *: m3 a b c d e f g h k = m3 (x * a) (x * b) (x * c) (x * d) (x * e) (x * f) (x * g) (x * h) (x * k).
Proof. apply/matrixP => i j. rewrite !mxE. by move: i j; apply: ord3; apply: ord3. Qed.
Lemma m3_1 : 1 = m3 1 0 0 0 1 0 0 0 1.
Proof. apply/matrixP => i j. rewrite !mxE. by move: i j; apply: ord3; apply: ord3. Qed.
Lemma m3_v3 a b c d e f g h k x y z : m3 a b c d e f g h k *m v3 x y z = v3 (a * x + b * y + c * z) (d * x + e * y + f * z) (g * x + h * y + k * z).
Proof. apply/matrixP => i j. rewrite mxE sum3 !mxE. by move: i; apply: ord3. Qed.
Lemma skew_v3 x y z : skew (v3 x y z) = m3 0 (- z) y z 0 (- x) (- y) x 0.
Proof. apply/matrixP => i j. rewrite !mxE /rolled. move: i j; apply: ord3; apply: ord3; rewrite /= ?inord3 //= ?mxE /= ?subr0 ?sub0r ?subrr //. Qed.
Lemma l_matr_v3 x y z o h : l_matr (Track (v3 x y z) o h) = m3 (1 - x * x) (- (x * y)) (- (x * z)) (- (y * x)) (1 - y * y) (- (y * z)) (- (z * x)) (- (z * y)) (1 - z * z).
Proof. apply/matrixP => i j. rewrite !mxE big_ord1 !mxE. by move: i j; apply: ord3; apply: ord3; rewrite /= ?sub0r. Qed.
Lemma block_gram (L S : 'M[F]_3) : (row_mx (L *m S) (L *m - 1))^T *m row_mx (L *m S) (L *m - 1) =
  block_mx ((L *m S)^T *m (L *m S)) (- ((L *m S)^T *m L)) (- (L^T *m (L *m S))) (L^T *m L).
Proof.
  rewrite mulmxN mulmx1 tr_row_mx mul_col_row. have -> : (- L)^T = - L^T by apply/matrixP => i j; rewrite !mxE. by rewrite mulmxN !mulNmx mulmxN opprK.
Qed.

Lemma gram_x a c p o h : h = v3 p 0 0 -> let B := block 1%:M (Track (v3 a 0 c) o h) in let l := 1 - a * a in let m := - (a * c) in let r := 1 - c * c in
  B^T *m B = block_mx (m3 0 0 0 0 (p * p * (m * m + r * r)) 0 0 0 (p * p)) (m3 0 0 0 (- (p * m * (l + r))) 0 (- (p * (m * m + r * r))) 0 p 0)
    (m3 0 (- (p * m * (l + r))) 0 0 0 p 0 (- (p * (m * m + r * r))) 0) (m3 (l * l + m * m) 0 (m * (l + r)) 0 1 0 (m * (l + r)) 0 (m * m + r * r)).
Proof.
  move=> ->. rewrite /block mul1mx [hit _]/= l_matr_v3 skew_v3 block_gram !m3_mul !m3_tr !m3_mul !m3_opp. congr block_mx; congr m3; ring.
Qed.
Lemma gram_y a c p o h : h = v3 0 p 0 -> let B := block 1%:M (Track (v3 0 a c) o h) in let l := 1 - a * a in let m := - (a * c) in let r := 1 - c * c in
  B^T *m B = block_mx (m3 (p * p * (m * m + r * r)) 0 0 0 0 0 0 0 (p * p)) (m3 0 (p * m * (l + r)) (p * (m * m + r * r)) 0 0 0 (- p) 0 0)
    (m3 0 0 (- p) (p * m * (l + r)) 0 0 (p * (m * m + r * r)) 0 0) (m3 1 0 0 0 (l * l + m * m) (m * (l + r)) 0 (m * (l + r)) (m * m + r * r)).
Proof.
  move=> ->. rewrite /block mul1mx [hit _]/= l_matr_v3 skew_v3 block_gram !m3_mul !m3_tr !m3_mul !m3_opp. congr block_mx; congr m3; ring.
Qed.
Lemma sum8 (V : zmodType) (f : nat -> V) : \sum_(i < 8) f i = f 0%N + (f 1%N + (f 2%N + (f 3%N + (f 4%N + (f 5%N + (f 6%N + f 7%N)))))).
Proof. by rewrite !big_ord_recl big_ord0 addr0. Qed.
Lemma tot_matr_gram n (tracks : 'I_n -> track F) R : (tot_matr tracks R)^T *m tot_matr tracks R = \sum_i (block R (tracks i))^T *m block R (tracks i).
Proof.
  apply/matrixP => a b. rewrite mxE sum_stack summxE. apply: eq_bigr => i _. rewrite [RHS]mxE. apply: eq_bigr => j _. by rewrite [in LHS]mxE !tot_matrE [in RHS]mxE.
Qed.
Lemma case_gram (tracks : 'I_8 -> track F) R : (forall i, slope (tracks i) = case_slope i /\ R *m hit (tracks i) = case_point i) ->
  (tot_matr tracks R)^T *m tot_matr tracks R = diag_mx case_sq.
Proof.
  move=> H. rewrite tot_matr_gram. pose t i := Track (case_slope i) 0 (case_point i).
  have -> : \sum_i (block R (tracks i))^T *m block R (tracks i) = \sum_(i < 8) (block 1%:M (t i))^T *m block 1%:M (t i).
    apply: eq_bigr => i _. have [S P] := H i. by rewrite /block /l_matr S P mul1mx.
  have X : forall k a c p, t k = Track (v3 a 0 c) 0 (v3 p 0 0) -> _ := fun k a c p (E : t k = Track (v3 a 0 c) 0 (v3 p 0 0)) => etrans (congr1 (fun t => (block 1%:M t)^T *m block 1%:M t) E) (gram_x a c 0 (erefl (v3 p 0 0))).
  have Y : forall k a c p, t k = Track (v3 0 a c) 0 (v3 0 p 0) -> _ := fun k a c p (E : t k = Track (v3 0 a c) 0 (v3 0 p 0)) => etrans (congr1 (fun t => (block 1%:M t)^T *m block 1%:M t) E) (gram_y a c 0 (erefl (v3 0 p 0))).
  rewrite (sum8 (fun i => (block 1%:M (t i))^T *m block 1%:M (t i))). rewrite (X 0%N _ _ _ erefl) (X 1%N _ _ _ erefl) (X 2%N _ _ _ erefl) (X 3%N _ _ _ erefl).
  rewrite (Y 4%N _ _ _ erefl) (Y 5%N _ _ _ erefl) (Y 6%N _ _ _ erefl) (Y 7%N _ _ _ erefl).
  rewrite !add_block_mx. rewrite !m3_add. clear.
  have -> : diag_mx case_sq = block_mx (m3 (64%:R / 25%:R) 0 0 0 (64%:R / 25%:R) 0 0 0 8%:R) (m3 0 0 0 0 0 0 0 0 0) (m3 0 0 0 0 0 0 0 0 0) (m3 (136%:R / 25%:R) 0 0 0 (136%:R / 25%:R) 0 0 0 (128%:R / 25%:R)).
    apply/matrixP => a b. rewrite mxE /case_sq. case: (split_ordP a) => a' ->; case: (split_ordP b) => b' ->; rewrite ?block_mxEul ?block_mxEur ?block_mxEdl ?block_mxEdr ?row_mxEl ?row_mxEr !mxE; move: a' b'; apply: ord3; apply: ord3; by rewrite /= ?mulr1n ?mulr0n.
  congr block_mx; congr m3; field; rewrite ?pnatr_eq0 //.
Qed.

Definition case_s : 'rV[F]_(3 + 3) := map_mx Num.sqrt case_sq.
Lemma case_sq_pos j : 0 < case_sq 0 j.
Proof.
  rewrite /case_sq. case: (split_ordP j) => j' ->; rewrite ?row_mxEl ?row_mxEr !mxE; move: j'; apply: ord3; rewrite /= ?divr_gt0 ?ltr0n //.
Qed.
Lemma case_s_sq : diag_mx case_s *m diag_mx case_s = diag_mx case_sq.
Proof.
  apply/matrixP => i j. rewrite mul_diag_mx mxE ![diag_mx _ _ _]mxE ![case_s _ _]mxE. case: eqP => [->|_]; last by rewrite !mulr0n mulr0. by rewrite !mulr1n -expr2 sqr_sqrtr // ltW // case_sq_pos.
Qed.
Lemma case_s_neq j : case_s 0 j != 0.
Proof. by rewrite mxE gt_eqF // sqrtr_gt0 case_sq_pos. Qed.
(** Decompositions with the singular values case_s *)
Definition case_d (A : 'M[F]_(8 * 3, 3 + 3)) ru rs rv : decompositions F 8 :=
  @Decompositions F 8 (A *m diag_mx (\row_j (case_s 0 j)^-1) : 'M_(8 * 3, k_svd 8)) (case_s : 'rV_(k_svd 8)) (1%:M : 'M_(k_svd 8, 3 + 3)) ru rs rv.
Lemma case_svd A ru rs rv (d := case_d A ru rs rv) : A^T *m A = diag_mx case_sq -> is_svd A (d_u d) (d_s d) (d_v d).
Proof.
  move=> G. split=> /=.
  - by rewrite mulmx1 -mulmxA diag_inv' ?mulmx1 //; apply: case_s_neq.
  - rewrite trmx_mul tr_diag_mx -mulmxA (mulmxA A^T) G -case_s_sq !mulmxA diag_inv' ?mul1mx ?diag_inv //; exact: case_s_neq.
  - by rewrite trmx1 mulmx1.
  - move=> i. by rewrite mxE sqrtr_ge0.
Qed.
Lemma gram_solve p q (A : 'M[F]_(p, q)) (s : 'rV[F]_q) (x : 'cV[F]_q) (Di := diag_mx (\row_j (s 0 j)^-1)) : (forall j, s 0 j != 0) -> A^T *m A = diag_mx s *m diag_mx s ->
  (1%:M)^T *m (Di *m (A *m Di)^T) *m (- 1 *: - (A *m x)) = x.
Proof.
  move=> N G. rewrite trmx1 mul1mx scaleN1r opprK trmx_mul tr_diag_mx -!mulmxA (mulmxA A^T) G -mulmxA (mulmxA Di (diag_mx s)) (diag_inv' N) mul1mx mulmxA (diag_inv' N). exact: mul1mx.
Qed.
Lemma case_solve A ru rs rv x : A^T *m A = diag_mx case_sq -> solve (case_d A ru rs rv) (- (A *m x)) = Some x.
Proof.
  move=> G. rewrite /solve. case: ifP => [_|/negP[]]; last by apply/forallP => j; apply: case_s_neq. congr Some.
  apply: (gram_solve x case_s_neq). by rewrite case_s_sq.
Qed.

Section Run.
(** The DUT is turned by R; the alignment before is T = 0 and R.  The tracks go through the hits after a further small rotation w. *)
Variables (R : 'M[F]_3) (w : vec).
Hypothesis rot : is_rotation R.
Definition case_track (k : nat) : track F := Track (case_slope k) (case_point k + cross w (case_point k)) (R^T *m case_point k).
Definition case_tracks (i : 'I_8) := case_track i.
Lemma case_hit i : R *m hit (case_tracks i) = case_point i.
Proof. rewrite /= mulmxA. have [O _] := rot. by rewrite (mulmx1C O) mul1mx. Qed.
Lemma case_tracks_gram : (tot_matr case_tracks R)^T *m tot_matr case_tracks R = diag_mx case_sq.
Proof. apply: case_gram => i. split=> //. exact: case_hit. Qed.
Definition case_x : 'cV[F]_(3 + 3) := col_mx w 0.
Lemma case_b : tot_b case_tracks R 0 = - (tot_matr case_tracks R *m case_x).
Proof.
  apply/matrixP => k l. rewrite (ord1 l) tot_b_stack tot_matr_stack [in RHS]mxE. case/mxvec_indexP: k => i j. rewrite !stackE /block_b /block /case_x mul_row_col mulmx0 addr0 case_hit addr0.
  rewrite -mulmxBr -mulmxA skew_cross [offset _]/= addrC addKr cross_anti. by rewrite mulmxN mxE.
Qed.

Variable selected : 'I_(3 + 3) -> bool.
Variables (ru : 'M[F]_3) (rs : 'rV[F]_3) (rv : 'M[F]_3).
Hypothesis rsvd : is_svd (turned (9%:R / 10%:R) (fix_parameters selected case_x) R) ru rs rv.
Definition case_ds : decompositions F 8 := case_d (tot_matr case_tracks R) ru rs rv.
Lemma case_valid st : delta st = 9%:R / 10%:R -> trans st = 0 -> rotation st = R -> valid case_tracks selected st case_ds.
Proof.
  move=> D T0 R0. rewrite /valid D T0 R0. split; first by apply: case_svd; apply: case_tracks_gram. move=> x. rewrite case_b case_solve; last exact: case_tracks_gram. by case=> <-.
Qed.
Lemma case_run : valid_run case_tracks selected (fun=> case_ds) 1 (start 0 R).
Proof.
  move=> i st L H. case: H L => // _. exact: case_valid.
Qed.
Lemma case_result : chunk_result case_tracks selected 1 (fun=> case_ds) 0 R = Some (9%:R / 10%:R *: dsubmx (fix_parameters selected case_x), ru *m rv).
Proof.
  rewrite /chunk_result /= /next /step [tot_b _ _ _]case_b case_solve; last exact: case_tracks_gram. by rewrite /= add0r.
Qed.
End Run.

Definition turn_z : 'M[F]_3 := m3 0 (- 1) 0 1 0 0 0 0 1.
Lemma det_m3 a b c d e f g h k : \det (m3 a b c d e f g h k) = a * (e * k - f * h) - b * (d * k - f * g) + c * (d * h - e * g).
Proof. rewrite det3 !mxE /=. ring. Qed.
Lemma turn_z_rotation : is_rotation turn_z.
Proof. split; first by rewrite m3_tr m3_mul m3_1; congr m3; ring. rewrite det_m3. ring. Qed.

(** Only rotation_beta is selected; alpha and beta of the DUT are zero and gamma is 90 degrees: alpha = arctan2(R21, R22) is changed (to 36.9 degrees) and beta = - arcsin(R20) is not. *)
Theorem C71_angles_refuted : exists (tracks : 'I_8 -> track F) ds T R,
  [/\ is_rotation turn_z, valid_run tracks (fun i => i == lshift 3 o1) ds 1 (start 0 turn_z),
      chunk_result tracks (fun i => i == lshift 3 o1) 1 ds 0 turn_z = Some (T, R) &
      turn_z o2 o1 = 0 /\ turn_z o2 o2 = 1 /\ turn_z o2 o0 = 0 /\ R o2 o1 = 3%:R / 5%:R /\ R o2 o2 = 4%:R / 5%:R /\ R o2 o0 = 0].
Proof.
  pose w := v3 0 (5%:R / 6%:R) 0. pose sel := fun i : 'I_(3 + 3) => i == lshift 3 o1.
  pose ru := m3 (4%:R / 5%:R) 0 (3%:R / 5%:R) 0 1 0 (- (3%:R / 5%:R)) 0 (4%:R / 5%:R). pose rs : 'rV[F]_3 := (v3 (5%:R / 4%:R) 1 (5%:R / 4%:R))^T.
  have V : is_svd (turned (9%:R / 10%:R) (fix_parameters sel (case_x w)) turn_z) ru rs turn_z.
    have E : usubmx (fix_parameters sel (case_x w)) = w.
      apply/matrixP => i j. rewrite (ord1 j) [LHS]mxE [LHS]mxE /case_x col_mxEu !mxE. by move: i; apply: ord3.
    have D : diag_mx rs = m3 (5%:R / 4%:R) 0 0 0 1 0 0 0 (5%:R / 4%:R) by apply/matrixP => i j; rewrite !mxE; move: i j; apply: ord3; apply: ord3.
    split.
    - rewrite /turned E D skew_v3 m3_1 m3_scale m3_add !m3_mul. congr m3; field; rewrite ?pnatr_eq0 //.
    - rewrite m3_tr m3_mul [1%:M]m3_1. congr m3; field; rewrite ?pnatr_eq0 //.
    - rewrite m3_tr m3_mul [1%:M]m3_1. congr m3; ring.
    - move=> i. rewrite !mxE. by move: i; apply: ord3; rewrite /= ?divr_ge0 ?ler0n ?ler01.
  exists (case_tracks turn_z w), (fun=> case_ds turn_z w ru rs turn_z), (9%:R / 10%:R *: dsubmx (fix_parameters sel (case_x w))), (ru *m turn_z).
  split; [exact: turn_z_rotation|exact: (case_run turn_z_rotation V)|by apply: case_result; exact: turn_z_rotation|].
  rewrite m3_mul !mxE /=. do 3 (split=> //). split; [|split]; rewrite ?mulr0 ?mulr1 ?mulrN1 ?mul0r ?addr0 ?add0r ?opprK //; field; rewrite ?pnatr_eq0 //.
Qed.

(** The conditions of the theorems: a run for tracks through all hits, with any number of iterations. *)
Lemma case_R_svd (R : 'M[F]_3) a x : is_rotation R -> usubmx x = 0 -> is_svd (turned a x R) R (const_mx 1) 1.
Proof.
  move=> [O _] Z. have Z' : skew (0 : vec) = 0 by apply/matrixP => i j; rewrite !mxE /rolled; do 2 case: ifP => _; rewrite ?mxE subrr.
  have D : diag_mx (const_mx 1 : 'rV[F]_3) = 1%:M by apply/matrixP => i j; rewrite !mxE. rewrite /turned Z Z' scaler0 addr0 mul1mx. split=> //.
  - by rewrite D mulmx1; symmetry; apply: mulmx1.
  - by rewrite trmx1; apply: mulmx1.
  - move=> i. by rewrite mxE ler01.
Qed.
Example C71_example (R : 'M[F]_3) selected iterations (tracks := case_tracks R 0) (ds := fun _ : nat => case_ds R 0 R (const_mx 1) 1) : is_rotation R ->
  [/\ valid_run tracks selected ds iterations (start 0 R), forall i, l_matr (tracks i) *m (offset (tracks i) - (R *m hit (tracks i) + 0)) = 0, forall i, norm2 (slope (tracks i)) = 1 &
      chunk_result tracks selected iterations ds 0 R = Some (0, R)].
Proof.
  move=> rot. have Z : fix_parameters selected (case_x 0) = 0 by apply/matrixP => i j; rewrite (ord1 j) mxE /case_x [RHS]mxE; case: ifP => // _; case: (split_ordP i) => i' ->; rewrite ?col_mxEu ?col_mxEd mxE.
  have Zu : usubmx (0 : 'cV[F]_(3 + 3)) = 0 by apply/matrixP => i j; rewrite !mxE. have Zd : dsubmx (0 : 'cV[F]_(3 + 3)) = 0 by apply/matrixP => i j; rewrite !mxE.
  have Sv : solve (case_ds R 0 R (const_mx 1) 1) (tot_b tracks R 0) = Some (case_x 0) by rewrite case_b // case_solve //; apply: case_tracks_gram.
  have V : forall st, trans st = 0 -> rotation st = R -> valid tracks selected st (case_ds R 0 R (const_mx 1) 1).
    move=> st T0 R0. rewrite /valid T0 R0. split; first by apply: case_svd; apply: case_tracks_gram. move=> x. rewrite Sv => - [<-]. apply: case_R_svd => //. by rewrite Z.
  have St : forall st, trans st = 0 -> rotation st = R -> step tracks selected (case_ds R 0 R (const_mx 1) 1) st = Some (0, R).
    move=> st T0 R0. rewrite /step T0 R0 Sv Z Zd scaler0 addr0 /orthogonalize. congr (Some (_, _)). exact: mulmx1.
  have run : valid_run tracks selected ds iterations (start 0 R).
    move=> i st _ Re. suff [T0 R0] : trans st = 0 /\ rotation st = R by apply: V.
    elim: Re => [//|j st1 st2 _ [T1 R1] N]. have [T2 [R2 [S -> ->]]] := next_step N. move: S. rewrite St // => - [-> ->]. by [].
  have H : forall i, l_matr (tracks i) *m (offset (tracks i) - (R *m hit (tracks i) + 0)) = 0.
    move=> i. rewrite addr0 case_hit // [offset _]/=. have -> : cross 0 (case_point i) = 0 :> vec by move: (case_point i) => q; apply/matrixP => a b; rewrite !mxE !mul0r !subrr; case: ifP => // _; case: ifP. by rewrite addr0 subrr mulmx0.
  split=> //.
  - move=> i. rewrite /norm2 sum3 /tracks /=. case: i => - [|[|[|[|[|[|[|[|i]]]]]]]] // Hi; rewrite /= !mxE /=; field; by rewrite ?pnatr_eq0.
  - case C: (chunk_result _ _ _ _ _ _) => [[T R']|]; first by have [-> ->] := C71_aligned run rot H C.
    have G : forall fuel i st, trans st = 0 -> rotation st = R -> iterate tracks selected fuel i ds st <> None.
      elim=> [//|fuel IH] i st T0 R0 /=. case N: (next _ _ _ _ _) => [[[] st']|] //.
      + have [T2 [R2 [S ET ER]]] := next_step N. move: S. rewrite St // => - [E1 E2]. by apply: IH; rewrite ?ET ?ER.
      + move: N. rewrite /next St //. by case: (old st) => [[T2 R2]|] //; case: ifP => // _; case: ifP.
    move: C. rewrite /chunk_result. case I: (iterate _ _ _ _ _ _) => [//|]. by have /= K := G iterations 0%N (start 0 R) erefl erefl.
Qed.

(** A single track, perpendicular to the DUT (one of few or of parallel tracks): the decompositions of the first iteration *)
Definition single_tracks (i : 'I_1) : track F := Track (v3 0 0 1) 0 0.
Definition single_ds : decompositions F 1 :=
  @Decompositions F 1 (\matrix_(k, c) mxvec (\matrix_(i < 1, j < 3) (j == c)%:R) 0 k : 'M_(1 * 3, k_svd 1)) ((v3 1 1 0)^T : 'rV_(k_svd 1)) (row_mx (m3 0 0 0 0 0 0 1 0 0) (m3 (- 1) 0 0 0 (- 1) 0 0 0 0) : 'M_(k_svd 1, 3 + 3)) 1 0 1.
Lemma single_uE i j (c : 'I_3) : d_u single_ds (mxvec_index i j) c = (j == c)%:R.
Proof. by rewrite mxE mxvecE mxE. Qed.
Example C71_few_example selected : valid_run single_tracks selected (fun=> single_ds) 1 (start 0 1) /\ norm2 (slope (single_tracks ord0)) = 1.
Proof.
  split; last by rewrite /norm2 sum3 !mxE /=; ring.
  have V : is_svd (tot_matr single_tracks 1) (d_u single_ds) (d_s single_ds) (d_v single_ds).
    have D : diag_mx (v3 1 1 0)^T = m3 1 0 0 0 1 0 0 0 0 by apply/matrixP => i j; rewrite !mxE; move: i j; apply: ord3; apply: ord3.
    split.
    - apply/matrixP => k c. case/mxvec_indexP: k => i j. rewrite tot_matrE -mulmxA [diag_mx _]D mul_mx_row !m3_mul.
      rewrite [RHS]mxE (bigD1 j) //= [X in _ + X]big1 ?addr0; last by move=> l lj; rewrite single_uE eq_sym (negbTE lj) mul0r.
      rewrite single_uE eqxx mul1r /block mulmx0 l_matr_v3 mulmxN mulmx1 m3_opp.
      have -> : skew (0 : vec) = 0 by apply/matrixP => a b; rewrite !mxE /rolled; do 2 case: ifP => _; rewrite ?mxE subrr.
      rewrite mulmx0. case: (split_ordP c) => c' ->; rewrite ?row_mxEl ?row_mxEr !mxE; move: j c'; apply: ord3; apply: ord3; rewrite /=; ring.
    - apply/matrixP => a b. rewrite mxE sum_stack big_ord1 (bigD1 a) //= big1 ?addr0.
      + by rewrite [_^T _ _]mxE !single_uE eqxx mul1r mxE.
      + move=> l la. by rewrite [_^T _ _]mxE !single_uE (negbTE la) mul0r.
    - rewrite [d_v _]/= tr_row_mx mul_row_col !m3_tr !m3_mul m3_add [1%:M]m3_1. congr m3; ring.
    - apply: ord3; rewrite !mxE /= ?ler01 //.
  move=> i st L H. case: H L => // _. split=> // x. rewrite /solve. case: ifP => // /forallP /(_ o2). by rewrite !mxE /= eqxx.
Qed.
End Cases.

Print Assumptions C71_angles_refuted.
