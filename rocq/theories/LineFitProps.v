(** C72: the line fit of the tracks. *)
From mathcomp Require Import all_ssreflect all_algebra.
From mathcomp Require Import ring.
From Verif Require Import LineFitModel.
Set Implicit Arguments.
Unset Strict Implicit.
Unset Printing Implicit Defensive.
Import Order.Theory GRing.Theory Num.Theory.
Local Open Scope ring_scope.

Section Props.
Variable F : rcfType.
Notation vec := 'rV[F]_3.

(** * Specification *)
Definition dot k (v w : 'rV[F]_k) : F := \sum_j v 0 j * w 0 j.
Definition norm2 k (v : 'rV[F]_k) : F := dot v v.
(** Sum of the squared distances of the points to points at [t] of the line through o in direction d *)
Definition sum_distances (p : seq vec) (o d : vec) (t : nat -> F) : F := \sum_(i < size p) norm2 (nth 0 p i - (o + t i *: d)).
(** Singular value decomposition with decreasing singular values *)
Definition is_svd m (A : 'M[F]_(m, 3)) (d : svd F m) : Prop :=
  [/\ A = s_u d *m diag_mx (s_s d) *m s_v d, (s_u d)^T *m s_u d = 1%:M, s_v d *m (s_v d)^T = 1%:M, forall i, 0 <= s_s d 0 i &
      forall i j : 'I_(minn m 3), (i <= j)%N -> s_s d 0 j <= s_s d 0 i].

Lemma dotC k (v w : 'rV[F]_k) : dot v w = dot w v.
Proof. by apply: eq_bigr => j _; rewrite mulrC. Qed.
Lemma dotDl k (u v w : 'rV[F]_k) : dot (u + v) w = dot u w + dot v w.
Proof. by rewrite /dot -big_split; apply: eq_bigr => j _; rewrite mxE mulrDl. Qed.
Lemma dotZl k a (v w : 'rV[F]_k) : dot (a *: v) w = a * dot v w.
Proof. by rewrite /dot mulr_sumr; apply: eq_bigr => j _; rewrite mxE mulrA. Qed.
Lemma dotDr k (u v w : 'rV[F]_k) : dot u (v + w) = dot u v + dot u w.
Proof. by rewrite dotC dotDl !(dotC _ u). Qed.
Lemma dotZr k a (v w : 'rV[F]_k) : dot v (a *: w) = a * dot v w.
Proof. by rewrite dotC dotZl dotC. Qed.
Lemma dotNl k (v w : 'rV[F]_k) : dot (- v) w = - dot v w.
Proof. by rewrite -scaleN1r dotZl mulN1r. Qed.
Lemma dotNr k (v w : 'rV[F]_k) : dot v (- w) = - dot v w.
Proof. by rewrite dotC dotNl dotC. Qed.
Lemma dotE k (v w : 'rV[F]_k) : dot v w = (v *m w^T) 0 0.
Proof. by rewrite mxE; apply: eq_bigr => j _; rewrite mxE. Qed.
Lemma norm2_ge0 k (v : 'rV[F]_k) : 0 <= norm2 v.
Proof. by apply: sumr_ge0 => j _; rewrite -expr2 sqr_ge0. Qed.
Lemma norm2_eq0 k (v : 'rV[F]_k) : norm2 v = 0 -> v = 0.
Proof.
  move/eqP. rewrite psumr_eq0; last by move=> i _; rewrite -expr2 sqr_ge0. move/allP => H. apply/matrixP => i j. rewrite (ord1 i) mxE. apply/eqP. have := H j. rewrite mem_index_enum -expr2 sqrf_eq0 => K. exact: K.
Qed.
Lemma norm2B k (v w : 'rV[F]_k) : norm2 (v - w) = norm2 v - 2%:R * dot v w + norm2 w.
Proof. rewrite /norm2 dotDl !dotDr !dotNl !dotNr (dotC w v). ring. Qed.

(** Distance of a point to the line *)
Definition rest (d x : vec) : F := norm2 x - dot x d ^+ 2.
Lemma rest_le (d x : vec) t : norm2 d = 1 -> rest d x <= norm2 (x - t *: d).
Proof.
  move=> D. rewrite norm2B /norm2 dotZr dotZl dotZr -/(norm2 d) D mulr1. rewrite -subr_ge0 /rest -/(norm2 x).
  have -> : norm2 x - 2%:R * (t * dot x d) + t * t - (norm2 x - dot x d ^+ 2) = (t - dot x d) ^+ 2 by ring. exact: sqr_ge0.
Qed.
Lemma rest_eq (d x : vec) : norm2 d = 1 -> norm2 (x - dot x d *: d) = rest d x.
Proof. move=> D. rewrite norm2B /norm2 dotZr dotZl dotZr -/(norm2 d) D mulr1 /rest -/(norm2 x). ring. Qed.
Lemma rest_ge0 (d x : vec) : norm2 d = 1 -> 0 <= rest d x.
Proof. move=> D. rewrite -rest_eq //. exact: norm2_ge0. Qed.

(** * The mean *)
Lemma centeredE (p : seq vec) (i : 'I_(size p)) : row i (centered p) = nth 0 p i - mean p.
Proof. by apply/matrixP => k j; rewrite !mxE ord1. Qed.
Lemma sum_centered (p : seq vec) : (0 < size p)%N -> \sum_(i < size p) (nth 0 p i - mean p) = 0.
Proof.
  move=> N. rewrite sumrB sumr_const card_ord /mean (big_nth 0) big_mkord -scaler_nat scalerA mulfV ?scale1r ?subrr //. by rewrite pnatr_eq0 -lt0n.
Qed.
Lemma dot_suml I (r : seq I) (f : I -> vec) (w : vec) : dot (\sum_(i <- r) f i) w = \sum_(i <- r) dot (f i) w.
Proof. elim: r => [|a r IH]; last by rewrite !big_cons dotDl IH. rewrite !big_nil /dot big1 // => j _. by rewrite mxE mul0r. Qed.
(** Lines through the mean are best *)
Lemma mean_best (p : seq vec) (o d : vec) : (0 < size p)%N -> norm2 d = 1 ->
  \sum_(i < size p) rest d (nth 0 p i - o) = \sum_(i < size p) rest d (nth 0 p i - mean p) + (size p)%:R * rest d (mean p - o).
Proof.
  move=> N D. set e := mean p - o. set c := fun i : 'I_(size p) => nth 0 p i - mean p.
  have S w : \sum_(i < size p) dot (c i) w = 0 by rewrite -dot_suml sum_centered // /dot big1 // => j _; rewrite mxE mul0r.
  have E i : rest d (nth 0 p (i : 'I_(size p)) - o) = rest d (c i) + rest d e + (2%:R * dot (c i) e - 2%:R * dot e d * dot (c i) d).
    have -> : nth 0 p i - o = c i + e by rewrite /c /e addrA subrK. move: (c i) e => x e. rewrite /rest /norm2 !dotDl !dotDr (dotC e x). ring.
  rewrite (eq_bigr _ (fun i _ => E i)). transitivity (\sum_(i < size p) (rest d (c i) + rest d e) + \sum_(i < size p) (2%:R * dot (c i) e - 2%:R * dot e d * dot (c i) d)); first by rewrite -big_split.
  have -> : \sum_(i < size p) (2%:R * dot (c i) e - 2%:R * dot e d * dot (c i) d) = 0 by rewrite sumrB -!mulr_sumr !S !mulr0 subrr.
  rewrite addr0. transitivity (\sum_(i < size p) rest d (c i) + \sum_(i < size p) rest d e); first by rewrite -big_split. congr (_ + _). by rewrite sumr_const card_ord mulr_natl.
Qed.

(** * Singular value decomposition *)
Section Svd.
Variables (m : nat) (A : 'M[F]_(m, 3)) (d : svd F m).
Hypothesis V : is_svd A d.
Variable i0 : 'I_(minn m 3).
Hypothesis i00 : i0 = 0%N :> nat.
Let v0 : vec := row i0 (s_v d).
Let s0 := s_s d 0 i0.

Lemma sum_rows (w : vec) : \sum_(i < m) dot (row i A) w ^+ 2 = (w *m A^T *m A *m w^T) 0 0.
Proof.
  have -> : w *m A^T *m A *m w^T = (w *m A^T) *m (w *m A^T)^T by rewrite trmx_mul trmxK !mulmxA.
  rewrite mxE. apply: eq_bigr => i _. rewrite !mxE expr2. congr (_ * _); apply: eq_bigr => j _; by rewrite !mxE mulrC.
Qed.
Lemma gram : A^T *m A = (s_v d)^T *m (diag_mx (s_s d) *m diag_mx (s_s d)) *m s_v d.
Proof.
  case: V => E U _ _ _. by rewrite {1 2}E !trmx_mul tr_diag_mx !mulmxA -(mulmxA _ (s_u d)^T) U mulmx1.
Qed.
Definition coords (w : vec) : 'rV[F]_(minn m 3) := w *m (s_v d)^T.
Lemma sum_rows_coords (w : vec) : \sum_(i < m) dot (row i A) w ^+ 2 = \sum_j (s_s d 0 j * coords w 0 j) ^+ 2.
Proof.
  rewrite sum_rows. have -> : w *m A^T *m A *m w^T = (coords w *m diag_mx (s_s d)) *m (coords w *m diag_mx (s_s d))^T.
    by rewrite -(mulmxA w) gram /coords trmx_mul tr_diag_mx trmx_mul trmxK !mulmxA.
  rewrite mxE. apply: eq_bigr => j _. rewrite [X in _ * X]mxE -expr2. congr (_ ^+ 2). by rewrite mul_mx_diag mxE mulrC.
Qed.
Lemma bessel (w : vec) : norm2 (w - coords w *m s_v d) = norm2 w - \sum_j coords w 0 j ^+ 2.
Proof.
  case: V => _ _ O _ _. have -> : \sum_j coords w 0 j ^+ 2 = norm2 (coords w) by apply: eq_bigr => j _; rewrite expr2.
  have X : dot w (coords w *m s_v d) = norm2 (coords w) by rewrite /norm2 !dotE trmx_mul mulmxA.
  have Y : norm2 (coords w *m s_v d) = norm2 (coords w) by rewrite /norm2 !dotE trmx_mul mulmxA -(mulmxA (coords w)) O mulmx1.
  rewrite norm2B X Y. ring.
Qed.
Lemma v0_norm : norm2 v0 = 1.
Proof.
  case: V => _ _ O _ _. rewrite /norm2 dotE /v0. have -> : row i0 (s_v d) *m (row i0 (s_v d))^T = row i0 (s_v d *m (s_v d)^T) *m delta_mx i0 0.
    by rewrite row_mul -mulmxA tr_row -colE.
  by rewrite O row1 mxE (bigD1 i0) //= !mxE !eqxx mulr1 big1 ?addr0 // => j ji; rewrite !mxE (negbTE ji) andbF mul0r.
Qed.
Lemma v0_coords j : coords v0 0 j = (j == i0)%:R.
Proof.
  case: V => _ _ O _ _. rewrite /coords /v0 -row_mul O row1 mxE eqxx /=. by rewrite eq_sym.
Qed.
Lemma sum_v0 : \sum_(i < m) dot (row i A) v0 ^+ 2 = s0 ^+ 2.
Proof.
  rewrite sum_rows_coords (bigD1 i0) //= big1 ?addr0; first by rewrite v0_coords eqxx mulr1. move=> j ji. by rewrite v0_coords (negbTE ji) mulr0 expr0n.
Qed.
Lemma s_max j : s_s d 0 j ^+ 2 <= s0 ^+ 2.
Proof. case: V => _ _ _ P S. rewrite ler_pexpn2r ?nnegrE ?P //. apply: S. by rewrite i00. Qed.
Lemma sum_max (w : vec) : norm2 w = 1 -> \sum_(i < m) dot (row i A) w ^+ 2 <= s0 ^+ 2.
Proof.
  move=> W. rewrite sum_rows_coords. have B : \sum_j coords w 0 j ^+ 2 <= 1 by rewrite -subr_ge0 -W -bessel norm2_ge0.
  apply: (@le_trans _ _ (s0 ^+ 2 * \sum_j coords w 0 j ^+ 2)); last by rewrite -[X in _ <= X]mulr1 ler_wpmul2l ?sqr_ge0.
  rewrite mulr_sumr. apply: ler_sum => j _. by rewrite exprMn ler_wpmul2r ?sqr_ge0 // s_max.
Qed.
(** The direction is unique if the first singular value is larger than the others *)
Lemma sum_unique (w : vec) : 0 < s0 -> (forall j, j != i0 -> s_s d 0 j < s0) -> norm2 w = 1 -> s0 ^+ 2 <= \sum_(i < m) dot (row i A) w ^+ 2 -> w = v0 \/ w = - v0.
Proof.
  move=> s0p G W H. have B : \sum_j coords w 0 j ^+ 2 <= 1 by rewrite -subr_ge0 -W -bessel norm2_ge0.
  case: V => _ _ _ P S. have s2 j : j != i0 -> s_s d 0 j ^+ 2 < s0 ^+ 2 by move=> ji; rewrite ltr_pexpn2r ?nnegrE ?P // G.
  have Z j : j != i0 -> coords w 0 j = 0.
    move=> ji. apply/eqP. rewrite -sqrf_eq0. apply/negPn/negP => nz. have pz : 0 < coords w 0 j ^+ 2 by rewrite lt_neqAle eq_sym nz sqr_ge0.
    have : \sum_i dot (row i A) w ^+ 2 < s0 ^+ 2.
      rewrite sum_rows_coords. apply: (@lt_le_trans _ _ (s0 ^+ 2 * \sum_j coords w 0 j ^+ 2)); last by rewrite -[X in _ <= X]mulr1 ler_wpmul2l ?sqr_ge0.
      rewrite mulr_sumr (bigD1 j) //= [X in _ < X](bigD1 j) //=. apply: ltr_le_add; first by rewrite exprMn ltr_pmul2r // s2.
      apply: ler_sum => k _. by rewrite exprMn ler_wpmul2r ?sqr_ge0 // s_max.
    by rewrite ltNge H.
  have E : \sum_j coords w 0 j ^+ 2 = coords w 0 i0 ^+ 2 by rewrite (bigD1 i0) //= big1 ?addr0 // => j ji; rewrite Z // expr0n.
  have Q : coords w 0 i0 ^+ 2 = 1.
    apply/eqP. rewrite eq_le -{1}E B /=. move: H. rewrite sum_rows_coords (bigD1 i0) //= big1 ?addr0; last by move=> j ji; rewrite Z // mulr0 expr0n.
    rewrite exprMn -[X in X <= _]mulr1 ler_pmul2l //. by rewrite exprn_gt0.
  have : w - coords w *m s_v d = 0 by apply: norm2_eq0; rewrite bessel E Q W subrr. move/eqP. rewrite subr_eq0 => /eqP ->.
  have -> : coords w *m s_v d = coords w 0 i0 *: v0.
    apply/matrixP => a b. rewrite (ord1 a) mxE (bigD1 i0) //= big1 ?addr0; first by rewrite !mxE. move=> j ji. by rewrite Z // mul0r.
  move/eqP: Q. rewrite sqrf_eq1 => /orP[/eqP ->|/eqP ->]; [left; exact: scale1r|right; exact: scaleN1r].
Qed.
End Svd.

Lemma ord_pos n (i : 'I_(minn n 3)) : (0 < n)%N.
Proof. case: i => i. rewrite leq_min => /andP[H _]. exact: leq_ltn_trans H. Qed.

(** * The fit *)
Section Fit.
Variable positions : seq (option vec).
Let p := valid_positions positions.
Variable d : svd F (size p).
Hypothesis V : is_svd (centered p) d.

Lemma fit_slope o s : line_fit_3d positions d = Some (o, s) -> exists i0 : 'I_(minn (size p) 3), [/\ i0 = 0%N :> nat, o = mean p, s = row i0 (s_v d) \/ s = - row i0 (s_v d) & 0 <= s 0 (inord 2)].
Proof.
  rewrite /line_fit_3d /slope_of. case: insubP => [i0 _ E|//] /=. rewrite -/p -dotE -/(norm2 _) (v0_norm V) sqrtr1 invr1 scale1r => - [<- <-]. exists i0. split=> //; case: ifP => [L|/negbT L]; [by right|by left|by rewrite mxE oppr_ge0; apply: ltW|by rewrite leNgt].
Qed.
Lemma norm2N k (v : 'rV[F]_k) : norm2 (- v) = norm2 v.
Proof. by rewrite /norm2 dotNl dotNr opprK. Qed.

(** Slopes have length one and do not point backwards. *)
Theorem C72_slope o s : line_fit_3d positions d = Some (o, s) -> norm2 s = 1 /\ 0 <= s 0 (inord 2).
Proof. case/fit_slope => i0 [E _ S P]. split=> //. by case: S => ->; rewrite ?norm2N (v0_norm V). Qed.

(** The fit fails only without any hit. *)
Theorem C72_succeeds : (exists r, line_fit_3d positions d = Some r) <-> exists x, Some x \in positions.
Proof.
  have -> : (exists x, Some x \in positions) <-> (0 < size p)%N.
    rewrite /p /valid_positions. split=> [[x H]|]; first by rewrite size_pmap -has_count; apply/hasP; exists (Some x).
    rewrite size_pmap -has_count => /hasP[[x|] H _] //. by exists x.
  rewrite /line_fit_3d /slope_of. split=> [[r]|H]; first by case: insubP => // i _ _ _; apply: ord_pos i.
  case: insubP => [i _ _|]; first by eexists. by rewrite leq_min H.
Qed.

(** No other line is closer to the hits (sum of the squared distances); t' gives any points on the other line. *)
Theorem C72_optimal o s : line_fit_3d positions d = Some (o, s) ->
  exists t, forall o' d' t', sum_distances p o s t <= sum_distances p o' d' t'.
Proof.
  move=> L. have [N _] := C72_slope L. have [i0 [E0 Eo Es _]] := fit_slope L. exists (fun i => dot (nth 0 p i - o) s) => o' d' t'.
  have n0 : (0 < size p)%N by apply: ord_pos i0.
  have G e w (t : nat -> F) : norm2 w = 1 -> sum_distances p o s (fun i => dot (nth 0 p i - o) s) <= sum_distances p e w t.
    move=> W. have -> : sum_distances p o s (fun i => dot (nth 0 p i - o) s) = \sum_(i < size p) rest s (nth 0 p i - o).
      by apply: eq_bigr => i _; rewrite opprD addrA rest_eq.
    apply: (@le_trans _ _ (\sum_(i < size p) rest w (nth 0 p i - e))); last by apply: ler_sum => i _; rewrite opprD addrA rest_le.
    rewrite (mean_best e n0 W) Eo. apply: (@le_trans _ _ (\sum_(i < size p) rest w (nth 0 p i - mean p))); last by rewrite ler_addl mulr_ge0 ?ler0n ?rest_ge0.
    rewrite /rest !sumrB ler_add2l ler_opp2. have X u : \sum_(i < size p) dot (nth 0 p i - mean p) u ^+ 2 = \sum_(i < size p) dot (row i (centered p)) u ^+ 2 by apply: eq_bigr => i _; rewrite centeredE.
    rewrite !X. have -> : \sum_(i < size p) dot (row i (centered p)) s ^+ 2 = s_s d 0 i0 ^+ 2.
      rewrite -(sum_v0 V i0). apply: eq_bigr => i _. by case: Es => ->; rewrite ?dotNr ?sqrrN.
    exact: sum_max.
  have [->|nz] := eqVneq d' 0.
    have -> : sum_distances p o' 0 t' = sum_distances p o' s (fun=> 0) by apply: eq_bigr => i _; rewrite scaler0 scale0r. exact: G.
  have q : norm2 d' != 0 by apply: contra nz => /eqP /norm2_eq0 ->. have qp : 0 < norm2 d' by rewrite lt_neqAle eq_sym q norm2_ge0.
  have rp : 0 < Num.sqrt (norm2 d') by rewrite sqrtr_gt0. pose w := (Num.sqrt (norm2 d'))^-1 *: d'.
  have -> : sum_distances p o' d' t' = sum_distances p o' w (fun i => t' i * Num.sqrt (norm2 d')) by apply: eq_bigr => i _; rewrite /w scalerA -mulrA mulfV ?mulr1 ?gt_eqF.
  apply: G. rewrite /w /norm2 dotZl dotZr mulrA -/(norm2 d') -expr2 exprVn sqr_sqrtr ?mulVf //. exact: ltW.
Qed.

(** Hits on a line: the fitted line goes through all of them, and it is the same line if two hits are different. *)
Theorem C72_exact o s o' d' : line_fit_3d positions d = Some (o, s) -> (forall x, Some x \in positions -> exists t, x = o' + t *: d') ->
  (forall x, Some x \in positions -> exists t, x = o + t *: s) /\
  forall x y, Some x \in positions -> Some y \in positions -> x != y -> exists c, s = c *: d'.
Proof.
  move=> L H. have [t Op] := C72_optimal L.
  have Pm x : Some x \in positions -> x \in p by move=> Hx; rewrite /p /valid_positions mem_pmap map_id.
  have Mp x : x \in p -> Some x \in positions by rewrite /p /valid_positions mem_pmap map_id.
  have /fin_all_exists [t' T'] : forall i : 'I_(size p), exists t, nth 0 p i = o' + t *: d' by move=> i; apply/H/Mp/mem_nth.
  pose t2 k := if insub k is Some i then t' i else 0. have Z : sum_distances p o' d' t2 = 0.
    rewrite /sum_distances big1 // => i _. rewrite /t2 valK T' subrr /norm2 /dot big1 // => j _. by rewrite mxE mul0r.
  have Z' : sum_distances p o s t = 0.
    apply/eqP. rewrite eq_le -{1}Z Op /=. apply: sumr_ge0 => i _. exact: norm2_ge0.
  have On x : Some x \in positions -> exists t, x = o + t *: s.
    move/Pm => xp. have ip : (index x p < size p)%N by rewrite index_mem. move/eqP: Z'. rewrite psumr_eq0; last by move=> i _; apply: norm2_ge0.
    move/allP/(_ (Ordinal ip)). rewrite mem_index_enum => /(_ isT) /= /eqP /norm2_eq0 /eqP. rewrite subr_eq0 nth_index // => /eqP ->. by eexists.
  split=> // x y Hx Hy xy. have [a Ea] := On _ Hx. have [b Eb] := On _ Hy. have [a' Ea'] := H _ Hx. have [b' Eb'] := H _ Hy.
  have D : (a - b) *: s = (a' - b') *: d'.
    have <- : x - y = (a - b) *: s by rewrite Ea Eb scalerBl; apply/matrixP => i j; rewrite !mxE; ring.
    rewrite Ea' Eb' scalerBl. by apply/matrixP => i j; rewrite !mxE; ring.
  have ab : a - b != 0 by apply: contra xy; rewrite subr_eq0 => /eqP E; rewrite Ea Eb E.
  exists ((a - b)^-1 * (a' - b')). by rewrite -scalerA -D scalerA mulVf // scale1r.
Qed.

(** If the first singular value is larger than the others, every line with the smallest sum of distances has the same direction and goes through the mean. *)
Theorem C72_unique o s o' d' t' (i0 : 'I_(minn (size p) 3)) : line_fit_3d positions d = Some (o, s) -> i0 = 0%N :> nat ->
  0 < s_s d 0 i0 -> (forall j, j != i0 -> s_s d 0 j < s_s d 0 i0) -> norm2 d' = 1 ->
  (forall o2 d2 t2, sum_distances p o' d' t' <= sum_distances p o2 d2 t2) ->
  (d' = s \/ d' = - s) /\ exists x, o' = o + x *: s.
Proof.
  move=> L E0 sp G W H. have [N _] := C72_slope L. have [i1 [E1 Eo Es _]] := fit_slope L. have Ei : i1 = i0 by apply: val_inj; rewrite /= E0 E1. rewrite {}Ei {i1 E1} in Es.
  have n0 : (0 < size p)%N by apply: ord_pos i0.
  have X u : \sum_(i < size p) rest u (nth 0 p i - mean p) = \sum_(i < size p) norm2 (nth 0 p i - mean p) - \sum_(i < size p) dot (row i (centered p)) u ^+ 2.
    rewrite /rest sumrB. congr (_ - _). by apply: eq_bigr => i _; rewrite centeredE.
  have Xs : \sum_(i < size p) dot (row i (centered p)) s ^+ 2 = s_s d 0 i0 ^+ 2.
    rewrite -(sum_v0 V i0). apply: eq_bigr => i _. by case: Es => ->; rewrite ?dotNr ?sqrrN.
  have B : \sum_(i < size p) rest d' (nth 0 p i - o') <= \sum_(i < size p) rest s (nth 0 p i - mean p).
    apply: (@le_trans _ _ (sum_distances p o' d' t')); first by apply: ler_sum => i _; rewrite opprD addrA rest_le.
    apply: (le_trans (H (mean p) s (fun i => dot (nth 0 p i - mean p) s))). rewrite le_eqVlt. apply/orP; left. apply/eqP. apply: eq_bigr => i _. by rewrite opprD addrA rest_eq.
  rewrite (mean_best o' n0 W) !X Xs in B. have M := sum_max V E0 W. have Rp : 0 <= (size p)%:R * rest d' (mean p - o') by rewrite mulr_ge0 ?ler0n ?rest_ge0.
  move: B M Rp. move: (\sum_i norm2 _) (\sum_i dot (row i (centered p)) d' ^+ 2) (@sum_unique _ _ _ V i0 E0 d') => a b U B M Rp.
  have Eb : b = s_s d 0 i0 ^+ 2.
    apply/eqP. rewrite eq_le M /= -subr_ge0. have -> : b - s_s d 0 i0 ^+ 2 = (a - s_s d 0 i0 ^+ 2) - (a - b + (size p)%:R * rest d' (mean p - o')) + (size p)%:R * rest d' (mean p - o') by ring. by rewrite addr_ge0 // subr_ge0.
  have R0 : rest d' (mean p - o') = 0.
    apply/eqP. rewrite eq_le (rest_ge0 _ W) andbT. rewrite Eb ger_addl in B. by rewrite pmulr_rle0 ?ltr0n in B.
  have Dd : d' = s \/ d' = - s.
    have [] := U sp G W; first by rewrite Eb. - by case: Es => -> ->; [left|right; rewrite opprK]. - by case: Es => -> ->; [right|left].
  split=> //. have : mean p - o' - dot (mean p - o') d' *: d' = 0 by apply: norm2_eq0; rewrite rest_eq.
  move: (dot _ _) => c /eqP. rewrite subr_eq0 => /eqP K. rewrite Eo. move: (mean p) K => m K. have -> : o' = m - c *: d' by rewrite -K opprB addrC subrK.
  case: Dd => ->; [exists (- c)|exists c]; first by rewrite scaleNr. by rewrite scalerN opprK.
Qed.
End Fit.

(** Two hits on the z axis, and a DUT without hit *)
Definition ex_hit (z : F) : vec := \row_j (if j == inord 2 :> 'I_3 then z else 0).
Definition ex_positions : seq (option vec) := [:: Some (ex_hit (- 1)); None; Some (ex_hit 1)].
Definition ex_svd : svd F 2 :=
  @SVD F 2 (\matrix_(i < 2, j < 2) ((if (i == 0) && (j == 0) then - 1 else 1) / Num.sqrt 2%:R)) (\row_(j < 2) (if j == 0 then Num.sqrt 2%:R else 0))
    (\matrix_(i < 2, j < 3) (if i == 0 then (j == inord 2)%:R else (j == 0)%:R)).
Example C72_example : is_svd (centered (valid_positions ex_positions)) ex_svd /\ line_fit_3d ex_positions ex_svd = Some (0, ex_hit 1).
Proof.
  have s2 : Num.sqrt 2%:R * Num.sqrt 2%:R = 2%:R :> F by rewrite -expr2 sqr_sqrtr // ler0n.
  have sn : Num.sqrt 2%:R != 0 :> F by rewrite gt_eqF // sqrtr_gt0 ltr0n.
  have M : mean [:: ex_hit (- 1); ex_hit 1] = 0.
    rewrite /mean !big_cons big_nil addr0. have -> : ex_hit (- 1) + ex_hit 1 = 0 by apply/matrixP => i j; rewrite !mxE; case: ifP => _; rewrite ?addr0 // addNr. exact: scaler0.
  have two : inord 2 = lift ord0 (lift ord0 ord0) :> 'I_3 by apply: val_inj; rewrite /= inordK.
  have h2 : (1 + 1 : F) / 2%:R = 1 by rewrite -(natrD _ 1 1) mulfV // pnatr_eq0.
  split.
  - split; rewrite ?[s_u _]/= ?[s_s _]/= ?[s_v _]/=.
    + rewrite /centered M. apply/matrixP => i j. rewrite -mulmxA mul_diag_mx [RHS]mxE !big_ord_recl big_ord0 !mxE /= subr0 mul0r mulr0 !addr0 mulrA divfK // andbT.
      have -> : nth 0 [:: ex_hit (- 1); ex_hit 1] i 0 j = (if i == 0 then - 1 else 1) * (j == inord 2)%:R.
        case: i => - [|[|i]] // Hi; rewrite /= !mxE; case: ifP => _; rewrite ?mulr1 ?mulr0 //.
      by [].
    + apply/matrixP => i j. rewrite mxE !big_ord_recl big_ord0 !mxE. case: i => - [|[|i]] // Hi; case: j => - [|[|j]] // Hj; rewrite /= addr0 !mulf_div !s2 -mulrDl ?mulN1r ?mul1r ?mulr1 ?opprK ?addNr ?subrr ?mul0r ?h2 //.
    + apply/matrixP => i j. rewrite mxE !big_ord_recl big_ord0 !mxE two. case: i => - [|[|i]] // Hi; case: j => - [|[|j]] // Hj; rewrite /= ?mulr0 ?mul0r ?addr0 ?add0r ?mulr1 //.
    + move=> i. rewrite mxE. by case: ifP; rewrite ?sqrtr_ge0.
    + move=> i j. rewrite !mxE. case: i => - [|[|i]] // Hi; case: j => - [|[|j]] // Hj _; by rewrite /= ?sqrtr_ge0.
  - rewrite /line_fit_3d /slope_of. case: insubP => [i _ Ei|//]. rewrite [omap _ _]/= [X in Some (X, _)]M. 
    have -> : row i (s_v ex_svd) = ex_hit 1 by apply/matrixP => a b; rewrite !mxE -val_eqE /= Ei /=; case: (b == inord 2).
    have N : ex_hit 1 *m (ex_hit 1)^T = 1 by apply/matrixP => a b; rewrite !ord1 mxE !big_ord_recl big_ord0 !mxE two /= ?mulr0 ?mul0r ?addr0 ?add0r mulr1.
    have -> : (ex_hit 1 *m (ex_hit 1)^T) 0 0 = 1 by rewrite N mxE eqxx. rewrite sqrtr1 invr1 scale1r. have -> : ex_hit 1 0 (inord 2) = 1 by rewrite mxE eqxx. by rewrite ltr10.
Qed.
End Props.

Print Assumptions C72_slope.
Print Assumptions C72_succeeds.
Print Assumptions C72_optimal.
Print Assumptions C72_exact.
Print Assumptions C72_unique.
