(** C39: inliers of straight lines. *)
From Coq Require Import Reals List Bool Lra Lia Permutation.
From Verif Require Import GeometryModel GeometryProofs RansacModel.
Import ListNotations.
Local Open Scope R_scope.

(** ** Specification *)
Definition on_line (m c : R) (p : point) : Prop := snd p = m * fst p + c.
Definition distance (p q : point) : R := sqrt ((fst p - fst q) ^ 2 + (snd p - snd q) ^ 2).
(** The distance of a point to a line is the smallest one to the points of the line *)
Definition distance_to_line (m c : R) (p : point) (d : R) : Prop :=
  (exists q, on_line m c q /\ distance q p = d) /\ forall q, on_line m c q -> d <= distance q p.

Lemma filter_le {A} (f : A -> bool) l : (length (filter f l) <= length l)%nat.
Proof. induction l as [|x l IH]; cbn; [lia|]. destruct (f x); cbn; lia. Qed.
Lemma sq_pos m : 0 < 1 + m ^ 2.
Proof. pose proof (pow2_ge_0 m). lra. Qed.
Lemma distance_unique m c p d d' : distance_to_line m c p d -> distance_to_line m c p d' -> d = d'.
Proof. intros [(q & Q & E) H] [(q' & Q' & E') H']. specialize (H q' Q'). specialize (H' q Q). lra. Qed.

(** C39: find_intercept_point is the foot of the perpendicular: it is on the line, the connection is perpendicular to the line, and it is the nearest point of the line *)
Theorem C39_intercept m c x0 y0 : let '(x1, y1) := find_intercept_point m c x0 y0 in
  on_line m c (x1, y1) /\ (x1 - x0) * 1 + (y1 - y0) * m = 0 /\ distance_to_line m c (x0, y0) (distance (x1, y1) (x0, y0)).
Proof.
  unfold find_intercept_point. pose proof (sq_pos m) as S.
  set (x1 := (x0 + m * y0 - m * c) / (1 + m ^ 2)). set (y1 := (m * x0 + m ^ 2 * y0 - m ^ 2 * c) / (1 + m ^ 2) + c).
  assert (L : y1 = m * x1 + c) by (unfold x1, y1; field; lra).
  assert (P : (x1 - x0) * 1 + (y1 - y0) * m = 0) by (unfold x1, y1; field; lra).
  split; [exact L|]. split; [exact P|]. split; [exists (x1, y1); now split|].
  intros [a b] H. unfold on_line in H. cbn in H. unfold distance. cbn [fst snd]. apply sqrt_le_1_alt. subst b.
  assert (E : (a - x0) ^ 2 + (m * a + c - y0) ^ 2 = (x1 - x0) ^ 2 + (y1 - y0) ^ 2 + (1 + m ^ 2) * (a - x1) ^ 2).
  { transitivity ((x1 - x0) ^ 2 + (y1 - y0) ^ 2 + (1 + m ^ 2) * (a - x1) ^ 2 + 2 * (a - x1) * ((x1 - x0) * 1 + (y1 - y0) * m)); [rewrite L; ring|rewrite P; ring]. }
  rewrite E. pose proof (pow2_ge_0 (a - x1)). nra.
Qed.
Definition line_distance (m c : R) (p : point) : R := let '(x1, y1) := find_intercept_point m c (fst p) (snd p) in distance (x1, y1) p.
Lemma line_distance_ok m c p : distance_to_line m c p (line_distance m c p).
Proof. unfold line_distance. destruct p as [x y]. pose proof (C39_intercept m c x y) as H. cbn [fst snd]. destruct (find_intercept_point m c x y). apply H. Qed.
Lemma distance_formula m c p d : distance_to_line m c p d -> d = Rabs (m * fst p + c - snd p) / sqrt (1 + m ^ 2).
Proof.
  intros H. rewrite (distance_unique _ _ _ _ _ H (line_distance_ok m c p)). unfold line_distance, find_intercept_point, distance. cbn [fst snd]. pose proof (sq_pos m) as S.
  replace (((fst p + m * snd p - m * c) / (1 + m ^ 2) - fst p) ^ 2 + ((m * fst p + m ^ 2 * snd p - m ^ 2 * c) / (1 + m ^ 2) + c - snd p) ^ 2)
    with ((m * fst p + c - snd p)² / (1 + m ^ 2)) by (unfold Rsqr; field; lra).
  rewrite sqrt_div_alt by assumption. now rewrite sqrt_Rsqr_abs.
Qed.

(** The line model goes through the second point; its distance to the first point is less than the machine epsilon *)
Theorem C39_line_model p0 p1 m c : find_line_model p0 p1 = Some (m, c) ->
  on_line m c p1 /\ forall d, distance_to_line m c p0 d -> d < epsilon.
Proof.
  unfold find_line_model. destruct Reqb eqn:E; [discriminate|]. apply Reqb_false in E.
  intros H. injection H as Hm Hc. split; [unfold on_line; subst; ring|].
  intros d Hd. apply distance_formula in Hd. subst d.
  assert (P : 0 < epsilon) by (unfold epsilon; apply Rinv_0_lt_compat; apply pow_lt; lra).
  assert (R : m * fst p0 + c - snd p0 = m * epsilon).
  { assert (Q : m * (fst p1 - fst p0 + epsilon) = snd p1 - snd p0) by (subst m; field; assumption). rewrite Hm in Hc. rewrite <- Hc. lra. }
  rewrite R, Rabs_mult, (Rabs_right epsilon) by lra. pose proof (sq_pos m) as S.
  assert (Rabs m < sqrt (1 + m ^ 2)).
  { rewrite <- sqrt_Rsqr_abs. apply sqrt_lt_1; unfold Rsqr; nra. }
  apply (Rmult_lt_reg_r (sqrt (1 + m ^ 2))); [now apply sqrt_lt_R0|].
  unfold Rdiv. rewrite Rmult_assoc, Rinv_l, Rmult_1_r; [|pose proof (sqrt_lt_R0 _ S); lra]. rewrite Rmult_comm. now apply Rmult_lt_compat_l.
Qed.

(** The inliers of a model: the points with a distance to the line that is smaller than the threshold *)
Definition near (threshold : R) (l : option (R * R)) (p : point) : Prop := exists m c d, l = Some (m, c) /\ distance_to_line m c p d /\ d < threshold.
Lemma inliers_spec l threshold test p : In p (model_inliers l threshold test) <-> In p test /\ near threshold l p.
Proof.
  unfold model_inliers. destruct l as [[m c]|].
  - rewrite filter_In. assert (T : (let '(x1, y1) := find_intercept_point m c (fst p) (snd p) in Rltb (sqrt ((x1 - fst p) ^ 2 + (y1 - snd p) ^ 2)) threshold) = true <-> near threshold (Some (m, c)) p).
    { pose proof (line_distance_ok m c p) as L. unfold line_distance in L. destruct (find_intercept_point m c (fst p) (snd p)) as [x1 y1]. rewrite Rltb_true. unfold distance in L. cbn [fst snd] in L. split.
      - intros H. exists m, c. eexists. split; [reflexivity|]. split; [apply L|exact H].
      - intros (m' & c' & d & E & D & H). injection E as <- <-. now rewrite (distance_unique _ _ _ _ _ L D). }
    rewrite T. tauto.
  - cbn. split; [tauto|]. intros [_ (m & c & d & E & _)]. discriminate.
Qed.

(** find_inliers selects by the distance along the y axis: the selected points are near to the line *)
Theorem C39_find_inliers points m c threshold x : In x (find_inliers points m c threshold) <-> exists y, In (x, y) points /\ Rabs (y - (m * x + c)) < threshold.
Proof.
  unfold find_inliers. rewrite in_map_iff. split.
  - intros ([x' y] & <- & H). apply filter_In in H as [H E]. apply Rltb_true in E. cbn [fst snd] in *. exists y. split; [assumption|]. now rewrite Rabs_minus_sym.
  - intros (y & H & E). exists (x, y). split; [reflexivity|]. apply filter_In. split; [assumption|]. apply Rltb_true. cbn [fst snd]. now rewrite Rabs_minus_sym.
Qed.
Theorem C39_find_inliers_near points m c threshold x : In x (find_inliers points m c threshold) -> exists y, In (x, y) points /\ near threshold (Some (m, c)) (x, y).
Proof.
  intros H. apply C39_find_inliers in H as (y & H & E). exists y. split; [assumption|]. exists m, c. eexists. split; [reflexivity|]. split; [apply line_distance_ok|].
  rewrite (distance_formula _ _ _ _ (line_distance_ok m c (x, y))). cbn [fst snd]. rewrite Rabs_minus_sym in E.
  assert (1 <= sqrt (1 + m ^ 2)) by (rewrite <- sqrt_1 at 1; apply sqrt_le_1_alt; pose proof (pow2_ge_0 m); lra).
  apply Rle_lt_trans with (2 := E). apply (Rmult_le_reg_r (sqrt (1 + m ^ 2))); [lra|]. unfold Rdiv. rewrite Rmult_assoc, Rinv_l, Rmult_1_r by lra.
  pose proof (Rabs_pos (m * x + c - y)). nra.
Qed.
(** ... but not all of the points within the threshold are selected *)
Theorem C39_find_inliers_refuted : exists points m c threshold p, In p points /\ near threshold (Some (m, c)) p /\ find_inliers points m c threshold = [].
Proof.
  exists [(0, 1)], 1, 0, 1, (0, 1). split; [now left|]. split.
  - exists 1, 0. eexists. split; [reflexivity|]. split; [apply line_distance_ok|]. rewrite (distance_formula _ _ _ _ (line_distance_ok 1 0 (0, 1))). cbn [fst snd].
    replace (1 * 0 + 0 - 1) with (Ropp 1) by ring. rewrite Rabs_Ropp, Rabs_R1. replace (1 + 1 ^ 2) with 2 by ring.
    pose proof Rlt_sqrt2_0 as P. assert (1 < sqrt 2) by (rewrite <- sqrt_1 at 1; apply sqrt_lt_1; lra).
    unfold Rdiv. rewrite Rmult_1_l, <- Rinv_1. apply Rinv_lt_contravar; lra.
  - unfold find_inliers. cbn [filter map fst snd]. replace (1 * 0 + 0 - 1) with (Ropp 1) by ring. rewrite Rabs_Ropp, Rabs_R1.
    assert (E : Rltb 1 1 = false) by (apply Rltb_false; lra). now rewrite E.
Qed.

(** ** RANSAC *)
(** The points near to the line through the first two points of a shuffle, and their share of the points *)
Definition candidate (threshold : R) (s : list point) : option (R * R) * list point :=
  match s with p0 :: p1 :: test => (find_line_model p0 p1, model_inliers (find_line_model p0 p1) threshold test) | _ => (None, []) end.
Definition share (threshold : R) (s : list point) : R := INR (length (snd (candidate threshold s))) / INR (length s).
(** The best of the models [tried] *)
Definition best_of (threshold : R) (tried : list (list point)) (b : model) : Prop :=
  (forall s, In s tried -> share threshold s <= model_ratio b) /\
  match model_list b with
  | None => model_ratio b = 0 /\ forall s, In s tried -> snd (candidate threshold s) = []
  | Some points => points <> [] /\ exists s, In s tried /\ candidate threshold s = (Some (model_m b, model_c b), points) /\ model_ratio b = share threshold s
  end.

Lemma share_nonneg t s : 0 <= share t s.
Proof.
  unfold share. pose proof (pos_INR (length (snd (candidate t s)))). destruct (length s) eqn:E.
  - destruct s; [|discriminate]. cbn. unfold Rdiv. rewrite Rmult_0_l. lra.
  - apply Rmult_le_pos; [assumption|]. left. apply Rinv_0_lt_compat. apply lt_0_INR. lia.
Qed.
Lemma loop_ok n threshold ratio shuffles : (2 <= n)%nat -> (forall s, In s shuffles -> length s = n) -> forall tried best, best_of threshold tried best -> (forall s, In s tried -> length s = n) ->
  exists best' used rest, shuffles = used ++ rest /\ ransac_loop n threshold ratio shuffles best = Some best' /\ best_of threshold (tried ++ used) best'
    /\ (rest <> [] -> exists s, In s used /\ ratio < share threshold s).
Proof.
  intros Hn. induction shuffles as [|s shuffles IH]; intros Hs tried best B Ht; cbn [ransac_loop].
  - exists best, [], []. split; [reflexivity|]. split; [reflexivity|]. split; [now rewrite app_nil_r|]. now intros H.
  - pose proof (Hs s (or_introl eq_refl)) as L. destruct s as [|p0 [|p1 test]]; cbn in L; [lia|lia|].
    set (s := p0 :: p1 :: test) in *. set (l := find_line_model p0 p1) in *. set (inl := model_inliers l threshold test) in *.
    assert (C : candidate threshold s = (l, inl)) by reflexivity.
    assert (Sh : INR (length inl) / INR n = share threshold s) by (unfold share; rewrite C; cbn [snd]; now rewrite (Hs s (or_introl eq_refl))).
    assert (N0 : 0 < INR n) by (apply lt_0_INR; lia).
    assert (Hl : l = None -> inl = []) by (intros E; unfold inl; now rewrite E).
    set (best1 := if Rltb (model_ratio best) (INR (length inl) / INR n) then match l with Some (m, c) => Model (INR (length inl) / INR n) m c (Some inl) | None => best end else best).
    assert (R0 : 0 <= model_ratio best).
    { destruct B as [_ B]. destruct (model_list best) as [pts|]; [destruct B as [_ (x & _ & _ & ->)]; apply share_nonneg|lra]. }
    assert (B1 : best_of threshold (tried ++ [s]) best1).
    { unfold best1. destruct (Rltb (model_ratio best) (INR (length inl) / INR n)) eqn:E.
      - apply Rltb_true in E. destruct l as [[m c]|] eqn:El.
        + split; [|cbn [model_list model_m model_c model_ratio]; split].
          * cbn [model_ratio]. intros x Hx. apply in_app_iff in Hx as [Hx|[<-|[]]]; [destruct B as [B _]; specialize (B x Hx); lra|lra].
          * intros Z. rewrite Z in E. cbn in E. unfold Rdiv in E. rewrite Rmult_0_l in E. lra.
          * exists s. split; [apply in_app_iff; right; now left|]. now split.
        + rewrite (Hl eq_refl) in E. cbn in E. unfold Rdiv in E. rewrite Rmult_0_l in E. lra.
      - apply Rltb_false in E. destruct B as [B1 B2]. split.
        + intros x Hx. apply in_app_iff in Hx as [Hx|[<-|[]]]; [now apply B1|now rewrite <- Sh].
        + destruct (model_list best) as [pts|].
          * destruct B2 as [B2 (x & Hx & B3)]. split; [assumption|]. exists x. split; [apply in_app_iff; now left|assumption].
          * destruct B2 as [B2 B3]. split; [assumption|]. intros x Hx. apply in_app_iff in Hx as [Hx|[<-|[]]]; [now apply B3|].
            rewrite C. cbn [snd]. rewrite B2 in E. destruct inl as [|a inl']; [reflexivity|]. exfalso.
            assert (0 < INR (length (a :: inl')) / INR n); [|lra]. apply Rdiv_lt_0_compat; [apply lt_0_INR; cbn; lia|assumption]. }
    cbn zeta. fold l. fold inl. fold best1. destruct (Rltb (INR n * ratio) (INR (length inl))) eqn:E.
    + apply Rltb_true in E. exists best1, [s], shuffles. split; [reflexivity|]. split; [reflexivity|]. split; [exact B1|]. intros _. exists s. split; [now left|].
      rewrite <- Sh. apply (Rmult_lt_reg_r (INR n)); [assumption|]. unfold Rdiv. rewrite Rmult_assoc, Rinv_l by lra. lra.
    + destruct (IH (fun x Hx => Hs x (or_intror Hx)) (tried ++ [s]) best1 B1) as (b & used & rest & E1 & E2 & E3 & E4).
      { intros x Hx. apply in_app_iff in Hx as [Hx|[<-|[]]]; [now apply Ht|now apply Hs; left]. }
      exists b, (s :: used), rest. split; [now rewrite E1|]. split; [assumption|]. split; [now rewrite <- app_assoc in E3|].
      intros Hr. destruct (E4 Hr) as (x & Hx & Hlt). exists x. split; [now right|assumption].
Qed.

(** C39: for each sequence of random numbers the result of find_ransac is a line through two of the points, the points returned are exactly those of the other points with a
    distance to this line smaller than the threshold, and the ratio is their share.  No tried line has a larger share,
    and all shuffles are tried unless the share of a line is larger than the ratio that is requested *)
Theorem C39_ransac data threshold ratio shuffles best points : (forall s, In s shuffles -> Permutation s data) ->
  find_ransac data threshold ratio shuffles = Found best points ->
  exists used rest p0 p1 test, shuffles = used ++ rest /\ In (p0 :: p1 :: test) used /\ Permutation (p0 :: p1 :: test) data
    /\ find_line_model p0 p1 = Some (model_m best, model_c best)
    /\ (forall p, In p points <-> In p test /\ near threshold (Some (model_m best, model_c best)) p)
    /\ points <> [] /\ model_ratio best = INR (length points) / INR (length data)
    /\ (forall s, In s used -> share threshold s <= model_ratio best)
    /\ (rest <> [] -> ratio < model_ratio best).
Proof.
  intros Hp H. unfold find_ransac in H. destruct (Nat.lt_ge_cases (length data) 2) as [Hn|Hn].
  - exfalso. destruct shuffles as [|s shuffles]; [discriminate|].
    pose proof (Permutation_length (Hp s (or_introl eq_refl))) as L. destruct s as [|a [|b s]]; try discriminate. cbn in L. lia.
  - destruct (loop_ok (length data) threshold ratio shuffles Hn) with (tried := @nil (list point)) (best := Model 0 0 0 None) as (b & used & rest & E1 & E2 & [E3 E5] & E4).
    + intros s Hs. apply Permutation_length. now apply Hp.
    + split; [intros s []|]. cbn. split; [reflexivity|intros s []].
    + intros s [].
    + cbn [app] in *. rewrite E2 in H. destruct (model_list b) as [pts|] eqn:El; [|discriminate]. injection H as -> ->. destruct E5 as [Ne (s & Hs & C & Hr)].
      assert (Ps : Permutation s data) by (apply Hp; rewrite E1; apply in_app_iff; now left).
      assert (Fi : length s = length data) by now apply Permutation_length.
      destruct s as [|p0 [|p1 test]]; try (cbn in Fi; lia). cbn [candidate] in C. injection C as C1 C2. 
      exists used, rest, p0, p1, test. split; [assumption|]. split; [assumption|]. split; [assumption|]. split; [assumption|]. split.
      { intros p. rewrite <- C2, inliers_spec, C1. reflexivity. }
      split; [assumption|]. split.
      { rewrite Hr. unfold share. rewrite Fi. cbn [candidate snd]. now rewrite C2. }
      split; [assumption|]. intros Hrest. destruct (E4 Hrest) as (x & Hx & Hlt). specialize (E3 x Hx). lra.
Qed.
(** If none of the lines has an inlier (among the points it is not made of) the function fails *)
Theorem C39_ransac_fails data threshold ratio shuffles : (2 <= length data)%nat -> (forall s, In s shuffles -> Permutation s data) ->
  (forall p0 p1 test p, In (p0 :: p1 :: test) shuffles -> In p test -> ~ near threshold (find_line_model p0 p1) p) ->
  find_ransac data threshold ratio shuffles = UnboundLocalError.
Proof.
  intros Hn Hp Hnot. unfold find_ransac.
  destruct (loop_ok (length data) threshold ratio shuffles Hn) with (tried := @nil (list point)) (best := Model 0 0 0 None) as (b & used & rest & E1 & E2 & [E3 E5] & E4).
  - intros s Hs. apply Permutation_length. now apply Hp.
  - split; [intros s []|]. cbn. split; [reflexivity|intros s []].
  - intros s [].
  - cbn [app] in *. rewrite E2. destruct (model_list b) as [pts|] eqn:El; [|reflexivity]. exfalso. destruct E5 as [Ne (s & Hs & C & _)].
    destruct s as [|p0 [|p1 test]]; [now injection C as _ C; apply Ne|now injection C as _ C; apply Ne|].
    cbn [candidate] in C. injection C as C1 C2. destruct pts as [|p pts]; [now apply Ne|].
    assert (I : In p (model_inliers (find_line_model p0 p1) threshold test)) by (rewrite C2; now left). apply inliers_spec in I as [I1 I2].
    apply (Hnot p0 p1 test p); auto. rewrite E1. apply in_app_iff. now left.
Qed.
(** Two points, which are on a straight line: the function always fails, and with one point as well *)
Theorem C39_two_points_refuted : forall p q threshold ratio shuffles, (forall s, In s shuffles -> Permutation s [p; q]) -> find_ransac [p; q] threshold ratio shuffles = UnboundLocalError.
Proof.
  intros p q threshold ratio shuffles H. apply C39_ransac_fails; [cbn; lia|assumption|].
  intros p0 p1 test x Hs Hx. apply H in Hs. apply Permutation_length in Hs. cbn in Hs. destruct test; [destruct Hx|cbn in Hs; lia].
Qed.
Theorem C39_one_point_refuted : forall p threshold ratio, find_ransac [p] threshold ratio [[p]] = IndexError.
Proof. reflexivity. Qed.
(** The two points of the line are not counted: the ratio is at most 1 - 2 / n, also if all of the points are on the line *)
Theorem C39_ratio_bound data threshold ratio shuffles best points : (forall s, In s shuffles -> Permutation s data) ->
  find_ransac data threshold ratio shuffles = Found best points -> model_ratio best <= 1 - 2 / INR (length data).
Proof.
  intros Hp H. destruct (C39_ransac _ _ _ _ _ _ Hp H) as (used & rest & p0 & p1 & test & E & Hin & P & Hl & Hpts & Ne & -> & _).
  apply Permutation_length in P. cbn [length] in P.
  assert (L : (length points <= length test)%nat).
  { unfold find_ransac in H. destruct (loop_ok (length data) threshold ratio shuffles) with (tried := @nil (list point)) (best := Model 0 0 0 None) as (b & used' & rest' & E1 & E2 & [E3 E5] & E4).
    - lia.
    - intros s Hs. apply Permutation_length. now apply Hp.
    - split; [intros s []|]. cbn. split; [reflexivity|intros s []].
    - intros s [].
    - rewrite E2 in H. destruct (model_list b) as [pts|] eqn:El; [|discriminate]. injection H as -> ->. destruct E5 as [_ (s & Hs & C & _)]. cbn [app] in Hs.
      assert (Ps : Permutation s data) by (apply Hp; rewrite E1; apply in_app_iff; now left). apply Permutation_length in Ps.
      destruct s as [|a [|b' t]]; [now injection C as _ C; congruence|now injection C as _ C; congruence|]. cbn [candidate] in C. injection C as _ <-. cbn [length] in Ps.
      assert ((length (model_inliers (find_line_model a b') threshold t) <= length t)%nat); [|lia].
      unfold model_inliers. destruct (find_line_model a b') as [[m c]|]; [|cbn; lia]. apply filter_le. }
  rewrite <- P. apply le_INR in L. rewrite !S_INR. pose proof (pos_INR (length test)).
  apply (Rmult_le_reg_r (INR (length test) + 1 + 1)); [lra|]. field_simplify; try lra.
Qed.

(** Three points on a horizontal line and an outlier; the order of the first shuffle finds the line *)
Example C39_example : exists best points, find_ransac [(0, 1); (1, 1); (2, 1); (5, 9)] 1 (1/5) [[(0, 1); (1, 1); (2, 1); (5, 9)]] = Found best points /\ points = [(2, 1)] /\ model_m best = 0 /\ model_ratio best = 1 / 4.
Proof.
  set (d := [(0, 1); (1, 1); (2, 1); (5, 9)]).
  assert (Eps : 0 < epsilon) by (unfold epsilon; apply Rinv_0_lt_compat; apply pow_lt; lra).
  assert (L : find_line_model (0, 1) (1, 1) = Some (0, 1)).
  { unfold find_line_model. cbn [fst snd]. assert (E : Reqb (1 - 0 + epsilon) 0 = false) by (apply Reqb_false; lra). rewrite E.
    replace ((1 - 1) / (1 - 0 + epsilon)) with 0 by (field; lra). f_equal. f_equal. ring. }
  assert (I : model_inliers (Some (0, 1)) 1 [(2, 1); (5, 9)] = [(2, 1)]).
  { unfold model_inliers. cbn [filter fst snd]. unfold find_intercept_point.
    match goal with |- context [sqrt ?e] => replace e with 0 by field end. rewrite sqrt_0. rewrite (proj2 (Rltb_true 0 1)) by lra. f_equal.
    match goal with |- context [sqrt ?e] => replace e with (8 * 8) by field end. rewrite sqrt_square by lra. now rewrite (proj2 (Rltb_false 8 1)) by lra. }
  unfold find_ransac. cbn [ransac_loop d length]. rewrite L, I. cbn [length model_ratio].
  assert (Q : INR 1 / INR 4 = 1 / 4) by (cbn; field). rewrite Q. rewrite (proj2 (Rltb_true 0 (1/4))) by lra.
  destruct Rltb; cbn [model_list]; eexists; eexists; repeat split; reflexivity.
Qed.

Print Assumptions C39_intercept.
Print Assumptions C39_line_model.
Print Assumptions C39_find_inliers.
Print Assumptions C39_find_inliers_near.
Print Assumptions C39_find_inliers_refuted.
Print Assumptions C39_ransac.
Print Assumptions C39_ransac_fails.
Print Assumptions C39_two_points_refuted.
Print Assumptions C39_one_point_refuted.
Print Assumptions C39_ratio_bound.
