(** C91: mirrored points and the assignment of tracks to pixels. *)
From Coq Require Import List Arith ZArith Reals Bool Lia Lra Psatz.
From Verif Require Import GeometryModel GeometryProofs VoronoiModel.
Import ListNotations.
Local Open Scope R_scope.

(** ** Specification *)
(** q is at least as close to p as to all points of the list *)
Definition cell (points : list point) (p q : point) : Prop := forall p', In p' points -> sq_dist q p <= sq_dist q p'.
Definition inside (e : extent) (q : point) : Prop := low (fst e) <= fst q <= high (fst e) /\ low (snd e) <= snd q <= high (snd e).
Definition strictly_inside (e : extent) (q : point) : Prop := low (fst e) < fst q < high (fst e) /\ low (snd e) < snd q < high (snd e).
(** the convex hull, as the intersection of the half-planes *)
Definition in_hull (vs : list point) (q : point) : Prop := forall a b c, (forall v, In v vs -> a * fst v + b * snd v <= c) -> a * fst q + b * snd q <= c.
(** what is assumed of the diagram: the indices are -1 or valid, and a region without -1 is spanned by its vertices *)
Definition is_voronoi (points vertices : list point) (regions : list (list Z)) : Prop :=
  length regions = length points /\
  forall p r, In (p, r) (combine points regions) -> (forall k, In k r -> k = (-1)%Z \/ (0 <= k < Z.of_nat (length vertices))%Z) /\
  (~ In (-1)%Z r -> forall q, cell points p q -> in_hull (map (fun k => nth (Z.to_nat k) vertices (0, 0)) r) q).
(** tolerance of np.isclose at a border *)
Definition tolerance (b : R) : R := 1 / 100000000 + 1 / 100000 * Rabs b.

Lemma low_high e : low e <= high e.
Proof. unfold low, high. pose proof (Rmin_l (fst e) (snd e)). pose proof (Rmax_l (fst e) (snd e)). lra. Qed.
(** The mirrored points are reflections at the borders, whatever the order of the two borders. *)
Theorem C91_reflection e x : mirror_low e x - low e = low e - x /\ mirror_high e x - high e = high e - x.
Proof. unfold mirror_low, mirror_high, center, ptp. split; lra. Qed.

Lemma mirrored_In e l m : In m (mirrored_points e l) -> exists p, In p l /\ (m = (fst p, mirror_high (snd e) (snd p)) \/ m = (fst p, mirror_low (snd e) (snd p)) \/ m = (mirror_low (fst e) (fst p), snd p) \/ m = (mirror_high (fst e) (fst p), snd p)).
Proof. unfold mirrored_points. rewrite !in_app_iff, !in_map_iff. intros [(p & <- & H)|[(p & <- & H)|[(p & <- & H)|(p & <- & H)]]]; exists p; auto. Qed.
Lemma mirrored_all e l p : In p l -> In (fst p, mirror_high (snd e) (snd p)) (mirrored_points e l) /\ In (fst p, mirror_low (snd e) (snd p)) (mirrored_points e l) /\
  In (mirror_low (fst e) (fst p), snd p) (mirrored_points e l) /\ In (mirror_high (fst e) (fst p), snd p) (mirrored_points e l).
Proof. intros H. unfold mirrored_points. rewrite !in_app_iff. repeat split; [left|right; left|right; right; left|right; right; right]; apply in_map_iff; exists p; auto. Qed.
Lemma selected_In e vs rs pts p : In p (selected_points e vs rs pts) -> In p pts.
Proof. unfold selected_points. rewrite in_map_iff. intros ([p' r] & <- & H). apply filter_In in H. destruct H as [H _]. apply in_combine_l in H. exact H. Qed.
(** an image is not closer than the point itself for all positions inside *)
Lemma image_farther e q p m : inside e q -> strictly_inside e p -> (m = (fst p, mirror_high (snd e) (snd p)) \/ m = (fst p, mirror_low (snd e) (snd p)) \/ m = (mirror_low (fst e) (fst p), snd p) \/ m = (mirror_high (fst e) (fst p), snd p)) ->
  sq_dist q p <= sq_dist q m /\ (strictly_inside e q -> sq_dist q p < sq_dist q m).
Proof.
  intros [[Q1 Q2] [Q3 Q4]] [[P1 P2] [P3 P4]] H. destruct (C91_reflection (fst e) (fst p)) as [X1 X2]. destruct (C91_reflection (snd e) (snd p)) as [Y1 Y2].
  destruct q as [qx qy], p as [px py]; cbn [fst snd] in *. unfold sq_dist, strictly_inside.
  destruct H as [->|[->|[->| ->]]]; cbn [fst snd].
  - replace (mirror_high (snd e) py) with (2 * high (snd e) - py) by lra. generalize dependent (high (snd e)). intros h; intros. split; [nra|intros [_ [_ S]]; nra].
  - replace (mirror_low (snd e) py) with (2 * low (snd e) - py) by lra. generalize dependent (low (snd e)). intros h; intros. split; [nra|intros [_ [S _]]; nra].
  - replace (mirror_low (fst e) px) with (2 * low (fst e) - px) by lra. generalize dependent (low (fst e)). intros h; intros. split; [nra|intros [[S _] _]; nra].
  - replace (mirror_high (fst e) px) with (2 * high (fst e) - px) by lra. generalize dependent (high (fst e)). intros h; intros. split; [nra|intros [[_ S] _]; nra].
Qed.

Section Cells.
  Variables (e : extent) (vertices points : list point) (regions : list (list Z)).
  Hypothesis Inside : forall p, In p points -> strictly_inside e p.
  Let ext := extended_points e vertices regions points.
  (** Inside of the extent the cells of the points are not changed by the mirrored points. *)
  Theorem C91_inside p q : inside e q -> (cell ext p q <-> cell points p q).
  Proof.
    intros Q. unfold ext, extended_points. split; intros H p' Hp; [apply H, in_or_app; auto|]. apply in_app_or in Hp. destruct Hp as [Hp|Hp]; [auto|].
    apply mirrored_In in Hp. destruct Hp as (p0 & H0 & E). apply selected_In in H0. destruct (image_farther e q p0 p' Q (Inside _ H0) E) as [L _]. specialize (H p0 H0). lra.
  Qed.
  (** No position strictly inside is assigned to a mirrored point. *)
  Theorem C91_no_image q m : strictly_inside e q -> In m (mirrored_points e (selected_points e vertices regions points)) -> ~ cell ext m q.
  Proof.
    intros Q Hm C. apply mirrored_In in Hm. destruct Hm as (p0 & H0 & E). apply selected_In in H0. assert (Q' : inside e q) by (unfold inside, strictly_inside in *; lra).
    destruct (image_farther e q p0 m Q' (Inside _ H0) E) as [_ L]. specialize (L Q). specialize (C p0 (in_or_app _ _ _ (or_introl H0))). lra.
  Qed.
  (** The cell of a mirrored point's original ends at the border. *)
  Theorem C91_selected p q : In p (selected_points e vertices regions points) -> cell ext p q -> inside e q.
  Proof.
    intros Hp C. pose proof (Inside p (selected_In _ _ _ _ _ Hp)) as [[P1 P2] [P3 P4]]. destruct (mirrored_all e _ _ Hp) as (M1 & M2 & M3 & M4).
    apply (fun H => C _ (in_or_app points _ _ (or_intror H))) in M1, M2, M3, M4. destruct (C91_reflection (fst e) (fst p)) as [X1 X2]. destruct (C91_reflection (snd e) (snd p)) as [Y1 Y2].
    destruct q as [qx qy], p as [px py]; unfold inside, sq_dist in *; cbn [fst snd] in *.
    replace (mirror_high (snd e) py) with (2 * high (snd e) - py) in M1 by lra. replace (mirror_low (snd e) py) with (2 * low (snd e) - py) in M2 by lra.
    replace (mirror_low (fst e) px) with (2 * low (fst e) - px) in M3 by lra. replace (mirror_high (fst e) px) with (2 * high (fst e) - px) in M4 by lra.
    clear X1 X2 Y1 Y2. generalize dependent (low (fst e)). generalize dependent (high (fst e)). generalize dependent (low (snd e)). generalize dependent (high (snd e)). intros. clear C.
    repeat split; nra.
  Qed.
  Lemma vertex_inside_bounds v : vertex_outside e v = false -> low (fst e) - tolerance (low (fst e)) <= fst v <= high (fst e) + tolerance (high (fst e)) /\ low (snd e) - tolerance (low (snd e)) <= snd v <= high (snd e) + tolerance (high (snd e)).
  Proof.
    unfold vertex_outside. rewrite !orb_false_iff, !andb_false_iff, !negb_false_iff. unfold isclose. rewrite !Rleb_false, !Rleb_true. fold (tolerance (high (fst e))) (tolerance (low (fst e))) (tolerance (low (snd e))) (tolerance (high (snd e))).
    assert (T : forall b, 0 < tolerance b) by (intros b; unfold tolerance; pose proof (Rabs_pos b); lra).
    pose proof (T (high (fst e))). pose proof (T (low (fst e))). pose proof (T (high (snd e))). pose proof (T (low (snd e))).
    assert (A : forall a b t, 0 < t -> Rabs (a - b) <= t -> b - t <= a <= b + t) by (intros a b t _ H'; destruct (Rle_or_lt 0 (a - b)); [rewrite Rabs_pos_eq in H'|rewrite Rabs_left in H']; lra).
    pose proof (low_high (fst e)). pose proof (low_high (snd e)).
    intros [[[[A1|A1] [A2|A2]] [A3|A3]] [A4|A4]]; repeat match goal with H : Rabs _ <= _ |- _ => apply A in H; [|auto; fail] end; lra.
  Qed.
  (** Every cell ends at the border, up to the tolerance used for the selection of the points to mirror. *)
  Theorem C91_bounded p q : is_voronoi points vertices regions -> In p points -> cell ext p q ->
    low (fst e) - tolerance (low (fst e)) <= fst q <= high (fst e) + tolerance (high (fst e)) /\ low (snd e) - tolerance (low (snd e)) <= snd q <= high (snd e) + tolerance (high (snd e)).
  Proof.
    intros [L V] Hp C. assert (T : forall b, 0 < tolerance b) by (intros b; unfold tolerance; pose proof (Rabs_pos b); lra).
    pose proof (T (high (fst e))). pose proof (T (low (fst e))). pose proof (T (high (snd e))). pose proof (T (low (snd e))).
    assert (exists r, In (p, r) (combine points regions)) as (r & Hr).
    { clear -Hp L. revert regions L. induction points as [|a l IH]; intros [|r rs] L; cbn [length combine] in *; try discriminate; [destruct Hp|]. destruct Hp as [->|Hp]; [exists r; left; auto|]. destruct (IH Hp rs ltac:(lia)) as (r' & H). exists r'. right. auto. }
    destruct (region_outside e vertices r) eqn:O.
    - assert (S : In p (selected_points e vertices regions points)) by (unfold selected_points; apply in_map_iff; exists (p, r); split; auto; apply filter_In; auto). destruct (C91_selected p q S C). lra.
    - destruct (V p r Hr) as [Vk Vh]. unfold region_outside in O. apply orb_false_iff in O. destruct O as [O1 O2].
      assert (N1 : ~ In (-1)%Z r). { intros I. assert (existsb (fun k => (k =? -1)%Z) r = true) by (apply existsb_exists; exists (-1)%Z; auto). congruence. }
      assert (Cp : cell points p q) by (intros p' H'; apply C, in_or_app; auto). specialize (Vh N1 q Cp).
      assert (B : forall v, In v (map (fun k => nth (Z.to_nat k) vertices (0, 0)) r) -> vertex_outside e v = false).
      { intros v Hv. apply in_map_iff in Hv. destruct Hv as (k & <- & Hk). destruct (Vk k Hk) as [->|Bk]; [contradiction|]. destruct (vertex_outside e (nth (Z.to_nat k) vertices (0, 0))) eqn:Ov; [|reflexivity].
        exfalso. match type of O2 with existsb ?f r = false => assert (E : existsb f r = true) end; [|congruence]. apply existsb_exists. exists k. split; [exact Hk|]. destruct (Z.ltb_spec k 0); [lia|]. rewrite (nth_error_nth' vertices (0, 0)) by lia. exact Ov. }
      repeat split.
      + pose proof (Vh (Ropp 1) 0 (- (low (fst e) - tolerance (low (fst e))))) as K. enough (-1 * fst q + 0 * snd q <= - (low (fst e) - tolerance (low (fst e)))) by lra. apply K. intros v Hv. pose proof (vertex_inside_bounds v (B v Hv)). lra.
      + pose proof (Vh 1 0 (high (fst e) + tolerance (high (fst e)))) as K. enough (1 * fst q + 0 * snd q <= high (fst e) + tolerance (high (fst e))) by lra. apply K. intros v Hv. pose proof (vertex_inside_bounds v (B v Hv)). lra.
      + pose proof (Vh 0 (Ropp 1) (- (low (snd e) - tolerance (low (snd e))))) as K. enough (0 * fst q + -1 * snd q <= - (low (snd e) - tolerance (low (snd e)))) by lra. apply K. intros v Hv. pose proof (vertex_inside_bounds v (B v Hv)). lra.
      + pose proof (Vh 0 1 (high (snd e) + tolerance (high (snd e)))) as K. enough (0 * fst q + 1 * snd q <= high (snd e) + tolerance (high (snd e))) by lra. apply K. intros v Hv. pose proof (vertex_inside_bounds v (B v Hv)). lra.
  Qed.
End Cells.

(** ** pixels of a sensor *)
(** Specification: the area of pixel (c, r), counted from 0, with its border and without; the sensor is centred at the origin *)
Definition in_pixel (column_size row_size : R) (n_columns n_rows c r : nat) (q : point) : Prop :=
  column_size * (INR c - INR n_columns / 2) <= fst q <= column_size * (INR c + 1 - INR n_columns / 2) /\ row_size * (INR r - INR n_rows / 2) <= snd q <= row_size * (INR r + 1 - INR n_rows / 2).
Definition strictly_in_pixel (column_size row_size : R) (n_columns n_rows c r : nat) (q : point) : Prop :=
  column_size * (INR c - INR n_columns / 2) < fst q < column_size * (INR c + 1 - INR n_columns / 2) /\ row_size * (INR r - INR n_rows / 2) < snd q < row_size * (INR r + 1 - INR n_rows / 2).
(** a search for the closest point, whatever it returns if there are several *)
Definition is_closest (points : list point) (closest : point -> nat) : Prop := forall q, (closest q < length points)%nat /\ cell points (nth (closest q) points (0, 0)) q.

Lemma flat_map_blocks {A} (f : nat -> nat -> A) m n d : forall s c r, (c < n)%nat -> (r < m)%nat -> nth (c * m + r) (flat_map (fun c => map (f c) (seq 0 m)) (seq s n)) d = f (s + c)%nat r.
Proof.
  induction n as [|n IH]; intros s c r Hc Hr; [lia|]. cbn [seq flat_map]. destruct c as [|c].
  - rewrite app_nth1 by (rewrite map_length, seq_length; lia). rewrite (nth_indep _ d (f s 0%nat)) by (rewrite map_length, seq_length; lia). rewrite map_nth, seq_nth by lia. f_equal; lia.
  - rewrite app_nth2 by (rewrite map_length, seq_length; nia). rewrite map_length, seq_length. replace (S c * m + r - m)%nat with (c * m + r)%nat by nia. rewrite IH by lia. f_equal. lia.
Qed.
Lemma flat_map_blocks_length {A} (f : nat -> nat -> A) m n : forall s, length (flat_map (fun c => map (f c) (seq 0 m)) (seq s n)) = (n * m)%nat.
Proof. induction n as [|n IH]; intros s; [reflexivity|]. cbn [seq flat_map]. rewrite app_length, map_length, seq_length, IH. lia. Qed.

Section Pixels.
  Variables (sx sy : R) (nx ny : nat) (vertices : list point) (regions : list (list Z)) (closest : point -> nat).
  Hypotheses (Sx : 0 < sx) (Sy : 0 < sy) (Nx : (1 <= nx)%nat) (Ny : (1 <= ny)%nat).
  Let e := dut_extent sx sy nx ny.
  Let points := pixel_centers sx sy nx ny.
  Let ext := extended_points e vertices regions points.
  Hypothesis V : is_voronoi points vertices regions.
  Hypothesis C : is_closest ext closest.
  Let center c r : point := (sx * (INR c + 1 / 2 - INR nx / 2), sy * (INR r + 1 / 2 - INR ny / 2)).
  Lemma centers_nth c r : (c < nx)%nat -> (r < ny)%nat -> nth (c * ny + r) points (0, 0) = center c r.
  Proof. intros Hc Hr. unfold points, pixel_centers. rewrite (flat_map_blocks (fun c r => (pixel_position sx nx (INR c + 1), pixel_position sy ny (INR r + 1)))) by assumption. cbn [Nat.add]. unfold center, pixel_position. f_equal; field. Qed.
  Lemma centers_length : length points = (nx * ny)%nat.
  Proof. unfold points, pixel_centers. apply (flat_map_blocks_length (fun c r => (pixel_position sx nx (INR c + 1), pixel_position sy ny (INR r + 1)))). Qed.
  Lemma center_In c r : (c < nx)%nat -> (r < ny)%nat -> In (center c r) points.
  Proof. intros Hc Hr. rewrite <- centers_nth by assumption. apply nth_In. rewrite centers_length. nia. Qed.
  Lemma In_center p : In p points -> exists c r, (c < nx)%nat /\ (r < ny)%nat /\ p = center c r.
  Proof.
    intros H. apply (In_nth _ _ (0, 0)) in H. destruct H as (i & Hi & <-). assert (Hi' : (i < nx * ny)%nat) by (rewrite <- centers_length; exact Hi). clear Hi. rename Hi' into Hi. exists (i / ny)%nat, (i mod ny)%nat.
    assert (i / ny < nx)%nat by (apply Nat.div_lt_upper_bound; nia). assert (i mod ny < ny)%nat by (apply Nat.mod_upper_bound; lia). split; [auto|]. split; [auto|]. rewrite <- centers_nth by assumption. replace (i / ny * ny + i mod ny)%nat with i; [reflexivity|]. rewrite Nat.mul_comm. apply Nat.div_mod. lia.
  Qed.
  Lemma extent_values : low (fst e) = sx * (- INR nx / 2) /\ high (fst e) = sx * (INR nx / 2) /\ low (snd e) = sy * (- INR ny / 2) /\ high (snd e) = sy * (INR ny / 2).
  Proof.
    unfold e, dut_extent, low, high, pixel_position. cbn [fst snd]. assert (1 <= INR nx) by (apply (le_INR 1); exact Nx). assert (1 <= INR ny) by (apply (le_INR 1); exact Ny).
    rewrite !Rmin_left, !Rmax_right by nra. repeat split; field.
  Qed.
  Lemma index_range n c : (c < n)%nat -> 0 <= INR c <= INR n - 1.
  Proof. intros H. split; [apply pos_INR|]. assert (H1 : (S c <= n)%nat) by lia. apply le_INR in H1. rewrite S_INR in H1. lra. Qed.
  Lemma centers_inside p : In p points -> strictly_inside e p.
  Proof.
    intros H. apply In_center in H. destruct H as (c & r & Hc & Hr & ->). unfold strictly_inside. destruct extent_values as (-> & -> & -> & ->). apply index_range in Hc, Hr. unfold center. cbn [fst snd]. repeat split; apply Rmult_lt_compat_l; lra.
  Qed.
  Lemma finite_bound (f : point -> R) vs : exists b, forall v, In v vs -> f v <= b.
  Proof. induction vs as [|v vs [b IH]]; [exists 0; intros v []|]. exists (Rmax (f v) b). intros w [<-|H]; [apply Rmax_l|]. specialize (IH w H). pose proof (Rmax_r (f v) b). lra. Qed.
  (** a cell which is not bounded in some direction is mirrored *)
  Lemma unbounded_selected p a b : In p points -> (0 < a * a + b * b) -> (forall t, 0 <= t -> cell points p (fst p + t * a, snd p + t * b)) -> In p (selected_points e vertices regions points).
  Proof.
    intros Hp Hab U. destruct V as [L W]. assert (exists r, In (p, r) (combine points regions)) as (r & Hr).
    { clear -Hp L. revert regions L. induction points as [|q l IH]; intros [|r rs] L; cbn [length combine] in *; try discriminate; [destruct Hp|]. destruct Hp as [->|Hp]; [exists r; left; auto|]. destruct (IH Hp rs ltac:(lia)) as (r' & H). exists r'. right. auto. }
    unfold selected_points. apply in_map_iff. exists (p, r). split; [reflexivity|]. apply filter_In. split; [exact Hr|]. cbn [snd]. unfold region_outside. apply orb_true_iff. left. apply existsb_exists. exists (-1)%Z. split; [|reflexivity].
    destruct (In_dec Z.eq_dec (-1)%Z r) as [I|N]; [exact I|]. exfalso. destruct (W p r Hr) as [_ H]. specialize (H N).
    destruct (finite_bound (fun v => a * fst v + b * snd v) (map (fun k => nth (Z.to_nat k) vertices (0, 0)) r)) as [m Hm].
    set (m' := Rmax m (a * fst p + b * snd p)). set (t := (m' - (a * fst p + b * snd p) + 1) / (a * a + b * b)).
    assert (M1 : m <= m') by apply Rmax_l. assert (M2 : a * fst p + b * snd p <= m') by apply Rmax_r. assert (T : 0 <= t) by (apply Rlt_le, Rdiv_lt_0_compat; lra).
    specialize (H _ (U t T) a b m Hm). cbn [fst snd] in H. assert (E : t * (a * a + b * b) = m' - (a * fst p + b * snd p) + 1) by (unfold t; field; lra). nra.
  Qed.
  (** positions on a half-line away from the other points are closest to its origin *)
  Lemma half_line x y a b x' y' t : 0 <= t -> 0 <= (a * (x - x') + b * (y - y')) -> (x + t * a - x) * (x + t * a - x) + (y + t * b - y) * (y + t * b - y) <= (x + t * a - x') * (x + t * a - x') + (y + t * b - y') * (y + t * b - y').
  Proof.
    intros T H. assert (0 <= t * (a * (x - x') + b * (y - y'))) by (apply Rmult_le_pos; assumption). assert (E : (x + t * a - x') * (x + t * a - x') + (y + t * b - y') * (y + t * b - y') = (t * a) * (t * a) + (t * b) * (t * b) + 2 * (t * (a * (x - x') + b * (y - y'))) + ((x - x') * (x - x') + (y - y') * (y - y'))) by ring.
    rewrite E. pose proof (Rle_0_sqr (x - x')) as A. pose proof (Rle_0_sqr (y - y')) as B. unfold Rsqr in A, B. lra.
  Qed.
  Lemma closest_in_pixel c r q : (c < nx)%nat -> (r < ny)%nat -> cell ext (center c r) q -> in_pixel sx sy nx ny c r q.
  Proof.
    intros Hc Hr Cl. pose proof (center_In c r Hc Hr) as Ip. pose proof (index_range _ _ Hc) as Bc. pose proof (index_range _ _ Hr) as Br.
    assert (Nb : forall p', In p' points -> sq_dist q (center c r) <= sq_dist q p') by (intros p' H'; apply Cl, in_or_app; auto).
    assert (Sel : In (center c r) (selected_points e vertices regions points) -> inside e q) by (intros S; eapply C91_selected; [apply centers_inside|exact S|exact Cl]).
    unfold inside in Sel. destruct extent_values as (E1 & E2 & E3 & E4). rewrite E1, E2, E3, E4 in Sel. clear E1 E2 E3 E4.
    unfold in_pixel. destruct q as [qx qy]. cbn [fst snd] in *. unfold sq_dist in Nb. cbn [fst snd] in Nb. repeat split.
    - destruct (Nat.eq_dec c 0) as [->|N0].
      + assert (S : In (center 0 r) (selected_points e vertices regions points)).
        { apply (unbounded_selected _ (Ropp 1) 0 Ip ltac:(lra)). intros t Ht p' Hp'. apply In_center in Hp'. destruct Hp' as (c' & r' & Hc' & Hr' & ->). apply index_range in Hc'. unfold sq_dist, center. cbn [fst snd INR].
          apply half_line; [exact Ht|]. assert (0 <= sx * INR c') by (apply Rmult_le_pos; lra). lra. }
        cbn [INR]. specialize (Sel S). lra.
      + specialize (Nb _ (center_In (c - 1) r ltac:(lia) Hr)). unfold center in Nb. cbn [fst snd] in Nb. rewrite minus_INR in Nb by lia. cbn [INR] in Nb. set (X := sx * (INR c - INR nx / 2)). replace (sx * (INR c + 1 / 2 - INR nx / 2)) with (X + sx / 2) in Nb by (unfold X; field).
        replace (sx * (INR c - 1 + 1 / 2 - INR nx / 2)) with (X - sx / 2) in Nb by (unfold X; field). clearbody X. nra.
    - destruct (Nat.eq_dec c (nx - 1)) as [Ec|N0].
      + assert (En : INR c + 1 = INR nx) by (rewrite Ec, minus_INR by lia; simpl; lra). assert (S : In (center c r) (selected_points e vertices regions points)).
        { apply (unbounded_selected _ 1 0 Ip ltac:(lra)). intros t Ht p' Hp'. apply In_center in Hp'. destruct Hp' as (c' & r' & Hc' & Hr' & ->). apply index_range in Hc'. unfold sq_dist, center. cbn [fst snd].
          apply half_line; [exact Ht|]. assert (0 <= sx * (INR c - INR c')) by (apply Rmult_le_pos; lra). lra. }
        specialize (Sel S). rewrite En. lra.
      + specialize (Nb _ (center_In (c + 1) r ltac:(lia) Hr)). unfold center in Nb. cbn [fst snd] in Nb. rewrite plus_INR in Nb. cbn [INR] in Nb. set (X := sx * (INR c + 1 - INR nx / 2)). replace (sx * (INR c + 1 / 2 - INR nx / 2)) with (X - sx / 2) in Nb by (unfold X; field).
        replace (sx * (INR c + 1 + 1 / 2 - INR nx / 2)) with (X + sx / 2) in Nb by (unfold X; field). clearbody X. nra.
    - destruct (Nat.eq_dec r 0) as [->|N0].
      + assert (S : In (center c 0) (selected_points e vertices regions points)).
        { apply (unbounded_selected _ 0 (Ropp 1) Ip ltac:(lra)). intros t Ht p' Hp'. apply In_center in Hp'. destruct Hp' as (c' & r' & Hc' & Hr' & ->). apply index_range in Hr'. unfold sq_dist, center. cbn [fst snd INR].
          apply half_line; [exact Ht|]. assert (0 <= sy * INR r') by (apply Rmult_le_pos; lra). lra. }
        cbn [INR]. specialize (Sel S). lra.
      + specialize (Nb _ (center_In c (r - 1) Hc ltac:(lia))). unfold center in Nb. cbn [fst snd] in Nb. rewrite minus_INR in Nb by lia. cbn [INR] in Nb. set (X := sy * (INR r - INR ny / 2)). replace (sy * (INR r + 1 / 2 - INR ny / 2)) with (X + sy / 2) in Nb by (unfold X; field).
        replace (sy * (INR r - 1 + 1 / 2 - INR ny / 2)) with (X - sy / 2) in Nb by (unfold X; field). clearbody X. nra.
    - destruct (Nat.eq_dec r (ny - 1)) as [Er|N0].
      + assert (En : INR r + 1 = INR ny) by (rewrite Er, minus_INR by lia; simpl; lra). assert (S : In (center c r) (selected_points e vertices regions points)).
        { apply (unbounded_selected _ 0 1 Ip ltac:(lra)). intros t Ht p' Hp'. apply In_center in Hp'. destruct Hp' as (c' & r' & Hc' & Hr' & ->). apply index_range in Hr'. unfold sq_dist, center. cbn [fst snd].
          apply half_line; [exact Ht|]. assert (0 <= sy * (INR r - INR r')) by (apply Rmult_le_pos; lra). lra. }
        specialize (Sel S). rewrite En. lra.
      + specialize (Nb _ (center_In c (r + 1) Hc ltac:(lia))). unfold center in Nb. cbn [fst snd] in Nb. rewrite plus_INR in Nb. cbn [INR] in Nb. set (X := sy * (INR r + 1 - INR ny / 2)). replace (sy * (INR r + 1 / 2 - INR ny / 2)) with (X - sy / 2) in Nb by (unfold X; field).
        replace (sy * (INR r + 1 + 1 / 2 - INR ny / 2)) with (X + sy / 2) in Nb by (unfold X; field). clearbody X. nra.
  Qed.
  (** A track assigned to pixel (c, r) has its intersection in the area of this pixel; so tracks outside of the sensor are assigned to no pixel. *)
  Theorem C91_assigned c r q : (c < nx)%nat -> (r < ny)%nat -> closest q = (c * ny + r)%nat -> in_pixel sx sy nx ny c r q.
  Proof.
    intros Hc Hr E. apply closest_in_pixel; auto. destruct (C q) as [_ H]. rewrite E in H. unfold ext, extended_points in H. rewrite app_nth1 in H by (rewrite centers_length; nia). rewrite centers_nth in H by assumption. exact H.
  Qed.
  (** And all intersections in the area, off the border, are assigned to this pixel. *)
  Theorem C91_all_assigned c r q : (c < nx)%nat -> (r < ny)%nat -> strictly_in_pixel sx sy nx ny c r q -> closest q = (c * ny + r)%nat.
  Proof.
    intros Hc Hr [[Q1 Q2] [Q3 Q4]]. destruct (C q) as [Lq Cq]. destruct (lt_dec (closest q) (nx * ny)) as [Lt|Ge].
    - set (c' := (closest q / ny)%nat). set (r' := (closest q mod ny)%nat). assert (Hc' : (c' < nx)%nat) by (apply Nat.div_lt_upper_bound; nia). assert (Hr' : (r' < ny)%nat) by (apply Nat.mod_upper_bound; lia).
      assert (E : closest q = (c' * ny + r')%nat) by (unfold c', r'; rewrite Nat.mul_comm; apply Nat.div_mod; lia). destruct (C91_assigned c' r' q Hc' Hr' E) as [[A1 A2] [A3 A4]].
      assert (Y : forall s a b, 0 < s -> s * a < s * b -> a < b) by (intros s a b Hs H; apply Rmult_lt_reg_l with s; assumption).
      assert (c = c'). { assert (K1 : sx * (INR c - INR nx / 2) < sx * (INR c' + 1 - INR nx / 2)) by lra. assert (K2 : sx * (INR c' - INR nx / 2) < sx * (INR c + 1 - INR nx / 2)) by lra. apply Y in K1, K2; auto.
        assert (INR c < INR (S c')) by (rewrite S_INR; lra). assert (INR c' < INR (S c)) by (rewrite S_INR; lra). apply INR_lt in H, H0. lia. }
      assert (r = r'). { assert (K1 : sy * (INR r - INR ny / 2) < sy * (INR r' + 1 - INR ny / 2)) by lra. assert (K2 : sy * (INR r' - INR ny / 2) < sy * (INR r + 1 - INR ny / 2)) by lra. apply Y in K1, K2; auto.
        assert (INR r < INR (S r')) by (rewrite S_INR; lra). assert (INR r' < INR (S r)) by (rewrite S_INR; lra). apply INR_lt in H0, H1. lia. }
      congruence.
    - exfalso. unfold ext, extended_points in Cq. rewrite app_nth2 in Cq by (rewrite centers_length; lia). revert Cq. apply (C91_no_image e vertices points regions centers_inside).
      + destruct extent_values as (E1 & E2 & E3 & E4). unfold strictly_inside. rewrite E1, E2, E3, E4. apply index_range in Hc, Hr. repeat split; nra.
      + apply nth_In. unfold ext, extended_points in Lq. rewrite app_length in Lq. rewrite centers_length in *. lia.
  Qed.
  (** The entry of the histogram of pixel (c, r) is between the number of intersections in its area without the border and with the border. *)
  Theorem C91_counts c r qs in_open in_closed : (c < nx)%nat -> (r < ny)%nat -> (forall q, in_open q = true <-> strictly_in_pixel sx sy nx ny c r q) -> (forall q, in_closed q = true <-> in_pixel sx sy nx ny c r q) ->
    let h := nth (c * ny + r) (pixel_hist closest (nx * ny) qs) 0%nat in (length (filter in_open qs) <= h <= length (filter in_closed qs))%nat.
  Proof.
    intros Hc Hr Ho Hcl. cbv zeta. unfold pixel_hist. rewrite (nth_indep _ 0%nat (length (filter (fun q => closest q =? 0)%nat qs))) by (rewrite map_length, seq_length; nia).
    rewrite (map_nth (fun i => length (filter (fun q => closest q =? i)%nat qs))). rewrite seq_nth by nia. cbn [Nat.add].
    induction qs as [|q qs IH]; [cbn; lia|]. cbn [filter]. destruct (Nat.eqb_spec (closest q) (c * ny + r)) as [E|E].
    - apply C91_assigned in E; auto. apply Hcl in E. rewrite E. destruct (in_open q); cbn [length]; lia.
    - destruct (in_open q) eqn:O; [apply Ho, C91_all_assigned in O; auto; contradiction|]. destruct (in_closed q); cbn [length]; lia.
  Qed.
  (** With a mask of the disabled pixels only tracks in enabled pixels are selected, and all of them (off the borders). *)
  Theorem C91_mask mask q : length mask = nx -> (forall col, In col mask -> length col = ny) ->
    (select_enabled closest mask ny q = true -> exists c r, (c < nx)%nat /\ (r < ny)%nat /\ nth r (nth c mask []) true = false /\ in_pixel sx sy nx ny c r q) /\
    (forall c r, (c < nx)%nat -> (r < ny)%nat -> strictly_in_pixel sx sy nx ny c r q -> select_enabled closest mask ny q = negb (nth r (nth c mask []) true)).
  Proof.
    intros Lm Lr. assert (E : forall i, In i (enabled_indices mask ny) <-> exists c r, (c < nx)%nat /\ (r < ny)%nat /\ nth r (nth c mask []) true = false /\ i = (c * ny + r)%nat).
    { assert (G : forall A (d : A) (l : list A) s k a, In (k, a) (combine (seq s (length l)) l) <-> (s <= k)%nat /\ nth_error l (k - s) = Some a).
      { clear. intros A d l. induction l as [|b l IH]; intros s k a; cbn [length seq combine In]; [split; [intros []|intros [_ H]; destruct (k - s)%nat; discriminate]|]. rewrite IH. split.
        - intros [H|[H1 H2]]; [injection H as <- <-; split; [lia|]; rewrite Nat.sub_diag; reflexivity|]. split; [lia|]. replace (k - s)%nat with (S (k - S s)) by lia. exact H2.
        - intros [H1 H2]. destruct (Nat.eq_dec k s) as [->|]; [rewrite Nat.sub_diag in H2; injection H2 as ->; auto|]. right. split; [lia|]. replace (k - s)%nat with (S (k - S s)) in H2 by lia. exact H2. }
      intros i. unfold enabled_indices. rewrite in_flat_map. split.
      - intros ([c col] & H1 & H2). apply (G _ []) in H1. destruct H1 as [_ H1]. rewrite Nat.sub_0_r in H1. cbn [fst snd] in H2. apply in_flat_map in H2. destruct H2 as ([r b] & H2 & H3). apply (G _ true) in H2. destruct H2 as [_ H2]. rewrite Nat.sub_0_r in H2. cbn [fst snd] in H3.
        assert (Lc : length col = ny) by (apply Lr; eapply nth_error_In; exact H1). assert (c < nx)%nat by (rewrite <- Lm; apply nth_error_Some; congruence). assert (r < ny)%nat by (rewrite <- Lc; apply nth_error_Some; congruence).
        destruct b; [destruct H3|]. destruct H3 as [<-|[]]. exists c, r. split; [auto|]. split; [auto|]. rewrite (nth_error_nth _ _ [] H1), (nth_error_nth _ _ true H2). split; [reflexivity|lia].
      - intros (c & r & Hc & Hr & B & ->). exists (c, nth c mask []). split; [apply (G _ []); split; [lia|]; rewrite Nat.sub_0_r; apply nth_error_nth'; lia|]. cbn [fst snd]. assert (Lc : length (nth c mask []) = ny) by (apply Lr, nth_In; lia).
        apply in_flat_map. exists (r, false). split; [apply (G _ true); split; [lia|]; rewrite Nat.sub_0_r, <- B; apply nth_error_nth'; lia|]. left. cbn [fst]. lia. }
    split.
    - intros H. unfold select_enabled in H. apply existsb_exists in H. destruct H as (i & Hi & Ei). apply Nat.eqb_eq in Ei. apply E in Hi. destruct Hi as (c & r & Hc & Hr & B & ->). exists c, r. split; [auto|]. split; [auto|]. split; [auto|]. apply C91_assigned; auto.
    - intros c r Hc Hr Q. apply C91_all_assigned in Q; auto. destruct (select_enabled closest mask ny q) eqn:S.
      + unfold select_enabled in S. apply existsb_exists in S. destruct S as (i & Hi & Ei). apply Nat.eqb_eq in Ei. apply E in Hi. destruct Hi as (c' & r' & Hc' & Hr' & B & ->). assert (r = r' /\ c = c') as [-> ->]; [|rewrite B; reflexivity].
        assert (c * ny + r = c' * ny + r')%nat by lia. assert (c = c') by nia. subst. split; lia.
      + destruct (nth r (nth c mask []) true) eqn:B; [reflexivity|]. exfalso. assert (I : In (c * ny + r)%nat (enabled_indices mask ny)) by (apply E; eauto 6). unfold select_enabled in S.
        match type of S with existsb ?f ?l = false => assert (T : existsb f l = true) end; [|congruence]. apply existsb_exists. eexists. split; [exact I|]. apply Nat.eqb_eq. exact Q.
  Qed.
End Pixels.
(** A point on the border is its own image: its cell is not cut off there. *)
Theorem C91_border_refuted : exists e vertices regions points p q, is_voronoi points vertices regions /\ (forall p, In p points -> inside e p) /\ In p (selected_points e vertices regions points) /\
  cell (extended_points e vertices regions points) p q /\ ~ inside e q.
Proof.
  exists ((0, 4), (0, 4)), [], [[(-1)%Z]], [(0, 2)], (0, 2), (Ropp 1, 2). split; [|split; [|split; [|split]]].
  - split; [reflexivity|]. intros p r [H|[]]. injection H as <- <-. split; [intros k [<-|[]]; left; reflexivity|]. intros N. exfalso. apply N. left. reflexivity.
  - intros p [<-|[]]. unfold inside, low, high. cbn [fst snd]. rewrite !Rmin_left, !Rmax_right by lra. lra.
  - cbn. left. reflexivity.
  - intros p' Hp. assert (M : forall x, mirror_low (0, 4) x = - x /\ mirror_high (0, 4) x = 8 - x).
    { intros x. destruct (C91_reflection (0, 4) x) as [A B]. unfold low, high in *. cbn [fst snd] in *. rewrite Rmin_left in A by lra. rewrite Rmax_right in B by lra. lra. }
    cbn in Hp. destruct (M 0) as [M1 M2]. destruct (M 2) as [M3 M4]. rewrite M1, M2, M3, M4 in Hp. unfold sq_dist. destruct Hp as [<-|[<-|[<-|[<-|[<-|[]]]]]]; cbn [fst snd]; lra.
  - unfold inside, low, high. cbn [fst snd]. rewrite Rmin_left by lra. lra.
Qed.
(** The hypotheses on the diagram and on the search hold for a sensor with 2 x 2 pixels: one vertex in the centre, all regions infinite. *)
Fixpoint argmin (l : list point) (q : point) : nat :=
  match l with
  | [] => 0%nat
  | p :: l' => match l' with [] => 0%nat | _ => if Rleb (sq_dist q p) (sq_dist q (nth (argmin l' q) l' (0, 0))) then 0%nat else S (argmin l' q) end
  end.
Lemma argmin_closest l : l <> [] -> is_closest l (argmin l).
Proof.
  intros N q. induction l as [|p l IH]; [congruence|]. destruct l as [|p' l].
  - cbn. split; [lia|]. intros p' [<-|[]]. lra.
  - destruct (IH ltac:(congruence)) as [H1 H2]. cbn [argmin]. set (k := argmin (p' :: l) q) in *. change (match l with [] => 0%nat | _ :: _ => if Rleb (sq_dist q p') (sq_dist q (nth (argmin l q) l (0, 0))) then 0%nat else S (argmin l q) end) with k.
    destruct (Rleb (sq_dist q p) (sq_dist q (nth k (p' :: l) (0, 0)))) eqn:E.
    + apply Rleb_true in E. split; [cbn [length]; lia|]. cbn [nth]. intros p2 [<-|H]; [lra|]. specialize (H2 p2 H). lra.
    + apply Rleb_false in E. split; [cbn [length] in *; lia|]. cbn [nth] in *. intros p2 [<-|H]; [lra|]. exact (H2 p2 H).
Qed.
Example C91_example : let regions := repeat [(-1)%Z; 0%Z] 4 in let points := pixel_centers 50 250 2 2 in
  is_voronoi points [(0, 0)] regions /\ is_closest (extended_points (dut_extent 50 250 2 2) [(0, 0)] regions points) (argmin (extended_points (dut_extent 50 250 2 2) [(0, 0)] regions points)) /\
  strictly_in_pixel 50 250 2 2 1 0 (10, Ropp 200) /\ length (extended_points (dut_extent 50 250 2 2) [(0, 0)] regions points) = 20%nat.
Proof.
  cbv zeta. split; [|split; [|split]].
  - split; [reflexivity|]. intros p r H. apply in_combine_r in H. apply repeat_spec in H. subst r. split; [intros k [<-|[<-|[]]]; cbn; auto; right; lia|]. intros N. exfalso. apply N. left. reflexivity.
  - apply argmin_closest. cbn. discriminate.
  - unfold strictly_in_pixel. cbn [fst snd INR]. lra.
  - reflexivity.
Qed.

Print Assumptions C91_reflection.
Print Assumptions C91_inside.
Print Assumptions C91_no_image.
Print Assumptions C91_selected.
Print Assumptions C91_bounded.
Print Assumptions C91_assigned.
Print Assumptions C91_all_assigned.
Print Assumptions C91_counts.
Print Assumptions C91_mask.
Print Assumptions C91_border_refuted.
