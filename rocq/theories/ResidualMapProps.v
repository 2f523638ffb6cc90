(** C142: the maps of calculate_residuals. *)
From Coq Require Import List Arith ZArith Lia Reals Lra Bool.
From Verif Require Import GeometryModel GeometryProofs PrealignModel HoughProps RunningMeanModel RunningMeanProps SensorProps DensityModel DensityProps ResidualMapModel.
Import ListNotations.
Local Open Scope R_scope.

(** * Specification *)
(** number of the tracks with a property of their position, and sum of their distances *)
Inductive collected (P : R * R -> Prop) : list track -> nat -> R -> Prop :=
| collected_nil : collected P [] 0 0
| collected_in p v l n t : P p -> collected P l n t -> collected P ((p, v) :: l) (S n) (v + t)
| collected_out p v l n t : ~ P p -> collected P l n t -> collected P ((p, v) :: l) n t.
(** points of the sensor without the right and the upper border *)
Definition inside_area (s : sensor) (x y : R) : Prop := x < INR (n_columns s) * column_size s / 2 /\ y < INR (n_rows s) * row_size s / 2.

Lemma collected_spec (P : R * R -> Prop) (inb : R * R -> bool) (l : list track) : (forall p, inb p = true <-> P p) -> collected P l (spec_number inb l) (spec_sum inb l).
Proof.
  intros H. induction l as [|[p v] l IH]; [constructor|]. cbn [spec_number spec_sum]. destruct (inb p) eqn:E; [apply collected_in; [now apply H|exact IH]|]. apply collected_out; [|exact IH]. intros K. apply H in K. congruence.
Qed.
Lemma map_bin_pixel s i j p : pitches_positive s -> (i < n_columns s)%nat -> (j < n_rows s)%nat -> (in_map_bin s i j p = true <-> in_pixel s (S i) (S j) p).
Proof.
  intros P I J. unfold in_map_bin, in_pixel. destruct (C31_extent s P) as [-> ->]. assert (G : forall n size, map_edges (- (INR n * size / 2), INR n * size / 2) n = pixel_edges (INR n * size) n).
  { intros n size. unfold map_edges, pixel_edges. cbn [fst snd]. f_equal. lra. }
  rewrite !G, andb_true_iff, !bin_strip by assumption. reflexivity.
Qed.
Lemma running_mean (inb : R * R -> bool) (chunks : list (list track)) : chunks <> [] -> exists m, running inb chunks = Some (m, INR (spec_number inb (concat chunks))) /\
  (spec_number inb (concat chunks) = 0%nat -> m = 0) /\ (spec_number inb (concat chunks) <> 0%nat -> m = spec_sum inb (concat chunks) / INR (spec_number inb (concat chunks))).
Proof.
  intros N. pose proof (C40_running inb chunks N) as F. cbv zeta in F. unfold final in F. assert (Z : forall m n, running inb chunks = Some (m, n) -> n = 0 -> m = 0).
  { destruct chunks as [|c cs]; [congruence|]. unfold running. assert (G : forall cs m n, 0 <= n -> (n = 0 -> m = 0) -> forall m' n', fold_left (fun s c => ma_average (fst s) (chunk_mean inb c) (snd s) (chunk_count inb c)) cs (m, n) = (m', n') -> n' = 0 -> m' = 0).
    { clear. induction cs as [|c cs IH]; intros m n Pn H m' n'; cbn [fold_left]; [intros [= <- <-]; exact H|]. cbn [fst snd]. assert (Pc : 0 <= chunk_count inb c) by apply pos_INR.
      unfold ma_average at 2. destruct (Reqb (n + chunk_count inb c) 0) eqn:E.
      - apply Reqb_true in E. apply IH; [lra|]. intros _. assert (n = 0) as -> by lra. assert (chunk_count inb c = 0) as -> by lra. lra.
      - apply Reqb_false in E. apply IH; [lra|]. intros X. contradiction. }
    intros m n [= H]. refine (G cs (chunk_mean inb c) (chunk_count inb c) (pos_INR _) _ m n H). intros E. unfold chunk_count in E. unfold chunk_mean. destruct (values inb c) as [|a l]; [reflexivity|]. apply (INR_eq _ 0) in E. discriminate E. }
  destruct (running inb chunks) as [[m n]|]; [|discriminate]. injection F as F ->. exists m. split; [reflexivity|]. split.
  - intros E. refine (Z m _ eq_refl _). change (INR (spec_number inb (concat chunks)) = INR 0). now f_equal.
  - intros E. apply not_0_INR in E as E'. match type of F with (if Reqb ?u 0 then _ else _) = _ => change u with (INR (spec_number inb (concat chunks))) in F end. rewrite (proj2 (Reqb_false _ _) E') in F.
    match type of F with _ = (if (?u =? 0)%nat then _ else _) => change u with (spec_number inb (concat chunks)) in F end. rewrite (proj2 (Nat.eqb_neq _ _) E) in F. now injection F as ->.
Qed.
Lemma map_framed s d h : pitches_positive s -> framed s d (map_page s d h).
Proof.
  intros P. unfold framed, map_page. cbn [p_dut p_columns p_rows p_extent]. do 3 (split; [reflexivity|]). destruct (C31_extent s P) as [-> ->]. cbn [fst snd]. repeat f_equal; lra.
Qed.

(** There are two maps for every DUT with at least one chunk. At the point (x, - y) of the axes the first shows the mean distance of the tracks in the pixel at (x, y), the second their number; nothing is drawn if there are none,
    or if the distances are zero. *)
Theorem C142_maps s d chunks : pitches_positive s -> chunks <> [] -> exists p q, residual_maps s d chunks = Some (p, q) /\ p_dut p = d /\ p_dut q = d /\
  forall c r x y, (1 <= c <= n_columns s)%nat -> (1 <= r <= n_rows s)%nat -> in_pixel s c r (x, y) -> inside_area s x y ->
    exists n total, collected (in_pixel s c r) (concat chunks) n total /\
      (total <> 0 -> drawn_at p x (- y) = Some (total / INR n)) /\ (total = 0 -> drawn_at p x (- y) = None) /\
      drawn_at q x (- y) = match n with O => None | _ => Some (INR n) end.
Proof.
  intros P N. unfold residual_maps. destruct chunks as [|c0 cs] eqn:Ec; [congruence|]. rewrite <- Ec in *. clear Ec c0 cs. do 2 eexists. split; [reflexivity|]. split; [reflexivity|]. split; [reflexivity|]. intros c r x y C Rr I [X Y].
  assert (H : forall p, in_map_bin s (c - 1) (r - 1) p = true <-> in_pixel s c r p) by (intros p; rewrite map_bin_pixel by (auto; lia); replace (S (c - 1)) with c by lia; replace (S (r - 1)) with r by lia; reflexivity).
  set (inb := in_map_bin s (c - 1) (r - 1)) in *. exists (spec_number inb (concat chunks)), (spec_sum inb (concat chunks)). split; [apply collected_spec, H|].
  assert (D : forall h, drawn_at (map_page s d h) x (- y) = masked_zero (h (c - 1)%nat (r - 1)%nat)) by (intros h; rewrite (C129_axis s d _ x y c r (map_framed s d h P) P C Rr I X Y); reflexivity).
  rewrite !D. destruct (running_mean inb chunks N) as (m & Hm & H0 & H1). assert (M : mean_2d s chunks (c - 1) (r - 1) = m) by (unfold mean_2d; fold inb; now rewrite Hm).
  assert (K : count_2d s chunks (c - 1) (r - 1) = INR (spec_number inb (concat chunks))) by (unfold count_2d; fold inb; rewrite (C40_counts inb chunks N); reflexivity).
  assert (S0 : spec_number inb (concat chunks) = 0%nat -> spec_sum inb (concat chunks) = 0).
  { generalize (concat chunks) as l. induction l as [|[p v] l IH]; [reflexivity|]. cbn [spec_number spec_sum]. destruct (inb p); [discriminate|exact IH]. }
  rewrite M, K. unfold masked_zero. split; [|split].
  - intros T. assert (Nz : spec_number inb (concat chunks) <> 0%nat) by (intros E; apply T, S0, E). rewrite (H1 Nz). apply not_0_INR in Nz. destruct (Reqb _ 0) eqn:E; [|reflexivity]. apply Reqb_true in E. exfalso. apply T.
    apply Rmult_eq_reg_r with (/ INR (spec_number inb (concat chunks))); [rewrite Rmult_0_l; exact E|]. apply Rinv_neq_0_compat. exact Nz.
  - intros T. assert (m = 0) as ->. { destruct (Nat.eq_dec (spec_number inb (concat chunks)) 0) as [E|E]; [apply H0, E|]. rewrite (H1 E), T. unfold Rdiv. apply Rmult_0_l. } rewrite (proj2 (Reqb_true 0 0) eq_refl). reflexivity.
  - destruct (spec_number inb (concat chunks)) as [|n]; [rewrite (proj2 (Reqb_true (INR 0) 0) eq_refl); reflexivity|]. rewrite (proj2 (Reqb_false _ _)) by (apply not_0_INR; discriminate). reflexivity.
Qed.
(** The maps do not depend on the chunks: they are functions of the tracks. *)
Theorem C142_chunks s d chunks chunks' p q p' q' : pitches_positive s -> concat chunks = concat chunks' -> residual_maps s d chunks = Some (p, q) -> residual_maps s d chunks' = Some (p', q') ->
  forall c r x y, (1 <= c <= n_columns s)%nat -> (1 <= r <= n_rows s)%nat -> in_pixel s c r (x, y) -> inside_area s x y -> drawn_at p x (- y) = drawn_at p' x (- y) /\ drawn_at q x (- y) = drawn_at q' x (- y).
Proof.
  intros P E H H' c r x y C R I A. assert (U : forall Q l n t m u, collected Q l n t -> collected Q l m u -> n = m /\ t = u).
  { intros Q l n t m u X. revert m u. induction X as [|a v l n t Qa X IH|a v l n t Qa X IH]; intros m u Y; inversion Y; subst; try contradiction; [auto| |]; match goal with Z : collected Q l _ _ |- _ => destruct (IH _ _ Z) as [-> ->] end; auto. }
  assert (N : chunks <> []) by (intros ->; discriminate H). assert (N' : chunks' <> []) by (intros ->; discriminate H'). destruct (C142_maps s d chunks P N) as (p1 & q1 & H1 & _ & _ & D). destruct (C142_maps s d chunks' P N') as (p2 & q2 & H2 & _ & _ & D').
  rewrite H1 in H. injection H as -> ->. rewrite H2 in H'. injection H' as -> ->. destruct (D c r x y C R I A) as (n & t & X & X1 & X2 & X3). destruct (D' c r x y C R I A) as (m & u & Y & Y1 & Y2 & Y3). rewrite <- E in Y.
  destruct (U _ _ _ _ _ _ X Y) as [-> ->]. rewrite X3, Y3. split; [|reflexivity]. destruct (Req_dec u 0) as [Z|Z]; [rewrite X2, Y2 by exact Z; reflexivity|rewrite X1, Y1 by exact Z; reflexivity].
Qed.
(** Desired: the value at the point (x, y) of the axes is that of the pixel at this position, and a pixel with tracks is not empty.  Both are false: one track with distance 7 below the centre, and one with distance 0. *)
Lemma small_upper : in_pixel small 1 2 (0, 1 / 2) /\ inside_area small 0 (1 / 2) /\ inside_area small 0 (- 1 / 2).
Proof. split; [apply small_pixel|]. unfold inside_area, small. cbn [n_columns n_rows column_size row_size INR]. lra. Qed.
Theorem C142_axis_refuted : exists s p q, residual_maps s 0 [[((0, - 1 / 2), 7)]] = Some (p, q) /\ drawn_at p 0 (- 1 / 2) = None /\ drawn_at p 0 (1 / 2) = Some 7 /\ drawn_at q 0 (- 1 / 2) = None /\ drawn_at q 0 (1 / 2) = Some 1.
Proof.
  assert (P : pitches_positive small) by (unfold pitches_positive, small; cbn; lra). destruct (C142_maps small 0 [[((0, - 1 / 2), 7)]] P ltac:(discriminate)) as (p & q & E & _ & _ & D). exists small, p, q. split; [exact E|].
  destruct small_pixel as (A1 & A2 & A3 & _). destruct small_upper as (_ & B1 & B2).
  destruct (D 1%nat 1%nat 0 (- 1 / 2) ltac:(cbn; lia) ltac:(cbn; lia) A1 B2) as (n & t & X & X1 & _ & X3). destruct (D 1%nat 2%nat 0 (1 / 2) ltac:(cbn; lia) ltac:(cbn; lia) A3 B1) as (m & u & Y & _ & Y2 & Y3).
  cbn [concat app] in X, Y. inversion X as [|? ? ? n1 t1 Q1 X'|? ? ? ? ? Q1 X']; subst; [|contradiction]. inversion X'; subst. inversion Y as [|? ? ? ? ? Q2 Y'|? ? ? ? ? Q2 Y']; subst; [contradiction|]. inversion Y'; subst.
  replace (- (- 1 / 2)) with (1 / 2) in X1, X3 by lra. replace (- (1 / 2)) with (- 1 / 2) in Y2, Y3 by lra. rewrite X3, Y3, (Y2 eq_refl), X1 by lra. cbn [INR]. split; [reflexivity|]. split; [f_equal; lra|]. auto.
Qed.
Theorem C142_zero_refuted : exists s p q, residual_maps s 0 [[((0, - 1 / 2), 0)]] = Some (p, q) /\ drawn_at p 0 (1 / 2) = None /\ drawn_at q 0 (1 / 2) = Some 1.
Proof.
  assert (P : pitches_positive small) by (unfold pitches_positive, small; cbn; lra). destruct (C142_maps small 0 [[((0, - 1 / 2), 0)]] P ltac:(discriminate)) as (p & q & E & _ & _ & D). exists small, p, q. split; [exact E|].
  destruct small_pixel as (A1 & _). destruct small_upper as (_ & _ & B2). destruct (D 1%nat 1%nat 0 (- 1 / 2) ltac:(cbn; lia) ltac:(cbn; lia) A1 B2) as (n & t & X & _ & X2 & X3). cbn [concat app] in X. inversion X as [|? ? ? n1 t1 Q1 X'|? ? ? ? ? Q1 X']; subst; [|contradiction].
  inversion X'; subst. replace (- (- 1 / 2)) with (1 / 2) in X2, X3 by lra. rewrite X3, X2 by lra. auto.
Qed.

Print Assumptions C142_maps.
Print Assumptions C142_chunks.
Print Assumptions C142_axis_refuted.
Print Assumptions C142_zero_refuted.
