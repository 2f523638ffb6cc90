(** C122: the median filter, the noise level and the threshold of the pixel masks, and the masks read by the clustering.  Source: hit_analysis.py L521-643, L868-880. *)
From Coq Require Import Reals ZArith List Bool Arith Lia Lra Permutation Sorted.
From Verif Require Import RunningMeanModel GeometryModel GeometryProofs TrackAngleModel TrackAngleProps ArrayUtilsModel ArrayUtilsProofs PixelMaskModel PixelMaskProps NoiseLevelModel.
Import ListNotations.
Local Open Scope nat_scope.

(** *** Specification: the value in the middle of n values. *)
Definition n_less (v : Z) (l : list Z) : nat := length (filter (fun x => (x <? v)%Z) l).
Definition n_at_most (v : Z) (l : list Z) : nat := length (filter (fun x => (x <=? v)%Z) l).
Definition middle (l : list Z) (v : Z) : Prop := In v l /\ n_less v l <= length l / 2 < n_at_most v l.

Lemma filter_perm {A} (f : A -> bool) a b : Permutation a b -> length (filter f a) = length (filter f b).
Proof. induction 1; cbn; auto; try congruence. - destruct (f x); cbn; congruence. - destruct (f x), (f y); reflexivity. Qed.
Lemma filter_more {A} (f g : A -> bool) l : (forall x, In x l -> f x = true -> g x = true) -> length (filter f l) <= length (filter g l).
Proof.
  induction l as [|x l IH]; intros H; cbn; auto. assert (IH' := IH (fun i Hi => H i (or_intror Hi))). assert (K := H x (or_introl eq_refl)).
  destruct (f x); [rewrite (K eq_refl); cbn; lia|]. destruct (g x); cbn; lia.
Qed.
Lemma all_kept {A} (f : A -> bool) l : (forall x, In x l -> f x = true) -> filter f l = l.
Proof. induction l as [|x l IH]; intros H; cbn; auto. rewrite (H x (or_introl eq_refl)), IH; auto. intros y I. apply H. now right. Qed.
Lemma none_kept {A} (f : A -> bool) l : (forall x, In x l -> f x = false) -> filter f l = [].
Proof. induction l as [|x l IH]; intros H; cbn; auto. rewrite (H x (or_introl eq_refl)). apply IH. intros y I. apply H. now right. Qed.
Lemma kept_le {A} (f : A -> bool) l : length (filter f l) <= length l.
Proof. induction l as [|x l IH]; cbn; auto. destruct (f x); cbn; lia. Qed.
Lemma sorted_counts l : sortedZ l -> forall k, k < length l -> n_less (nth k l 0%Z) l <= k < n_at_most (nth k l 0%Z) l.
Proof.
  unfold n_less, n_at_most. induction 1 as [|x l Hs IH HF]; intros k Hk; cbn [length] in Hk; [lia|]. rewrite Forall_forall in HF. destruct k as [|k].
  - cbn [nth filter]. rewrite Z.ltb_irrefl, Z.leb_refl. cbn [length]. split; [|lia].
    enough (E : filter (fun y => (y <? x)%Z) l = []) by now rewrite E. apply none_kept. intros y Hy. apply Z.ltb_ge. now apply HF.
  - cbn [nth]. assert (Hk' : k < length l) by (apply Nat.succ_lt_mono; exact Hk). specialize (IH k Hk'). assert (B := HF (nth k l 0%Z) (nth_In l 0%Z Hk')). cbn [filter].
    destruct (Z.leb_spec x (nth k l 0%Z)); [|lia]. destruct (x <? nth k l 0%Z)%Z; cbn [length]; lia.
Qed.
Lemma n_mono v w l : (v < w)%Z -> n_at_most v l <= n_less w l.
Proof. intros L. unfold n_at_most, n_less. apply filter_more. intros x _ E. apply Z.leb_le in E. apply Z.ltb_lt. lia. Qed.
Lemma middle_unique l v w : middle l v -> middle l w -> v = w.
Proof. intros (_ & A) (_ & B). destruct (Z.lt_trichotomy v w) as [L|[->|L]]; auto; apply (n_mono _ _ l) in L; lia. Qed.

(** The filter takes the value in the middle of the window: at most half of the values are smaller and more than half are not larger. *)
Theorem C122_median : forall l, l <> [] -> forall v, rank_middle l = v <-> middle l v.
Proof.
  intros l N. assert (M : middle l (rank_middle l)).
  { assert (P := np_sort_perm l). assert (Q : length (np_sort l) = length l) by now apply Permutation_length.
    assert (Hk : length l / 2 < length (np_sort l)). { rewrite Q. apply Nat.div_lt; [destruct l; [congruence|cbn; lia]|lia]. }
    unfold middle, rank_middle. split. { eapply Permutation_in; [exact P|]. now apply nth_In. }
    assert (B := sorted_counts _ (np_sort_sorted l) _ Hk). unfold n_less, n_at_most in *.
    now rewrite (filter_perm _ _ _ P), (filter_perm _ _ _ P) in B. }
  intros v. split; [now intros <-|]. intros H. now apply (middle_unique l).
Qed.

(** values 0 and v *)
Definition n_true (bs : list bool) : nat := length (filter (fun b => b) bs).
Definition values (v : Z) (bs : list bool) : list Z := map (fun b : bool => if b then v else 0%Z) bs.
Lemma n_true_le bs : n_true bs <= length bs.
Proof. apply kept_le. Qed.
Lemma two_values v bs : (0 < v)%Z -> bs <> [] ->
  rank_middle (values v bs) = if length bs - length bs / 2 <=? n_true bs then v else 0%Z.
Proof.
  intros Hv N. assert (L : length (values v bs) = length bs) by apply map_length.
  assert (C : forall w, n_less w (values v bs) = (if (v <? w)%Z then n_true bs else 0) + (if (0 <? w)%Z then length bs - n_true bs else 0)
     /\ n_at_most w (values v bs) = (if (v <=? w)%Z then n_true bs else 0) + (if (0 <=? w)%Z then length bs - n_true bs else 0)).
  { intros w. unfold n_less, n_at_most, values, n_true. clear - Hv. induction bs as [|b bs IH]; cbn [map filter length]; [now destruct (v <? w)%Z, (0 <? w)%Z, (v <=? w)%Z, (0 <=? w)%Z|].
    assert (B := n_true_le bs). unfold n_true in B. revert IH B.
    destruct b; destruct (v <? w)%Z, (0 <? w)%Z, (v <=? w)%Z, (0 <=? w)%Z; cbn [length]; intros (IH1 & IH2) B; split; lia. }
  apply C122_median. { destruct bs; [congruence|discriminate]. }
  assert (B := n_true_le bs). assert (H2 : length bs / 2 < length bs) by (apply Nat.div_lt; [destruct bs; [congruence|cbn; lia]|lia]).
  unfold middle. rewrite L. destruct (Nat.leb_spec (length bs - length bs / 2) (n_true bs)) as [G|G].
  - split. { unfold values. apply in_map_iff. exists true. split; auto. unfold n_true in G. destruct (filter (fun b => b) bs) as [|b r] eqn:E; [change (length (@nil bool)) with 0 in G; lia|].
      assert (I : In b (filter (fun b => b) bs)) by (rewrite E; now left). apply filter_In in I as (I & ->). auto. }
    destruct (C v) as (-> & ->). rewrite Z.ltb_irrefl, Z.leb_refl. destruct (Z.ltb_spec 0 v), (Z.leb_spec 0 v); lia.
  - split. { unfold values. apply in_map_iff. exists false. split; auto. unfold n_true in G.
      destruct (in_dec bool_dec false bs) as [I|I]; auto. exfalso. rewrite (all_kept (fun b => b) bs) in G by (intros [|] Hb; [reflexivity|tauto]). lia. }
    destruct (C 0%Z) as (-> & ->). rewrite Z.ltb_irrefl, Z.leb_refl. destruct (Z.ltb_spec v 0), (Z.leb_spec v 0); lia.
Qed.

(** *** the loop: a first iteration which finds the pixels P and a second one which finds no other *)
Section Loop.
  Variable n : nat.
  Variable median : (nat -> Z) -> (nat -> Z).
  Variable exceeds : (nat -> Z) -> (nat -> Z) -> nat -> bool.
  Variables (occ occ2 : nat -> Z) (P : nat -> bool).
  Lemma n_new_zero o m : (forall i, i < n -> tmp_mask median exceeds o i = true -> m i = true) -> n_new n median exceeds o m = 0.
  Proof using. intros H. unfold n_new. rewrite none_kept; auto. intros i I. apply in_seq in I. specialize (H i ltac:(lia)). destruct (tmp_mask _ _ o i); auto. now rewrite (H eq_refl). Qed.
  Hypothesis first : forall i, i < n -> tmp_mask median exceeds occ i = P i.
  Hypothesis second_image : new_occ median exceeds occ (fun _ => false) = occ2.
  Hypothesis second : forall i, i < n -> tmp_mask median exceeds occ2 i = true -> P i = true.
  Lemma two_iterations iterations : exists m j, mask_pixels n median exceeds iterations occ = Some (m, j) /\ forall i, i < n -> m i = P i.
  Proof using first second_image second.
    unfold mask_pixels. cbn [mask_loop].
    destruct (Nat.eqb_spec (n_new n median exceeds occ (fun _ => false)) 0) as [Z|N]; cbn [orb].
    { eexists _, _. split; [reflexivity|]. intros i Hi. unfold new_mask. now rewrite (first _ Hi). }
    destruct (negb (iterations =? 0) && (iterations <=? 1)) eqn:E.
    { eexists _, _. split; [reflexivity|]. intros i Hi. unfold new_mask. now rewrite (first _ Hi). }
    assert (G : forall f, f <> 0 -> exists m j, mask_loop n median exceeds f iterations 1 (new_occ median exceeds occ (fun _ => false)) (new_mask median exceeds occ (fun _ => false)) = Some (m, j)
      /\ forall i, i < n -> m i = P i).
    2:{ apply G. intros ->. now apply N. }
    intros [|k] K; [congruence|]. cbn [mask_loop]. rewrite second_image.
    rewrite n_new_zero. 2:{ intros i Hi T. unfold new_mask. rewrite (first _ Hi). cbn [orb]. auto. }
    cbn [Nat.eqb orb]. eexists _, _. split; [reflexivity|]. intros i Hi. unfold new_mask at 1. unfold new_mask. rewrite (first _ Hi). cbn [orb].
    destruct (P i) eqn:EP; auto. cbn [orb]. destruct (tmp_mask median exceeds occ2 i) eqn:T; auto. rewrite (second _ Hi T) in EP. congruence.
  Qed.
End Loop.

(** *** sums of two values *)
Lemma sum_two {A} (b : A -> bool) x y (l : list A) :
  sum (map (fun a => if b a then x else y) l) = (INR (length (filter b l)) * x + INR (length l - length (filter b l)) * y)%R.
Proof.
  induction l as [|a l IH]; [cbn; lra|]. assert (B := kept_le b l). cbn [map filter length]. change (sum (?u :: ?v)) with (u + sum v)%R. rewrite IH.
  destruct (b a); cbn [length].
  - replace (S (length l) - S (length (filter b l))) with (length l - length (filter b l)) by lia. rewrite S_INR. lra.
  - replace (S (length l) - length (filter b l)) with (S (length l - length (filter b l))) by lia. rewrite S_INR. lra.
Qed.
Lemma sum_ext_in {A} (f g : A -> R) l : (forall a, In a l -> f a = g a) -> sum (map f l) = sum (map g l).
Proof. intros H. f_equal. now apply map_ext_in. Qed.
(** the standard deviation of n values, k of which are x and the others 0 *)
Lemma std_two {A} (b : A -> bool) x (l : list A) : l <> [] -> (0 <= x)%R ->
  std (map (fun a => if b a then x else 0%R) l) = (x * sqrt (INR (length (filter b l)) / INR (length l) * (1 - INR (length (filter b l)) / INR (length l))))%R.
Proof.
  intros N X. assert (P : (0 < INR (length l))%R) by (apply lt_0_INR; destruct l; [congruence|cbn; lia]).
  set (k := length (filter b l)) in *. assert (K : k <= length l) by apply kept_le.
  assert (M : mean (map (fun a => if b a then x else 0%R) l) = (INR k / INR (length l) * x)%R).
  { unfold mean. rewrite sum_two, map_length. fold k. field. lra. }
  unfold std. rewrite M, map_map, map_length.
  rewrite (sum_ext_in _ (fun a => if b a then ((x - INR k / INR (length l) * x) ^ 2)%R else ((0 - INR k / INR (length l) * x) ^ 2)%R)). 2:{ intros a _. now destruct (b a). }
  rewrite sum_two. fold k. rewrite minus_INR by exact K.
  transitivity (sqrt (x * x * (INR k / INR (length l) * (1 - INR k / INR (length l))))). { f_equal. field. lra. }
  rewrite sqrt_mult_alt by (apply Rmult_le_pos; lra). now rewrite sqrt_square.
Qed.
Lemma sum_const {A} x (l : list A) : sum (map (fun _ => x) l) = (INR (length l) * x)%R.
Proof. induction l as [|a l IH]; [cbn; lra|]. cbn [map length]. change (sum (?u :: ?v)) with (u + sum v)%R. rewrite IH, S_INR. lra. Qed.
Lemma std_same x {A} (l : list A) : std (map (fun _ => x) l) = 0%R.
Proof.
  destruct l as [|a l]. { unfold std. cbn. unfold Rdiv. rewrite Rmult_0_l. apply sqrt_0. }
  assert (P : (0 < INR (length (a :: l)))%R) by (apply lt_0_INR; cbn; lia).
  assert (M : mean (map (fun _ => x) (a :: l)) = x). { unfold mean. rewrite sum_const, map_length. field. lra. }
  unfold std. rewrite M, map_map. rewrite sum_const. replace (_ / _)%R with 0%R; [apply sqrt_0|]. unfold Rdiv. ring.
Qed.

(** *** positions *)
Section Images.
  Variables nx ny : nat.
  (** the pixel in column c and row r, both from 0 *)
  Definition pixel (c r : nat) : nat := c * ny + r.
  Lemma pixel_div c r : r < ny -> pixel c r / ny = c /\ pixel c r mod ny = r.
  Proof using. intros H. unfold pixel. split. - rewrite Nat.div_add_l by lia. rewrite Nat.div_small; lia. - rewrite Nat.add_comm, Nat.mod_add by lia. now apply Nat.mod_small. Qed.
  Lemma pixel_range c r : c < nx -> r < ny -> pixel c r < nx * ny.
  Proof using. intros. unfold pixel. nia. Qed.
  Lemma pixel_of i : i < nx * ny -> exists c r, c < nx /\ r < ny /\ i = pixel c r.
  Proof using. intros H. assert (ny <> 0) by (intros ->; lia). exists (i / ny), (i mod ny). split; [|split]. - apply Nat.div_lt_upper_bound; lia. - now apply Nat.mod_upper_bound. - unfold pixel. rewrite Nat.mul_comm. now apply Nat.div_mod. Qed.
  Lemma pixel_inj c r c' r' : r < ny -> r' < ny -> pixel c r = pixel c' r' -> c = c' /\ r = r'.
  Proof using. intros H H' E. destruct (pixel_div c r H) as (A & B). destruct (pixel_div c' r' H') as (A' & B'). rewrite E in A, B. split; congruence. Qed.

  (** the value of an image at any position *)
  Definition shows (occ : nat -> Z) (g : Z -> Z -> bool) (v : Z) : Prop :=
    forall c r, c < nx -> r < ny -> occ (pixel c r) = if g (Z.of_nat c) (Z.of_nat r) then v else 0%Z.
  Definition inside (c r : Z) : bool := ((0 <=? c) && (c <? Z.of_nat nx) && (0 <=? r) && (r <? Z.of_nat ny))%Z.
  Lemma padded_shows occ g v c r : shows occ g v -> padded nx ny occ c r = if inside c r && g c r then v else 0%Z.
  Proof using.
    intros H. unfold padded. fold (inside c r). destruct (inside c r) eqn:E; auto. unfold inside in E. rewrite !andb_true_iff, Z.leb_le, Z.leb_le, Z.ltb_lt, Z.ltb_lt in E.
    cbn [andb]. fold (pixel (Z.to_nat c) (Z.to_nat r)). rewrite H by lia. now rewrite !Z2Nat.id by lia.
  Qed.
  Lemma window_shows fx fy occ g v c r : shows occ g v ->
    window nx ny fx fy occ c r = values v (map (fun o => inside (c + fst o) (r + snd o) && g (c + fst o)%Z (r + snd o)%Z) (list_prod (offsets fx) (offsets fy))).
  Proof using. intros H. unfold window, values. rewrite map_map. apply map_ext. intros o. now apply padded_shows. Qed.
  Lemma blurred_shows fx fy occ g v c r : (0 < v)%Z -> 0 < fx -> 0 < fy -> shows occ g v -> c < nx -> r < ny ->
    blurred nx ny fx fy occ (pixel c r) =
    if fx * fy - fx * fy / 2 <=? n_true (map (fun o => inside (Z.of_nat c + fst o) (Z.of_nat r + snd o) && g (Z.of_nat c + fst o)%Z (Z.of_nat r + snd o)%Z) (list_prod (offsets fx) (offsets fy)))
    then v else 0%Z.
  Proof using.
    intros Hv Hfx Hfy H Hc Hr. unfold blurred. destruct (pixel_div c r Hr) as (-> & ->). rewrite (window_shows _ _ _ g v) by exact H. 
    assert (L : length (list_prod (offsets fx) (offsets fy)) = fx * fy) by (rewrite prod_length; unfold offsets; now rewrite !map_length, !seq_length).
    rewrite two_values; auto. - now rewrite map_length, L.
    - intros E. apply (f_equal (@length bool)) in E. rewrite map_length, L in E. cbn in E. nia.
  Qed.

  (** *** Specification: the four corners of the sensor. *)
  Definition corner (c r : nat) : bool := ((c =? 0) || (c =? nx - 1)) && ((r =? 0) || (r =? ny - 1)).
  Definition cornerZ (c r : Z) : bool := ((c =? 0) || (c =? Z.of_nat nx - 1))%Z && ((r =? 0) || (r =? Z.of_nat ny - 1))%Z.
  Definition corner_pixel (i : nat) : bool := corner (i / ny) (i mod ny).
  Lemma corner_at c r : r < ny -> corner_pixel (pixel c r) = corner c r.
  Proof using. intros H. unfold corner_pixel. now destruct (pixel_div c r H) as (-> & ->). Qed.
  Lemma cornerZ_eq c r : 0 < nx -> 0 < ny -> cornerZ (Z.of_nat c) (Z.of_nat r) = corner c r.
  Proof using.
    intros. unfold cornerZ, corner. f_equal; f_equal.
    all: match goal with |- (?a =? ?b)%Z = (?m =? ?n) => destruct (Z.eqb_spec a b), (Nat.eqb_spec m n); auto; lia end.
  Qed.
  Lemma n_corners : 2 <= nx -> 2 <= ny -> length (filter corner_pixel (seq 0 (nx * ny))) = 4.
  Proof using.
    intros Hx Hy. transitivity (length [pixel 0 0; pixel 0 (ny - 1); pixel (nx - 1) 0; pixel (nx - 1) (ny - 1)]); [|reflexivity].
    apply Permutation_length, NoDup_Permutation.
    - apply NoDup_filter, seq_NoDup.
    - repeat constructor; cbn [In]; unfold pixel; intros H; repeat destruct H as [H|H]; auto; nia.
    - intros i. rewrite filter_In, in_seq. cbn [In]. split.
      + intros (L & C). destruct (pixel_of i ltac:(lia)) as (c & r & Lc & Lr & ->). rewrite corner_at in C by auto. unfold corner in C.
        rewrite andb_true_iff, !orb_true_iff, !Nat.eqb_eq in C. destruct C as ([-> | ->] & [-> | ->]); auto.
      + assert (K : forall c r, c < nx -> r < ny -> corner c r = true -> 0 <= pixel c r < 0 + nx * ny /\ corner_pixel (pixel c r) = true).
        { intros c r Lc Lr C. assert (B := pixel_range c r Lc Lr). rewrite corner_at by auto. auto with arith. }
        intros [<-|[<-|[<-|[<-|[]]]]]; apply K; try lia; unfold corner; rewrite !Nat.eqb_refl, ?orb_true_r; reflexivity.
  Qed.
End Images.

Lemma rltb_lt a b : Rltb a b = true <-> (a < b)%R.
Proof. unfold Rltb. destruct (Rlt_dec a b); split; congruence || tauto. Qed.
Lemma above_iff nx ny t o b i : above nx ny t o b i = true <-> (t * noise nx ny o b * sqrt (IZR (o i)) < IZR (o i - b i))%R.
Proof. apply rltb_lt. Qed.
Lemma square_less t q : (0 <= t)%R -> (0 <= q)%R -> (t ^ 2 * q < 1)%R -> (t * sqrt q < 1)%R.
Proof.
  intros T Q L. apply Rnot_le_lt. intros G. assert (S := sqrt_pos q). assert (E := sqrt_sqrt q Q).
  assert (1 * 1 <= (t * sqrt q) * (t * sqrt q))%R by (apply Rmult_le_compat; lra). replace ((t * sqrt q) * (t * sqrt q))%R with (t ^ 2 * (sqrt q * sqrt q))%R in H by ring. rewrite E in H. lra.
Qed.

Section Uniform.
  Variables (nx ny : nat) (v : Z) (t : R) (occ : nat -> Z).
  Hypothesis Hx : 4 <= nx.
  Hypothesis Hy : 4 <= ny.
  Hypothesis Hv : (0 < v)%Z.
  Hypothesis Ht : (0 <= t)%R.
  Hypothesis uniform : forall i, i < nx * ny -> occ i = v.
  Notation blur := (blurred nx ny 3 3).
  Notation pix := (pixel ny).
  Notation N := (INR (nx * ny)).
  Hypothesis small : (t ^ 2 * (4 / N * (1 - 4 / N)) < 1)%R.

  Lemma at_pixel c r : c < nx -> r < ny -> occ (pix c r) = v.
  Proof using uniform. intros. apply uniform. now apply pixel_range. Qed.
  Ltac decide_all := repeat match goal with
    | |- context [(?a <=? ?b)%Z] => destruct (Z.leb_spec a b); [try (exfalso; lia)|try (exfalso; lia)]
    | |- context [(?a <? ?b)%Z] => destruct (Z.ltb_spec a b); [try (exfalso; lia)|try (exfalso; lia)]
    | |- context [(?a =? ?b)%Z] => destruct (Z.eqb_spec a b); [try (exfalso; lia)|try (exfalso; lia)]
    end; cbn [andb orb negb].
  Lemma blur_first c r : c < nx -> r < ny -> blur occ (pix c r) = if corner nx ny c r then 0%Z else v.
  Proof using Hx Hy Hv uniform.
    intros Lc Lr. rewrite (blurred_shows nx ny 3 3 occ (fun _ _ => true) v); auto; try lia. 2:{ intros ? ? A B. now apply at_pixel. }
    change (3 * 3 - 3 * 3 / 2) with 5. change (list_prod (offsets 3) (offsets 3)) with [(-1, -1); (-1, 0); (-1, 1); (0, -1); (0, 0); (0, 1); (1, -1); (1, 0); (1, 1)]%Z.
    cbn [map fst snd]. rewrite <- cornerZ_eq by lia. unfold inside, cornerZ. rewrite !andb_true_r.
    assert (Cc : (Z.of_nat c = 0 \/ Z.of_nat c = Z.of_nat nx - 1 \/ 0 < Z.of_nat c < Z.of_nat nx - 1)%Z) by lia.
    assert (Cr : (Z.of_nat r = 0 \/ Z.of_nat r = Z.of_nat ny - 1 \/ 0 < Z.of_nat r < Z.of_nat ny - 1)%Z) by lia.
    destruct Cc as [Cc|[Cc|Cc]]; destruct Cr as [Cr|[Cr|Cr]]; decide_all; reflexivity.
  Qed.
  Lemma hits_first : hit_pixels nx ny occ = seq 0 (nx * ny).
  Proof using Hx Hy Hv uniform. unfold hit_pixels. apply all_kept. intros i I. apply in_seq in I. rewrite uniform by lia. apply negb_true_iff, Z.eqb_neq. lia. Qed.
  Lemma sqrt_v : (0 < sqrt (IZR v))%R /\ (sqrt (IZR v) * sqrt (IZR v) = IZR v)%R.
  Proof using Hv. apply IZR_lt in Hv. split. - now apply sqrt_lt_R0. - apply sqrt_sqrt. lra. Qed.
  Lemma noise_first : noise nx ny occ (blur occ) = (sqrt (IZR v) * sqrt (4 / N * (1 - 4 / N)))%R.
  Proof using Hx Hy Hv uniform.
    unfold noise. rewrite hits_first. destruct sqrt_v as (P & Q).
    assert (E : map (normalized occ (blur occ)) (seq 0 (nx * ny)) = map (fun i => if corner_pixel nx ny i then sqrt (IZR v) else 0%R) (seq 0 (nx * ny))).
    { apply map_ext_in. intros i I. apply in_seq in I. destruct (pixel_of nx ny i ltac:(lia)) as (c & r & Lc & Lr & ->).
      unfold normalized. rewrite at_pixel, blur_first, corner_at by auto. destruct (corner nx ny c r).
      - rewrite Z.sub_0_r. rewrite <- Q at 1. field. lra.
      - rewrite Z.sub_diag. unfold Rdiv. ring. }
    rewrite E, std_two. 3:lra. 2:{ intros F. apply (f_equal (@length nat)) in F. rewrite seq_length in F. cbn in F. nia. }
    rewrite n_corners, seq_length by lia. replace (INR 4) with 4%R by (cbn; lra). reflexivity.
  Qed.
  Lemma q_nonneg : (0 <= 4 / N * (1 - 4 / N))%R.
  Proof using Hx Hy.
    assert (G : (16 <= N)%R). { replace 16%R with (INR 16) by (cbn; lra). apply le_INR. nia. }
    assert (4 / N <= 1)%R. { apply Rmult_le_reg_r with N; [lra|]. field_simplify; lra. }
    assert (0 < 4 / N)%R by (apply Rdiv_lt_0_compat; lra). apply Rmult_le_pos; lra.
  Qed.
  Lemma tmp_first i : i < nx * ny -> tmp_mask blur (above nx ny t) occ i = corner_pixel nx ny i.
  Proof using Hx Hy Hv Ht uniform small.
    intros L. destruct (pixel_of nx ny i L) as (c & r & Lc & Lr & ->). unfold tmp_mask. rewrite corner_at by auto. unfold above.
    rewrite noise_first. rewrite at_pixel, blur_first by auto. replace (v =? 0)%Z with false by (symmetry; apply Z.eqb_neq; lia). cbn [negb andb].
    destruct sqrt_v as (P & Q). assert (Pv := IZR_lt _ _ Hv). assert (B := sqrt_pos (4 / N * (1 - 4 / N))).
    replace (t * (sqrt (IZR v) * sqrt (4 / N * (1 - 4 / N))) * sqrt (IZR v))%R with (sqrt (IZR v) * sqrt (IZR v) * (t * sqrt (4 / N * (1 - 4 / N))))%R by ring. rewrite Q.
    destruct (corner nx ny c r).
    - apply rltb_lt. rewrite Z.sub_0_r. assert (G := square_less t _ Ht q_nonneg small).
      apply Rlt_le_trans with (IZR v * 1)%R; [|lra]. now apply Rmult_lt_compat_l.
    - apply not_true_is_false. rewrite rltb_lt, Z.sub_diag. apply Rle_not_lt. repeat apply Rmult_le_pos; lra.
  Qed.
  Notation occ2 := (new_occ blur (above nx ny t) occ (fun _ => false)).
  Lemma second_shows : shows nx ny occ2 (fun c r => negb (cornerZ nx ny c r)) v.
  Proof using Hx Hy Hv Ht uniform small.
    intros c r Lc Lr. assert (L := pixel_range nx ny c r Lc Lr). unfold new_occ, new_mask. cbn [orb]. rewrite tmp_first, corner_at, cornerZ_eq by (auto; lia).
    destruct (corner nx ny c r) eqn:E; cbn [negb]; [rewrite blur_first, E by auto; reflexivity|now apply at_pixel].
  Qed.
  Lemma blur_second c r : c < nx -> r < ny -> corner nx ny c r = false -> blur occ2 (pix c r) = v.
  Proof using Hx Hy Hv Ht uniform small.
    intros Lc Lr C. rewrite (blurred_shows nx ny 3 3 occ2 _ v c r Hv ltac:(lia) ltac:(lia) second_shows) by auto.
    change (3 * 3 - 3 * 3 / 2) with 5. change (list_prod (offsets 3) (offsets 3)) with [(-1, -1); (-1, 0); (-1, 1); (0, -1); (0, 0); (0, 1); (1, -1); (1, 0); (1, 1)]%Z.
    cbn [map fst snd]. revert C. rewrite <- cornerZ_eq by lia. unfold inside, cornerZ.
    assert (Cc : (Z.of_nat c = 0 \/ Z.of_nat c = 1 \/ Z.of_nat c = Z.of_nat nx - 2 \/ Z.of_nat c = Z.of_nat nx - 1 \/ 1 < Z.of_nat c < Z.of_nat nx - 2)%Z) by lia.
    assert (Cr : (Z.of_nat r = 0 \/ Z.of_nat r = 1 \/ Z.of_nat r = Z.of_nat ny - 2 \/ Z.of_nat r = Z.of_nat ny - 1 \/ 1 < Z.of_nat r < Z.of_nat ny - 2)%Z) by lia.
    destruct Cc as [Cc|[Cc|[Cc|[Cc|Cc]]]]; destruct Cr as [Cr|[Cr|[Cr|[Cr|Cr]]]]; decide_all; intros C; try discriminate C; reflexivity.
  Qed.
  Lemma tmp_second i : i < nx * ny -> tmp_mask blur (above nx ny t) occ2 i = true -> corner_pixel nx ny i = true.
  Proof using Hx Hy Hv Ht uniform small.
    intros L. destruct (pixel_of nx ny i L) as (c & r & Lc & Lr & ->). rewrite corner_at by auto. destruct (corner nx ny c r) eqn:E; auto.
    unfold tmp_mask. rewrite andb_true_iff. intros (_ & A). exfalso. apply above_iff in A.
    assert (Z0 : noise nx ny occ2 (blur occ2) = 0%R).
    { unfold noise. rewrite <- (std_same 0%R (hit_pixels nx ny occ2)). f_equal. apply map_ext_in. intros i I. unfold hit_pixels in I. apply filter_In in I as (I & J).
      apply in_seq in I. destruct (pixel_of nx ny i ltac:(lia)) as (c' & r' & Lc' & Lr' & ->). assert (Sh := second_shows c' r' Lc' Lr'). cbv beta in Sh; rewrite cornerZ_eq in Sh by lia.
      destruct (corner nx ny c' r') eqn:E'; cbn [negb] in Sh. { rewrite Sh in J. discriminate. }
      unfold normalized. rewrite Sh, blur_second, Z.sub_diag by auto. unfold Rdiv. ring. }
    rewrite Z0 in A. assert (Sh := second_shows c r Lc Lr). cbv beta in Sh; rewrite cornerZ_eq, E in Sh by lia. cbn [negb] in Sh. rewrite Sh, blur_second, Z.sub_diag in A by auto.
    rewrite Rmult_0_r, Rmult_0_l in A. lra.
  Qed.
End Uniform.

(** A noisy pixel is not the only thing that is masked: on a sensor in which every pixel has the same number of hits, the four corners, and only they, are masked with the default filter size and threshold if there are 396 pixels or more: the positions past the edges count as 0, and five of nine positions around a corner are past the edges. *)
Theorem C122_corners_refuted : forall nx ny v t iterations occ, 4 <= nx -> 4 <= ny -> (0 < v)%Z -> (0 <= t)%R ->
  (t ^ 2 * (4 / INR (nx * ny) * (1 - 4 / INR (nx * ny))) < 1)%R -> (forall i, i < nx * ny -> occ i = v) ->
  exists m j, noise_mask nx ny 3 3 t iterations occ = Some (m, j) /\
    forall c r, c < nx -> r < ny -> m (pixel ny c r) = true <-> (c = 0 \/ c = nx - 1) /\ (r = 0 \/ r = ny - 1).
Proof.
  intros nx ny v t iterations occ Hx Hy Hv Ht small uniform. unfold noise_mask.
  destruct (two_iterations (nx * ny) (blurred nx ny 3 3) (above nx ny t) occ _ (corner_pixel nx ny)
    (tmp_first nx ny v t occ Hx Hy Hv Ht uniform small) eq_refl (tmp_second nx ny v t occ Hx Hy Hv Ht uniform small) iterations) as (m & j & E & H).
  exists m, j. split; [exact E|]. intros c r Lc Lr. rewrite H, corner_at by (auto using pixel_range). unfold corner. now rewrite andb_true_iff, !orb_true_iff, !Nat.eqb_eq.
Qed.
Example C122_corners_ex : 4 <= 20 /\ 4 <= 20 /\ (0 < 7)%Z /\ (0 <= 10)%R /\ (10 ^ 2 * (4 / INR (20 * 20) * (1 - 4 / INR (20 * 20))) < 1)%R /\ (forall i, i < 20 * 20 -> (fun _ => 7%Z) i = 7%Z).
Proof. repeat split; try lia; try lra. replace (INR (20 * 20)) with 400%R by (rewrite mult_INR; cbn; lra). lra. Qed.
Example C122_median_ex : [3; 0; 5; 0; 3]%Z <> [] /\ middle [3; 0; 5; 0; 3]%Z 3.
Proof. split; [discriminate|]. split; [now left|]. cbn. lia. Qed.

(** *** Specification: the pixels with hits in the window around a pixel. *)
Definition near (fx fy c r c' r' : nat) : bool :=
  (c <=? c' + fx / 2) && (c' + fx / 2 <? c + fx) && ((r <=? r' + fy / 2) && (r' + fy / 2 <? r + fy)).
Definition hits_near (nx ny fx fy : nat) (occ : nat -> Z) (c r : nat) : nat :=
  length (filter (fun i => negb (occ i =? 0)%Z && near fx fy c r (i / ny) (i mod ny)) (seq 0 (nx * ny))).

Lemma nodup_both {A} (l m : list A) : NoDup l -> NoDup m -> (forall x, In x l -> ~ In x m) -> NoDup (l ++ m).
Proof. intros Hl Hm. induction Hl as [|x l Hx Hl IH]; intros D; cbn; auto. constructor. - rewrite in_app_iff. intros [I|I]; [auto|now apply (D x (or_introl eq_refl))]. - apply IH. intros y I. apply D. now right. Qed.
Lemma prod_nodup {A B} (a : list A) (b : list B) : NoDup a -> NoDup b -> NoDup (list_prod a b).
Proof.
  intros Ha Hb. induction Ha as [|x a Hx Ha IH]; cbn; [constructor|]. apply nodup_both; auto.
  - apply FinFun.Injective_map_NoDup; auto. intros u w E. now inversion E.
  - intros p I J. apply in_map_iff in I as (y & <- & I). apply in_prod_iff in J. tauto.
Qed.
Lemma offsets_nodup n : NoDup (offsets n).
Proof. unfold offsets. apply FinFun.Injective_map_NoDup; [|apply seq_NoDup]. intros u w E. lia. Qed.
Lemma in_offsets n o : In o (offsets n) <-> (- Z.of_nat (n / 2) <= o < Z.of_nat n - Z.of_nat (n / 2))%Z.
Proof.
  unfold offsets. rewrite in_map_iff. split.
  - intros (k & <- & I). apply in_seq in I. lia.
  - intros H. exists (Z.to_nat (o + Z.of_nat (n / 2))). split; [lia|]. apply in_seq. lia.
Qed.
Lemma filter_map_length {A B} (f : A -> B) (p : B -> bool) l : length (filter p (map f l)) = length (filter (fun a => p (f a)) l).
Proof. induction l as [|a l IH]; cbn; auto. destruct (p (f a)); cbn; congruence. Qed.

Section Sparse.
  Variables (nx ny fx fy : nat) (v : Z) (t : R) (occ : nat -> Z).
  Hypothesis Hfx : 0 < fx.
  Hypothesis Hfy : 0 < fy.
  Hypothesis Hv : (0 < v)%Z.
  Hypothesis same : forall i, i < nx * ny -> occ i = 0%Z \/ occ i = v.
  Hypothesis sparse : forall c r, c < nx -> r < ny -> occ (pixel ny c r) = v -> 2 * hits_near nx ny fx fy occ c r < fx * fy.
  Notation g := (fun c r => negb (occ (pixel ny (Z.to_nat c) (Z.to_nat r)) =? 0)%Z).
  Lemma sparse_shows : shows nx ny occ g v.
  Proof using Hfx Hfy Hv same. intros c r Lc Lr. cbv beta. rewrite !Nat2Z.id. destruct (same _ (pixel_range nx ny c r Lc Lr)) as [-> | ->]; auto. destruct (Z.eqb_spec v 0); [lia|reflexivity]. Qed.
  Lemma window_hits c r : c < nx -> r < ny ->
    n_true (map (fun o => inside nx ny (Z.of_nat c + fst o) (Z.of_nat r + snd o) && g (Z.of_nat c + fst o)%Z (Z.of_nat r + snd o)%Z) (list_prod (offsets fx) (offsets fy)))
    <= hits_near nx ny fx fy occ c r.
  Proof using Hfx Hfy v.
    intros Lc Lr. unfold n_true. rewrite filter_map_length. set (P := fun o => _).
    set (F := fun o : Z * Z => pixel ny (Z.to_nat (Z.of_nat c + fst o)) (Z.to_nat (Z.of_nat r + snd o))).
    assert (Hx2 := Nat.div_lt fx 2 Hfx ltac:(lia)). assert (Hy2 := Nat.div_lt fy 2 Hfy ltac:(lia)).
    assert (In1 : forall o, In o (filter P (list_prod (offsets fx) (offsets fy))) ->
      (0 <= Z.of_nat c + fst o < Z.of_nat nx)%Z /\ (0 <= Z.of_nat r + snd o < Z.of_nat ny)%Z /\ occ (F o) <> 0%Z /\ In (fst o) (offsets fx) /\ In (snd o) (offsets fy)).
    { intros [a b] I. apply filter_In in I as (I & Q). apply in_prod_iff in I as (Ia & Ib). unfold P, inside in Q. cbn [fst snd] in *.
      rewrite !andb_true_iff, !Z.leb_le, !Z.ltb_lt, negb_true_iff, Z.eqb_neq in Q. unfold F. cbn [fst snd]. tauto. }
    unfold hits_near. rewrite <- (map_length F). apply NoDup_incl_length.
    - assert (ND : NoDup (filter P (list_prod (offsets fx) (offsets fy)))) by (apply NoDup_filter, prod_nodup; apply offsets_nodup).
      revert ND In1. generalize (filter P (list_prod (offsets fx) (offsets fy))). induction l as [|o l IH]; intros ND In1; cbn; [constructor|]. inversion ND as [|? ? N1 N2]; subst.
      constructor; [|apply IH; auto; intros; apply In1; now right]. intros J. apply in_map_iff in J as (o' & E & J).
      destruct (In1 o (or_introl eq_refl)) as (A1 & A2 & _). destruct (In1 o' (or_intror J)) as (B1 & B2 & _).
      unfold F in E. apply pixel_inj in E; try lia. apply N1. replace o with o'; auto. destruct o as [a b], o' as [a' b']. cbn [fst snd] in *. f_equal; lia.
    - intros i I. apply in_map_iff in I as (o & <- & I). destruct (In1 o I) as (A1 & A2 & A3 & A4 & A5). apply in_offsets in A4, A5.
      assert (L : F o < nx * ny) by (unfold F; apply pixel_range; lia). apply filter_In. split; [apply in_seq; lia|].
      unfold F at 2 3. destruct (pixel_div ny (Z.to_nat (Z.of_nat c + fst o)) (Z.to_nat (Z.of_nat r + snd o)) ltac:(lia)) as (-> & ->).
      unfold near. rewrite !andb_true_iff, !Nat.leb_le, !Nat.ltb_lt, negb_true_iff, Z.eqb_neq. split; [exact A3|]. lia.
  Qed.
  Lemma sparse_blur c r : c < nx -> r < ny -> occ (pixel ny c r) = v -> blurred nx ny fx fy occ (pixel ny c r) = 0%Z.
  Proof using Hfx Hfy Hv same sparse.
    intros Lc Lr E. rewrite (blurred_shows nx ny fx fy occ _ v c r Hv Hfx Hfy sparse_shows) by auto. assert (W := window_hits c r Lc Lr). assert (S := sparse c r Lc Lr E).
    match goal with |- (if ?a <=? ?b then _ else _) = _ => destruct (Nat.leb_spec a b) as [G|G]; auto end.
    exfalso. assert (2 * (fx * fy / 2) <= fx * fy) by (apply Nat.mul_div_le; lia). lia.
  Qed.
  Notation blur := (blurred nx ny fx fy).
  Lemma sparse_noise : noise nx ny occ (blur occ) = 0%R.
  Proof using Hfx Hfy Hv same sparse.
    unfold noise. rewrite <- (std_same (IZR v / sqrt (IZR v))%R (hit_pixels nx ny occ)). f_equal. apply map_ext_in. intros i I. unfold hit_pixels in I. apply filter_In in I as (I & J).
    apply in_seq in I. apply negb_true_iff, Z.eqb_neq in J. destruct (pixel_of nx ny i ltac:(lia)) as (c & r & Lc & Lr & ->). destruct (same (pixel ny c r) ltac:(lia)) as [E|E]; [tauto|].
    unfold normalized. rewrite sparse_blur, E, Z.sub_0_r by auto. reflexivity.
  Qed.
  Lemma sparse_first i : i < nx * ny -> tmp_mask blur (above nx ny t) occ i = negb (occ i =? 0)%Z.
  Proof using Hfx Hfy Hv same sparse.
    intros L. unfold tmp_mask. destruct (Z.eqb_spec (occ i) 0) as [E|E]; [reflexivity|]. cbn [negb andb]. apply above_iff. rewrite sparse_noise, Rmult_0_r, Rmult_0_l.
    destruct (pixel_of nx ny i L) as (c & r & Lc & Lr & ->). destruct (same _ L) as [E'|E']; [tauto|]. rewrite sparse_blur, E', Z.sub_0_r by auto. now apply IZR_lt.
  Qed.
  Notation occ2 := (new_occ blur (above nx ny t) occ (fun _ => false)).
  Lemma sparse_second i : i < nx * ny -> tmp_mask blur (above nx ny t) occ2 i = true -> negb (occ i =? 0)%Z = true.
  Proof using Hfx Hfy Hv same sparse.
    intros L H. unfold tmp_mask at 1 in H. apply andb_true_iff in H as (H & _). apply negb_true_iff, Z.eqb_neq in H. unfold new_occ, new_mask in H. cbn [orb] in H. rewrite sparse_first in H by auto.
    destruct (Z.eqb_spec (occ i) 0); [cbn [negb] in H; congruence|reflexivity].
  Qed.
End Sparse.

(** With few hits every pixel with a hit is masked, for every threshold: if all pixels with hits have the same number of hits and fewer than half of the positions around each have hits, the noise level is 0. *)
Theorem C122_sparse_refuted : forall nx ny fx fy v t iterations occ, 0 < fx -> 0 < fy -> (0 < v)%Z ->
  (forall i, i < nx * ny -> occ i = 0%Z \/ occ i = v) ->
  (forall c r, c < nx -> r < ny -> occ (pixel ny c r) = v -> 2 * hits_near nx ny fx fy occ c r < fx * fy) ->
  exists m j, noise_mask nx ny fx fy t iterations occ = Some (m, j) /\ forall i, i < nx * ny -> m i = true <-> occ i <> 0%Z.
Proof.
  intros nx ny fx fy v t iterations occ Hfx Hfy Hv same sparse. unfold noise_mask.
  destruct (two_iterations (nx * ny) (blurred nx ny fx fy) (above nx ny t) occ _ (fun i => negb (occ i =? 0)%Z)
    (sparse_first nx ny fx fy v t occ Hfx Hfy Hv same sparse) eq_refl (sparse_second nx ny fx fy v t occ Hfx Hfy Hv same sparse) iterations) as (m & j & E & H).
  exists m, j. split; [exact E|]. intros i L. now rewrite H, negb_true_iff, Z.eqb_neq.
Qed.

Example C122_sparse_ex : let occ := fun i => if (i =? 7) || (i =? 28) then 1%Z else 0%Z in
  0 < 3 /\ 0 < 3 /\ (0 < 1)%Z /\ (forall i, i < 6 * 6 -> occ i = 0%Z \/ occ i = 1%Z) /\ occ (pixel 6 1 1) = 1%Z /\
  (forall c r, c < 6 -> r < 6 -> occ (pixel 6 c r) = 1%Z -> 2 * hits_near 6 6 3 3 occ c r < 3 * 3).
Proof.
  intros occ. repeat split; try lia; try lra. { intros i _. unfold occ. destruct (_ || _); auto. }
  intros c r Lc Lr E. unfold occ in E. destruct ((pixel 6 c r =? 7) || (pixel 6 c r =? 28)) eqn:F; [|discriminate]. apply orb_true_iff in F. rewrite !Nat.eqb_eq in F.
  assert (P : (c = 1 /\ r = 1) \/ (c = 4 /\ r = 4)) by (unfold pixel in F; lia). destruct P as [(-> & ->)|(-> & ->)]; vm_compute; lia.
Qed.

(** *** the number of pixels marked by one iteration *)
Lemma sum_squares l : l <> [] -> sum (map (fun x => x ^ 2)%R l) = (INR (length l) * (std l ^ 2 + mean l ^ 2))%R.
Proof.
  intros N. assert (E := std_sum l N). assert (P : (0 < INR (length l))%R) by (apply lt_0_INR; destruct l; [congruence|cbn; lia]).
  assert (M : (INR (length l) * mean l = sum l)%R) by (unfold mean; field; lra).
  assert (X : forall m (k : list R), sum (map (fun x => (x - m) ^ 2)%R k) = (sum (map (fun x => x ^ 2)%R k) - 2 * m * sum k + INR (length k) * m ^ 2)%R).
  { intros m. induction k as [|x k IH]; [cbn; lra|]. cbn [map length]. change (sum (?u :: ?w)) with (u + sum w)%R. rewrite IH, S_INR. lra. }
  rewrite X in E. rewrite <- M in E. nra.
Qed.
Lemma sum_at_least (b : nat -> bool) (f : nat -> R) y l : (forall i, 0 <= f i)%R -> (forall i, In i l -> b i = true -> y <= f i)%R -> (INR (length (filter b l)) * y <= sum (map f l))%R.
Proof.
  intros F. induction l as [|i l IH]; intros H; [cbn; lra|]. cbn [map filter]. change (sum (?u :: ?w)) with (u + sum w)%R. assert (IH' := IH (fun j J => H j (or_intror J))). assert (K := H i (or_introl eq_refl)). specialize (F i).
  destruct (b i); [|lra]. cbn [length]. rewrite S_INR. specialize (K eq_refl). lra.
Qed.
(** One iteration marks at most N / t^2 * (1 + (mean / noise)^2) of the N pixels with hits (written without division), and each of them has more hits than the filtered image. *)
Theorem C122_fraction : forall nx ny fx fy t occ, (0 <= t)%R -> (forall i, (0 <= occ i)%Z) ->
  let marked := filter (tmp_mask (blurred nx ny fx fy) (above nx ny t) occ) (seq 0 (nx * ny)) in
  let hit := filter (fun i => negb (occ i =? 0)%Z) (seq 0 (nx * ny)) in
  let ds := map (fun i => IZR (occ i - blurred nx ny fx fy occ i) / sqrt (IZR (occ i)))%R hit in
  (INR (length marked) * (t * std ds) ^ 2 <= INR (length hit) * (std ds ^ 2 + mean ds ^ 2))%R
  /\ forall i, In i marked -> (IZR (occ i - blurred nx ny fx fy occ i) / sqrt (IZR (occ i)) > t * std ds)%R /\ (occ i > blurred nx ny fx fy occ i)%Z.
Proof.
  intros nx ny fx fy t occ Ht Hocc marked hit ds.
  assert (E : marked = filter (tmp_mask (blurred nx ny fx fy) (above nx ny t) occ) hit).
  { unfold marked, hit. generalize (seq 0 (nx * ny)). intros l. induction l as [|i l IH]; auto. cbn [filter]. destruct (occ i =? 0)%Z eqn:Z; cbn [negb].
    - assert (T : tmp_mask (blurred nx ny fx fy) (above nx ny t) occ i = false) by (unfold tmp_mask; now rewrite Z). rewrite T. exact IH.
    - cbn [filter]. destruct (tmp_mask _ _ occ i); [f_equal|]; exact IH. }
  assert (M : forall i, In i hit -> tmp_mask (blurred nx ny fx fy) (above nx ny t) occ i = true -> (IZR (occ i - blurred nx ny fx fy occ i) / sqrt (IZR (occ i)) > t * std ds)%R).
  { intros i I T. unfold tmp_mask in T. apply andb_true_iff in T as (Z & A). apply negb_true_iff, Z.eqb_neq in Z. apply above_iff in A. change (noise nx ny occ (blurred nx ny fx fy occ)) with (std ds) in A.
    assert (P : (0 < sqrt (IZR (occ i)))%R) by (apply sqrt_lt_R0, IZR_lt; specialize (Hocc i); lia).
    apply Rlt_gt. apply Rmult_lt_reg_r with (sqrt (IZR (occ i))); auto. replace (_ / _ * _)%R with (IZR (occ i - blurred nx ny fx fy occ i)) by (field; lra). exact A. }
  assert (S := std_pos ds). split.
  - assert (L : length ds = length hit) by (unfold ds; apply map_length).
    assert (D : hit = [] \/ hit <> []) by (destruct hit; [now left|right; discriminate]). destruct D as [D|D]. { rewrite E, D. cbn. lra. }
    rewrite <- L, <- sum_squares. 2:{ intros F. apply (f_equal (@length R)) in F. rewrite L in F. apply D. now apply length_zero_iff_nil. }
    unfold ds at 2. rewrite map_map, E.
    apply sum_at_least. { intros i. apply pow2_ge_0. } intros i I T. assert (G := M i I T). apply pow_incr. split; [apply Rmult_le_pos; lra|lra].
  - intros i I. rewrite E in I. apply filter_In in I as (I & T). assert (G := M i I T). split; auto.
    apply filter_In in I as (_ & Z). apply negb_true_iff, Z.eqb_neq in Z. assert (P : (0 < sqrt (IZR (occ i)))%R) by (apply sqrt_lt_R0, IZR_lt; specialize (Hocc i); lia).
    apply Z.lt_gt. apply Z.lt_0_sub. apply lt_IZR. assert (K : (0 <= t * std ds)%R) by (apply Rmult_le_pos; lra).
    replace (IZR (occ i - blurred nx ny fx fy occ i)) with (IZR (occ i - blurred nx ny fx fy occ i) / sqrt (IZR (occ i)) * sqrt (IZR (occ i)))%R by (field; lra). apply Rmult_lt_0_compat; lra.
Qed.

Example C122_fraction_ex : (0 <= 10)%R /\ (forall i : nat, (0 <= (fun _ => 7) i)%Z) /\ In 0 (filter (tmp_mask (blurred 20 20 3 3) (above 20 20 10) (fun _ => 7%Z)) (seq 0 (20 * 20))).
Proof.
  destruct C122_corners_ex as (A & B & C & D & E & F). split; [exact D|]. split; [intros; lia|]. apply filter_In. split; [apply in_seq; lia|].
  rewrite (tmp_first 20 20 7 10 (fun _ => 7%Z) A B C D F E) by lia. reflexivity.
Qed.

(** *** the masks read by the clustering *)
Definition before (p q : nat * nat) : Prop := fst p < fst q \/ (fst p = fst q /\ snd p < snd q).
(** The clustering gets the columns and rows, from 1, of exactly the pixels of the mask, column by column. *)
Theorem C122_pixels : forall nx ny mask,
  (forall c r, In (c, r) (mask_list nx ny mask) <-> (1 <= c <= nx /\ 1 <= r <= ny /\ mask (pixel ny (c - 1) (r - 1)) = true))
  /\ StronglySorted before (mask_list nx ny mask).
Proof.
  intros nx ny mask. unfold mask_list. split.
  - intros c r. rewrite in_map_iff. split.
    + intros (i & E & I). apply filter_In in I as (I & M). apply in_seq in I. destruct (pixel_of nx ny i ltac:(lia)) as (c' & r' & Lc & Lr & ->).
      destruct (pixel_div ny c' r' Lr) as (D1 & D2). rewrite D1, D2 in E. inversion E; subst c r. rewrite !Nat.sub_succ, !Nat.sub_0_r. repeat split; auto; lia.
    + intros (Lc & Lr & M). exists (pixel ny (c - 1) (r - 1)). destruct (pixel_div ny (c - 1) (r - 1) ltac:(lia)) as (-> & ->). split; [f_equal; lia|].
      apply filter_In. split; auto. apply in_seq. assert (B := pixel_range nx ny (c - 1) (r - 1) ltac:(lia) ltac:(lia)). lia.
  - assert (G : forall n k, k + n <= nx * ny -> StronglySorted before (map (fun i => (S (i / ny), S (i mod ny))) (filter mask (seq k n)))).
    2:{ apply G. lia. }
    induction n as [|n IH]; intros k L; [constructor|]. cbn [seq filter]. assert (IH' := IH (S k) ltac:(lia)). destruct (mask k); auto. cbn [map]. constructor; auto.
    apply Forall_forall. intros p I. apply in_map_iff in I as (i & <- & I). apply filter_In in I as (I & _). apply in_seq in I.
    destruct (pixel_of nx ny i ltac:(lia)) as (c' & r' & Lc' & Lr' & Ei). destruct (pixel_of nx ny k ltac:(lia)) as (c & r & Lc & Lr & Ek).
    assert (Lt : pixel ny c r < pixel ny c' r') by lia. rewrite Ei, Ek. destruct (pixel_div ny c r Lr) as (-> & ->). destruct (pixel_div ny c' r' Lr') as (-> & ->).
    unfold before. cbn [fst snd]. unfold pixel in Lt. destruct (Nat.lt_trichotomy c c') as [H|[H|H]]; [lia|subst; lia|nia].
Qed.

(** What the clustering reads: the mask found under its name, and the mask of disabled pixels as given. *)
Theorem C122_nodes : forall M name has_indices (found : M) disable_mask noisy disabled,
  (exists nodes, mask_nodes name has_indices found disable_mask = inr nodes /\ read_mask NoisyName nodes = noisy /\ read_mask DisabledName nodes = disabled) <->
  has_indices = true /\ ((name = NoisyName /\ noisy = Some found /\ disabled = disable_mask) \/ (name = DisabledName /\ disable_mask = None /\ noisy = None /\ disabled = Some found)).
Proof.
  intros M name h found d a b. split.
  - intros (nodes & E & <- & <-). destruct h; [|destruct name; discriminate]. split; auto. destruct name, d as [x|]; cbn in E; try discriminate; inversion E; subst nodes; cbn; auto.
  - intros (-> & [(-> & -> & ->)|(-> & -> & -> & ->)]); [|eexists; split; [reflexivity|split; reflexivity]]. destruct d; eexists; (split; [reflexivity|split; reflexivity]).
Qed.
(** Both a mask of disabled pixels and the name DisabledPixelMask: the second node cannot be created. *)
Theorem C122_disabled_refuted : forall M has_indices (found disable_mask : M), mask_nodes DisabledName has_indices found (Some disable_mask) = inl (if has_indices then NameExists else NoIndices).
Proof. intros M [|]; reflexivity. Qed.
Example C122_pixels_ex : mask_list 2 3 (fun i => (i =? 1) || (i =? 3)) = [(1, 2); (2, 1)].
Proof. reflexivity. Qed.
Example C122_nodes_ex : exists nodes, mask_nodes NoisyName true 1 (Some 2) = inr nodes /\ read_mask NoisyName nodes = Some 1 /\ read_mask DisabledName nodes = Some 2.
Proof. eexists. split; [reflexivity|split; reflexivity]. Qed.

Print Assumptions C122_median.
Print Assumptions C122_corners_refuted.
Print Assumptions C122_sparse_refuted.
Print Assumptions C122_fraction.
Print Assumptions C122_pixels.
Print Assumptions C122_nodes.
Print Assumptions C122_disabled_refuted.
