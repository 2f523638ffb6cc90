(** Statistics of bins and filling of invalid cells (C110, C111). *)
From Coq Require Import List Arith ZArith Reals Bool Lia Lra Permutation.
From Flocq Require Import Core.
From Verif Require Import BinStatModel.
Import ListNotations.
Local Open Scope R_scope.

(** *** Splitting *)
Lemma split_rows {A} (f : nat -> list A) n : forall k m pre, length pre = length (flat_map f (seq 0 m)) -> (k + m = n)%nat ->
  np_split (pre ++ flat_map f (seq m (S k))) (length pre) (map (fun j => length (flat_map f (seq 0 j))) (seq (S m) k)) = map f (seq m (S k)).
Proof.
  induction k as [|k IH]; intros m pre Hl Hn.
  - cbn [seq map np_split]. rewrite skipn_app, skipn_all, Nat.sub_diag. cbn. rewrite app_nil_r. reflexivity.
  - change (seq (S m) (S k)) with (S m :: seq (S (S m)) k). change (seq m (S (S k))) with (m :: seq (S m) (S k)). cbn [map flat_map np_split].
    assert (L : length (flat_map f (seq 0 (S m))) = (length pre + length (f m))%nat).
    { rewrite seq_S, flat_map_app, app_length. cbn. rewrite app_nil_r, Hl. reflexivity. }
    rewrite L. f_equal.
    + rewrite skipn_app, skipn_all, Nat.sub_diag. cbn [skipn app]. replace (length pre + length (f m) - length pre)%nat with (length (f m) + 0)%nat by lia. rewrite firstn_app_2. cbn. apply app_nil_r.
    + rewrite app_assoc, <- app_length. apply IH; [rewrite app_length, L; reflexivity|lia].
Qed.
Lemma inner_indptr {A} nbins rows (values : list A) : (1 <= nbins)%nat -> inner (csr_indptr nbins rows values) = map (fun j => length (flat_map (csr_row rows values) (seq 0 j))) (seq 1 (nbins - 1)).
Proof.
  intros H. destruct nbins as [|n]; [lia|]. unfold inner, csr_indptr. change (seq 0 (S (S n))) with (0%nat :: seq 1 (S n)). cbn [map tl]. rewrite seq_S, map_app. cbn [map]. rewrite removelast_last. f_equal. f_equal. lia.
Qed.
Lemma groups_value {A} nbins rows (values : list A) : (1 <= nbins)%nat -> np_split (csr_data nbins rows values) 0 (inner (csr_indptr nbins rows values)) = map (csr_row rows values) (seq 0 nbins).
Proof.
  intros H. rewrite inner_indptr by auto. destruct nbins as [|n]; [lia|]. replace (S n - 1)%nat with n by lia. exact (split_rows (csr_row rows values) n n 0 [] eq_refl ltac:(lia)).
Qed.

(** the bin of a number: only numbers up to one bin below the range and before its end have a bin *)
Lemma digitized_spec nbins r0 r1 x i : (1 <= nbins)%nat -> r0 < r1 -> (0 <= i)%Z ->
  digitized nbins r0 r1 x = i <-> (let w := (r1 - r0) / INR nbins in (i = 0%Z /\ r0 - w < x < r0 + w) \/ (0 < i)%Z /\ r0 + IZR i * w <= x < r0 + IZR (i + 1) * w).
Proof.
  intros Hn Hr Hi. cbv zeta. assert (N : 0 < INR nbins) by (apply lt_0_INR; lia). set (w := (r1 - r0) / INR nbins). assert (W : 0 < w) by (unfold w; apply Rdiv_lt_0_compat; lra).
  unfold digitized. set (y := INR nbins / (r1 - r0) * (x - r0)). assert (X : x = r0 + y * w) by (unfold y, w; field; lra). rewrite X. clearbody y w. clear X.
  assert (M : forall a b : R, r0 + a * w < r0 + b * w <-> a < b) by (intros; split; intros; nra).
  assert (M2 : forall a b : R, r0 + a * w <= r0 + b * w <-> a <= b) by (intros; split; intros; nra).
  assert (Z0 : Ztrunc y = 0%Z <-> -1 < y < 1).
  { split; intros H.
    - destruct (Rle_dec 0 y) as [P|P].
      + rewrite Ztrunc_floor in H by auto. pose proof (Zfloor_ub y). rewrite H in H0. cbn in H0. lra.
      + rewrite Ztrunc_ceil in H by lra. pose proof (Zceil_lb y). rewrite H in H0. cbn in H0. lra.
    - destruct (Rle_dec 0 y) as [P|P].
      + rewrite Ztrunc_floor by auto. apply Zfloor_imp. cbn. lra.
      + rewrite Ztrunc_ceil by lra. apply Zceil_imp. cbn. lra. }
  split.
  - intros H. destruct (Z.eq_dec i 0) as [->|Ne].
    + left. split; [reflexivity|]. apply Z0 in H. split; nra.
    + right. split; [lia|]. rewrite M, M2. assert (P : 0 <= y).
      { destruct (Rle_dec 0 y) as [P|P]; [exact P|exfalso]. rewrite Ztrunc_ceil in H by lra. pose proof (Zceil_lb y) as B. rewrite H in B. assert (1 <= IZR i) by (apply IZR_le; lia). lra. }
      rewrite Ztrunc_floor in H by auto. rewrite <- H. split; [apply Zfloor_lb|]. rewrite plus_IZR. apply Zfloor_ub.
  - intros [[-> H]|[Hp H]].
    + apply Z0. split; nra.
    + rewrite M, M2 in H. assert (0 < IZR i) by (apply IZR_lt; lia). rewrite Ztrunc_floor by lra. apply Zfloor_imp. exact H.
Qed.

(** *** C110 *)
(** the values of the numbers with a property, in their order *)
Inductive selected {A} (P : R -> Prop) : list R -> list A -> list A -> Prop :=
| selected_nil : selected P [] [] []
| selected_in x v xs vs l : P x -> selected P xs vs l -> selected P (x :: xs) (v :: vs) (v :: l)
| selected_out x v xs vs l : ~ P x -> selected P xs vs l -> selected P (x :: xs) (v :: vs) l.
Lemma row_selected {A} nbins r0 r1 i (P : R -> Prop) : (forall x, digitized nbins r0 r1 x = Z.of_nat i <-> P x) -> forall x (values : list A), length x = length values ->
  selected P x values (csr_row (map (digitized nbins r0 r1) x) values i).
Proof.
  intros HP. induction x as [|y x IH]; intros [|v values] L; try discriminate L; [constructor|].
  unfold csr_row. cbn [map combine filter fst]. destruct (Z.eqb_spec (digitized nbins r0 r1 y) (Z.of_nat i)) as [E|E]; cbn [map snd].
  - apply selected_in; [apply HP, E|apply IH; injection L; auto].
  - apply selected_out; [rewrite <- HP; exact E|apply IH; injection L; auto].
Qed.
(** If all numbers are in the range [r0, r1), the result is the function of the values of every bin [r0 + i w, r0 + (i + 1) w), in the order of the values. *)
Theorem C110_groups : forall V W (func : list V -> W) nbins r0 r1 x values, (1 <= nbins)%nat -> r0 < r1 -> length x = length values -> Forall (fun x => r0 <= x < r1) x ->
  exists groups, binned_statistic func nbins r0 r1 x values = Some (map func groups) /\ length groups = nbins /\
  forall i, (i < nbins)%nat -> let w := (r1 - r0) / INR nbins in selected (fun x => r0 <= x < r1 /\ r0 + INR i * w <= x < r0 + INR (i + 1) * w) x values (nth i groups []).
Proof.
  intros V W func nbins r0 r1 x values Hn Hr L F. assert (N : 0 < INR nbins) by (apply lt_0_INR; lia). set (rows := map (digitized nbins r0 r1) x). exists (map (csr_row rows values) (seq 0 nbins)).
  assert (Wp : 0 < (r1 - r0) / INR nbins) by (apply Rdiv_lt_0_compat; lra).
  assert (B : Forall (fun x => (0 <= digitized nbins r0 r1 x < Z.of_nat nbins)%Z) x).
  { eapply Forall_impl; [|exact F]. intros a [A1 A2]. unfold digitized. assert (Y : 0 <= INR nbins / (r1 - r0) * (a - r0) < INR nbins).
    { split; [apply Rmult_le_pos; [left; apply Rdiv_lt_0_compat; lra|lra]|]. apply Rmult_lt_reg_r with ((r1 - r0) / INR nbins); [exact Wp|]. replace (INR nbins / (r1 - r0) * (a - r0) * ((r1 - r0) / INR nbins)) with (a - r0) by (field; lra).
      replace (INR nbins * ((r1 - r0) / INR nbins)) with (r1 - r0) by (field; lra). lra. }
    rewrite Ztrunc_floor by lra. split; [apply Zfloor_lub; cbn; lra|]. apply lt_IZR. rewrite <- INR_IZR_INZ. eapply Rle_lt_trans; [apply Zfloor_lb|]. lra. }
  split; [|split].
  - unfold binned_statistic. fold rows. rewrite L, Nat.eqb_refl. cbn [andb]. rewrite groups_value by auto.
    replace (forallb _ rows) with true; [reflexivity|]. symmetry. apply forallb_forall. unfold rows. intros z Hz. apply in_map_iff in Hz. destruct Hz as (a & <- & Ha). rewrite Forall_forall in B. specialize (B a Ha).
    apply andb_true_intro. split; [apply Z.leb_le|apply Z.ltb_lt]; lia.
  - rewrite map_length, seq_length. reflexivity.
  - intros i Hi. cbv zeta. set (w := (r1 - r0) / INR nbins) in *. rewrite (nth_indep _ [] (csr_row rows values 0)) by (rewrite map_length, seq_length; exact Hi). rewrite map_nth, seq_nth by exact Hi. cbn [Nat.add].
    assert (G : selected (fun x => digitized nbins r0 r1 x = Z.of_nat i) x values (csr_row rows values i)) by (apply row_selected; [intros; reflexivity|exact L]).
    clearbody rows. revert G. generalize (csr_row rows values i) as l. intros l G. clear L B.
    induction G as [|y v xs vs l P G IH|y v xs vs l P G IH]; [constructor| |]; inversion F as [|? ? Fy Fx]; subst.
    + apply selected_in; [|apply IH; exact Fx]. split; [exact Fy|]. apply digitized_spec in P; [|auto|auto|lia]. cbv zeta in P. fold w in P. rewrite !INR_IZR_INZ, Nat2Z.inj_add. cbn [Z.of_nat Pos.of_succ_nat].
      destruct P as [[E P]|[_ P]]; [|exact P]. rewrite E. cbn. lra.
    + apply selected_out; [|apply IH; exact Fx]. intros [_ Q]. apply P. apply digitized_spec; [auto|auto|lia|]. cbv zeta. fold w. rewrite !INR_IZR_INZ, Nat2Z.inj_add in Q. cbn [Z.of_nat Pos.of_succ_nat] in Q.
      destruct (Z.eq_dec (Z.of_nat i) 0) as [E|E]; [left|right; split; [lia|exact Q]]. split; [exact E|]. rewrite E in Q. cbn in Q. lra.
Qed.
(** A number at the upper end of the range, or above, is an error for the whole array. *)
Theorem C110_end_refuted : forall V W (func : list V -> W) nbins r0 r1 x values y, (1 <= nbins)%nat -> r0 < r1 -> In y x -> r1 <= y -> binned_statistic func nbins r0 r1 x values = None.
Proof.
  intros V W func nbins r0 r1 x values y Hn Hr Hy Hv. assert (N : 0 < INR nbins) by (apply lt_0_INR; lia). unfold binned_statistic. replace (forallb _ _) with false; [rewrite andb_false_r; reflexivity|]. symmetry.
  apply not_true_is_false. rewrite forallb_forall. intros H. specialize (H _ (in_map (digitized nbins r0 r1) x y Hy)). apply andb_prop in H. destruct H as [_ H]. apply Z.ltb_lt in H. unfold digitized in H.
  assert (Y : INR nbins <= INR nbins / (r1 - r0) * (y - r0)).
  { replace (INR nbins) with (INR nbins / (r1 - r0) * (r1 - r0)) at 1 by (field; lra). apply Rmult_le_compat_l; [left; apply Rdiv_lt_0_compat; lra|lra]. }
  rewrite Ztrunc_floor in H by lra. assert (Z.of_nat nbins <= Zfloor (INR nbins / (r1 - r0) * (y - r0)))%Z; [|lia]. apply Zfloor_lub. rewrite <- INR_IZR_INZ. exact Y.
Qed.
(** A number below the range, by less than a bin, is counted in the first bin; a number further below is an error. *)
Theorem C110_below_refuted : forall V W (func : list V -> W) nbins r0 r1 y v, (1 <= nbins)%nat -> r0 < r1 -> let w := (r1 - r0) / INR nbins in
  (r0 - w < y < r0 -> binned_statistic func nbins r0 r1 [y] [v] = Some (func [v] :: repeat (func []) (nbins - 1))) /\
  (y <= r0 - w -> forall x values, In y x -> binned_statistic func nbins r0 r1 x values = None).
Proof.
  intros V W func nbins r0 r1 y v Hn Hr w. assert (N : 0 < INR nbins) by (apply lt_0_INR; lia). assert (Wp : 0 < w) by (apply Rdiv_lt_0_compat; lra). split.
  - intros Hy. assert (D : digitized nbins r0 r1 y = 0%Z) by (apply digitized_spec; auto; [lia|]; left; split; [reflexivity|]; fold w; lra).
    unfold binned_statistic. cbn [map length Nat.eqb forallb andb]. rewrite D. replace (0 <? Z.of_nat nbins)%Z with true by (symmetry; apply Z.ltb_lt; lia). cbn [Z.leb Z.compare andb].
    rewrite groups_value by auto. destruct nbins as [|n]; [lia|]. replace (S n - 1)%nat with n by lia. cbn [seq map]. f_equal. f_equal.
    rewrite <- seq_shift, map_map. clear. assert (G : forall l, map (fun i => func (csr_row [0%Z] [v] (S i))) l = repeat (func []) (length l)).
    { induction l as [|a l IH]; [reflexivity|]. cbn [map length repeat]. rewrite IH. f_equal. }
    rewrite map_map, G, seq_length. reflexivity.
  - intros Hy x values Hi. unfold binned_statistic. replace (forallb _ _) with false; [rewrite andb_false_r; reflexivity|]. symmetry. apply not_true_is_false. rewrite forallb_forall.
    intros H. specialize (H _ (in_map (digitized nbins r0 r1) x y Hi)). apply andb_prop in H. destruct H as [H _]. apply Z.leb_le in H.
    pose proof (proj1 (digitized_spec nbins r0 r1 y _ Hn Hr H) eq_refl) as S. cbv zeta in S. fold w in S. destruct S as [[_ S]|[P S]]; [lra|]. assert (0 < IZR (digitized nbins r0 r1 y)) by (apply IZR_lt; exact P). nra.
Qed.
(** Every value is in one group: the groups together are a permutation of the values, if there is a result. *)
Theorem C110_all : forall V nbins r0 r1 x (values : list V) groups, (1 <= nbins)%nat -> binned_statistic (fun g => g) nbins r0 r1 x values = Some groups -> Permutation (concat groups) values.
Proof.
  intros V nbins r0 r1 x values groups Hn E. unfold binned_statistic in E. destruct ((length x =? length values)%nat && _) eqn:G; [|discriminate E]. apply andb_prop in G. destruct G as [G1 G2]. apply Nat.eqb_eq in G1.
  rewrite groups_value, map_id in E by auto. injection E as E. rewrite <- E. rewrite <- flat_map_concat_map. clear E groups. set (rows := map (digitized nbins r0 r1) x) in *.
  assert (L : length rows = length values) by (unfold rows; rewrite map_length; exact G1). clearbody rows. clear G1 x.
  revert values L. induction rows as [|r rows IH]; intros [|v values] L; try discriminate L.
  - unfold csr_row. cbn. clear. induction (seq 0 nbins); [constructor|exact IHl].
  - cbn [forallb] in G2. apply andb_prop in G2. destruct G2 as [R G2]. apply andb_prop in R. destruct R as [R1 R2]. apply Z.leb_le in R1. apply Z.ltb_lt in R2. specialize (IH G2 values ltac:(injection L; auto)).
    eapply Permutation_trans; [|apply perm_skip, IH]. clear IH G2 L. pose (k := Z.to_nat r). assert (K : (k < nbins)%nat) by (unfold k; lia).
    assert (Sq : seq 0 nbins = seq 0 k ++ k :: seq (S k) (nbins - S k)). { replace nbins with (k + S (nbins - S k))%nat at 1 by lia. rewrite seq_app. reflexivity. }
    rewrite Sq, !flat_map_app. cbn [flat_map].
    assert (O : forall l, ~ In k l -> flat_map (csr_row (r :: rows) (v :: values)) l = flat_map (csr_row rows values) l).
    { induction l as [|a l IH]; intros Hl; [reflexivity|]. cbn [flat_map]. rewrite IH by (intros Q; apply Hl; right; exact Q). f_equal. unfold csr_row. cbn [combine filter fst]. destruct (Z.eqb_spec r (Z.of_nat a)) as [Q|Q]; [|reflexivity].
      exfalso. apply Hl. left. unfold k. lia. }
    rewrite (O (seq 0 k)), (O (seq (S k) (nbins - S k))) by (rewrite in_seq; lia).
    replace (csr_row (r :: rows) (v :: values) k) with (v :: csr_row rows values k). 2: { unfold csr_row. cbn [combine filter fst]. replace (r =? Z.of_nat k)%Z with true by (symmetry; apply Z.eqb_eq; unfold k; lia). reflexivity. }
    cbn [app]. apply Permutation_sym, Permutation_middle.
Qed.

Example C110_case : exists groups, binned_statistic (fun g => g) 2 0 4 [1; 3; 0; 2] [10; 20; 0; 30]%nat = Some groups /\ length groups = 2%nat.
Proof.
  destruct (C110_groups nat (list nat) (fun g => g) 2 0 4 [1; 3; 0; 2] [10; 20; 0; 30]%nat) as (g & E & L & _); [lia|lra|reflexivity|repeat constructor; lra|]. exists g. rewrite map_id in E. split; [exact E|exact L].
Qed.
Example C110_case2 : binned_statistic (@length nat) 4 0 4 [- (1 / 2)] [7]%nat = Some [1; 0; 0; 0]%nat.
Proof. destruct (C110_below_refuted nat nat (@length nat) 4 0 4 (- (1 / 2)) 7%nat) as [H _]; [lia|lra|]. apply H. cbn. lra. Qed.

(** *** C111 *)
(** the square of the distance of two cells *)
Fixpoint dist2 (a b : list Z) : Z :=
  match a, b with
  | x :: a, y :: b => ((x - y) * (x - y) + dist2 a b)%Z
  | _, _ => 0%Z
  end.
(** documented behaviour of distance_transform_edt: for every cell of the array the index of a nearest cell which is not invalid, if there is one *)
Definition is_edt (cells : list (list Z)) (edt : (list Z -> bool) -> list Z -> list Z) : Prop :=
  forall invalid, (exists d, In d cells /\ invalid d = false) -> forall c, In c cells ->
    In (edt invalid c) cells /\ invalid (edt invalid c) = false /\ forall d, In d cells -> invalid d = false -> (dist2 c (edt invalid c) <= dist2 c d)%Z.
(** the cells of an array have the same number of indices *)
Definition is_array (cells : list (list Z)) (dim : nat) : Prop := Forall (fun c => length c = dim) cells.
Lemma dist2_pos a : forall b, (0 <= dist2 a b)%Z.
Proof. induction a as [|x a IH]; intros [|y b]; cbn [dist2]; try lia. specialize (IH b). pose proof (Z.square_nonneg (x - y)). lia. Qed.
Lemma dist2_self a : dist2 a a = 0%Z.
Proof. induction a as [|x a IH]; cbn [dist2]; [reflexivity|]. rewrite IH, Z.sub_diag. reflexivity. Qed.
Lemma dist2_zero a : forall b, length a = length b -> dist2 a b = 0%Z -> a = b.
Proof.
  induction a as [|x a IH]; intros [|y b] L D; try discriminate L; [reflexivity|]. cbn [dist2] in D. pose proof (dist2_pos a b). pose proof (Z.square_nonneg (x - y)). assert (Q : ((x - y) * (x - y) = 0)%Z) by lia. apply Z.mul_eq_0 in Q. assert (x = y) by lia. subst y. f_equal. apply IH; [injection L; auto|lia].
Qed.
Section Fill.
  Context {V : Type} (cells : list (list Z)) (dim : nat) (edt : (list Z -> bool) -> list Z -> list Z) (Harr : is_array cells dim) (Hedt : is_edt cells edt).
  Lemma edt_self invalid c : In c cells -> invalid c = false -> edt invalid c = c.
  Proof.
    intros Hc Hv. destruct (Hedt invalid (ex_intro _ c (conj Hc Hv)) c Hc) as (H1 & _ & H3). specialize (H3 c Hc Hv). rewrite dist2_self in H3. pose proof (dist2_pos c (edt invalid c)).
    symmetry. apply dist2_zero; [|lia]. unfold is_array in Harr. rewrite Forall_forall in Harr. rewrite (Harr _ Hc), (Harr _ H1). reflexivity.
  Qed.
  (** Valid cells keep their values; an invalid cell gets the value of a valid cell, and no valid cell is nearer. *)
  Theorem C111_nearest : forall (a : list Z -> option V) invalid, (exists d, In d cells /\ invalid d = false) ->
    (forall c, In c cells -> invalid c = false -> fill edt a (Some invalid) c = a c) /\
    (forall c, In c cells -> exists d, In d cells /\ invalid d = false /\ fill edt a (Some invalid) c = a d /\ forall d', In d' cells -> invalid d' = false -> (dist2 c d <= dist2 c d')%Z).
  Proof using Harr Hedt.
    intros a invalid Hv. split; intros c Hc.
    - intros Hi. unfold fill. rewrite edt_self by auto. reflexivity.
    - exists (edt invalid c). destruct (Hedt invalid Hv c Hc) as (H1 & H2 & H3). repeat split; auto.
  Qed.
  (** By default the cells with nan are filled: the other cells are unchanged, no nan is left, and filling again changes nothing. *)
  Theorem C111_nan : forall (a : list Z -> option V), (exists d, In d cells /\ a d <> None) ->
    (forall c, In c cells -> a c <> None -> fill edt a None c = a c) /\ (forall c, In c cells -> fill edt a None c <> None) /\ (forall c, In c cells -> fill edt (fill edt a None) None c = fill edt a None c).
  Proof using Harr Hedt.
    intros a (d & Hd & Ad). assert (N : forall (b : list Z -> option V) c, b c <> None <-> isnan b c = false) by (intros b c; unfold isnan; destruct (b c); split; congruence).
    assert (F : forall c, In c cells -> fill edt a None c <> None).
    { intros c Hc. unfold fill. apply (N a). apply (Hedt (isnan a)); [exists d; split; [exact Hd|apply N, Ad]|exact Hc]. }
    split; [|split; [exact F|]].
    - intros c Hc Hn. unfold fill. rewrite edt_self; [reflexivity|exact Hc|apply N, Hn].
    - intros c Hc. unfold fill at 1. rewrite edt_self; [reflexivity|exact Hc|apply N, F, Hc].
  Qed.
  (** A mask of invalid cells replaces the test for nan: a cell with nan which is not in the mask stays nan and is a source of values. *)
  Theorem C111_mask_refuted : forall (a : list Z -> option V) invalid c d, In c cells -> In d cells -> a d = None -> (forall d', In d' cells -> invalid d' = false <-> d' = d) -> fill edt a (Some invalid) c = None.
  Proof using Hedt.
    clear Harr. intros a invalid c d Hc Hd Ad Hi. unfold fill. destruct (Hedt invalid (ex_intro _ d (conj Hd (proj2 (Hi d Hd) eq_refl))) c Hc) as (H1 & H2 & _). rewrite (proj1 (Hi _ H1) H2). exact Ad.
  Qed.
End Fill.
(** such a function exists for every array *)
Definition nearer (c d e : list Z) : list Z := if (dist2 c d <=? dist2 c e)%Z then d else e.
Definition search (cells : list (list Z)) (invalid : list Z -> bool) (c : list Z) : list Z :=
  match filter (fun d => negb (invalid d)) cells with
  | [] => c
  | d :: l => fold_left (nearer c) l d
  end.
Lemma search_is_edt cells : is_edt cells (search cells).
Proof.
  intros invalid (d0 & D1 & D2) c Hc. unfold search. pose proof (fun x => proj1 (filter_In (fun d => negb (invalid d)) x cells)) as F. pose proof (fun x => proj2 (filter_In (fun d => negb (invalid d)) x cells)) as G.
  destruct (filter _ cells) as [|d l]. { exfalso. apply (G d0). rewrite D2. auto. }
  assert (S : forall l d, In (fold_left (nearer c) l d) (d :: l) /\ forall e, In e (d :: l) -> (dist2 c (fold_left (nearer c) l d) <= dist2 c e)%Z).
  { clear. induction l as [|b l IH]; intros d; cbn [fold_left]; [split; [left; reflexivity|intros e [->|[]]; lia]|]. destruct (IH (nearer c d b)) as [I1 I2]. split.
    - destruct I1 as [I1|I1]; [|right; right; exact I1]. rewrite <- I1. unfold nearer. destruct (_ <=? _)%Z; [left; reflexivity|right; left; reflexivity].
    - intros e He. pose proof (I2 _ (or_introl eq_refl)) as I3. assert (B : (dist2 c (nearer c d b) <= dist2 c d /\ dist2 c (nearer c d b) <= dist2 c b)%Z) by (unfold nearer; destruct (Z.leb_spec (dist2 c d) (dist2 c b)); lia).
      destruct He as [->|[->|He]]; [lia|lia|]. apply I2. right. exact He. }
  destruct (S l d) as [S1 S2]. destruct (F _ S1) as [F1 F2]. split; [exact F1|]. split; [apply negb_true_iff, F2|].
  intros e He Hv. apply S2, G. split; [exact He|]. rewrite Hv. reflexivity.
Qed.
Example C111_case : let cells := [[0; 0]; [0; 1]; [1; 0]; [1; 1]]%Z in let a := fun c => if list_eq_dec Z.eq_dec c [0; 1]%Z then Some 7%Z else None in
  is_array cells 2 /\ is_edt cells (search cells) /\ fill (search cells) a None [1; 0]%Z = Some 7%Z.
Proof. cbv zeta. split; [repeat constructor|]. split; [apply search_is_edt|]. reflexivity. Qed.

Print Assumptions C110_groups.
Print Assumptions C110_end_refuted.
Print Assumptions C110_below_refuted.
Print Assumptions C110_all.
Print Assumptions C111_nearest.
Print Assumptions C111_nan.
Print Assumptions C111_mask_refuted.
