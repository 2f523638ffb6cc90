(** Pages of cluster sizes and shapes of a region (C149). *)
From Coq Require Import List Arith ZArith Lia Lra Reals Bool.
From Verif Require Import GeometryModel GeometryProofs EfficiencyModel EfficiencyProps EffDistProps PlotHistProps InPixelModel InPixelProps ShapePagesModel.
From Verif Require EffDistModel PlotHistModel.
Import ListNotations.

(** the number of items of a list with a property *)
Definition how_many {T} (p : T -> bool) (l : list T) : nat := length (filter p l).
Lemma number_how_many {T} (p : T -> bool) l : number p l = how_many p l.
Proof. unfold how_many. induction l as [|a l IH]; [reflexivity|]. cbn [number filter]. destruct (p a); cbn [length]; rewrite IH; reflexivity. Qed.
Lemma how_many_app {T} (p : T -> bool) a b : how_many p (a ++ b) = how_many p a + how_many p b.
Proof. unfold how_many. rewrite filter_app, app_length. reflexivity. Qed.
Lemma how_many_ext {T} (p q : T -> bool) l : (forall t, In t l -> p t = q t) -> how_many p l = how_many q l.
Proof. intros H. unfold how_many. induction l as [|a l IH]; [reflexivity|]. cbn [filter]. rewrite (H a (or_introl eq_refl)). destruct (q a); cbn [length]; rewrite IH; auto; intros; apply H; right; assumption. Qed.
Lemma how_many_le {T} (p q : T -> bool) l : (forall t, In t l -> p t = true -> q t = true) -> how_many p l <= how_many q l.
Proof. intros H. unfold how_many. induction l as [|a l IH]; [reflexivity|]. cbn [filter]. assert (I : length (filter p l) <= length (filter q l)) by (apply IH; intros; apply H; [right|]; assumption). specialize (H a (or_introl eq_refl)). destruct (p a); [rewrite H by reflexivity; cbn; lia|]. destruct (q a); cbn; lia. Qed.
Lemma how_many_split {T} (p q : T -> bool) l : how_many p l = how_many (fun t => p t && q t) l + how_many (fun t => p t && negb (q t)) l.
Proof. unfold how_many. induction l as [|a l IH]; [reflexivity|]. cbn [filter]. destruct (p a), (q a); cbn [andb negb length]; rewrite ?IH; lia. Qed.
Lemma hist_chunks {T} (sel : T -> bool) shape (chunks : list (list T)) i : region_shape_hist sel shape chunks i = PlotHistModel.shape_hist (map shape (filter sel (concat chunks))) i.
Proof.
  unfold region_shape_hist. induction chunks as [|c cs IH]; [reflexivity|]. cbn [map list_sum fold_right concat]. unfold list_sum in IH. rewrite IH. unfold PlotHistModel.shape_hist. rewrite filter_app, map_app, filter_app, app_length. reflexivity.
Qed.
Lemma hist_one {T} (sel : T -> bool) shape (l : list T) i : (0 <= i < 2 ^ 16 - 2)%Z -> PlotHistModel.shape_hist (map shape (filter sel l)) i = how_many (fun t => sel t && (shape t =? i)%Z) l.
Proof.
  intros H. unfold PlotHistModel.shape_hist, how_many. assert (B : forall s, PlotHistModel.shape_bin i s = (s =? i)%Z).
  { intros s. unfold PlotHistModel.shape_bin. replace (0 <=? i)%Z with true by (symmetry; apply Z.leb_le; lia). replace (i <? 2 ^ 16 - 1)%Z with true by (symmetry; apply Z.ltb_lt; lia). replace (i =? 2 ^ 16 - 2)%Z with false by (symmetry; apply Z.eqb_neq; lia). cbn [andb orb]. apply orb_false_r. }
  induction l as [|t l IH]; [reflexivity|]. cbn [filter]. destruct (sel t); cbn [map filter andb]; [|exact IH]. rewrite B. destruct (shape t =? i)%Z; cbn [length]; rewrite IH; reflexivity.
Qed.
(** the shapes which have a bar: those of plot_utils *)
Definition with_bar : list Z := [1; 3; 5; 6; 9; 13; 14; 7; 11; 19; 261; 15; 95; 783; 4959]%Z.
(** For any chunks of tracks with cluster sizes from 0: the page of all sizes has one bar for each size from 1 to the largest size of the tracks of the region with valid hit, as high as the number of these tracks
    with this size; the pages of the first sizes have the bars up to 10; the page of shapes has one bar for each of the 15 shapes, as high as the number of these tracks with this shape, and the last bar is
    the number of all others of these tracks.  The page can not be made if and only if a size is negative. *)
Theorem C149_bars : forall T (valid region : T -> bool) size shape chunks, chunks <> [] ->
  let chosen t := region t && valid t in
  match region_pages valid region size shape chunks with
  | None => exists t, In t (concat chunks) /\ chosen t = true /\ (size t < 0)%Z
  | Some p =>
      (forall t, In t (concat chunks) -> chosen t = true -> (0 <= size t)%Z) /\
      (forall k n, In (k, n) (all_sizes p) -> 1 <= k /\ n = how_many (fun t => chosen t && (size t =? Z.of_nat k)%Z) (concat chunks)) /\
      NoDup (map fst (all_sizes p)) /\
      (forall t, In t (concat chunks) -> chosen t = true -> (1 <= size t)%Z -> forall k, 1 <= k <= Z.to_nat (size t) -> exists n, In (k, n) (all_sizes p)) /\
      (forall k, (exists n, In (k, n) (all_sizes p)) -> exists t, In t (concat chunks) /\ chosen t = true /\ (Z.of_nat k <= size t)%Z) /\
      (forall k n, In (k, n) (first_sizes p) <-> k <= 10 /\ In (k, n) (all_sizes p)) /\
      shape_bars p = map (fun s => how_many (fun t => chosen t && (shape t =? s)%Z) (concat chunks)) with_bar /\
      others p = Z.of_nat (how_many (fun t => chosen t && negb (existsb (Z.eqb (shape t)) with_bar)) (concat chunks))
  end.
Proof.
  intros T valid region size shape chunks N chosen. unfold region_pages. pose proof (C106_region valid region size chunks N) as D.
  destruct (EffDistModel.region_distribution valid region size chunks) as [[h|]|]; [|destruct D|destruct D as (t & I & R & V & L); exists t; split; [exact I|]; unfold chosen; rewrite R, V; auto].
  destruct D as (P & Hn & Hs & Hl). unfold pages_of. cbn [all_sizes first_sizes shape_bars others]. set (l := concat chunks) in *. change (fun t => region t && valid t) with chosen in P, Hs |- *. change (forall i, nth i h 0%nat = number (fun t => chosen t && (size t =? Z.of_nat i)%Z) l) in Hn. change (forall t, In t l -> chosen t = true -> (0 <= size t)%Z) in P.
  assert (Bars : forall k n, In (k, n) (combine (seq 1 (length h - 1)) (tl h)) <-> 1 <= k < length h /\ n = nth k h 0).
  { clear -h. intros k n. destruct h as [|x h]; [cbn; split; [intros []|lia]|]. cbn [length tl]. rewrite Nat.sub_0_r || replace (S (length h) - 1) with (length h) by lia.
    split.
    - intros I. apply (In_nth _ _ (0, 0)) in I. destruct I as (i & Li & E). rewrite combine_length, seq_length, Nat.min_id in Li. rewrite combine_nth in E by apply seq_length. rewrite seq_nth in E by exact Li. injection E as <- <-. split; [lia|]. reflexivity.
    - intros [[K1 K2] ->]. replace (k, nth k (x :: h) 0) with (nth (k - 1) (combine (seq 1 (length h)) h) (0, 0)).
      + apply nth_In. rewrite combine_length, seq_length. lia.
      + rewrite combine_nth by apply seq_length. rewrite seq_nth by lia. f_equal; [lia|]. destruct k; [lia|]. cbn [nth]. f_equal. lia. }
  assert (Cnt : forall k, nth k h 0 = how_many (fun t => chosen t && (size t =? Z.of_nat k)%Z) l) by (intros k; rewrite Hn; apply number_how_many).
  assert (Len : forall t, In t l -> chosen t = true -> Z.to_nat (size t) < length h).
  { intros t I C. destruct (Nat.lt_ge_cases (Z.to_nat (size t)) (length h)) as [|G]; [assumption|]. exfalso. pose proof (Cnt (Z.to_nat (size t))) as Q. rewrite nth_overflow in Q by exact G. unfold how_many in Q.
    assert (J : In t (filter (fun t => chosen t && (size t =? Z.of_nat (Z.to_nat (size t)))%Z) l)). { apply filter_In. split; [exact I|]. rewrite C. apply Z.eqb_eq. rewrite Z2Nat.id by (apply P; assumption). reflexivity. }
    assert (E : filter (fun t0 => chosen t0 && (size t0 =? Z.of_nat (Z.to_nat (size t)))%Z) l = []) by (apply length_zero_iff_nil; symmetry; exact Q). 
    assert (J2 : In t (filter (fun t0 => chosen t0 && (size t0 =? Z.of_nat (Z.to_nat (size t)))%Z) l)). { apply filter_In. split; [exact I|]. rewrite C. apply Z.eqb_eq. rewrite Z2Nat.id by (apply P; assumption). reflexivity. }
    rewrite E in J2. destruct J2. }
  split; [exact P|]. split; [intros k n I; apply Bars in I; destruct I as [[K _] ->]; split; [exact K|apply Cnt]|].
  split. { clear. destruct h as [|x h]; [constructor|]. cbn [length tl]. replace (S (length h) - 1) with (length h) by lia. assert (E : map fst (combine (seq 1 (length h)) h) = seq 1 (length h)). { generalize 1. induction h as [|y h IH]; intros k; [reflexivity|]. cbn. f_equal. apply IH. } rewrite E. apply seq_NoDup. }
  split. { intros t I C S k K. exists (nth k h 0). apply Bars. split; [|reflexivity]. specialize (Len t I C). lia. }
  split.
  { intros k [n I]. apply Bars in I. destruct I as [K _]. assert (Nz : nth (length h - 1) h 0 <> 0). { destruct (exists_last (l := h)) as (a & y & E); [intros ->; cbn in K; lia|]. rewrite E in *. rewrite last_last in Hl. rewrite app_length. cbn [length]. rewrite app_nth2 by lia. replace (length a + 1 - 1 - length a) with 0 by lia. exact Hl. }
    rewrite Cnt in Nz. unfold how_many in Nz. destruct (filter _ l) as [|t r] eqn:E in Nz; [exfalso; apply Nz; reflexivity|]. exists t. assert (I : In t (t :: r)) by (left; reflexivity). rewrite <- E in I. apply filter_In in I. destruct I as [I Q]. apply andb_true_iff in Q. destruct Q as [Q1 Q2]. apply Z.eqb_eq in Q2. split; [exact I|]. split; [exact Q1|]. lia. }
  split.
  { intros k n. set (mb := Nat.min 10 (length h - 1)). assert (F : combine (seq 1 mb) (firstn mb (tl h)) = firstn mb (combine (seq 1 (length h - 1)) (tl h))).
    { assert (G : forall m s q (w : list nat), m <= q -> combine (seq s m) (firstn m w) = firstn m (combine (seq s q) w)). { clear. induction m as [|m IH]; intros s [|q] w L; try reflexivity; [lia|]. destruct w as [|y w]; [reflexivity|]. cbn. f_equal. apply IH. lia. } apply G. unfold mb. lia. }
    rewrite F. split.
    - intros I. split.
      + apply (In_nth _ _ (0, 0)) in I. destruct I as (i & Li & E). rewrite firstn_length in Li. rewrite <- F in E. assert (Lt : i < length (combine (seq 1 mb) (firstn mb (tl h)))) by (rewrite F, firstn_length; exact Li). rewrite combine_length, seq_length in Lt.
        assert (Ek : k = fst (nth i (combine (seq 1 mb) (firstn mb (tl h))) (0, 0))) by (rewrite E; reflexivity).
        assert (Kf : forall (u w : list nat), i < Nat.min (length u) (length w) -> fst (nth i (combine u w) (0, 0)) = nth i u 0). { clear. revert i. intros i u. revert i. induction u as [|a u IH]; intros i w L; [cbn in L; lia|]. destruct w as [|b w]; [cbn in L; lia|]. destruct i as [|i]; [reflexivity|]. cbn. apply IH. cbn in L. lia. }
        rewrite Kf in Ek by (rewrite seq_length; exact Lt). rewrite seq_nth in Ek by lia. unfold mb in Lt. lia.
      + rewrite <- (firstn_skipn mb). apply in_or_app. left. exact I.
    - intros [K I]. apply Bars in I. destruct I as [K2 ->]. rewrite <- F. destruct h as [|x h]; [cbn in K2; lia|]. cbn [tl length] in *. assert (Lm : k - 1 < mb) by (unfold mb; lia). assert (Lf : length (firstn mb h) = mb) by (rewrite firstn_length; unfold mb; lia).
      replace (k, nth k (x :: h) 0) with (nth (k - 1) (combine (seq 1 mb) (firstn mb h)) (0, 0)).
      + apply nth_In. rewrite combine_length, seq_length, Lf. lia.
      + rewrite combine_nth by (rewrite seq_length, Lf; reflexivity). rewrite seq_nth by exact Lm. f_equal; [lia|]. destruct k; [lia|]. cbn [nth]. replace (S k - 1) with k by lia. rewrite <- (firstn_skipn mb h) at 2. rewrite app_nth1 by (rewrite Lf; lia). reflexivity. }
  assert (Sb : map (region_shape_hist chosen shape chunks) PlotHistModel.analyze_cluster_shapes = map (fun s => how_many (fun t => chosen t && (shape t =? s)%Z) l) with_bar).
  { change PlotHistModel.analyze_cluster_shapes with with_bar. apply map_ext_in. intros s I. rewrite hist_chunks. fold l. apply hist_one. destruct analyzed_ok as [_ F]. change PlotHistModel.analyze_cluster_shapes with with_bar in F. rewrite Forall_forall in F. apply F, I. }
  split; [exact Sb|].
  assert (Ss : list_sum (map (region_shape_hist chosen shape chunks) PlotHistModel.analyze_cluster_shapes) = how_many (fun t => chosen t && existsb (Z.eqb (shape t)) with_bar) l).
  { rewrite (map_ext _ (PlotHistModel.shape_hist (map shape (filter chosen l)))) by (intros i; apply hist_chunks). destruct analyzed_ok as [A1 A2]. pose proof (shapes_disjoint _ (map shape (filter chosen l)) A1 A2) as Q. unfold list_sum. rewrite Q. change PlotHistModel.analyze_cluster_shapes with with_bar. unfold how_many. clear.
    induction l as [|t l IH]; [reflexivity|]. cbn [filter]. destruct (chosen t); cbn [map filter andb]; [|exact IH].
    assert (X : (if in_dec Z.eq_dec (shape t) with_bar then true else false) = existsb (Z.eqb (shape t)) with_bar). { destruct (in_dec Z.eq_dec (shape t) with_bar) as [I|I]; symmetry; [apply existsb_exists; exists (shape t); split; [exact I|apply Z.eqb_refl]|]. destruct (existsb _ with_bar) eqn:E; [|reflexivity]. apply existsb_exists in E. destruct E as (v & Iv & Ev). apply Z.eqb_eq in Ev. subst v. contradiction. }
    rewrite X. destruct (existsb _ with_bar); cbn [length]; rewrite IH; reflexivity. }
  rewrite Ss, Hs, number_how_many. change (fun t : T => region t && valid t) with chosen. rewrite (how_many_split chosen (fun t => existsb (Z.eqb (shape t)) with_bar) l). lia.
Qed.

Local Open Scope R_scope.
(** the shape as which a cluster is counted in the maps: the shapes 0, 2, 4, 6 and 8 are taken for others *)
Definition taken_for (s : Z) : Z := match s with 0 => 1 | 2 => 5 | 4 => 14 | 6 => 11 | 8 => 15 | _ => s end%Z.
Lemma counted_taken k s : (k < 8)%nat -> counted_as k s = (taken_for s =? List.nth k analyzed_shapes 0)%Z.
Proof.
  intros Hk. unfold counted_as. destruct s as [|p|p].
  - do 8 (destruct k as [|k]; [reflexivity|]). lia.
  - assert (C : (p <= 15)%positive \/ (15 < p)%positive) by lia. destruct C as [C|C].
    + assert (D : (p = 1 \/ p = 2 \/ p = 3 \/ p = 4 \/ p = 5 \/ p = 6 \/ p = 7 \/ p = 8 \/ p = 9 \/ p = 10 \/ p = 11 \/ p = 12 \/ p = 13 \/ p = 14 \/ p = 15)%positive) by lia.
      repeat (destruct D as [-> |D]; [do 8 (destruct k as [|k]; [reflexivity|]); lia|]). subst p. do 8 (destruct k as [|k]; [reflexivity|]). lia.
    + assert (Tk : taken_for (Z.pos p) = Z.pos p) by (do 4 (destruct p as [p|p|]; try reflexivity; try lia)). rewrite Tk.
      assert (G : forall z, (z <= 15)%Z -> (Z.pos p =? z)%Z = false) by (intros z L; apply Z.eqb_neq; lia).
      do 8 (destruct k as [|k]; [unfold analyzed_shapes; cbn [List.nth]; rewrite !G by lia; reflexivity|]). lia.
  - assert (G : forall z, (0 <= z)%Z -> (Z.neg p =? z)%Z = false) by (intros z L; apply Z.eqb_neq; lia). cbn [taken_for]. do 8 (destruct k as [|k]; [unfold analyzed_shapes; cbn [List.nth]; rewrite !G by lia; reflexivity|]). lia.
Qed.
(** a cluster belongs to a page *)
Definition on_page (g : list Z) (s : Z) : bool := existsb (Z.eqb (taken_for s)) g.
Lemma position_spec s l : In s l -> exists k, position s l = Some k /\ (k < length l)%nat /\ List.nth k l 0%Z = s.
Proof.
  induction l as [|a l IH]; [intros []|]. intros I. cbn [position]. destruct (Z.eqb_spec s a) as [->|N]; [exists 0%nat; split; [reflexivity|split; [cbn; lia|reflexivity]]|]. destruct I as [->|I]; [congruence|].
  destruct (IH I) as (k & E & L & Q). exists (S k). rewrite E. split; [reflexivity|]. split; [cbn; lia|exact Q].
Qed.
Section Density.
  Variables (pitch res : R * R) (cell : R * R -> R * R) (region valid : track -> bool) (shape : track -> Z) (chunks : list (list track)).
  Hypotheses (Px : 0 < fst pitch) (Py : 0 < snd pitch) (Rx : 0 < fst res) (Ry : 0 < snd res) (O : forall t, In t (concat chunks) -> off_track res cell t).
  Let m := in_pixel_maps pitch res cell region valid shape analyzed_shapes chunks.
  (** the tracks of the region with valid hit in a bin, and those with a shape of a page *)
  Let in_here i j t := region t && valid t && inside res i j (cell (intersection t)).
  Lemma group_spec i j g : NoDup g -> (forall s, In s g -> In s analyzed_shapes) -> group_counts analyzed_shapes m g i j = Some (how_many (fun t => in_here i j t && on_page g (shape t)) (concat chunks)).
  Proof using Px Py Rx Ry O.
    induction g as [|s g IH]; intros ND F.
    - cbn [group_counts]. f_equal. unfold on_page. cbn [existsb]. rewrite (how_many_ext _ (fun _ => false)) by (intros; apply andb_false_r). unfold how_many. symmetry. clear. induction (concat chunks) as [|t l IH]; [reflexivity|exact IH].
    - cbn [group_counts]. inversion ND as [|? ? N1 N2]; subst. destruct (position_spec s analyzed_shapes (F s (or_introl eq_refl))) as (k & -> & L & Q). rewrite (IH N2 (fun s I => F s (or_intror I))). f_equal. unfold m. rewrite C104_shapes by assumption.
      fold (how_many (fun t => region t && valid t && counted_as k (shape t) && inside res i j (cell (intersection t))) (concat chunks)).
      rewrite (how_many_split (fun t => in_here i j t && on_page (s :: g) (shape t)) (fun t => counted_as k (shape t))). f_equal; apply how_many_ext; intros t _.
      + unfold in_here. rewrite counted_taken, Q by exact L. unfold on_page. cbn [existsb]. destruct (region t), (valid t), (inside _ _ _ _), (Z.eqb_spec (taken_for (shape t)) s); try reflexivity; cbn; rewrite ?andb_false_r, ?andb_true_r; reflexivity.
      + rewrite counted_taken, Q by exact L. unfold on_page. cbn [existsb]. destruct (Z.eqb_spec (taken_for (shape t)) s) as [E|E]; cbn [orb negb]; [|rewrite andb_true_r; reflexivity]. rewrite andb_false_r. rewrite E. destruct (existsb (Z.eqb s) g) eqn:X; [|apply andb_false_r]. apply existsb_exists in X. destruct X as (v & Iv & Ev). apply Z.eqb_eq in Ev. subst v. contradiction.
  Qed.
  (** There is a page for each of the six groups of shapes.  In each bin it shows the share of the tracks of the region with valid hit in the bin whose cluster is taken for one of the shapes of the page,
      which is positive and at most 1; bins without such a track are empty. *)
  Theorem C149_density : map fst (density_pages m) = [[1]; [3]; [5]; [3; 5]; [13; 14; 7; 11]; [15]]%Z /\
    forall g d, In (g, d) (density_pages m) -> forall i j,
    let here t := region t && valid t && inside res i j (cell (intersection t)) in
    let n := how_many (fun t => here t && on_page g (shape t)) (concat chunks) in
    (n = 0%nat -> d i j = Some None) /\ ((0 < n)%nat -> d i j = Some (Some (INR n / INR (how_many here (concat chunks)))) /\ 0 < INR n / INR (how_many here (concat chunks)) <= 1).
  Proof using Px Py Rx Ry O.
    split; [reflexivity|]. intros g d I i j here n. change here with (in_here i j) in *.
    assert (G : NoDup g /\ (forall s, In s g -> In s analyzed_shapes) /\ d = density analyzed_shapes m g).
    { unfold density_pages in I. apply in_map_iff in I. destruct I as (g' & E & I). injection E as -> <-. split; [|split; [|reflexivity]].
      - cbn in I. repeat (destruct I as [<-|I]; [repeat constructor; cbn; intuition lia|]). destruct I.
      - intros s J. unfold groups_shown in I. apply filter_In in I. destruct I as [_ I]. rewrite forallb_forall in I. specialize (I s J). apply existsb_exists in I. destruct I as (v & Iv & Ev). apply Z.eqb_eq in Ev. subst v. exact Iv. }
    destruct G as (ND & F & ->). unfold density. rewrite (group_spec i j g ND F). fold n.
    destruct (C104_counts pitch res cell region valid shape analyzed_shapes Px Py Rx Ry chunks O i j) as [_ W]. fold m in W. rewrite W. change (length (filter _ (concat chunks))) with (how_many (in_here i j) (concat chunks)).
    assert (L : (n <= how_many (in_here i j) (concat chunks))%nat) by (apply how_many_le; intros t _ Q; apply andb_true_iff in Q; apply Q). split.
    - intros ->. reflexivity.
    - intros P. destruct (Nat.eqb_spec n 0) as [|_]; [lia|]. destruct (Nat.eqb_spec (how_many (in_here i j) (concat chunks)) 0) as [|_]; [lia|]. cbn [orb]. split; [reflexivity|]. apply lt_INR in P. apply le_INR in L. cbn [INR] in P. split; [apply Rdiv_lt_0_compat; lra|]. apply Rmult_le_reg_r with (INR (how_many (in_here i j) (concat chunks))); [lra|]. unfold Rdiv. rewrite Rmult_assoc, Rinv_l by lra. lra.
  Qed.
  (** the value of a page, 0 for an empty bin *)
  Definition share (g : list Z) (i j : nat) : R := match density analyzed_shapes m g i j with Some (Some v) => v | _ => 0 end.
  (** The shares of single clusters, two, three and four pixels and the page of the shapes 3 and 5 fit together: the latter is the sum of the pages of the shapes 3 and 5, and all together are at most 1. *)
  Theorem C149_shares : forall i j, share [3; 5]%Z i j = share [3]%Z i j + share [5]%Z i j /\ share [1]%Z i j + share [3; 5]%Z i j + share [13; 14; 7; 11]%Z i j + share [15]%Z i j <= 1.
  Proof using Px Py Rx Ry O.
    intros i j. set (w := how_many (in_here i j) (concat chunks)). destruct (C104_counts pitch res cell region valid shape analyzed_shapes Px Py Rx Ry chunks O i j) as [_ W]. fold m in W. change (length (filter _ (concat chunks))) with w in W.
    set (c := fun g => how_many (fun t => in_here i j t && on_page g (shape t)) (concat chunks)).
    assert (Sh : forall g, NoDup g -> (forall s, In s g -> In s analyzed_shapes) -> share g i j = INR (c g) / INR w /\ (c g <= w)%nat).
    { intros g ND F. unfold share, density. rewrite (group_spec i j g ND F), W. change (how_many (fun t => in_here i j t && on_page g (shape t)) (concat chunks)) with (c g).
      assert (L : (c g <= w)%nat) by (apply how_many_le; intros t _ Q; apply andb_true_iff in Q; apply Q). split; [|exact L]. destruct (Nat.eqb_spec (c g) 0) as [->|N]; cbn [orb INR]; [unfold Rdiv; symmetry; apply Rmult_0_l|]. destruct (Nat.eqb_spec w 0) as [|_]; [lia|]. reflexivity. }
    assert (N : forall g, In g plot_cluster_shapes -> NoDup g /\ (forall s, In s g -> In s analyzed_shapes)). { intros g I. cbn in I. repeat (destruct I as [<-|I]; [split; [repeat constructor; cbn; intuition lia|cbn; intuition]|]). destruct I. }
    assert (Sg : forall g, In g plot_cluster_shapes -> share g i j = INR (c g) / INR w) by (intros g I; apply Sh; apply N, I).
    rewrite !Sg by (cbn; intuition).
    assert (A : c [3; 5]%Z = (c [3]%Z + c [5]%Z)%nat).
    { unfold c. rewrite (how_many_split _ (fun t => on_page [3]%Z (shape t))). f_equal; apply how_many_ext; intros t _; unfold on_page; cbn [existsb]; destruct (in_here i j t), (Z.eqb_spec (taken_for (shape t)) 3) as [->|], (Z.eqb_spec (taken_for (shape t)) 5); try reflexivity; lia. }
    assert (B : (c [1]%Z + c [3; 5]%Z + c [13; 14; 7; 11]%Z + c [15]%Z <= w)%nat).
    { unfold c, w. clear. induction (concat chunks) as [|t l IH]; [cbn; lia|].
      assert (St : forall q, how_many q (t :: l) = ((if q t then 1 else 0) + how_many q l)%nat) by (intros q; unfold how_many; cbn [filter]; destruct (q t); reflexivity).
      rewrite !St. destruct (in_here i j t); cbn [andb]; [|exact IH].
      assert (X : ((if on_page [1]%Z (shape t) then 1 else 0) + (if on_page [3; 5]%Z (shape t) then 1 else 0) + (if on_page [13; 14; 7; 11]%Z (shape t) then 1 else 0) + (if on_page [15]%Z (shape t) then 1 else 0) <= 1)%nat).
      { unfold on_page. generalize (taken_for (shape t)). intros z. cbn [existsb]. destruct (Z.eqb_spec z 1) as [->|]; [cbn; lia|]. destruct (Z.eqb_spec z 3) as [->|]; [cbn; lia|]. destruct (Z.eqb_spec z 5) as [->|]; [cbn; lia|]. destruct (Z.eqb_spec z 15) as [->|]; [cbn; lia|]. cbn [orb]. destruct (_ || _); lia. }
      lia. }
    split; [rewrite A, plus_INR; unfold Rdiv; ring|]. destruct (Nat.eq_dec w 0) as [Z|Z].
    - assert (c [1]%Z = 0 /\ c [3; 5]%Z = 0 /\ c [13; 14; 7; 11]%Z = 0 /\ c [15]%Z = 0)%nat as (-> & -> & -> & ->) by lia. cbn [INR]. unfold Rdiv. rewrite !Rmult_0_l. lra.
    - assert (P : 0 < INR w) by (apply lt_0_INR; lia). apply le_INR in B. rewrite !plus_INR in B. replace (INR (c [1]%Z) / INR w + INR (c [3; 5]%Z) / INR w + INR (c [13; 14; 7; 11]%Z) / INR w + INR (c [15]%Z) / INR w) with ((INR (c [1]%Z) + INR (c [3; 5]%Z) + INR (c [13; 14; 7; 11]%Z) + INR (c [15]%Z)) / INR w) by (unfold Rdiv; ring).
      apply Rmult_le_reg_r with (INR w); [exact P|]. unfold Rdiv. rewrite Rmult_assoc, Rinv_l by lra. lra.
  Qed.
End Density.

(** one track at (5, 1) in pixels of 50 um with bins of 10 um, with a cluster of two diagonal pixels *)
Definition diagonal_maps : maps := in_pixel_maps (50, 50) (10, 10) same all_tracks all_tracks (fun _ => 6%Z) analyzed_shapes [[at_point 5]].
Lemma one_off t : In t (concat [[at_point 5]]) -> off_track (10, 10) same t.
Proof. cbn. intros [<-|[]]. split; apply (off_value 10 _ 10); (lia || reflexivity || (cbn; lia)). Qed.
Lemma one_inside : inside (10, 10) 0 0 (same (intersection (at_point 5))) = true.
Proof. unfold inside, same. cbn [at_point intersection fst snd INR]. rewrite !(proj2 (Rleb_true _ _)), !(proj2 (Rltb_true _ _)) by lra. reflexivity. Qed.
(** The page of the shapes 13, 14, 7 and 11 (three pixels) shows the share 1 for a bin whose only cluster has two diagonal pixels. *)
Theorem C149_diagonal_refuted : fst (fst (BitsModel.end_of_cluster (2, 1)%Z [(1, 2)%Z])) = 6%Z /\ density analyzed_shapes diagonal_maps [13; 14; 7; 11]%Z 0 0 = Some (Some 1).
Proof.
  split; [vm_compute; reflexivity|].
  destruct (C149_density (50, 50) (10, 10) same all_tracks all_tracks (fun _ => 6%Z) [[at_point 5]]) as [_ D]; cbn [fst snd]; try lra; [exact one_off|].
  destruct (D [13; 14; 7; 11]%Z (density analyzed_shapes diagonal_maps [13; 14; 7; 11]%Z)) with (i := 0%nat) (j := 0%nat) as [_ E]; [change (density_pages _) with (map (fun g => (g, density analyzed_shapes diagonal_maps g)) plot_cluster_shapes); apply (in_map (fun g => (g, density analyzed_shapes diagonal_maps g))); unfold plot_cluster_shapes; do 4 right; left; reflexivity|].
  set (d := density analyzed_shapes diagonal_maps [13; 14; 7; 11]%Z 0 0) in *. clearbody d. unfold how_many in E. cbn [concat app filter all_tracks andb] in E. rewrite one_inside in E. cbn in E. destruct E as [E _]; [lia|]. rewrite E. do 2 f_equal. lra.
Qed.
(** Non-vacuity: three tracks of a region with sizes 1, 3 and 12 and shapes 1, 13 and -1, in two chunks, and one outside of it. *)
Example C149_case : let region t := negb (fst t =? 7)%Z in let chunks := [[(1, 1); (7, 3)]; [(3, 13); (12, -1)]]%Z in
  exists p, region_pages (fun _ => true) region fst snd chunks = Some p /\ all_sizes p = [(1, 1); (2, 0); (3, 1); (4, 0); (5, 0); (6, 0); (7, 0); (8, 0); (9, 0); (10, 0); (11, 0); (12, 1)]%nat /\
  length (first_sizes p) = 10%nat /\ shape_bars p = [1; 0; 0; 0; 0; 1; 0; 0; 0; 0; 0; 0; 0; 0; 0]%nat /\ others p = 1%Z.
Proof. cbv zeta. eexists. split; [vm_compute; reflexivity|]. repeat split; reflexivity. Qed.

Print Assumptions C149_bars.
Print Assumptions C149_density.
Print Assumptions C149_shares.
Print Assumptions C149_diagonal_refuted.
