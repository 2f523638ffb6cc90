(** Pixel hits around the track intersections (C102). *)
From Coq Require Import List ZArith Reals Bool Lia Lra Sorted Permutation.
From Verif Require Import ArrayUtilsModel ArrayUtilsProps PixelHitsModel.
Import ListNotations.
Local Open Scope Z_scope.

(** *** Specification *)
(** the hit belongs to the cluster of the track *)
Definition belongs (h : cluster_hit) (t : eff_track) : bool := (h_event h =? t_event t) && (h_cluster h =? t_cluster t).
(** cluster IDs are unsigned *)
Definition good_ids (tracks : list eff_track) (hits : list cluster_hit) : Prop :=
  (forall t, In t tracks -> 0 <= t_cluster t < 2 ^ 32) /\ forall h, In h hits -> 0 <= h_cluster h < 2 ^ 32.
(** the cluster of a track is used by no other track *)
Definition own_clusters (tracks : list eff_track) : Prop :=
  forall i j t u, nth_error tracks i = Some t -> nth_error tracks j = Some u -> t_valid t = true -> t_valid u = true -> t_event t = t_event u -> t_cluster t = t_cluster u -> i = j.
Definition sorting (argsort : list Z -> list nat) : Prop := forall l, is_argsort l (argsort l).

(** *** Lemmas *)
Lemma sorted_ext : forall l1 l2 : list nat, StronglySorted lt l1 -> StronglySorted lt l2 -> (forall i, In i l1 <-> In i l2) -> l1 = l2.
Proof.
  induction l1 as [|a l1 IH]; intros [|b l2] H1 H2 E; [reflexivity|destruct (proj2 (E b) (or_introl eq_refl))|destruct (proj1 (E a) (or_introl eq_refl))|].
  inversion H1 as [|? ? S1 F1]; inversion H2 as [|? ? S2 F2]; subst. rewrite Forall_forall in F1, F2.
  assert (a = b). { destruct (proj1 (E a) (or_introl eq_refl)) as [->|A]; [reflexivity|]. destruct (proj2 (E b) (or_introl eq_refl)) as [->|B]; [reflexivity|]. specialize (F1 _ B). specialize (F2 _ A). lia. }
  subst b. f_equal. apply IH; auto. intros i. split; intros Hi.
  - destruct (proj1 (E i) (or_intror Hi)) as [->|A]; [specialize (F1 _ Hi); lia|exact A].
  - destruct (proj2 (E i) (or_intror Hi)) as [->|A]; [specialize (F2 _ Hi); lia|exact A].
Qed.
Lemma filter_sorted (f : nat -> bool) l : StronglySorted lt l -> StronglySorted lt (filter f l).
Proof.
  induction 1 as [|a l S IH F]; cbn; [constructor|]. destruct (f a); auto. constructor; auto. rewrite Forall_forall in *. intros x Hx. apply filter_In in Hx. apply F. tauto.
Qed.
Lemma seq_sorted : forall n k, StronglySorted lt (seq k n).
Proof. induction n; intros k; cbn; constructor; auto. rewrite Forall_forall. intros x Hx. apply in_seq in Hx. lia. Qed.
Lemma map_filter_seq {A} (f : A -> bool) d : forall (l : list A), map (fun i => nth i l d) (filter (fun i => f (nth i l d)) (seq 0 (length l))) = filter f l.
Proof.
  assert (G : forall (l p : list A), map (fun i => nth i (p ++ l) d) (filter (fun i => f (nth i (p ++ l) d)) (seq (length p) (length l))) = filter f l).
  { induction l as [|a l IH]; intros p; [reflexivity|]. cbn [length seq filter]. rewrite app_nth2, Nat.sub_diag by lia. cbn [nth].
    assert (E : p ++ a :: l = (p ++ [a]) ++ l) by (rewrite <- app_assoc; reflexivity). assert (L : S (length p) = length (p ++ [a])) by (rewrite app_length; cbn; lia).
    destruct (f a); [cbn [map]; rewrite app_nth2, Nat.sub_diag by lia; cbn [nth]; f_equal|]; rewrite E, L; apply IH. }
  intros l. apply (G l []).
Qed.
Lemma key_inj e c e' c' : 0 <= c < 2 ^ 32 -> 0 <= c' < 2 ^ 32 -> key e c = key e' c' -> e = e' /\ c = c'.
Proof. unfold key. intros. lia. Qed.
Lemma belongs_key h t : 0 <= h_cluster h < 2 ^ 32 -> 0 <= t_cluster t < 2 ^ 32 -> (belongs h t = true <-> key (h_event h) (h_cluster h) = key (t_event t) (t_cluster t)).
Proof.
  intros Hh Ht. unfold belongs. rewrite andb_true_iff, !Z.eqb_eq. split; [intros [-> ->]; reflexivity|]. intros E. apply key_inj in E; auto.
Qed.
(** the look-up of the tracks: the hits that belong to selected tracks, in their order, each with an index of its track *)
Lemma lookup argsort selected hits : sorting argsort -> good_ids selected hits -> selected <> [] ->
  let keys := map (fun t => key (t_event t) (t_cluster t)) selected in
  exists v idx, in1d_index (map (fun h => key (h_event h) (h_cluster h)) hits) keys None (Some (argsort keys)) = Some (v, idx) /\
    map (fun i => nth i hits (ClusterHit 0 0 0 0)) v = filter (fun h => existsb (belongs h) selected) hits /\
    Forall2 (fun h j => exists n t, j = Z.of_nat n /\ nth_error selected n = Some t /\ belongs h t = true) (map (fun i => nth i hits (ClusterHit 0 0 0 0)) v) idx.
Proof.
  intros So [Gt Gh] Ne keys. assert (Kn : keys <> []) by (destruct selected; [contradiction|discriminate]).
  destruct (C43_in1d_index (map (fun h => key (h_event h) (h_cluster h)) hits) keys (Some (argsort keys)) Kn (So keys)) as (v & idx & E & V & Sv & L & J).
  exists v, idx. split; [exact E|]. rewrite map_length in V.
  set (d := ClusterHit 0 0 0 0) in *.
  assert (Kd : forall i, (i < length hits)%nat -> nth i (map (fun h => key (h_event h) (h_cluster h)) hits) 0 = key (h_event (nth i hits d)) (h_cluster (nth i hits d))).
  { intros i Hi. rewrite (nth_indep _ 0 (key (h_event d) (h_cluster d))) by (rewrite map_length; exact Hi). apply (map_nth (fun h => key (h_event h) (h_cluster h))). }
  assert (Ev : v = filter (fun i => existsb (belongs (nth i hits d)) selected) (seq 0 (length hits))).
  { apply sorted_ext; [exact Sv|apply filter_sorted, seq_sorted|]. intros i. rewrite V, filter_In, in_seq, existsb_exists. split.
    - intros [Hi K]. split; [lia|]. rewrite Kd in K by exact Hi. unfold keys in K. apply in_map_iff in K. destruct K as (t & Kt & It). exists t. split; [exact It|]. apply belongs_key; [apply Gh, nth_In, Hi|apply Gt, It|congruence].
    - intros [Hi (t & It & B)]. split; [lia|]. rewrite Kd by lia. apply belongs_key in B; [|apply Gh, nth_In; lia|apply Gt, It]. rewrite B. apply (in_map (fun t => key (t_event t) (t_cluster t))), It. }
  split; [rewrite Ev; apply (map_filter_seq (fun h => existsb (belongs h) selected) d)|].
  assert (G : forall (v : list nat) (idx : list Z), length idx = length v -> (forall i, In i v -> (i < length hits)%nat) ->
     (forall k, (k < length v)%nat -> exists j, nth k idx (-1) = Z.of_nat j /\ (j < length keys)%nat /\ nth j keys 0 = nth (nth k v O) (map (fun h => key (h_event h) (h_cluster h)) hits) 0) ->
     Forall2 (fun h j => exists n t, j = Z.of_nat n /\ nth_error selected n = Some t /\ belongs h t = true) (map (fun i => nth i hits d) v) idx).
  { clear E V Sv L J Ev v idx. induction v as [|i v IH]; intros [|j idx] L Hv J; try discriminate; [constructor|]. cbn [map]. constructor.
    - destruct (J 0%nat ltac:(cbn; lia)) as (n & E & Hn & K). cbn in E, K. subst j. assert (Hi := Hv i (or_introl eq_refl)). rewrite Kd in K by exact Hi. unfold keys in Hn. rewrite map_length in Hn.
      destruct (nth_error selected n) as [t|] eqn:Et; [|apply nth_error_None in Et; lia]. exists n, t. split; [reflexivity|]. split; [exact Et|]. apply belongs_key; [apply Gh, nth_In, Hi|apply Gt; eapply nth_error_In; eauto|]. rewrite <- K. unfold keys. erewrite nth_error_nth; [reflexivity|]. rewrite nth_error_map, Et. reflexivity.
    - apply IH; [cbn in L; lia|intros; apply Hv; right; assumption|]. intros k Hk. apply (J (S k)). cbn. lia. }
  apply G; [exact L| |exact J]. intros i Hi. apply V. exact Hi.
Qed.
(** the histogram *)
Lemma add_at_length hist ic : length (add_at hist ic) = length hist.
Proof. unfold add_at. rewrite map_length, combine_length, seq_length. lia. Qed.
Lemma nth_combine_seq {A} (d : A) : forall (l : list A) k i, (i < length l)%nat -> nth i (combine (seq k (length l)) l) (O, d) = ((k + i)%nat, nth i l d).
Proof. induction l as [|a l IH]; intros k [|i] Hi; cbn in *; try lia; [f_equal; lia|]. rewrite IH by lia. f_equal. lia. Qed.
Lemma add_at_nth hist ic i : (i < length hist)%nat -> nth i (add_at hist ic) O = (nth i hist O + if (Z.of_nat i =? fst ic)%Z then snd ic else 0)%nat.
Proof.
  intros Hi. unfold add_at. set (f := fun jv : nat * nat => _). rewrite (nth_indep _ O (f (O, O))) by (rewrite map_length, combine_length, seq_length; lia). rewrite map_nth, nth_combine_seq by exact Hi. unfold f. cbn [fst snd Nat.add]. destruct (_ =? _); lia.
Qed.
Lemma fold_add_length ics : forall hist, length (fold_left add_at ics hist) = length hist.
Proof. induction ics as [|ic ics IH]; intros hist; [reflexivity|]. cbn. rewrite IH. apply add_at_length. Qed.
Lemma fold_add_nth (c : Z -> nat) : forall is hist i, NoDup is -> (i < length hist)%nat -> nth i (fold_left add_at (map (fun j => (j, c j)) is) hist) O = (nth i hist O + if in_dec Z.eq_dec (Z.of_nat i) is then c (Z.of_nat i) else 0)%nat.
Proof.
  induction is as [|j is IH]; intros hist i N Hi; [cbn; lia|]. inversion N; subst. cbn [map fold_left]. rewrite IH by (auto; rewrite add_at_length; auto). rewrite add_at_nth by exact Hi. cbn [fst snd].
  destruct (Z.eqb_spec (Z.of_nat i) j) as [E|E].
  - subst j. destruct (in_dec Z.eq_dec (Z.of_nat i) is); [contradiction|]. destruct (in_dec Z.eq_dec (Z.of_nat i) (Z.of_nat i :: is)) as [|X]; [lia|destruct X; left; reflexivity].
  - destruct (in_dec Z.eq_dec (Z.of_nat i) is) as [A|A]; destruct (in_dec Z.eq_dec (Z.of_nat i) (j :: is)) as [B|B]; try lia; [destruct B; right; exact A|destruct B as [B|B]; [congruence|contradiction]].
Qed.
Lemma add_unique_length hist l : length (add_unique hist l) = length hist.
Proof. apply fold_add_length. Qed.
Lemma add_unique_nth hist l i : (i < length hist)%nat -> nth i (add_unique hist l) O = (nth i hist O + count_occ Z.eq_dec l (Z.of_nat i))%nat.
Proof.
  intros Hi. unfold add_unique. rewrite fold_add_nth by (auto using NoDup_nodup). destruct (in_dec Z.eq_dec (Z.of_nat i) (nodup Z.eq_dec l)) as [A|A]; [reflexivity|]. f_equal. symmetry. apply count_occ_not_In. intros B. apply A, nodup_In, B.
Qed.
(** boolean indices *)
Lemma bool_index_all tracks : (forall t, In t tracks -> t_enabled t = true) -> bool_index tracks (map t_valid (filter t_enabled tracks)) = Some (filter t_valid tracks).
Proof.
  intros H. assert (E : filter t_enabled tracks = tracks). { induction tracks as [|t l IH]; [reflexivity|]. cbn. rewrite (H t (or_introl eq_refl)). f_equal. apply IH. intros u Hu. apply H. right. exact Hu. }
  rewrite E. unfold bool_index. rewrite map_length, Nat.eqb_refl. f_equal. clear. induction tracks as [|t l IH]; [reflexivity|]. cbn. destruct (t_valid t); cbn; rewrite IH; reflexivity.
Qed.
Lemma filter_short {A} (f : A -> bool) l x : In x l -> f x = false -> (length (filter f l) < length l)%nat.
Proof.
  assert (G : forall l, (length (filter f l) <= length l)%nat) by (induction l0 as [|a l0 IH]; cbn; [lia|destruct (f a); cbn; lia]).
  induction l as [|a l IH]; intros Hx Hf; [destruct Hx|]. cbn. destruct Hx as [->|Hx]; [rewrite Hf; specialize (G l); lia|]. specialize (IH Hx Hf). destruct (f a); cbn; lia.
Qed.
Lemma ravel_bins_spec nx ny : forall l, match ravel_bins nx ny l with
  | Some r => Forall2 (fun b i => 0 <= fst b < nx /\ 0 <= snd b < ny /\ i = fst b * ny + snd b) l r
  | None => exists b, In b l /\ ~ (0 <= fst b < nx /\ 0 <= snd b < ny) end.
Proof.
  induction l as [|b l IH]; cbn; [constructor|]. destruct (ravel_bin nx ny b) as [i|] eqn:E; unfold ravel_bin in E.
  - destruct ((0 <=? fst b) && (fst b <? nx) && (0 <=? snd b) && (snd b <? ny)) eqn:T; [|discriminate]. injection E as <-. rewrite !andb_true_iff, !Z.leb_le, !Z.ltb_lt in T.
    destruct (ravel_bins nx ny l); [constructor; [intuition lia|exact IH]|]. destruct IH as (c & Ic & Hc). exists c. split; [right; exact Ic|exact Hc].
  - destruct ((0 <=? fst b) && (fst b <? nx) && (0 <=? snd b) && (snd b <? ny)) eqn:T; [discriminate|]. exists b. split; [left; reflexivity|]. intros H. assert (X : (0 <=? fst b) && (fst b <? nx) && (0 <=? snd b) && (snd b <? ny) = true) by (rewrite !andb_true_iff, !Z.leb_le, !Z.ltb_lt; intuition lia). congruence.
Qed.
Lemma bool_index_filter {A} (f : A -> bool) (l : list A) : bool_index l (map f l) = Some (filter f l).
Proof. unfold bool_index. rewrite map_length, Nat.eqb_refl. f_equal. induction l as [|a l IH]; [reflexivity|]. cbn. destruct (f a); cbn; rewrite IH; reflexivity. Qed.

(** the ravelled indices of the selected hits *)
Lemma ravel_list sx sy ny n_rows px : forall (hs : list cluster_hit) (bs : list Z), length hs = length bs ->
  map (fun bi => ravel_pixel ny sx sy (fst bi) (snd bi)) (combine (map fst (filter snd (combine bs (map (inside sx sy) (map (fun hb => relative_index sx sy n_rows px (fst hb) (snd hb)) (combine hs bs))))))
     (filter (inside sx sy) (map (fun hb => relative_index sx sy n_rows px (fst hb) (snd hb)) (combine hs bs)))) =
  flat_map (fun hb => let i := relative_index sx sy n_rows px (fst hb) (snd hb) in if inside sx sy i then [ravel_pixel ny sx sy (snd hb) i] else []) (combine hs bs).
Proof.
  induction hs as [|h hs IH]; intros [|b bs] L; try discriminate; [reflexivity|]. cbn [combine map fst snd filter flat_map]. cbv zeta. destruct (inside sx sy (relative_index sx sy n_rows px h b)); cbn [map combine fst app]; rewrite <- IH by (cbn in L; lia); reflexivity.
Qed.
Lemma ravel_inj ny sx sy bx by_ ci ri b i : 0 <= by_ < ny -> 0 <= ci < sx -> 0 <= ri < sy -> inside sx sy i = true ->
  (ravel_pixel ny sx sy b i = ((bx * ny + by_) * sx + ci) * sy + ri <-> b = bx * ny + by_ /\ fst i = ci /\ snd i = ri).
Proof.
  intros Hb Hc Hr I. unfold inside in I. rewrite !andb_true_iff, !Z.leb_le, !Z.ltb_lt in I. unfold ravel_pixel. rewrite (Z.mul_comm (b / ny)), <- Z.div_mod by lia.
  split; [|intros (-> & -> & ->); reflexivity]. intros E.
  assert (A : snd i = ri /\ b * sx + fst i = (bx * ny + by_) * sx + ci). { set (u := b * sx + fst i) in *. set (w := (bx * ny + by_) * sx + ci) in *. assert (u = w) by nia. split; [nia|assumption]. }
  destruct A as [A1 A2]. assert (b = bx * ny + by_) by nia. split; [assumption|]. split; [nia|exact A1].
Qed.
(** whether the hit is counted in the element *)
Definition counts_in (sx sy ny n_rows : Z) (px : list Z) (tracks : list eff_track) (bx by_ ci ri : Z) (h : cluster_hit) : bool :=
  existsb (fun t => t_valid t && belongs h t && (fst (t_bin t) =? bx) && (snd (t_bin t) =? by_)) tracks &&
  (h_column h =? nth (Z.to_nat (bx * ny + by_)) px 0 / n_rows + 1 + (ci - sx / 2)) && (h_row h =? nth (Z.to_nat (bx * ny + by_)) px 0 mod n_rows + 1 + (ri - sy / 2)).
Lemma np_repeat_ones {A} : forall (l : list A) ns, length ns = length l -> (forall n, In n ns -> n = 1%nat) -> np_repeat l ns = l.
Proof.
  induction l as [|a l IH]; intros [|n ns] L H; try discriminate; [reflexivity|]. unfold np_repeat in *. cbn. rewrite (H n (or_introl eq_refl)). cbn. f_equal. apply IH; [cbn in L; lia|]. intros m Hm. apply H. right. exact Hm.
Qed.
Lemma Forall2_len {A B} (P : A -> B -> Prop) l m : Forall2 P l m -> length l = length m.
Proof. induction 1; cbn; congruence. Qed.
Lemma nth_selected (selected : list eff_track) n t : nth_error selected n = Some t -> nth n (map t_n_hits selected) O = t_n_hits t.
Proof. intros E. apply nth_error_nth. rewrite nth_error_map, E. reflexivity. Qed.

Section Props.
  Variables nx ny sx sy n_rows : Z.
  Variable px : list Z.
  Variable argsort : list Z -> list nat.
  Hypothesis So : sorting argsort.
  Definition enabled_all (tracks : list eff_track) : Prop := forall t, In t tracks -> t_enabled t = true.
  Definition in_range (tracks : list eff_track) : Prop := forall t, In t tracks -> t_valid t = true -> 0 <= fst (t_bin t) < nx /\ 0 <= snd (t_bin t) < ny.
  Definition found (tracks : list eff_track) (h : cluster_hit) : bool := existsb (fun t => t_valid t && belongs h t) tracks.

  Lemma filter_all {A} (f : A -> bool) l : (forall x, In x l -> f x = true) -> filter f l = l.
  Proof. induction l as [|a l IH]; intros H; [reflexivity|]. cbn. rewrite (H a (or_introl eq_refl)). f_equal. apply IH. intros x Hx. apply H. right. exact Hx. Qed.
  Lemma found_selected tracks h : existsb (belongs h) (filter t_valid tracks) = found tracks h.
  Proof. unfold found. induction tracks as [|t l IH]; [reflexivity|]. cbn. destruct (t_valid t); cbn; rewrite IH; reflexivity. Qed.
  Lemma good_selected tracks hits : good_ids tracks hits -> good_ids (filter t_valid tracks) hits.
  Proof. intros [A B]. split; [|exact B]. intros t Ht. apply filter_In in Ht. apply A. tauto. Qed.

  (** one chunk with clusters of one hit *)
  Lemma chunk_counts tracks bins hist hits : good_ids tracks hits -> own_clusters tracks -> enabled_all tracks ->
    Forall2 (fun b i => 0 <= fst b < nx /\ 0 <= snd b < ny /\ i = fst b * ny + snd b) (map t_bin (filter t_valid tracks)) bins ->
    (exists h, In h hits /\ found tracks h = true) -> (forall h t, In h hits -> In t tracks -> t_valid t = true -> belongs h t = true -> t_n_hits t = 1%nat) ->
    exists hist', pixel_hits_chunk ny sx sy n_rows px argsort tracks bins hist hits = inr hist' /\ length hist' = length hist /\
      forall bx by_ ci ri, 0 <= bx < nx -> 0 <= by_ < ny -> 0 <= ci < sx -> 0 <= ri < sy -> let k := Z.to_nat (((bx * ny + by_) * sx + ci) * sy + ri) in (k < length hist)%nat ->
        nth k hist' O = (nth k hist O + length (filter (counts_in sx sy ny n_rows px tracks bx by_ ci ri) hits))%nat.
  Proof.
    intros Gi Own En Fb Ex One. unfold pixel_hits_chunk. rewrite bool_index_all by exact En. set (selected := filter t_valid tracks) in *.
    assert (Ne : selected <> []). { destruct Ex as (h & _ & F). unfold found in F. apply existsb_exists in F. destruct F as (t & It & V). apply andb_true_iff in V. intros Z. assert (X : In t selected) by (apply filter_In; tauto). rewrite Z in X. destruct X. }
    destruct (lookup argsort selected hits So (good_selected _ _ Gi) Ne) as (v & idx & E & Ea & F). cbv zeta. rewrite E. set (actual := map (fun i => nth i hits (ClusterHit 0 0 0 0)) v) in *.
    assert (La := Forall2_len _ _ _ F).
    assert (Ha : forall h, In h actual -> In h hits) by (intros h Hh; rewrite Ea in Hh; apply filter_In in Hh; tauto).
    rewrite np_repeat_ones; [|rewrite !map_length; reflexivity|].
    2:{ intros n Hn. apply in_map_iff in Hn. destruct Hn as (j & <- & Hj). clear -F Hj Ha One. revert Ha. induction F as [|h k l ks (m & t & -> & Et & B) F IH]; intros Ha; [destruct Hj|]. destruct Hj as [<-|Hj]; [|apply IH; [exact Hj|intros; apply Ha; right; assumption]].
        rewrite Nat2Z.id, (nth_selected _ _ _ Et). assert (X := nth_error_In _ _ Et). apply filter_In in X. apply (One h t); try tauto. apply Ha. left. reflexivity. }
    set (bs := map (fun j => nth (Z.to_nat j) bins 0) idx). assert (Lb : length actual = length bs) by (unfold bs; rewrite map_length; exact La).
    unfold broadcast. rewrite Lb, Nat.eqb_refl.
    assert (Fh : Forall2 (fun h b => exists t, In t tracks /\ t_valid t = true /\ belongs h t = true /\ 0 <= fst (t_bin t) < nx /\ 0 <= snd (t_bin t) < ny /\ b = fst (t_bin t) * ny + snd (t_bin t)) actual bs).
    { unfold bs. clear -F Fb. induction F as [|h k l ks (m & t & -> & Et & B) F IH]; cbn [map]; constructor; [|exact IH]. assert (X := nth_error_In _ _ Et). apply filter_In in X. exists t. split; [tauto|]. split; [tauto|]. split; [exact B|]. rewrite Nat2Z.id.
      assert (Et2 : nth_error (map t_bin selected) m = Some (t_bin t)) by (rewrite nth_error_map, Et; reflexivity). clear -Et2 Fb. revert m Et2. induction Fb as [|b i bs is H Fb IH]; intros [|m] Et2; try discriminate; [cbn in *; injection Et2 as ->; exact H|]. apply IH. exact Et2. }
    assert (Na : actual <> []). { destruct Ex as (h & Ih & Fo). rewrite <- found_selected in Fo. intros Z. assert (X : In h actual) by (rewrite Ea; apply filter_In; split; assumption). rewrite Z in X. destruct X. }
    rewrite !map_length. assert (Lc : length (combine actual bs) = length actual) by (rewrite combine_length; lia). rewrite Lc.
    destruct (Nat.eqb_spec (length actual) 0) as [Z|_]; [destruct actual; [contradiction|discriminate]|].
    unfold bool_index. rewrite !map_length, Lc, Lb, Nat.eqb_refl. rewrite ravel_list by exact Lb.
    eexists. split; [reflexivity|]. split; [apply add_unique_length|]. intros bx by_ ci ri Hbx Hby Hci Hri. cbv zeta. intros Hk. rewrite add_unique_nth by exact Hk. f_equal.
    rewrite Z2Nat.id by (assert (0 <= bx * ny + by_) by nia; assert (0 <= (bx * ny + by_) * sx + ci) by nia; nia).
    assert (Fc : filter (counts_in sx sy ny n_rows px tracks bx by_ ci ri) hits = filter (counts_in sx sy ny n_rows px tracks bx by_ ci ri) actual).
    { rewrite Ea. unfold selected. clear. induction hits as [|h l IH]; [reflexivity|]. cbn [filter]. rewrite found_selected. destruct (found tracks h) eqn:Fo; cbn [filter]; [rewrite IH; reflexivity|]. rewrite IH.
      assert (Z : counts_in sx sy ny n_rows px tracks bx by_ ci ri h = false); [|rewrite Z; reflexivity]. unfold counts_in. assert (W : existsb (fun t => t_valid t && belongs h t && (fst (t_bin t) =? bx) && (snd (t_bin t) =? by_)) tracks = false); [|rewrite W; reflexivity].
      unfold found in Fo. clear IH. induction tracks as [|t ts IH]; [reflexivity|]. cbn in *. apply orb_false_iff in Fo. destruct Fo as [Fo1 Fo2]. rewrite Fo1, (IH Fo2). reflexivity. }
    rewrite Fc. clear Fc E Ea F La Ha Lb Lc Na Hk Ex Fb.
    induction Fh as [|h b hs bs' (t & It & Vt & Bt & Rx & Ry & ->) Fh IH]; [reflexivity|]. cbn [combine flat_map filter fst snd]. cbv zeta. rewrite count_occ_app, IH.
    assert (Key : (inside sx sy (relative_index sx sy n_rows px h (fst (t_bin t) * ny + snd (t_bin t))) = true /\ ravel_pixel ny sx sy (fst (t_bin t) * ny + snd (t_bin t)) (relative_index sx sy n_rows px h (fst (t_bin t) * ny + snd (t_bin t))) = ((bx * ny + by_) * sx + ci) * sy + ri) <-> counts_in sx sy ny n_rows px tracks bx by_ ci ri h = true).
    { unfold counts_in. rewrite !andb_true_iff, !Z.eqb_eq, existsb_exists. split.
      - intros [I Eq]. apply ravel_inj in Eq; auto. destruct Eq as (Eb & Ec & Er). assert (Bx : fst (t_bin t) = bx) by nia. assert (By : snd (t_bin t) = by_) by (rewrite Bx in Eb; lia). rewrite Eb in Ec, Er. unfold relative_index, nearest_pixel in Ec, Er. cbn [fst snd] in Ec, Er. split; [split; [|lia]|lia].
        exists t. split; [exact It|]. rewrite !andb_true_iff, !Z.eqb_eq. auto.
      - intros [[(t' & It' & T') Ec] Er]. rewrite !andb_true_iff, !Z.eqb_eq in T'. destruct T' as [[[V' B'] X'] Y'].
        assert (t' = t) as ->. { apply In_nth_error in It. apply In_nth_error in It'. destruct It as (i & Hi). destruct It' as (j & Hj). unfold belongs in Bt, B'. rewrite !andb_true_iff, !Z.eqb_eq in Bt, B'. assert (i = j) by (apply (Own i j t t' Hi Hj Vt V'); intuition congruence). congruence. }
        rewrite X', Y'. assert (Rel : relative_index sx sy n_rows px h (bx * ny + by_) = (ci, ri)) by (unfold relative_index, nearest_pixel; cbn [fst snd]; f_equal; lia). rewrite Rel.
        assert (I : inside sx sy (ci, ri) = true) by (unfold inside; cbn [fst snd]; rewrite !andb_true_iff, !Z.leb_le, !Z.ltb_lt; lia). split; [exact I|]. apply ravel_inj; auto. }
    destruct (inside sx sy (relative_index sx sy n_rows px h (fst (t_bin t) * ny + snd (t_bin t)))) eqn:I.
    - cbn [count_occ]. destruct (Z.eq_dec _ _) as [Eq|Eq].
      + rewrite (proj1 Key (conj eq_refl Eq)). reflexivity.
      + destruct (counts_in sx sy ny n_rows px tracks bx by_ ci ri h); [destruct Eq; apply Key; reflexivity|reflexivity].
    - cbn [count_occ]. destruct (counts_in sx sy ny n_rows px tracks bx by_ ci ri h); [destruct (proj2 Key eq_refl) as [X _]; discriminate|reflexivity].
  Qed.

  Lemma bins_ok tracks : enabled_all tracks -> in_range tracks -> exists bins, ravel_bins nx ny (map t_bin (filter t_valid (filter t_enabled tracks))) = Some bins /\
    Forall2 (fun b i => 0 <= fst b < nx /\ 0 <= snd b < ny /\ i = fst b * ny + snd b) (map t_bin (filter t_valid tracks)) bins.
  Proof.
    intros En Ir. rewrite (filter_all t_enabled tracks En). pose proof (ravel_bins_spec nx ny (map t_bin (filter t_valid tracks))) as H. destruct (ravel_bins nx ny _) as [bins|]; [exists bins; auto|].
    destruct H as (b & Ib & Nb). exfalso. apply Nb. apply in_map_iff in Ib. destruct Ib as (t & <- & It). apply filter_In in It. apply Ir; tauto.
  Qed.
  (** If the selected clusters have one hit each, every hit of a cluster of a valid track is counted exactly once: in the bin of the intersection of the track, at its column and row
      relative to the nearest pixel of the bin, if this is inside of the array.  All other hits are not counted. *)
  Theorem C102_counts tracks hist chunks : good_ids tracks (concat chunks) -> own_clusters tracks -> enabled_all tracks -> in_range tracks ->
    (forall hits, In hits chunks -> exists h, In h hits /\ found tracks h = true) ->
    (forall h t, In h (concat chunks) -> In t tracks -> t_valid t = true -> belongs h t = true -> t_n_hits t = 1%nat) ->
    exists hist', count_pixel_hits nx ny sx sy n_rows px argsort tracks hist chunks = inr hist' /\ length hist' = length hist /\
      forall bx by_ ci ri, 0 <= bx < nx -> 0 <= by_ < ny -> 0 <= ci < sx -> 0 <= ri < sy -> let k := Z.to_nat (((bx * ny + by_) * sx + ci) * sy + ri) in (k < length hist)%nat ->
        nth k hist' O = (nth k hist O + length (filter (counts_in sx sy ny n_rows px tracks bx by_ ci ri) (concat chunks)))%nat.
  Proof.
    intros Gi Own En Ir Ex One. destruct (bins_ok tracks En Ir) as (bins & Eb & Fb). unfold count_pixel_hits. rewrite Eb. clear Eb. revert hist Gi Ex One. induction chunks as [|hits chunks IH]; intros hist Gi Ex One.
    - cbn. exists hist. split; [reflexivity|]. split; [reflexivity|]. intros. lia.
    - cbn [pixel_hits_loop concat] in *. destruct Gi as [G1 G2].
      destruct (chunk_counts tracks bins hist hits) as (h1 & E1 & L1 & C1); auto.
      { split; [exact G1|]. intros h Hh. apply G2, in_app_iff. left. exact Hh. }
      { apply Ex. left. reflexivity. }
      { intros h t Hh. apply One, in_app_iff. left. exact Hh. }
      rewrite E1. destruct (IH h1) as (h2 & E2 & L2 & C2).
      { split; [exact G1|]. intros h Hh. apply G2, in_app_iff. right. exact Hh. }
      { intros c Hc. apply Ex. right. exact Hc. }
      { intros h t Hh. apply One, in_app_iff. right. exact Hh. }
      exists h2. split; [exact E2|]. split; [congruence|]. intros bx by_ ci ri Hbx Hby Hci Hri Hk. cbv zeta in C1, C2. rewrite (C2 bx by_ ci ri), (C1 bx by_ ci ri), filter_app, app_length by (auto; lia). lia.
  Qed.

  Lemma loop_error tracks bins hits : (forall hist, exists e, pixel_hits_chunk ny sx sy n_rows px argsort tracks bins hist hits = inl e) ->
    forall chunks hist, In hits chunks -> exists e, pixel_hits_loop ny sx sy n_rows px argsort tracks bins hist chunks = inl e.
  Proof.
    intros H. induction chunks as [|c chunks IH]; intros hist Hi; [destruct Hi|]. cbn [pixel_hits_loop]. destruct Hi as [->|Hi].
    - destruct (H hist) as (e & E). rewrite E. eauto.
    - destruct (pixel_hits_chunk ny sx sy n_rows px argsort tracks bins hist c) as [e|h]; [eauto|apply IH, Hi].
  Qed.
  Lemma repeat_total {A} : forall (l : list A) ns, length ns = length l -> length (np_repeat l ns) = list_sum ns.
  Proof.
    induction l as [|a l IH]; intros [|n ns] L; try discriminate; [reflexivity|]. unfold np_repeat in *. cbn [combine flat_map fst snd]. rewrite app_length, repeat_length, IH by (cbn in L; lia). reflexivity.
  Qed.
  (** A cluster with two or more hits is a ValueError: the bins of the tracks are repeated for each hit although there is already one for each hit. *)
  Theorem C102_size_refuted tracks hist chunks hits h t : good_ids tracks (concat chunks) -> enabled_all tracks -> in_range tracks -> In hits chunks ->
    (forall u, In u tracks -> t_valid u = true -> (exists g, In g hits /\ belongs g u = true) -> length (filter (fun g => belongs g u) hits) = t_n_hits u) ->
    In t tracks -> t_valid t = true -> In h hits -> belongs h t = true -> (2 <= t_n_hits t)%nat ->
    (exists e, count_pixel_hits nx ny sx sy n_rows px argsort tracks hist chunks = inl e) /\ (chunks = [hits] -> count_pixel_hits nx ny sx sy n_rows px argsort tracks hist chunks = inl ShapeValueError).
  Proof.
    intros Gi En Ir Hc Cons It Vt Ih Bh Two. destruct (bins_ok tracks En Ir) as (bins & Eb & Fb). unfold count_pixel_hits. rewrite Eb.
    assert (Key : forall hist, pixel_hits_chunk ny sx sy n_rows px argsort tracks bins hist hits = inl ShapeValueError).
    { clear hist. intros hist. unfold pixel_hits_chunk. rewrite bool_index_all by exact En. set (selected := filter t_valid tracks) in *.
      assert (Is : In t selected) by (apply filter_In; auto). assert (Ne : selected <> []) by (intros Z; rewrite Z in Is; destruct Is).
      assert (Gs : good_ids selected hits). { apply good_selected. destruct Gi as [G1 G2]. split; [exact G1|]. intros g Hg. apply G2, in_concat. eauto. }
      destruct (lookup argsort selected hits So Gs Ne) as (v & idx & E & Ea & F). cbv zeta. rewrite E. set (actual := map (fun i => nth i hits (ClusterHit 0 0 0 0)) v) in *.
      assert (La := Forall2_len _ _ _ F). set (ns := map (fun j => nth (Z.to_nat j) (map t_n_hits selected) O) idx). set (bs := np_repeat _ ns).
      assert (Lb : length bs = list_sum ns) by (apply repeat_total; unfold ns; rewrite !map_length; reflexivity).
      assert (Fn : Forall2 (fun g n => exists u, In u tracks /\ t_valid u = true /\ belongs g u = true /\ n = t_n_hits u) actual ns).
      { unfold ns. clear -F. induction F as [|g k l ks (m & u & -> & Eu & B) F IH]; cbn [map]; constructor; [|exact IH]. assert (X := nth_error_In _ _ Eu). apply filter_In in X. exists u. rewrite Nat2Z.id, (nth_selected _ _ _ Eu). tauto. }
      assert (Ha : forall g, In g actual -> In g hits) by (intros g Hg; rewrite Ea in Hg; apply filter_In in Hg; tauto).
      assert (Ia : In h actual) by (rewrite Ea; apply filter_In; split; [exact Ih|]; apply existsb_exists; eauto).
      assert (N2 : (2 <= length actual)%nat).
      { rewrite Ea. rewrite <- (Cons t It Vt (ex_intro _ h (conj Ih Bh))) in Two. eapply Nat.le_trans; [exact Two|]. clear -Is. induction hits as [|g l IH]; [cbn; lia|]. cbn [filter]. destruct (belongs g t) eqn:B; [|destruct (existsb (belongs g) selected); cbn; lia].
        assert (X : existsb (belongs g) selected = true) by (apply existsb_exists; eauto). rewrite X. cbn. lia. }
      assert (Same : forall u, belongs h u = true -> length (filter (fun g => belongs g u) hits) = length (filter (fun g => belongs g t) hits)).
      { intros u Bu. f_equal. apply filter_ext. intros g. unfold belongs in *. rewrite andb_true_iff, !Z.eqb_eq in Bu, Bh. destruct Bu as [<- <-]. destruct Bh as [<- <-]. reflexivity. }
      assert (Big : (length actual < list_sum ns)%nat).
      { clear -Fn Ha Ia Cons Two It Vt Ih Bh Same. assert (Ge : Forall2 (fun g n => (1 <= n)%nat /\ (g = h -> (2 <= n)%nat)) actual ns).
        { clear Ia. induction Fn as [|g n l ns (u & Iu & Vu & Bu & ->) Fn IH]; constructor; [|apply IH; intros; apply Ha; right; assumption]. assert (Ig := Ha g (or_introl eq_refl)). assert (Cu := Cons u Iu Vu (ex_intro _ g (conj Ig Bu))). split.
          - rewrite <- Cu. assert (X : In g (filter (fun g => belongs g u) hits)) by (apply filter_In; auto). destruct (filter (fun g => belongs g u) hits); [destruct X|cbn; lia].
          - intros ->. rewrite <- Cu, (Same u Bu), (Cons t It Vt (ex_intro _ h (conj Ih Bh))). exact Two. }
        clear -Ge Ia. induction Ge as [|g n l ns [H1 H2] Ge IH]; [destruct Ia|]. change (list_sum (n :: ns)) with (n + list_sum ns)%nat. cbn [length].
        assert (Le : (length l <= list_sum ns)%nat). { clear -Ge. induction Ge as [|g n l ns [H1 H2] Ge IH]; [cbn; lia|]. change (list_sum (n :: ns)) with (n + list_sum ns)%nat. cbn [length]. lia. }
        destruct Ia as [->|Ia]; [specialize (H2 eq_refl); lia|specialize (IH Ia); lia]. }
      unfold broadcast. destruct (Nat.eqb_spec (length actual) (length bs)) as [Z|_]; [lia|].
      destruct actual as [|a1 [|a2 al]]; [cbn in N2; lia|cbn in N2; lia|]. destruct bs as [|b1 [|b2 bl]]; [reflexivity|cbn in Lb, Big; lia|reflexivity]. }
    split; [|intros ->; cbn; rewrite Key; reflexivity]. apply (loop_error tracks bins hits); [eauto|exact Hc].
  Qed.
  (** A track on a disabled pixel in the chunk is an error. *)
  Theorem C102_mask_refuted tracks hist chunks t : In t tracks -> t_enabled t = false -> chunks <> [] -> exists e, count_pixel_hits nx ny sx sy n_rows px argsort tracks hist chunks = inl e /\ (e = MaskIndexError \/ e = BinValueError).
  Proof.
    intros It Et Nc. unfold count_pixel_hits. destruct (ravel_bins nx ny _) as [bins|]; [|eauto]. destruct chunks as [|hits chunks]; [contradiction|]. cbn [pixel_hits_loop]. unfold pixel_hits_chunk, bool_index. rewrite map_length. assert (L := filter_short t_enabled tracks t It Et). destruct (Nat.eqb_spec (length tracks) (length (filter t_enabled tracks))); [lia|]. eauto.
  Qed.
  (** A chunk of cluster hits of which none belongs to a valid track is an error. *)
  Theorem C102_no_match_refuted tracks hist chunks hits : good_ids tracks (concat chunks) -> In hits chunks -> (forall h, In h hits -> found tracks h = false) -> exists e, count_pixel_hits nx ny sx sy n_rows px argsort tracks hist chunks = inl e.
  Proof.
    intros Gi Hc Nf. unfold count_pixel_hits. destruct (ravel_bins nx ny _) as [bins|]; [|eauto]. apply (loop_error tracks bins hits); [|exact Hc]. clear hist. intros hist. unfold pixel_hits_chunk.
    destruct (bool_index tracks _) as [selected|] eqn:Es; [|eauto]. cbv zeta.
    assert (Is : selected = filter t_valid tracks).
    { unfold bool_index in Es. rewrite map_length in Es. destruct (Nat.eqb_spec (length tracks) (length (filter t_enabled tracks))) as [L|]; [|discriminate].
      assert (En : enabled_all tracks). { intros t It. destruct (t_enabled t) eqn:Et; [reflexivity|]. assert (X := filter_short t_enabled tracks t It Et). lia. }
      assert (Y := bool_index_all tracks En). unfold bool_index in Y. rewrite map_length in Y. destruct (Nat.eqb_spec (length tracks) (length (filter t_enabled tracks))); [|lia]. congruence. }
    assert (Gs : good_ids selected hits). { rewrite Is. apply good_selected. destruct Gi as [G1 G2]. split; [exact G1|]. intros g Hg. apply G2, in_concat. eauto. }
    destruct selected as [|t0 ts] eqn:Et.
    - destruct hits as [|h hs]; [|cbn; eauto]. cbn. eauto.
    - rewrite <- Et in *. destruct (lookup argsort selected hits So Gs) as (v & idx & E & Ea & F); [rewrite Et; discriminate|]. rewrite E.
      assert (Z : filter (fun h => existsb (belongs h) selected) hits = []). { rewrite Is. clear -Nf. induction hits as [|h l IH]; [reflexivity|]. cbn. rewrite found_selected, (Nf h (or_introl eq_refl)). apply IH. intros g Hg. apply Nf. right. exact Hg. }
      rewrite Ea, Z in F |- *. inversion F. cbn. eauto.
  Qed.
  (** A valid track with an intersection outside of the histogram is a ValueError, also without cluster hits. *)
  Theorem C102_outside_refuted tracks hist chunks t : In t tracks -> t_enabled t = true -> t_valid t = true -> ~ (0 <= fst (t_bin t) < nx /\ 0 <= snd (t_bin t) < ny) -> count_pixel_hits nx ny sx sy n_rows px argsort tracks hist chunks = inl BinValueError.
  Proof.
    intros It Et Vt Nb. unfold count_pixel_hits. pose proof (ravel_bins_spec nx ny (map t_bin (filter t_valid (filter t_enabled tracks)))) as H. destruct (ravel_bins nx ny _) as [bins|]; [|reflexivity]. exfalso. apply Nb.
    assert (I : In (t_bin t) (map t_bin (filter t_valid (filter t_enabled tracks)))) by (apply in_map; rewrite !filter_In; auto). clear -H I. induction H as [|b i bs is (H1 & H2 & _) H IH]; [destruct I|]. destruct I as [<-|I]; auto.
  Qed.
End Props.
(** Only arrays with an odd number of at least 3 columns and rows are accepted. *)
Theorem C102_shape sx sy : valid_shape sx sy = true <-> 3 <= sx /\ sx mod 2 = 1 /\ 3 <= sy /\ sy mod 2 = 1.
Proof.
  unfold valid_shape. rewrite negb_true_iff, !orb_false_iff, !negb_false_iff, !Z.eqb_eq, !Z.leb_gt. split; [intros (((A & B) & C) & D)|intros (A & B & C & D)]; (split; [|try split; try split]); try assumption; Z.div_mod_to_equations; lia.
Qed.
(** The array of pixels always has a valid shape and contains all pixels up to 500 um from the nearest pixel of the bin. *)
Theorem C102_window size : (0 < size)%R -> let s := array_shape size in 3 <= s /\ s mod 2 = 1 /\ valid_shape s s = true /\
  forall d, (Rabs (IZR d * size) <= 500)%R -> 0 <= d + s / 2 < s.
Proof.
  intros Hs s. assert (I : (0 < 1000 / size)%R) by (apply Rdiv_lt_0_compat; lra). destruct (archimed (1000 / size)) as [A1 A2].
  set (n := up (1000 / size) - (if Req_EM_T (IZR (up (1000 / size) - 1)) (1000 / size) then 1 else 0)).
  assert (Nc : (1000 / size <= IZR n)%R). { unfold n. destruct (Req_EM_T _ _) as [E|E]; [rewrite E; lra|]. rewrite Z.sub_0_r. lra. }
  assert (N1 : 1 <= n). { assert (0 < n); [|lia]. apply lt_IZR. lra. }
  assert (Sn : s mod 2 = 1 /\ n + 1 <= s). { unfold s, array_shape. fold n. cbv zeta. destruct (Z.eqb_spec (n mod 2) 0); split; try lia; Z.div_mod_to_equations; lia. }
  destruct Sn as [S1 S2]. assert (S3 : 3 <= s) by (clear -S1 S2 N1; Z.div_mod_to_equations; lia). split; [exact S3|]. split; [exact S1|]. split.
  - unfold valid_shape. rewrite S1. assert (X : (s <=? 1) = false) by lia. rewrite X. reflexivity.
  - intros d Hd. assert (B : (Rabs (IZR d) <= IZR n / 2)%R).
    { rewrite Rabs_mult, (Rabs_right size) in Hd by lra. apply Rmult_le_reg_r with size; [exact Hs|]. apply Rle_trans with 500%R; [exact Hd|]. assert (1000 / size * size <= IZR n * size)%R by (apply Rmult_le_compat_r; lra). unfold Rdiv in H at 1. rewrite Rmult_assoc, Rinv_l in H by lra. lra. }
    assert (C : Z.abs (2 * d) <= n). { apply le_IZR. rewrite abs_IZR, mult_IZR, Rabs_mult, (Rabs_right 2) by lra. lra. }
    Z.div_mod_to_equations. lia.
Qed.

(** *** Cases *)
(** two tracks, two clusters of one hit, sensor of 2 x 2 pixels, bins of the same size *)
Definition case_tracks : list eff_track := [EffTrack 7 0 1 (0, 1) true true; EffTrack 8 0 1 (1, 1) true true].
Definition case_hits : list cluster_hit := [ClusterHit 7 0 1 2; ClusterHit 8 0 1 2].
Fixpoint insert_sorted (l : list Z) (i : nat) (s : list nat) : list nat := match s with [] => [i] | j :: r => if nth i l 0 <=? nth j l 0 then i :: s else j :: insert_sorted l i r end.
Definition insertion_argsort (l : list Z) : list nat := fold_right (insert_sorted l) [] (seq 0 (length l)).
Lemma insertion_sorting : sorting insertion_argsort.
Proof.
  intros l. unfold is_argsort, insertion_argsort. generalize (seq 0 (length l)) as is. induction is as [|i is [P S]]; cbn [fold_right]; [split; constructor|].
  set (s := fold_right (insert_sorted l) [] is) in *. split.
  - transitivity (i :: s); [constructor; exact P|]. clear. induction s as [|j s IH]; [apply Permutation_refl|]. cbn. destruct (_ <=? _); [apply Permutation_refl|]. transitivity (j :: i :: s); [apply perm_swap|constructor; exact IH].
  - clear P. induction s as [|j s IH]; [repeat constructor|]. cbn [insert_sorted]. inversion S as [|? ? S1 F1]; subst. destruct (Z.leb_spec (nth i l 0) (nth j l 0)) as [Le|Gt]; cbn [map].
    + constructor; [exact S|]. constructor; [exact Le|]. eapply Forall_impl; [|exact F1]. cbn. intros. lia.
    + constructor; [apply IH, S1|]. assert (G : forall x, In x (map (fun i => nth i l 0) (insert_sorted l i s)) -> x = nth i l 0 \/ In x (map (fun i => nth i l 0) s)).
      { clear. induction s as [|j s IH]; cbn; [intros x [<-|[]]; auto|]. intros x. destruct (_ <=? _); cbn; [intros [<-|H]; auto|]. intros [H|H]; [auto|]. destruct (IH x H); auto. }
      apply Forall_forall. intros x Hx. destruct (G x Hx) as [->|Hx']; [lia|]. rewrite Forall_forall in F1. apply F1, Hx'.
Qed.
Example C102_case : sorting insertion_argsort /\ good_ids case_tracks (concat [case_hits]) /\ own_clusters case_tracks /\ enabled_all case_tracks /\ in_range 2 2 case_tracks /\
  count_pixel_hits 2 2 3 3 2 [0; 1; 2; 3] insertion_argsort case_tracks (repeat O 36) [case_hits] =
    inr (repeat O 9 ++ [0; 0; 0; 0; 1; 0; 0; 0; 0]%nat ++ repeat O 9 ++ [0; 1; 0; 0; 0; 0; 0; 0; 0]%nat).
Proof.
  split; [exact insertion_sorting|]. split; [|split; [|split; [|split; [|reflexivity]]]].
  - split; intros x [<-|[<-|[]]]; cbn; lia.
  - intros [|[|i]] [|[|j]] t u Hi Hj _ _ E _; try reflexivity; cbn in Hi, Hj; try (destruct i; discriminate); try (destruct j; discriminate); injection Hi as <-; injection Hj as <-; discriminate.
  - intros t [<-|[<-|[]]]; reflexivity.
  - intros t [<-|[<-|[]]] _; cbn; lia.
Qed.
(** a cluster of two hits *)
Example C102_size_case : count_pixel_hits 2 2 3 3 2 [0; 1; 2; 3] insertion_argsort [EffTrack 7 0 2 (0, 1) true true] (repeat O 36) [[ClusterHit 7 0 1 2; ClusterHit 7 0 2 2]] = inl ShapeValueError.
Proof. reflexivity. Qed.
Example C102_no_match_case : count_pixel_hits 2 2 3 3 2 [0; 1; 2; 3] insertion_argsort case_tracks (repeat O 36) [[ClusterHit 7 1 1 2]] = inl ZeroDivision.
Proof. reflexivity. Qed.

Print Assumptions C102_counts.
Print Assumptions C102_size_refuted.
Print Assumptions C102_mask_refuted.
Print Assumptions C102_no_match_refuted.
Print Assumptions C102_outside_refuted.
Print Assumptions C102_shape.
Print Assumptions C102_window.
