(** Lemmas about the array helpers. *)
From Coq Require Import ZArith QArith List Bool Arith Lia Sorting.Sorted Permutation.
From Verif Require Import ArrayUtilsModel.
Import ListNotations.
Open Scope Z_scope.

(** *** event range *)
Section R.
  Context {T : Type} (ev : T -> Z).

  Definition sorted_ev (l : list T) : Prop := StronglySorted (fun a b => ev a <= ev b) l.

  Definition below (s : Z) (l : list T) : nat := length (filter (fun x => ev x <? s) l).

  Lemma filter_none {A} (p : A -> bool) l : (forall x, In x l -> p x = false) -> filter p l = [].
  Proof.
    induction l as [|a l IH]; intros H; [reflexivity|]. simpl. rewrite (H a (or_introl eq_refl)).
    apply IH. intros. apply H. right. auto.
  Qed.

  Lemma filter_true {A} (p : A -> bool) l : (forall x, In x l -> p x = true) -> filter p l = l.
  Proof.
    induction l as [|a l IH]; intros H; [reflexivity|]. simpl. rewrite (H a (or_introl eq_refl)).
    f_equal. apply IH. intros. apply H. right. auto.
  Qed.

  Lemma sorted_first l a : sorted_ev (a :: l) -> forall x, In x (a :: l) -> ev a <= ev x.
  Proof.
    intros H x [<-|Hx]; [lia|]. inversion H as [|? ? _ H2]. subst. rewrite Forall_forall in H2. auto.
  Qed.

  Lemma sorted_last l d : sorted_ev l -> forall x, In x l -> ev x <= ev (last l d).
  Proof.
    induction l as [|a l IH]; intros H x Hx; [inversion Hx|].
    inversion H as [|? ? H1 H2]. subst. destruct l as [|b l].
    - destruct Hx as [<-|[]]. simpl. lia.
    - change (last (a :: b :: l) d) with (last (b :: l) d). destruct Hx as [<-|Hx]; [|apply IH; auto].
      rewrite Forall_forall in H2. specialize (H2 b (or_introl eq_refl)).
      specialize (IH H1 b (or_introl eq_refl)). lia.
  Qed.

  Lemma slice_filter l s t : sorted_ev l ->
    skipn (below s l) (firstn (below t l) l) = filter (fun x => (s <=? ev x) && (ev x <? t)) l.
  Proof.
    induction l as [|a l IH]; intros H; [reflexivity|].
    pose proof (sorted_first _ _ H) as Hf. inversion H as [|? ? H1 H2]. subst.
    unfold below in *. cbn [filter].
    destruct (Z.ltb_spec (ev a) s) as [As|As], (Z.ltb_spec (ev a) t) as [At|At]; cbn [length firstn skipn].
    - destruct (Z.leb_spec s (ev a)); [lia|]. cbn [andb]. apply IH. auto.
    - destruct (Z.leb_spec s (ev a)); [lia|]. cbn [andb].
      rewrite (filter_none (fun x => ev x <? t)).
      + rewrite (filter_none (fun x => (s <=? ev x) && (ev x <? t))); [cbn [length firstn]; reflexivity|]. intros x Hx. apply andb_false_iff. right. apply Z.ltb_ge.
        specialize (Hf x (or_intror Hx)). lia.
      + intros x Hx. apply Z.ltb_ge. specialize (Hf x (or_intror Hx)). lia.
    - destruct (Z.leb_spec s (ev a)); [|lia]. cbn [andb].
      specialize (IH H1).
      assert (E : filter (fun x => ev x <? s) l = []).
      { apply filter_none. intros x Hx. apply Z.ltb_ge. specialize (Hf x (or_intror Hx)). lia. }
      rewrite E in *. cbn [length skipn] in *. rewrite IH. reflexivity.
    - destruct (Z.leb_spec s (ev a)); [|lia]. cbn [andb].
      rewrite (filter_none (fun x => ev x <? t)).
      + rewrite (filter_none (fun x => (s <=? ev x) && (ev x <? t))); [rewrite skipn_nil; reflexivity|].
        intros x Hx. apply andb_false_iff. right. apply Z.ltb_ge. specialize (Hf x (or_intror Hx)). lia.
      + intros x Hx. apply Z.ltb_ge. specialize (Hf x (or_intror Hx)). lia.
  Qed.

  Lemma first_index_below l b : sorted_ev l -> (exists x, In x l /\ b <= ev x) ->
    first_index (fun x => b <=? ev x) l = Some (below b l).
  Proof.
    induction l as [|a l IH]; intros H (x & Hx & Hb); [inversion Hx|].
    pose proof (sorted_first _ _ H) as Hf. inversion H as [|? ? H1 H2]. subst. unfold below in *. cbn [first_index filter].
    destruct (Z.leb_spec b (ev a)) as [L|L].
    - destruct (Z.ltb_spec (ev a) b); [lia|].
      rewrite filter_none; [reflexivity|]. intros y Hy. apply Z.ltb_ge. specialize (Hf y (or_intror Hy)). lia.
    - destruct (Z.ltb_spec (ev a) b); [|lia].
      destruct Hx as [<-|Hx]; [lia|]. rewrite IH; eauto.
  Qed.

  Lemma argmin_below l b : sorted_ev l -> (exists x, In x l /\ b <= ev x) ->
    argmin_bool (fun x => ev x <? b) l = below b l.
  Proof.
    intros H E. unfold argmin_bool, argmax_bool.
    assert (Hx : forall l, first_index (fun x => negb (ev x <? b)) l = first_index (fun x => b <=? ev x) l).
    { induction l0 as [|a l0 IH]; [reflexivity|]. cbn [first_index]. rewrite IH.
      rewrite Z.ltb_antisym, negb_involutive. reflexivity. }
    rewrite Hx, first_index_below by auto. reflexivity.
  Qed.

  Lemma below_all l b : (forall x, In x l -> ev x < b) -> below b l = length l.
  Proof. intros H. unfold below. rewrite filter_true; auto. intros. apply Z.ltb_lt. auto. Qed.
  Lemma below_none l b : (forall x, In x l -> b <= ev x) -> below b l = O.
  Proof. intros H. unfold below. rewrite filter_none; auto. intros. apply Z.ltb_ge. auto. Qed.

  Lemma slice_skip (l : list T) a b : slice l a b = skipn a (firstn b l).
  Proof.
    unfold slice. rewrite firstn_skipn_comm. destruct (le_lt_dec a b).
    - replace (a + (b - a))%nat with b by lia. reflexivity.
    - rewrite !skipn_all2; auto; rewrite firstn_length; lia.
  Qed.
End R.

(** *** sorted integer arrays *)
Definition sortedZ (l : list Z) : Prop := StronglySorted Z.le l.

Lemma sortedZ_nth l : sortedZ l -> forall i j, (i <= j < length l)%nat -> nth i l 0 <= nth j l 0.
Proof.
  induction 1 as [|a l H IH HF]; intros i j Hij; [simpl in Hij; lia|].
  destruct i, j; simpl in *; try lia.
  - rewrite Forall_forall in HF. apply HF. apply nth_In. lia.
  - apply IH. lia.
Qed.

Lemma searchsorted_spec a v : sortedZ a ->
  (searchsorted a v <= length a)%nat /\ (forall i, (i < searchsorted a v)%nat -> nth i a 0 < v) /\ (forall i, (searchsorted a v <= i < length a)%nat -> v <= nth i a 0).
Proof.
  induction 1 as [|x a H IH HF]; simpl.
  - repeat split; intros; lia.
  - destruct IH as (I1 & I2 & I3). destruct (Z.ltb_spec x v).
    + repeat split; [lia| |].
      * intros [|i] Hi; [auto|]. apply I2. lia.
      * intros [|i] Hi; [lia|]. apply I3. lia.
    + repeat split; [lia|intros; lia|]. intros [|i] Hi; [auto|].
      rewrite Forall_forall in HF. specialize (HF (nth i a 0)).
      assert (x <= nth i a 0) by (apply HF, nth_In; lia). lia.
Qed.

Lemma searchsorted_found a v : sortedZ a -> In v a ->
  (searchsorted a v < length a)%nat /\ nth (searchsorted a v) a 0 = v.
Proof.
  intros Hs Hin. destruct (searchsorted_spec a v Hs) as (H1 & H2 & H3).
  apply (In_nth _ _ 0) in Hin. destruct Hin as (k & Hk & E).
  assert (Hlt : (searchsorted a v <= k)%nat).
  { destruct (le_lt_dec (searchsorted a v) k); auto. specialize (H2 k l). lia. }
  split; [lia|]. pose proof (sortedZ_nth a Hs _ _ (conj Hlt Hk)). specialize (H3 (searchsorted a v)). lia.
Qed.

Lemma get_nth a i : 0 <= i -> get a i = nth (Z.to_nat i) a 0.
Proof. intros H. unfold get. destruct (Z.ltb_spec i 0); [lia|reflexivity]. Qed.

(** *** find_closest *)
Lemma find_closest_spec arr v : sortedZ arr -> (2 <= length arr)%nat ->
  0 <= find_closest arr v < Z.of_nat (length arr) /\ forall j, (j < length arr)%nat -> Z.abs (v - get arr (find_closest arr v)) <= Z.abs (v - nth j arr 0).
Proof.
  intros Hs Hl. unfold find_closest.
  destruct (searchsorted_spec arr v Hs) as (H1 & H2 & H3).
  set (k := searchsorted arr v) in *. set (n := length arr) in *.
  assert (Hidx : exists i, (1 <= i <= n - 1)%nat /\ clip (Z.of_nat k) 1 (Z.of_nat n - 1) = Z.of_nat i /\            (i = k \/ (k = 0%nat /\ i = 1%nat) \/ (k = n /\ i = (n - 1)%nat))).
  { unfold clip. exists (Nat.min (Nat.max k 1) (n - 1)). split; [lia|]. split; lia. }
  destruct Hidx as (i & Hi & -> & Hcase).
  assert (G1 : get arr (Z.of_nat i - 1) = nth (i - 1) arr 0) by (rewrite get_nth by lia; f_equal; lia).
  assert (G2 : get arr (Z.of_nat i) = nth i arr 0) by (rewrite get_nth by lia; f_equal; lia).
  rewrite G1, G2.
  assert (Hlow : forall j, (j < i)%nat -> nth j arr 0 <= nth (i - 1) arr 0).
  { intros. apply sortedZ_nth; [auto|fold n; lia]. }
  assert (Hhigh : forall j, (i <= j < n)%nat -> nth i arr 0 <= nth j arr 0).
  { intros. apply sortedZ_nth; [auto|fold n; lia]. }
  assert (Hmid : nth (i - 1) arr 0 <= nth i arr 0) by (apply sortedZ_nth; auto; fold n; lia).
  (* either v is between left and right, or it is left of everything or right of everything *)
  assert (Hv : (nth (i - 1) arr 0 < v <= nth i arr 0) \/ (v <= nth (i - 1) arr 0 /\ i = 1%nat) \/
               (nth i arr 0 < v /\ i = (n - 1)%nat)).
  { destruct Hcase as [E|[[E1 E2]|[E1 E2]]].
    - left. split; [apply H2; lia|]. apply H3. lia.
    - right. left. split; auto. apply H3. lia.
    - right. right. split; auto. apply H2. lia. }
  destruct (Z.ltb_spec (v - nth (i - 1) arr 0) (nth i arr 0 - v)).
  - rewrite G1. split; [lia|]. intros j Hj. destruct (le_lt_dec i j) as [L|L].
    + specialize (Hhigh j ltac:(lia)). lia.
    + specialize (Hlow j L). destruct Hv as [Hv|[[Hv E]|[Hv E]]]; try lia.
      assert (j = 0%nat) by lia. subst j. replace (i - 1)%nat with 0%nat in * by lia. lia.
  - rewrite G2. split; [lia|]. intros j Hj. destruct (le_lt_dec i j) as [L|L].
    + specialize (Hhigh j ltac:(lia)). destruct Hv as [Hv|[[Hv E]|[Hv E]]]; try lia.
      assert (j = i) by lia. subst j. lia.
    + specialize (Hlow j L). lia.
Qed.

(** *** in1d_index *)
Lemma map_nth_seq_id (l : list Z) : map (fun i => nth i l 0) (seq 0 (length l)) = l.
Proof.
  induction l as [|a l IH]; [reflexivity|]. cbn [length seq map nth]. f_equal.
  rewrite <- seq_shift, map_map. exact IH.
Qed.

Lemma sorter_sorted ar2 s : Permutation (seq 0 (length ar2)) s ->
  Permutation ar2 (map (fun i => nth i ar2 0) s).
Proof.
  intros H. rewrite <- (Permutation_map (fun i => nth i ar2 0) H).
  rewrite map_nth_seq_id. reflexivity.
Qed.

Lemma unsorted_index ar1 ar2 s : ar2 <> [] -> Permutation (seq 0 (length ar2)) s ->
  sortedZ (map (fun i => nth i ar2 0) s) ->
  forall v, In v ar1 -> 
  let i := nth ((fun i => if Nat.leb (length ar2) i then (length ar2 - 1)%nat else i)
                (searchsorted (map (fun i => nth i ar2 0) s) v)) s O in
  (i < length ar2)%nat /\ (In v ar2 -> nth i ar2 0 = v).
Proof.
  intros Hne HP HS v Hv. cbv zeta.
  assert (Hlen : length s = length ar2) by (rewrite <- (Permutation_length HP), seq_length; reflexivity).
  assert (Hpos : (0 < length ar2)%nat) by (destruct ar2; [congruence|simpl; lia]).
  assert (Hs : forall k, (k < length ar2)%nat -> (nth k s 0 < length ar2)%nat).
  { intros k Hk. assert (In (nth k s 0%nat) (seq 0 (length ar2))).
    { apply (Permutation_in _ (Permutation_sym HP)). apply nth_In. lia. }
    apply in_seq in H. lia. }
  split.
  - apply Hs. destruct (Nat.leb_spec (length ar2) (searchsorted (map (fun i => nth i ar2 0) s) v)); lia.
  - intros Hin. apply (Permutation_in _ (sorter_sorted ar2 s HP)) in Hin.
    destruct (searchsorted_found _ v HS Hin) as [Hlt Heq].
    rewrite map_length, Hlen in Hlt.
    destruct (Nat.leb_spec (length ar2) (searchsorted (map (fun i => nth i ar2 0) s) v)); [lia|].
    set (k := searchsorted _ v) in *.
    rewrite <- Heq. rewrite (nth_indep (map _ _) 0 (nth 0%nat ar2 0)) by (rewrite map_length; lia).
    rewrite (map_nth (fun i => nth i ar2 0)). reflexivity.
Qed.

Lemma take_clip_in a i : a <> [] -> In (take_clip a i) a.
Proof. intros H. unfold take_clip. apply nth_In. destruct a; [congruence|simpl; lia]. Qed.

Lemma take_clip_nth a i : (i < length a)%nat -> take_clip a i = nth i a 0.
Proof. intros H. unfold take_clip. f_equal. lia. Qed.

(** what both ways to compute the index satisfy *)
Definition good_index (ar2 : list Z) (v : Z) (i : nat) : Prop :=
  (take_clip ar2 i = v <-> In v ar2) /\ (In v ar2 -> (i < length ar2)%nat).

Lemma index_sorted_good ar1 ar2 : ar2 <> [] -> sortedZ ar2 ->
  Forall2 (good_index ar2) ar1 (ar2_index_sorted ar1 ar2).
Proof.
  intros Hne HS. unfold ar2_index_sorted. induction ar1 as [|v ar1 IH]; constructor; auto.
  split; [split|].
  - intros <-. apply take_clip_in; auto.
  - intros H. destruct (searchsorted_found ar2 v HS H). rewrite take_clip_nth; auto.
  - intros H. apply (searchsorted_found ar2 v HS H).
Qed.

Lemma index_unsorted_good ar1 ar2 s : ar2 <> [] -> Permutation (seq 0 (length ar2)) s ->
  sortedZ (map (fun i => nth i ar2 0) s) ->
  Forall2 (good_index ar2) ar1 (ar2_index_unsorted ar1 ar2 s).
Proof.
  intros Hne HP HS. unfold ar2_index_unsorted. rewrite !map_map. induction ar1 as [|v ar1 IH]; constructor; auto.
  destruct (unsorted_index [v] ar2 s Hne HP HS v (or_introl eq_refl)) as [H1 H2]. cbv zeta in *.
  split; [split|].
  - intros <-. apply take_clip_in; auto.
  - intros H. rewrite take_clip_nth; auto.
  - auto.
Qed.

Definition mem (v : Z) (l : list Z) : bool := existsb (Z.eqb v) l.
Lemma mem_in v l : mem v l = true <-> In v l.
Proof.
  unfold mem. rewrite existsb_exists. split.
  - intros (x & H & E). apply Z.eqb_eq in E. subst. auto.
  - intros H. exists v. split; auto. apply Z.eqb_refl.
Qed.

Lemma rows_spec ar2 : forall ar1 idx k, Forall2 (good_index ar2) ar1 idx ->
  let rows := combine (combine (seq k (length ar1)) idx) ar1 in
  let valid := fun r : nat * nat * Z => take_clip ar2 (snd (fst r)) =? snd r in
  map (fun r => fst (fst r)) (filter valid rows) =
    filter (fun i => mem (nth (i - k) ar1 0) ar2) (seq k (length ar1)) /\
  Forall (fun r => snd r = nth (fst (fst r) - k) ar1 0 /\ (k <= fst (fst r) < k + length ar1)%nat /\
                   valid r = mem (snd r) ar2 /\
                   (valid r = true -> (snd (fst r) < length ar2)%nat /\ nth (snd (fst r)) ar2 0 = snd r)) rows /\
  map (fun r => fst (fst r)) rows = seq k (length ar1).
Proof.
  induction ar1 as [|v ar1 IH]; intros idx k H; inversion H as [|? i ? idx' G H']; subst; cbv zeta.
  - simpl. repeat split; constructor.
  - cbn [length seq combine filter fst snd map].
    specialize (IH idx' (S k) H'). cbv zeta in IH. destruct IH as (I1 & I2 & I3).
    assert (Hv : (take_clip ar2 i =? v) = mem v ar2).
    { apply eq_true_iff_eq. rewrite Z.eqb_eq, mem_in. apply G. }
    assert (H0 : nth (k - k) (v :: ar1) 0 = v) by (rewrite Nat.sub_diag; reflexivity). rewrite H0.
    assert (Hf : filter (fun i => mem (nth (i - k) (v :: ar1) 0) ar2) (seq (S k) (length ar1)) =
                 filter (fun i => mem (nth (i - S k) ar1 0) ar2) (seq (S k) (length ar1))).
    { apply filter_ext_in. intros j Hj. apply in_seq in Hj. replace (j - k)%nat with (S (j - S k)) by lia. reflexivity. }
    split; [|split].
    + rewrite Hf, <- I1, Hv. destruct (mem v ar2); reflexivity.
    + constructor.
      * cbn [fst snd]. split; [auto|]. split; [lia|]. split; [auto|]. intros E.
        apply Z.eqb_eq in E. destruct G as [G1 G2]. pose proof (proj1 G1 E) as Hin.
        specialize (G2 Hin). rewrite take_clip_nth in E by auto. auto.
      * eapply Forall_impl; [|exact I2]. cbn beta. intros [[a b] c] (A & B & C & D). cbn [fst snd] in *.
        split; [replace (a - k)%nat with (S (a - S k)) by lia; auto|]. split; [lia|]. auto.
    + f_equal. exact I3.
Qed.

(** *** counting distinct values *)
Lemma filter_filter' {A} (p q : A -> bool) l : filter p (filter q l) = filter (fun x => q x && p x) l.
Proof.
  induction l as [|a l IH]; [reflexivity|]. simpl. destruct (q a); simpl; [destruct (p a)|]; congruence.
Qed.

Lemma nodup_remove_length v l : In v l ->
  S (length (nodup Z.eq_dec (filter (fun w => negb (w =? v)) l))) = length (nodup Z.eq_dec l).
Proof.
  intros Hin.
  assert (P : Permutation (v :: nodup Z.eq_dec (filter (fun w => negb (w =? v)) l)) (nodup Z.eq_dec l)).
  { apply NoDup_Permutation.
    - constructor; [|apply NoDup_nodup]. rewrite nodup_In, filter_In, Z.eqb_refl. intros [_ H]. discriminate.
    - apply NoDup_nodup.
    - intros x. simpl. rewrite !nodup_In, filter_In. split.
      + intros [<-|[H _]]; auto.
      + intros H. destruct (Z.eqb_spec x v) as [->|]; [left; auto|right; split; auto]. }
  rewrite <- (Permutation_length P). reflexivity.
Qed.

Lemma unique_loop_spec maxn : forall col mask c seen,
  (forall v, In v col -> 0 <= v < maxn) -> (forall v, 0 <= v < maxn -> mask v = negb (mem v seen)) ->
  unique_column_loop maxn col mask c =
  c + Z.of_nat (length (nodup Z.eq_dec (filter (fun v => negb (mem v seen)) col))).
Proof.
  induction col as [|v col IH]; intros mask c seen Hr Hm; [simpl; lia|].
  cbn [unique_column_loop]. unfold mask_index.
  pose proof (Hr v (or_introl eq_refl)) as Hv. destruct (Z.ltb_spec v 0); [lia|].
  rewrite (IH _ _ (v :: seen)).
  - cbn [filter]. rewrite (Hm v Hv). destruct (mem v seen) eqn:E; cbn [negb].
    + f_equal. f_equal. f_equal. f_equal. apply filter_ext_in. intros w Hw. cbn [mem existsb].
      unfold mem. cbn [existsb]. destruct (Z.eqb_spec w v) as [->|]; [|reflexivity]. unfold mem in E. rewrite E. reflexivity.
    + cbn [nodup]. destruct (in_dec Z.eq_dec v (filter (fun w => negb (mem w seen)) col)) as [Hin|Hin].
      * rewrite <- Z.add_assoc. f_equal.
        rewrite <- (nodup_remove_length v (filter (fun w => negb (mem w seen)) col)) by auto.
        rewrite filter_filter'. rewrite Nat2Z.inj_succ.
        rewrite (filter_ext_in (fun x => negb (mem x seen) && negb (x =? v)) (fun w => negb (mem w (v :: seen)))); [lia|].
        intros w Hw. unfold mem. cbn [existsb]. rewrite negb_orb, andb_comm. reflexivity.
      * cbn [length]. rewrite Nat2Z.inj_succ.
        rewrite (filter_ext_in (fun w => negb (mem w (v :: seen))) (fun w => negb (mem w seen))); [lia|].
        intros w Hw. unfold mem. cbn [existsb]. destruct (Z.eqb_spec w v) as [->|]; [|reflexivity].
        exfalso. apply Hin. apply filter_In. split; auto. rewrite E. reflexivity.
  - intros w Hw. apply Hr. right. auto.
  - intros w Hw. unfold mem. cbn [existsb]. destruct (w =? v); [reflexivity|]. apply Hm. auto.
Qed.

Lemma unique_column_spec maxn v col : (forall w, In w (v :: col) -> 0 <= w < maxn) ->
  unique_column maxn (v :: col) = Z.of_nat (length (nodup Z.eq_dec (v :: col))).
Proof.
  intros H. unfold unique_column.
  rewrite (unique_loop_spec maxn col _ 1 [v]).
  - replace (length (nodup Z.eq_dec (v :: col)))
      with (S (length (nodup Z.eq_dec (filter (fun w => negb (w =? v)) (v :: col))))).
    + rewrite Nat2Z.inj_succ. cbn [filter]. rewrite Z.eqb_refl. cbn [negb].
      rewrite (filter_ext (fun w => negb (w =? v)) (fun w => negb (mem w [v]))); [lia|].
      intros w. unfold mem. cbn [existsb]. rewrite orb_false_r. reflexivity.
    + apply nodup_remove_length. left. auto.
  - intros w Hw. apply H. right. auto.
  - intros w Hw. unfold mask_index, mem. cbn [existsb].
    pose proof (H v (or_introl eq_refl)). destruct (Z.ltb_spec v 0); [lia|].
    rewrite orb_false_r. destruct (w =? v); reflexivity.
Qed.

(** the reflected index is within the array and within the same window *)
Lemma reflect_spec n e i d : 0 <= e < n -> 0 <= i < n -> - e <= d <= e ->
  0 <= reflect n (i + d) < n /\ - e <= reflect n (i + d) - i <= e.
Proof.
  intros He Hi Hd. unfold reflect. destruct (Z.ltb_spec (i + d) 0); [lia|].
  destruct (Z.leb_spec n (i + d)); lia.
Qed.

Lemma reflect_id n i : 0 <= i < n -> reflect n i = i.
Proof. intros H. unfold reflect. destruct (Z.ltb_spec i 0); [lia|]. destruct (Z.leb_spec n i); lia. Qed.

(** *** statistics of histograms *)
Lemma np_repeat_length {T} (pos : list T) counts : length pos = length counts ->
  length (np_repeat pos counts) = list_sum counts.
Proof.
  revert counts. induction pos as [|p pos IH]; intros [|c cs] H; simpl in *; try discriminate; auto.
  rewrite app_length, repeat_length, IH by lia. reflexivity.
Qed.

Lemma sumQ_app a b : (sumQ (a ++ b) == sumQ a + sumQ b)%Q.
Proof. induction a as [|x a IH]; simpl; [ring|]. rewrite IH. ring. Qed.

Lemma sumQ_repeat x n : (sumQ (repeat x n) == Qnat n * x)%Q.
Proof.
  induction n as [|n IH]; simpl; [unfold Qnat; simpl; ring|]. rewrite IH. unfold Qnat.
  replace (Z.of_nat (S n)) with (Z.of_nat n + 1) by lia. rewrite inject_Z_plus. ring.
Qed.

Lemma dot_repeat counts : forall pos, length pos = length counts ->
  (dot counts pos == sumQ (np_repeat pos counts))%Q.
Proof.
  induction counts as [|c cs IH]; intros [|p ps] H; simpl in *; try discriminate; [reflexivity|].
  rewrite sumQ_app, sumQ_repeat, IH by lia. reflexivity.
Qed.

Lemma sumQ_perm a b : Permutation a b -> (sumQ a == sumQ b)%Q.
Proof.
  induction 1; simpl; try reflexivity.
  - rewrite IHPermutation. reflexivity.
  - ring.
  - rewrite IHPermutation1. auto.
Qed.

Lemma np_mean_perm a b : Permutation a b -> (np_mean a == np_mean b)%Q.
Proof. intros H. unfold np_mean. rewrite (sumQ_perm a b H), (Permutation_length H). reflexivity. Qed.

Lemma sumQ_map_ext (f g : Q -> Q) l : (forall x, (f x == g x)%Q) -> (sumQ (map f l) == sumQ (map g l))%Q.
Proof. intros H. induction l as [|x l IH]; simpl; [reflexivity|]. rewrite H, IH. reflexivity. Qed.

Lemma np_mean_ext (f g : Q -> Q) l : (forall x, (f x == g x)%Q) -> (np_mean (map f l) == np_mean (map g l))%Q.
Proof. intros H. unfold np_mean. rewrite (sumQ_map_ext f g l H), !map_length. reflexivity. Qed.

Lemma np_var_perm a b : Permutation a b -> (np_var a == np_var b)%Q.
Proof.
  intros H. unfold np_var. cbv zeta.
  transitivity (np_mean (map (fun x => (x - np_mean a) * (x - np_mean a))%Q b)).
  - apply np_mean_perm, Permutation_map; auto.
  - apply np_mean_ext. intros x. rewrite (np_mean_perm a b H). reflexivity.
Qed.

Lemma insert_perm x l : Permutation (insert_sorted x l) (x :: l).
Proof.
  induction l as [|y l IH]; simpl; auto. destruct (x <=? y); auto.
  rewrite IH. apply perm_swap.
Qed.
Lemma np_sort_perm l : Permutation (np_sort l) l.
Proof. induction l as [|x l IH]; simpl; auto. rewrite insert_perm. auto. Qed.

Lemma insert_sortedZ x l : sortedZ l -> sortedZ (insert_sorted x l).
Proof.
  induction 1 as [|y l H IH HF]; simpl; [repeat constructor|].
  destruct (Z.leb_spec x y).
  - constructor; [constructor; auto|]. constructor; auto. eapply Forall_impl; [|exact HF]. cbn beta. intros. lia.
  - constructor; auto. rewrite Forall_forall in *. intros z Hz.
    apply (Permutation_in _ (insert_perm x l)) in Hz. destruct Hz as [<-|Hz]; [lia|auto].
Qed.
Lemma np_sort_sorted l : sortedZ (np_sort l).
Proof. induction l; simpl; [constructor|]. apply insert_sortedZ. auto. Qed.

Lemma sorted_perm_eq a : forall b, sortedZ a -> sortedZ b -> Permutation a b -> a = b.
Proof.
  induction a as [|x a IH]; intros b Ha Hb HP.
  - apply Permutation_nil in HP. auto.
  - destruct b as [|y b]; [symmetry in HP; apply Permutation_nil_cons in HP; tauto|].
    inversion Ha as [|? ? Ha1 Ha2]. inversion Hb as [|? ? Hb1 Hb2]. subst.
    rewrite Forall_forall in Ha2, Hb2.
    assert (x = y).
    { assert (Hx : In x (y :: b)) by (apply (Permutation_in _ HP); left; auto).
      assert (Hy : In y (x :: a)) by (apply (Permutation_in _ (Permutation_sym HP)); left; auto).
      destruct Hx as [->|Hx]; auto. destruct Hy as [->|Hy]; auto.
      specialize (Ha2 _ Hy). specialize (Hb2 _ Hx). lia. }
    subst. f_equal. apply IH; auto. apply Permutation_cons_inv in HP. auto.
Qed.

Lemma np_median_perm a b : Permutation a b -> np_median a = np_median b.
Proof.
  intros H. unfold np_median.
  rewrite (sorted_perm_eq (np_sort a) (np_sort b)); auto using np_sort_sorted.
  rewrite (np_sort_perm a), (np_sort_perm b). auto.
Qed.

(** *** quantiles *)
Lemma first_index_Some {T} (p : T -> bool) l i d : first_index p l = Some i ->
  (i < length l)%nat /\ p (nth i l d) = true /\ forall j, (j < i)%nat -> p (nth j l d) = false.
Proof.
  revert i. induction l as [|a l IH]; intros i H; [discriminate|]. cbn [first_index] in H.
  destruct (p a) eqn:E.
  - injection H as <-. simpl. repeat split; auto; intros; lia.
  - destruct (first_index p l) as [k|]; [|discriminate]. injection H as <-.
    destruct (IH k eq_refl) as (H1 & H2 & H3). simpl. repeat split; auto; [lia|].
    intros [|j] Hj; [auto|]. apply H3. lia.
Qed.

Lemma first_index_None {T} (p : T -> bool) l : first_index p l = None -> forall x, In x l -> p x = false.
Proof.
  induction l as [|a l IH]; intros H x Hx; [inversion Hx|]. cbn [first_index] in H.
  destruct (p a) eqn:E; [discriminate|]. destruct (first_index p l) eqn:F; [discriminate|].
  destruct Hx as [<-|Hx]; auto.
Qed.

Fixpoint sumZ (l : list Z) : Z := match l with [] => 0 | x :: r => x + sumZ r end.

Lemma cumsum_length acc l : length (cumsum acc l) = length l.
Proof. revert acc. induction l as [|x l IH]; intros; simpl; auto. Qed.

Lemma cumsum_nth l : forall acc i, (i < length l)%nat -> nth i (cumsum acc l) 0 = acc + sumZ (firstn (S i) l).
Proof.
  induction l as [|x l IH]; intros acc i H; [simpl in H; lia|].
  destruct i as [|i]; [simpl; lia|]. cbn [cumsum nth]. rewrite IH by (simpl in H; lia).
  change (firstn (S (S i)) (x :: l)) with (x :: firstn (S i) l). cbn [sumZ]. lia.
Qed.

Lemma cumsum_last l acc : l <> [] -> last (cumsum acc l) 0 = acc + sumZ l.
Proof.
  intros H. assert (Hl : (0 < length l)%nat) by (destruct l; [congruence|simpl; lia]).
  assert (E : forall (a : list Z), a <> [] -> last a 0 = nth (length a - 1) a 0).
  { induction a as [|x a IH]; [congruence|]. intros _. destruct a as [|y a]; [reflexivity|].
    change (last (x :: y :: a) 0) with (last (y :: a) 0). rewrite IH by discriminate.
    cbn [length]. replace (S (S (length a)) - 1)%nat with (S (S (length a) - 1)) by lia. reflexivity. }
  rewrite E.
  - rewrite cumsum_length, cumsum_nth by lia. replace (S (length l - 1)) with (length l) by lia.
    rewrite firstn_all. reflexivity.
  - intros C. apply (f_equal (@length Z)) in C. rewrite cumsum_length in C. simpl in C. lia.
Qed.
