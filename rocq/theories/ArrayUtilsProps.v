(** Properties C09, C43, C44, C45, C50, C51: array helpers of analysis_utils. *)
From Coq Require Import ZArith QArith List Bool Arith Lia Sorting.Sorted Permutation.
From Verif Require Import ArrayUtilsModel ArrayUtilsProofs.
From Verif Require EventArraysModel HistModel HistProps.
Import ListNotations.
Open Scope Z_scope.

(** ** C09: rows in an event range *)
Section C09.
  Context {T : Type} (ev : T -> Z).

  (** Specification *)
  Definition in_event_range (start stop : option Z) (x : T) : bool :=
    match start with None => true | Some a => a <=? ev x end &&
    match stop with None => true | Some b => ev x <? b end.

  Theorem C09_event_range_sorted : forall array start stop,
    StronglySorted (fun a b => ev a <= ev b) array ->
    (exists x, In x array /\ ev x <> 0) ->
    (forall a, start = Some a -> stop = None -> exists x, In x array /\ a <= ev x) ->
    get_data_in_event_range ev array start stop true = Some (filter (in_event_range start stop) array).
  Proof.
    intros array start stop Hs (z & Hz & Hnz) Hb. unfold get_data_in_event_range.
    assert (E : existsb (fun x => negb (ev x =? 0)) array = true).
    { apply existsb_exists. exists z. split; auto. apply negb_true_iff, Z.eqb_neq. auto. }
    rewrite E. cbn [negb]. destruct array as [|x0 array]; [inversion Hz|]. clear z Hz Hnz E.
    set (arr := x0 :: array) in *.
    pose proof (sorted_first ev array x0 Hs) as Hfirst. fold arr in Hfirst.
    pose proof (sorted_last ev arr x0 Hs) as Hlast.
    assert (Hin0 : In x0 arr) by (left; auto).
    assert (Hinl : In (last arr x0) arr).
    { clear. unfold arr. generalize x0 at 2. induction array as [|b l IH] in x0 |- *; intros d; [left; auto|].
      change (last (x0 :: b :: l) d) with (last (b :: l) d). right. apply IH. }
    set (lst := ev (last arr x0)) in *.
    (* the bounds of the slice *)
    assert (Hslice : forall m M s t, m = below ev s arr -> M = below ev t arr ->
      (forall x, In x arr -> (s <=? ev x) && (ev x <? t) = in_event_range start stop x) ->
      Some (slice arr m M) = Some (filter (in_event_range start stop) arr)).
    { intros m M s t -> -> Hext. f_equal. rewrite slice_skip, slice_filter by exact Hs. apply filter_ext_in. auto. }
    assert (Hempty : (forall x, In x arr -> in_event_range start stop x = false) ->
      Some [] = Some (filter (in_event_range start stop) arr)).
    { intros H. f_equal. symmetry. apply filter_none. auto. }
    destruct start as [a|], stop as [b|].
    - destruct (Z.ltb_spec lst a) as [L1|L1]; cbn [orb].
      { apply Hempty. intros x Hx. unfold in_event_range. specialize (Hlast x Hx).
        destruct (Z.leb_spec a (ev x)); [lia|reflexivity]. }
      destruct (Z.ltb_spec b (ev x0)) as [L2|L2]; cbn [orb].
      { apply Hempty. intros x Hx. unfold in_event_range. specialize (Hfirst x Hx).
        destruct (Z.ltb_spec (ev x) b); [lia|apply andb_false_r]. }
      destruct (Z.eqb_spec a b) as [L3|L3].
      { apply Hempty. intros x Hx. unfold in_event_range.
        destruct (Z.leb_spec a (ev x)), (Z.ltb_spec (ev x) b); auto; lia. }
      apply (Hslice _ _ a b); [| |reflexivity].
      + destruct (Z.ltb_spec a (ev x0)).
        * symmetry. apply below_none. intros x Hx. specialize (Hfirst x Hx). lia.
        * apply argmin_below; auto. exists (last arr x0). auto.
      + destruct (Z.ltb_spec lst b).
        * symmetry. apply below_all. intros x Hx. specialize (Hlast x Hx). lia.
        * unfold argmax_bool. rewrite first_index_below; auto. exists (last arr x0). auto.
    - apply (Hslice _ _ a (lst + 1)).
      + destruct (Z.ltb_spec a (ev x0)).
        * symmetry. apply below_none. intros x Hx. specialize (Hfirst x Hx). lia.
        * apply argmin_below; auto.
      + symmetry. apply below_all. intros x Hx. specialize (Hlast x Hx). lia.
      + intros x Hx. unfold in_event_range. specialize (Hlast x Hx).
        destruct (Z.ltb_spec (ev x) (lst + 1)); [reflexivity|lia].
    - apply (Hslice _ _ (ev x0) b).
      + symmetry. apply below_none. auto.
      + destruct (Z.ltb_spec lst b).
        * symmetry. apply below_all. intros x Hx. specialize (Hlast x Hx). lia.
        * unfold argmax_bool. rewrite first_index_below; auto. exists (last arr x0). auto.
      + intros x Hx. unfold in_event_range. specialize (Hfirst x Hx).
        destruct (Z.leb_spec (ev x0) (ev x)); [reflexivity|lia].
    - apply (Hslice _ _ (ev x0) (lst + 1)).
      + symmetry. apply below_none. auto.
      + symmetry. apply below_all. intros x Hx. specialize (Hlast x Hx). lia.
      + intros x Hx. unfold in_event_range. specialize (Hfirst x Hx). specialize (Hlast x Hx).
        destruct (Z.leb_spec (ev x0) (ev x)), (Z.ltb_spec (ev x) (lst + 1)); auto; lia.
  Qed.

  (** unsorted data, both bounds given *)
  Theorem C09_event_range_unsorted : forall array a b,
    (exists x, In x array /\ ev x <> 0) ->
    get_data_in_event_range ev array (Some a) (Some b) false =
      Some (filter (in_event_range (Some a) (Some b)) array).
  Proof.
    intros array a b (z & Hz & Hnz). unfold get_data_in_event_range.
    assert (E : existsb (fun x => negb (ev x =? 0)) array = true).
    { apply existsb_exists. exists z. split; auto. apply negb_true_iff, Z.eqb_neq. auto. }
    rewrite E. reflexivity.
  Qed.
End C09.

Example C09_case :
  get_data_in_event_range (fun x => x) [1; 2; 2; 5; 7] (Some 2) (Some 6) true = Some [2; 2; 5] /\
  get_data_in_event_range (fun x => x) [1; 2; 2; 5; 7] (Some 3) None true = Some [5; 7] /\
  StronglySorted (fun a b => a <= b) [1; 2; 2; 5; 7].
Proof. repeat split; repeat constructor; lia. Qed.

(** rows of event 0 are not found if there are no other events *)
Theorem C09_event_zero_refuted : exists array start stop,
  StronglySorted (fun a b : Z => a <= b) array /\
  get_data_in_event_range (fun x => x) array start stop true <>
  Some (filter (in_event_range (fun x => x) start stop) array).
Proof. exists [0; 0], (Some 0), (Some 1). split; [repeat constructor; lia|]. vm_compute. discriminate. Qed.

(** a start event behind the data without a stop event returns everything *)
Theorem C09_start_behind_data_refuted : forall array start x0,
  StronglySorted (fun a b : Z => a <= b) (x0 :: array) -> (exists x, In x (x0 :: array) /\ x <> 0) ->
  (forall x, In x (x0 :: array) -> x < start) ->
  get_data_in_event_range (fun x => x) (x0 :: array) (Some start) None true = Some (x0 :: array) /\
  filter (in_event_range (fun x => x) (Some start) None) (x0 :: array) = [].
Proof.
  intros array start x0 Hs (z & Hz & Hnz) Hb. split.
  - unfold get_data_in_event_range.
    assert (E : existsb (fun x => negb (x =? 0)) (x0 :: array) = true).
    { apply existsb_exists. exists z. split; auto. apply negb_true_iff, Z.eqb_neq. auto. }
    rewrite E. cbn [negb]. pose proof (Hb x0 (or_introl eq_refl)).
    destruct (Z.ltb_spec start x0); [lia|].
    assert (F : first_index (fun x => negb (x <? start)) (x0 :: array) = None).
    { revert Hb. clear. generalize (x0 :: array). induction l as [|a l IH]; intros Hb; [reflexivity|].
      cbn [first_index]. pose proof (Hb a (or_introl eq_refl)). destruct (Z.ltb_spec a start); [|lia].
      cbn [negb]. rewrite IH; [reflexivity|]. intros. apply Hb. right. auto. }
    unfold argmin_bool, argmax_bool. rewrite F. unfold slice. rewrite Nat.sub_0_r. cbn [skipn].
    rewrite firstn_all. reflexivity.
  - apply filter_none. intros x Hx. unfold in_event_range. specialize (Hb x Hx).
    destruct (Z.leb_spec start x); [lia|reflexivity].
Qed.

(** ** C50: closest value *)
Theorem C50_find_closest : forall arr v, StronglySorted Z.le arr -> (2 <= length arr)%nat ->
  exists i, find_closest arr v = Z.of_nat i /\ (i < length arr)%nat /\
  forall j, (j < length arr)%nat -> Z.abs (v - nth i arr 0) <= Z.abs (v - nth j arr 0).
Proof.
  intros arr v Hs Hl. destruct (find_closest_spec arr v Hs Hl) as [Hr Hd].
  exists (Z.to_nat (find_closest arr v)). split; [lia|]. split; [lia|].
  rewrite get_nth in Hd by lia. exact Hd.
Qed.

(** an array with one element: index 0 or -1, which both mean this element *)
Theorem C50_single_element : forall a v, get [a] (find_closest [a] v) = a.
Proof.
  intros a v. unfold find_closest. cbn [length]. change (Z.of_nat 1 - 1) with 0.
  assert (E : clip (Z.of_nat (searchsorted [a] v)) 1 0 = 0) by (unfold clip; lia).
  rewrite E. destruct (_ <? _); reflexivity.
Qed.

(** unsigned integers: the difference wraps around and the second element is chosen for values
    left of the first one *)
Theorem C50_unsigned_refuted : forall a b, 0 < a -> a < b < 2 ^ 64 -> 
  exists v, 0 <= v /\ find_closest_uint64 [a; b] v = 1 /\ Z.abs (v - a) < Z.abs (v - b).
Proof.
  intros a b Ha Hb. exists (a - 1). split; [lia|]. split; [|lia].
  unfold find_closest_uint64. cbn [searchsorted].
  destruct (Z.ltb_spec a (a - 1)); [lia|]. cbn [length].
  change (clip (Z.of_nat 0) 1 (Z.of_nat 2 - 1)) with 1. change (get [a; b] (1 - 1)) with a.
  change (get [a; b] 1) with b.
  replace (a - 1 - a) with (2 ^ 64 - 1 + (-1) * 2 ^ 64) by lia. rewrite Z_mod_plus_full.
  rewrite !Z.mod_small by lia. destruct (Z.ltb_spec (2 ^ 64 - 1) (b - (a - 1))); lia.
Qed.

Example C50_case : find_closest [1; 4; 9; 20] 7 = 2 /\ find_closest [1; 4; 9; 20] (-3) = 0 /\
  find_closest [1; 4; 9; 20] 100 = 3.
Proof. vm_compute. auto. Qed.

(** ** C43: index look-up *)

(** Specification of what np.argsort may return *)
Definition is_argsort (a : list Z) (s : list nat) : Prop :=
  Permutation (seq 0 (length a)) s /\ StronglySorted Z.le (map (fun i => nth i a 0) s).

Definition good_call (ar2 : list Z) (sorter : option (list nat)) : Prop :=
  match sorter with None => StronglySorted Z.le ar2 | Some s => is_argsort ar2 s end.

(** the indices of the elements of ar1 that occur in ar2, and where they occur *)
Theorem C43_in1d_index : forall ar1 ar2 sorter, ar2 <> [] -> good_call ar2 sorter ->
  exists valid idx, in1d_index ar1 ar2 None sorter = Some (valid, idx) /\
    (forall i, In i valid <-> (i < length ar1)%nat /\ In (nth i ar1 0) ar2) /\
    StronglySorted lt valid /\ length idx = length valid /\
    forall k, (k < length valid)%nat ->
      exists j, nth k idx (-1) = Z.of_nat j /\ (j < length ar2)%nat /\ nth j ar2 0 = nth (nth k valid O) ar1 0.
Proof.
  intros ar1 ar2 sorter Hne Hg.
  set (ix := match sorter with None => ar2_index_sorted ar1 ar2 | Some s => ar2_index_unsorted ar1 ar2 s end).
  assert (HF : Forall2 (good_index ar2) ar1 ix).
  { unfold ix. destruct sorter as [s|]; [destruct Hg; apply index_unsorted_good; auto|apply index_sorted_good; auto]. }
  destruct (rows_spec ar2 ar1 ix 0 HF) as (R1 & R2 & R3). cbv zeta in *.
  set (rows := combine (combine (seq 0 (length ar1)) ix) ar1) in *.
  set (valid := fun r : nat * nat * Z => take_clip ar2 (snd (fst r)) =? snd r) in *.
  exists (map (fun r => fst (fst r)) (filter valid rows)), (map (fun r => Z.of_nat (snd (fst r))) (filter valid rows)).
  split.
  { unfold in1d_index. destruct ar1; [reflexivity|]. destruct ar2; [congruence|]. reflexivity. }
  split; [|split; [|split]].
  - intros i. rewrite R1, filter_In, in_seq, mem_in. rewrite Nat.sub_0_r. intuition lia.
  - rewrite R1. generalize (seq_length (length ar1) 0). intros _.
    assert (Hsort : forall n k, StronglySorted lt (seq k n)).
    { induction n; intros k; simpl; constructor; auto. rewrite Forall_forall. intros x Hx. apply in_seq in Hx. lia. }
    specialize (Hsort (length ar1) 0%nat). revert Hsort. generalize (seq 0 (length ar1)). intros l Hsl.
    induction Hsl as [|a l Hl IH HFl]; simpl; [constructor|].
    destruct (mem _ _); auto. constructor; auto. rewrite Forall_forall in *. intros x Hx.
    apply filter_In in Hx. apply HFl. tauto.
  - rewrite !map_length. reflexivity.
  - intros k Hk. rewrite map_length in Hk.
    set (sel := filter valid rows) in *.
    set (r := nth k sel (0%nat, 0%nat, 0)).
    assert (Hr : In r sel) by (apply nth_In; auto).
    apply filter_In in Hr. destruct Hr as [Hr Hv]. rewrite Forall_forall in R2.
    destruct (R2 r Hr) as (A & B & C & D). destruct (D Hv) as [D1 D2].
    exists (snd (fst r)). split; [|split; auto].
    + rewrite (nth_indep _ (-1) (Z.of_nat (snd (fst (0%nat, 0%nat, 0))))) by (rewrite map_length; auto).
      rewrite (map_nth (fun r => Z.of_nat (snd (fst r)))). reflexivity.
    + rewrite D2, A. f_equal. rewrite Nat.sub_0_r.
      symmetry. apply (map_nth (fun r : nat * nat * Z => fst (fst r)) sel (0%nat, 0%nat, 0) k).
Qed.

(** with fill_invalid: one entry for each element of ar1 *)
Theorem C43_fill_invalid : forall ar1 ar2 sorter f, ar2 <> [] -> good_call ar2 sorter ->
  exists valid idx, in1d_index ar1 ar2 (Some f) sorter = Some (valid, idx) /\
    (forall i, In i valid <-> (i < length ar1)%nat /\ In (nth i ar1 0) ar2) /\
    length idx = length ar1 /\
    forall i, (i < length ar1)%nat ->
      (~ In (nth i ar1 0) ar2 -> nth i idx 0 = f) /\
      (In (nth i ar1 0) ar2 -> exists j, nth i idx 0 = Z.of_nat j /\ (j < length ar2)%nat /\ nth j ar2 0 = nth i ar1 0).
Proof.
  intros ar1 ar2 sorter f Hne Hg.
  set (ix := match sorter with None => ar2_index_sorted ar1 ar2 | Some s => ar2_index_unsorted ar1 ar2 s end).
  assert (HF : Forall2 (good_index ar2) ar1 ix).
  { unfold ix. destruct sorter as [s|]; [destruct Hg; apply index_unsorted_good; auto|apply index_sorted_good; auto]. }
  destruct (rows_spec ar2 ar1 ix 0 HF) as (R1 & R2 & R3). cbv zeta in *.
  set (rows := combine (combine (seq 0 (length ar1)) ix) ar1) in *.
  set (valid := fun r : nat * nat * Z => take_clip ar2 (snd (fst r)) =? snd r) in *.
  exists (map (fun r => fst (fst r)) (filter valid rows)),
    (map (fun r => if valid r then Z.of_nat (snd (fst r)) else f) rows).
  assert (Hlen : length rows = length ar1).
  { rewrite <- (map_length (fun r => fst (fst r))), R3. apply seq_length. }
  split.
  { unfold in1d_index. destruct ar1; [reflexivity|]. destruct ar2; [congruence|]. reflexivity. }
  split; [|split].
  - intros i. rewrite R1, filter_In, in_seq, mem_in. rewrite Nat.sub_0_r. intuition lia.
  - rewrite map_length. auto.
  - intros i Hi. set (r := nth i rows (0%nat, 0%nat, 0)).
    assert (Hr : In r rows) by (apply nth_In; lia).
    assert (Hri : fst (fst r) = i).
    { unfold r.
      rewrite <- (map_nth (fun r : nat * nat * Z => fst (fst r)) rows (0%nat, 0%nat, 0) i).
      rewrite R3. cbn [fst]. rewrite seq_nth by auto. reflexivity. }
    rewrite Forall_forall in R2. destruct (R2 r Hr) as (A & B & C & D).
    rewrite Nat.sub_0_r, Hri in A.
    assert (Hn : nth i (map (fun r => if valid r then Z.of_nat (snd (fst r)) else f) rows) 0 =
                 if valid r then Z.of_nat (snd (fst r)) else f).
    { rewrite (nth_indep _ 0 ((fun r => if valid r then Z.of_nat (snd (fst r)) else f) (0%nat, 0%nat, 0)))
        by (rewrite map_length; lia).
      rewrite (map_nth (fun r => if valid r then Z.of_nat (snd (fst r)) else f)). reflexivity. }
    change (valid r = mem (snd r) ar2) in C. change (valid r = true -> (snd (fst r) < length ar2)%nat /\ nth (snd (fst r)) ar2 0 = snd r) in D.
    rewrite Hn, <- A. split.
    + intros Hnin. rewrite C. destruct (mem (snd r) ar2) eqn:M; [|reflexivity].
      apply mem_in in M. tauto.
    + intros Hin. apply mem_in in Hin. rewrite Hin in C. destruct (D C) as [D1 D2].
      exists (snd (fst r)). rewrite C. auto.
Qed.

(** empty second array *)
Theorem C43_empty_second_array_refuted : forall ar1 f sorter, ar1 <> [] ->
  in1d_index ar1 [] f sorter = None.
Proof. intros ar1 f sorter H. destruct ar1; [congruence|reflexivity]. Qed.

Example C43_case : in1d_index [5; 3; 8; 3] [3; 9; 5] None (Some [0; 2; 1]%nat) = Some ([0; 1; 3]%nat, [2; 0; 0]) /\
  in1d_index [5; 3; 8; 3] [3; 9; 5] (Some (-1)) (Some [0; 2; 1]%nat) = Some ([0; 1; 3]%nat, [2; 0; -1; 0]) /\
  is_argsort [3; 9; 5] [0; 2; 1]%nat.
Proof.
  split; [reflexivity|]. split; [reflexivity|]. split; [|cbn [map nth]; repeat (constructor; [|repeat (constructor; [lia|]); constructor]); constructor].
  apply NoDup_Permutation.
  - apply seq_NoDup.
  - repeat constructor; simpl; lia.
  - intros x. simpl. lia.
Qed.

(** ** C44: number of distinct neighbours *)
Definition distinct (l : list Z) : Z := Z.of_nat (length (nodup Z.eq_dec l)).

Theorem C44_unique_column : forall maxn col, col <> [] -> (forall v, In v col -> 0 <= v < maxn) ->
  unique_column maxn col = distinct col.
Proof. intros maxn [|v col] Hne H; [congruence|]. apply unique_column_spec. exact H. Qed.

(** Specification: cells of the array at most [e] rows and columns away, the cell itself included *)
Definition cell_values (arr : Z -> Z -> Z) (m n e i j : Z) (v : Z) : Prop :=
  exists i' j', 0 <= i' < m /\ 0 <= j' < n /\ Z.abs (i' - i) <= e /\ Z.abs (j' - j) <= e /\ v = arr i' j'.

Definition full_structure (e : Z) (structure : list (Z * Z)) : Prop :=
  forall p, In p structure <-> 0 <= fst p <= 2 * e /\ 0 <= snd p <= 2 * e.

Lemma distinct_ext l l' : (forall v, In v l <-> In v l') -> distinct l = distinct l'.
Proof.
  intros H. unfold distinct. f_equal. apply Permutation_length. apply NoDup_Permutation; try apply NoDup_nodup.
  intros x. rewrite !nodup_In. auto.
Qed.

Theorem C44_count_unique_neighbors : forall arr m n e maxn structure i j cells,
  0 <= e -> e < m -> e < n -> full_structure e structure ->
  (forall a b, 0 <= a < m -> 0 <= b < n -> 0 <= arr a b < maxn) ->
  0 <= i < m -> 0 <= j < n -> (forall v, In v cells <-> cell_values arr m n e i j v) ->
  count_unique_neighbors arr m n e maxn structure i j = distinct cells.
Proof.
  intros arr m n e maxn structure i j cells He Hm Hn Hfull Harr Hi Hj Hcells.
  unfold count_unique_neighbors.
  assert (Hin : forall v, In v (neighbor_column arr m n e structure i j) <-> In v cells).
  { intros v. rewrite Hcells. unfold neighbor_column. rewrite in_map_iff. split.
    - intros ([a b] & <- & Hs). apply Hfull in Hs. cbn [fst snd] in *. unfold padded.
      replace (e + (a - e) + i - e) with (i + (a - e)) by lia. replace (e + (b - e) + j - e) with (j + (b - e)) by lia.
      destruct (reflect_spec m e i (a - e)) as [R1 R2]; [lia|lia|lia|].
      destruct (reflect_spec n e j (b - e)) as [R3 R4]; [lia|lia|lia|].
      exists (reflect m (i + (a - e))), (reflect n (j + (b - e))). repeat split; auto; lia.
    - intros (i' & j' & Hi' & Hj' & D1 & D2 & ->). exists (i' - i + e, j' - j + e). split.
      + cbn [fst snd]. unfold padded. rewrite !reflect_id by lia. f_equal; lia.
      + apply Hfull. cbn [fst snd]. lia. }
  rewrite C44_unique_column.
  - apply distinct_ext. auto.
  - intros E. specialize (Hin (arr i j)). rewrite E in Hin. apply Hin. apply Hcells.
    exists i, j. repeat split; lia.
  - intros v Hv. apply Hin, Hcells in Hv. destruct Hv as (i' & j' & Hi' & Hj' & _ & _ & ->). auto.
Qed.

Lemma default_structure_full : full_structure 1 default_structure.
Proof.
  intros [a b]. cbn [fst snd]. split.
  - intros H. simpl in H. repeat (destruct H as [H|H]; [apply pair_equal_spec in H; lia|]). tauto.
  - intros [Ha Hb]. assert (A : a = 0 \/ a = 1 \/ a = 2) by lia. assert (B : b = 0 \/ b = 1 \/ b = 2) by lia.
    destruct A as [->|[->| ->]], B as [->|[->| ->]]; simpl; auto 20.
Qed.

Example C44_case : let arr := fun i j => if (i =? 0) && (j =? 0) then 7 else i in
  count_unique_neighbors arr 3 3 1 8 default_structure 0 0 = 3 /\
  count_unique_neighbors arr 3 3 1 8 default_structure 2 2 = 2 /\ full_structure 1 default_structure.
Proof. split; [reflexivity|]. split; [reflexivity|apply default_structure_full]. Qed.

(** Negative values index the mask from the end: a value counts as the same as the value plus maxn, where maxn is one more than the largest value. *)
Lemma unique_loop_mod maxn col : (forall v, In v col -> - maxn <= v < maxn) -> forall mask c,
  unique_column_loop maxn col mask c = unique_column_loop maxn (map (fun v => v mod maxn) col) mask c.
Proof.
  induction col as [|v col IH]; intros H mask c; [reflexivity|]. cbn [map unique_column_loop].
  assert (E : mask_index maxn (v mod maxn) = mask_index maxn v).
  { specialize (H v (or_introl eq_refl)). assert (M : 0 < maxn) by lia. pose proof (Z.mod_pos_bound v maxn M). unfold mask_index.
    destruct (Z.ltb_spec (v mod maxn) 0); [lia|]. destruct (Z.ltb_spec v 0) as [N|N]; [|apply Z.mod_small; lia].
    rewrite <- (Z_mod_plus_full v 1 maxn), Z.mul_1_l. apply Z.mod_small. lia. }
  rewrite E. apply IH. intros w W. apply H. right. exact W.
Qed.
Theorem C44_negative_values : forall maxn col, col <> [] -> (forall v, In v col -> - maxn <= v < maxn) ->
  unique_column maxn col = distinct (map (fun v => v mod maxn) col).
Proof.
  intros maxn [|v col] N H; [congruence|]. assert (M : 0 < maxn) by (specialize (H v (or_introl eq_refl)); lia).
  rewrite <- C44_unique_column with (maxn := maxn); [|discriminate|intros w W; apply in_map_iff in W; destruct W as (u & <- & _); apply Z.mod_pos_bound; exact M].
  cbn [map]. unfold unique_column. rewrite unique_loop_mod by (intros w W; apply H; right; exact W). f_equal.
  specialize (H v (or_introl eq_refl)). unfold mask_index. pose proof (Z.mod_pos_bound v maxn M). destruct (Z.ltb_spec (v mod maxn) 0); [lia|].
  destruct (Z.ltb_spec v 0) as [L|L]; [|rewrite Z.mod_small by lia; reflexivity].
  replace (v mod maxn) with (v + maxn); [reflexivity|]. symmetry. rewrite <- (Z_mod_plus_full v 1 maxn), Z.mul_1_l. apply Z.mod_small. lia.
Qed.
(** One would expect that different values are counted separately: the value -1 and the largest value are counted once. *)
Theorem C44_negative_refuted : forall m, 0 <= m -> unique_column (m + 1) [-1; m] = 1 /\ distinct [-1; m] = 2.
Proof.
  intros m M. split.
  - rewrite C44_negative_values; [|discriminate|intros v [<-|[<-|[]]]; lia]. cbn [map].
    replace (-1 mod (m + 1)) with m by (symmetry; rewrite <- (Z_mod_plus_full (-1) 1 (m + 1)), Z.mul_1_l, Z.mod_small; lia).
    rewrite (Z.mod_small m) by lia. unfold distinct. cbn. destruct (Z.eq_dec m m); [reflexivity|contradiction].
  - unfold distinct. cbn. destruct (Z.eq_dec m (-1)); [lia|reflexivity].
Qed.

(** the default structure counts the value of the cell itself too: a constant array has 1 *)
Theorem C44_cell_itself_counted : forall c m n i j, 2 <= m -> 2 <= n -> 0 <= c -> 0 <= i < m -> 0 <= j < n ->
  count_unique_neighbors (fun _ _ => c) m n 1 (c + 1) default_structure i j = 1.
Proof.
  intros c m n i j Hm Hn Hc Hi Hj.
  rewrite (C44_count_unique_neighbors (fun _ _ => c) m n 1 (c + 1) default_structure i j [c]); try lia.
  - reflexivity.
  - apply default_structure_full.
  - intros v. split.
    + intros [<-|[]]. exists i, j. repeat split; lia.
    + intros (a & b & _ & _ & _ & _ & ->). left. auto.
Qed.

(** ** C45: statistics of a histogram *)

(** mean of the bin positions, each repeated as often as its bin counts *)
Theorem C45_mean_is_weighted : forall counts pos, length pos = length counts ->
  (get_mean_from_histogram counts pos == np_mean (np_repeat pos counts))%Q.
Proof.
  intros counts pos H. unfold get_mean_from_histogram, np_mean.
  rewrite dot_repeat, np_repeat_length by auto. reflexivity.
Qed.

(** filling integers into hist_1d_index and taking mean, rms and median of the histogram gives those
    of the integers *)
Definition positions (n : Z) : list Z := map Z.of_nat (seq 0 (Z.to_nat n)).

Lemma count_repeat x c v : count_occ Z.eq_dec (repeat x c) v = if Z.eq_dec x v then c else O.
Proof.
  induction c as [|c IH]; simpl; [destruct (Z.eq_dec x v); auto|].
  destruct (Z.eq_dec x v); rewrite IH; reflexivity.
Qed.

Lemma repeat_counts : forall counts k v,
  count_occ Z.eq_dec (np_repeat (map Z.of_nat (seq k (length counts))) counts) v =
  if (Z.of_nat k <=? v) && (v <? Z.of_nat (k + length counts)) then nth (Z.to_nat v - k) counts O else O.
Proof.
  induction counts as [|c cs IH]; intros k v.
  - simpl. destruct (Z.leb_spec (Z.of_nat k) v), (Z.ltb_spec v (Z.of_nat (k + 0))); simpl; auto.
    destruct (Z.to_nat v - k)%nat; reflexivity.
  - cbn [length seq map np_repeat]. rewrite count_occ_app, count_repeat, IH.
    replace (S k + length cs)%nat with (k + S (length cs))%nat by lia.
    destruct (Z.eq_dec (Z.of_nat k) v) as [<-|N].
    + destruct (Z.leb_spec (Z.of_nat (S k)) (Z.of_nat k)); [lia|]. cbn [andb].
      destruct (Z.leb_spec (Z.of_nat k) (Z.of_nat k)); [|lia].
      destruct (Z.ltb_spec (Z.of_nat k) (Z.of_nat (k + S (length cs)))); [|lia]. cbn [andb].
      rewrite Nat2Z.id, Nat.sub_diag. simpl. lia.
    + destruct (Z.leb_spec (Z.of_nat (S k)) v), (Z.leb_spec (Z.of_nat k) v); try lia; cbn [andb]; [|reflexivity].
      destruct (Z.ltb_spec v (Z.of_nat (k + S (length cs)))); [|reflexivity].
      replace (Z.to_nat v - k)%nat with (S (Z.to_nat v - S k)) by lia. reflexivity.
Qed.

Lemma hist_repeat_perm : forall x nx r,
  (forall v, In v x -> HistProps.is_int32 v) -> 0 <= nx <= 2 ^ 31 ->
  HistModel.hist_1d_index x nx = EventArraysModel.Ok r ->
  Permutation (np_repeat (positions nx) (map Z.to_nat r)) x.
Proof.
  intros x nx r Hx Hn E. pose proof (HistProps.C04_hist_1d x nx Hx Hn) as H. rewrite E in H.
  destruct H as (H1 & H2 & H3 & _).
  apply (Permutation_count_occ Z.eq_dec). intros v.
  assert (Hl : Z.to_nat nx = length (map Z.to_nat r)) by (rewrite map_length; lia).
  unfold positions. rewrite Hl, repeat_counts. rewrite map_length. cbn [Nat.add Z.of_nat].
  assert (Hc : count_occ Z.eq_dec x v = Z.to_nat (HistProps.times1 v x)).
  { unfold HistProps.times1. rewrite Nat2Z.id. clear. induction x as [|a x IH]; [reflexivity|].
    simpl. destruct (Z.eq_dec a v) as [->|N].
    - rewrite Z.eqb_refl. simpl. auto.
    - destruct (Z.eqb_spec v a); [congruence|auto]. }
  rewrite Hc. rewrite H2.
  destruct (Z.leb_spec 0 v), (Z.ltb_spec v nx); cbn [andb].
  - rewrite Nat.sub_0_r. rewrite <- H3 by lia. change O with (Z.to_nat 0) at 1. apply map_nth.
  - symmetry. unfold HistProps.times1. rewrite filter_none; [reflexivity|]. intros w Hw. specialize (H1 w Hw).
    apply Z.eqb_neq. lia.
  - symmetry. unfold HistProps.times1. rewrite filter_none; [reflexivity|]. intros w Hw. specialize (H1 w Hw).
    apply Z.eqb_neq. lia.
  - symmetry. unfold HistProps.times1. rewrite filter_none; [reflexivity|]. intros w Hw. specialize (H1 w Hw).
    apply Z.eqb_neq. lia.
Qed.

Lemma np_repeat_map {A B} (f : A -> B) pos counts : np_repeat (map f pos) counts = map f (np_repeat pos counts).
Proof.
  revert counts. induction pos as [|p pos IH]; intros [|c cs]; simpl; auto.
  rewrite map_app, IH. f_equal. clear. induction c as [|c IH]; simpl; congruence.
Qed.

Theorem C45_statistics_of_data : forall x nx r,
  (forall v, In v x -> HistProps.is_int32 v) -> 0 <= nx <= 2 ^ 31 -> x <> [] ->
  HistModel.hist_1d_index x nx = EventArraysModel.Ok r ->
  (get_mean_from_histogram (map Z.to_nat r) (map inject_Z (positions nx)) == np_mean (map inject_Z x))%Q /\
  (get_squared_rms_from_histogram (map Z.to_nat r) (map inject_Z (positions nx)) == np_var (map inject_Z x))%Q /\
  get_median_from_histogram (map Z.to_nat r) (positions nx) = np_median x.
Proof.
  intros x nx r Hx Hn _ E. pose proof (hist_repeat_perm x nx r Hx Hn E) as P.
  pose proof (HistProps.C04_hist_1d x nx Hx Hn) as H. rewrite E in H. destruct H as (_ & H2 & _).
  assert (PQ : Permutation (np_repeat (map inject_Z (positions nx)) (map Z.to_nat r)) (map inject_Z x)).
  { rewrite np_repeat_map. apply Permutation_map. exact P. }
  split; [|split].
  - rewrite C45_mean_is_weighted.
    + apply np_mean_perm. exact PQ.
    + unfold positions. rewrite !map_length, seq_length. lia.
  - apply np_var_perm. exact PQ.
  - apply np_median_perm. exact P.
Qed.

Example C45_case : HistModel.hist_1d_index [3; 1; 3; 0] 4 = EventArraysModel.Ok [1; 1; 0; 2] /\
  (get_mean_from_histogram [1; 1; 0; 2]%nat (map inject_Z (positions 4)) == 7 # 4)%Q /\
  (get_median_from_histogram [1; 1; 0; 2]%nat (positions 4) == 2)%Q.
Proof. repeat split; vm_compute; reflexivity. Qed.

(** ** C51: quantiles of a histogram *)
Lemma Qltb_spec a b : Qltb a b = true <-> (a < b)%Q.
Proof.
  unfold Qltb. rewrite negb_true_iff. split.
  - intros H. apply Qnot_le_lt. intros C. apply Qle_bool_iff in C. congruence.
  - intros H. apply not_true_is_false. intros C. apply Qle_bool_iff in C. apply (Qlt_not_le _ _ H C).
Qed.

Definition totalZ (l : list Z) : Z := fold_right Z.add 0 l.
Lemma totalZ_sumZ l : totalZ l = sumZ l.
Proof. induction l; simpl; congruence. Qed.
Lemma sumZ_app a b : sumZ (a ++ b) = sumZ a + sumZ b.
Proof. induction a; simpl; lia. Qed.

(** fewer than the fraction p0 of the entries is cut off on the left, fewer than 1 - p1 on the right,
    and one more bin would have been too much *)
Theorem C51_quantiles : forall hist p0 p1 lp hp,
  (forall c, In c hist -> 0 <= c) -> 0 < totalZ hist ->
  (p0 <= p1)%Q -> (p1 < 1)%Q ->
  hist_quantiles hist p0 p1 = (lp, hp) ->
  (lp <= hp < length hist)%nat /\
  (lp = O \/ (inject_Z (totalZ (firstn lp hist)) < p0 * inject_Z (totalZ hist))%Q) /\
  (inject_Z (totalZ (skipn (hp + 1) hist)) < (1 - p1) * inject_Z (totalZ hist))%Q /\
  (p0 * inject_Z (totalZ hist) <= inject_Z (totalZ (firstn (lp + 1) hist)))%Q /\
  (hp = O \/ ((1 - p1) * inject_Z (totalZ hist) <= inject_Z (totalZ (skipn hp hist)))%Q).
Proof.
  intros hist p0 p1 lp hp Hpos Htot H01 H1 E. rewrite !totalZ_sumZ in Htot. rewrite (totalZ_sumZ hist), (totalZ_sumZ (firstn lp hist)), (totalZ_sumZ (firstn (lp + 1) hist)),
    (totalZ_sumZ (skipn hp hist)), (totalZ_sumZ (skipn (hp + 1) hist)). set (tot := sumZ hist) in *.
  assert (Hne : hist <> []) by (intros ->; simpl in tot; unfold tot in Htot; simpl in Htot; lia).
  assert (Hlen : (0 < length hist)%nat) by (destruct hist; [congruence|simpl; lia]).
  unfold hist_quantiles in E.
  assert (Hcdf : normcdf hist = map (fun c => (inject_Z c / inject_Z tot)%Q) (cumsum 0 hist)).
  { unfold normcdf. rewrite cumsum_last by auto. rewrite Z.add_0_l. fold tot.
    destruct (Z.eqb_spec tot 0); [lia|reflexivity]. }
  rewrite Hcdf in E.
  assert (HT : (0 < inject_Z tot)%Q) by (change 0%Q with (inject_Z 0); rewrite <- Zlt_Qlt; exact Htot).
  set (f := fun c => (inject_Z c / inject_Z tot)%Q) in *.
  assert (Hnth : forall i, (i < length hist)%nat -> nth i (map f (cumsum 0 hist)) (f 0) = f (sumZ (firstn (S i) hist))).
  { intros i Hi. rewrite map_nth, cumsum_nth by auto. reflexivity. }
  assert (Hml : length (map f (cumsum 0 hist)) = length hist) by (rewrite map_length, cumsum_length; reflexivity).
  assert (Hlast : f (sumZ (firstn (S (length hist - 1)) hist)) == 1%Q).
  { replace (S (length hist - 1)) with (length hist) by lia. rewrite firstn_all. fold tot. unfold f. field.
    intros C. rewrite C in HT. apply (Qlt_irrefl 0). exact HT. }
  assert (Hlin : In (f (sumZ (firstn (S (length hist - 1)) hist))) (map f (cumsum 0 hist))).
  { rewrite <- Hnth by lia. apply nth_In. rewrite Hml. lia. }
  destruct (first_index (fun c => Qltb p1 c) (map f (cumsum 0 hist))) as [h|] eqn:Fh.
  2: { exfalso. pose proof (first_index_None _ _ Fh _ Hlin) as C. cbn beta in C.
       assert (Qltb p1 (f (sumZ (firstn (S (length hist - 1)) hist))) = true); [|congruence].
       apply Qltb_spec. rewrite Hlast. exact H1. }
  destruct (first_index (fun c => Qle_bool p0 c) (map f (cumsum 0 hist))) as [l|] eqn:Fl.
  2: { exfalso. pose proof (first_index_None _ _ Fl _ Hlin) as C. cbn beta in C.
       assert (Qle_bool p0 (f (sumZ (firstn (S (length hist - 1)) hist))) = true); [|congruence].
       apply Qle_bool_iff. rewrite Hlast. apply Qlt_le_weak. apply Qle_lt_trans with p1; auto. }
  injection E as <- <-.
  destruct (first_index_Some _ _ _ (f 0) Fh) as (Lh & Th & Bh).
  destruct (first_index_Some _ _ _ (f 0) Fl) as (Ll & Tl & Bl).
  rewrite Hml in Lh, Ll. rewrite Hnth in Th, Tl by auto. apply Qltb_spec in Th. apply Qle_bool_iff in Tl.
  assert (Hmul : forall p c, (p < f c)%Q <-> (p * inject_Z tot < inject_Z c)%Q).
  { intros p c. unfold f. split; intros H.
    - apply (Qmult_lt_compat_r _ _ _ HT) in H. unfold Qdiv in H.
      assert (X : (inject_Z c * / inject_Z tot * inject_Z tot == inject_Z c)%Q).
      { field. intros C. rewrite C in HT. apply (Qlt_irrefl 0). exact HT. }
      rewrite X in H. exact H.
    - apply Qlt_shift_div_l; auto. }
  assert (Hmul' : forall p c, (p <= f c)%Q <-> (p * inject_Z tot <= inject_Z c)%Q).
  { intros p c. unfold f. split; intros H.
    - apply (Qmult_le_compat_r _ _ (inject_Z tot)) in H; [|apply Qlt_le_weak; auto]. unfold Qdiv in H.
      assert (X : (inject_Z c * / inject_Z tot * inject_Z tot == inject_Z c)%Q).
      { field. intros C. rewrite C in HT. apply (Qlt_irrefl 0). exact HT. }
      rewrite X in H. exact H.
    - apply Qle_shift_div_l; auto. }
  assert (Hskip : forall k, sumZ (skipn k hist) = tot - sumZ (firstn k hist)).
  { intros k. unfold tot. rewrite <- (firstn_skipn k hist) at 2. rewrite sumZ_app. lia. }
  assert (Hsub : forall a b, (inject_Z (a - b) == inject_Z a - inject_Z b)%Q).
  { intros a b. unfold Zminus. rewrite inject_Z_plus, inject_Z_opp. reflexivity. }
  split; [|split; [|split; [|split]]].
  - split; [|auto]. destruct (le_lt_dec l h); auto. specialize (Bl h l0). rewrite Hnth in Bl by auto.
    exfalso. assert (Qle_bool p0 (f (sumZ (firstn (S h) hist))) = true); [|congruence].
    apply Qle_bool_iff. apply Qlt_le_weak. apply Qle_lt_trans with p1; auto.
  - destruct l as [|l]; [left; auto|right]. specialize (Bl l ltac:(lia)). rewrite Hnth in Bl by lia.
    apply Qnot_le_lt. intros C. apply Hmul' in C. apply Qle_bool_iff in C. congruence.
  - rewrite Hskip, Hsub. rewrite Nat.add_1_r. apply Hmul in Th.
    setoid_replace ((1 - p1) * inject_Z tot)%Q with (inject_Z tot - p1 * inject_Z tot)%Q by ring.
    unfold Qminus. apply Qplus_lt_r. apply Qopp_lt_compat. exact Th.
  - rewrite Nat.add_1_r. apply Hmul'. exact Tl.
  - destruct h as [|h]; [left; auto|right]. specialize (Bh h ltac:(lia)). rewrite Hnth in Bh by lia.
    rewrite Hskip, Hsub.
    setoid_replace ((1 - p1) * inject_Z tot)%Q with (inject_Z tot - p1 * inject_Z tot)%Q by ring.
    unfold Qminus. apply Qplus_le_r. apply Qopp_le_compat.
    apply Qnot_lt_le. intros C. apply Hmul in C. apply Qltb_spec in C. congruence.
Qed.

Example C51_case : hist_quantiles [1; 5; 10; 3; 1] (1 # 10) (9 # 10) = (1%nat, 3%nat).
Proof. reflexivity. Qed.

(** with an upper limit of 1 the lower limit has no effect, and the returned list of indices
    contains an index behind the histogram *)
Theorem C51_upper_limit_one_refuted : forall hist p0,
  (forall c, In c hist -> 0 <= c) -> 0 < totalZ hist ->
  hist_quantiles hist p0 1 = (O, length hist).
Proof.
  intros hist p0 Hpos Htot. rewrite totalZ_sumZ in *. set (tot := sumZ hist) in *.
  assert (Hne : hist <> []) by (intros ->; simpl in tot; unfold tot in Htot; simpl in Htot; lia).
  unfold hist_quantiles.
  assert (Hcdf : normcdf hist = map (fun c => (inject_Z c / inject_Z tot)%Q) (cumsum 0 hist)).
  { unfold normcdf. rewrite cumsum_last by auto. rewrite Z.add_0_l. fold tot.
    destruct (Z.eqb_spec tot 0); [lia|reflexivity]. }
  rewrite Hcdf.
  assert (HT : (0 < inject_Z tot)%Q) by (change 0%Q with (inject_Z 0); rewrite <- Zlt_Qlt; exact Htot).
  destruct (first_index (fun c => Qltb 1 c) _) as [h|] eqn:Fh; [exfalso|reflexivity].
  destruct (first_index_Some _ _ _ (inject_Z 0 / inject_Z tot)%Q Fh) as (Lh & Th & _).
  rewrite map_length, cumsum_length in Lh.
  rewrite (map_nth (fun c => (inject_Z c / inject_Z tot)%Q)), cumsum_nth, Z.add_0_l in Th by auto.
  apply Qltb_spec in Th. apply (Qmult_lt_compat_r _ _ _ HT) in Th. rewrite Qmult_1_l in Th.
  assert (X : (inject_Z (sumZ (firstn (S h) hist)) / inject_Z tot * inject_Z tot == inject_Z (sumZ (firstn (S h) hist)))%Q).
  { field. intros C. rewrite C in HT. apply (Qlt_irrefl 0). exact HT. }
  rewrite X, <- Zlt_Qlt in Th.
  assert (0 <= sumZ (skipn (S h) hist)).
  { assert (Hp : forall c, In c (skipn (S h) hist) -> 0 <= c).
    { intros c Hc. apply Hpos. rewrite <- (firstn_skipn (S h) hist). apply in_or_app. auto. }
    revert Hp. generalize (skipn (S h) hist). induction l as [|a l IH]; intros Hp; simpl; [lia|].
    pose proof (Hp a (or_introl eq_refl)). specialize (IH (fun c Hc => Hp c (or_intror Hc))). lia. }
  unfold tot in Th. rewrite <- (firstn_skipn (S h) hist) in Th at 1. rewrite sumZ_app in Th. lia.
Qed.

Print Assumptions C09_event_range_sorted.
Print Assumptions C09_event_range_unsorted.
Print Assumptions C09_event_zero_refuted.
Print Assumptions C09_start_behind_data_refuted.
Print Assumptions C50_find_closest.
Print Assumptions C50_single_element.
Print Assumptions C50_unsigned_refuted.
Print Assumptions C43_in1d_index.
Print Assumptions C43_fill_invalid.
Print Assumptions C43_empty_second_array_refuted.
Print Assumptions C44_unique_column.
Print Assumptions C44_count_unique_neighbors.
Print Assumptions C44_negative_values.
Print Assumptions C44_negative_refuted.
Print Assumptions C44_cell_itself_counted.
Print Assumptions C45_mean_is_weighted.
Print Assumptions C45_statistics_of_data.
Print Assumptions C51_quantiles.
Print Assumptions C51_upper_limit_one_refuted.
