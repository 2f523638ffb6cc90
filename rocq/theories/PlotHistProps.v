(** Numbers shown by the plots of tracks per event and of clusters (C112, C113). *)
From Coq Require Import List Arith ZArith Bool Lia Permutation Sorted.
From Verif Require Import PlotHistModel.
Import ListNotations.

(** *** Unique numbers *)
(** the number of occurrences of a number *)
Definition count (l : list Z) (v : Z) : nat := count_occ Z.eq_dec l v.
Lemma insert_in v u w n : In (w, n) (insert_count v u) -> w = v \/ exists m, In (w, m) u.
Proof.
  induction u as [|[a k] u IH]; cbn [insert_count].
  - intros [E|[]]. injection E as -> _. left. reflexivity.
  - destruct (Z.eqb_spec v a) as [E|E]; [|destruct (Z.ltb_spec v a) as [L|L]].
    + intros [Q|Q]; [injection Q as -> _; left; congruence|right; exists n; right; exact Q].
    + intros [Q|Q]; [injection Q as -> _; left; reflexivity|right; exists n; exact Q].
    + intros [Q|Q]; [injection Q as -> ->; right; exists n; left; reflexivity|]. destruct (IH Q) as [|[m M]]; [left; assumption|right; exists m; right; exact M].
Qed.
Definition increasing (u : list (Z * nat)) : Prop := StronglySorted (fun a b => (fst a < fst b)%Z) u.
Lemma insert_increasing v u : increasing u -> increasing (insert_count v u).
Proof.
  induction u as [|[a k] u IH]; intros S; cbn [insert_count].
  - repeat constructor.
  - inversion S as [|? ? S1 F]; subst. destruct (Z.eqb_spec v a) as [E|E]; [|destruct (Z.ltb_spec v a) as [L|L]].
    + constructor; [exact S1|exact F].
    + constructor; [exact S|]. constructor; [exact L|]. eapply Forall_impl; [|exact F]. cbn. intros; lia.
    + constructor; [apply IH, S1|]. apply Forall_forall. intros [w n] Hw. apply insert_in in Hw. cbn. destruct Hw as [->|[m M]]; [lia|]. rewrite Forall_forall in F. exact (F _ M).
Qed.
Lemma insert_spec v u : increasing u -> forall w n, In (w, n) (insert_count v u) <-> (if Z.eq_dec w v then (exists m, n = S m /\ In (w, m) u) \/ (n = 1 /\ forall m, ~ In (w, m) u) else In (w, n) u).
Proof.
  induction u as [|[a k] u IH]; intros Sd w n; cbn [insert_count].
  - destruct (Z.eq_dec w v) as [->|N]; split.
    + intros [E|[]]. injection E as <-. right. split; [reflexivity|]. intros m [].
    + intros [[m [_ []]]|[-> _]]. left. reflexivity.
    + intros [E|[]]. congruence.
    + intros [].
  - inversion Sd as [|? ? S1 F]; subst. rewrite Forall_forall in F. destruct (Z.eqb_spec v a) as [E|E]; [|destruct (Z.ltb_spec v a) as [L|L]].
    + subst a. destruct (Z.eq_dec w v) as [->|N]; split.
      * intros [Q|Q]; [injection Q as <-; left; exists k; split; [reflexivity|left; reflexivity]|]. specialize (F _ Q). cbn in F. lia.
      * intros [[m [-> [Q|Q]]]|[_ Q]]; [injection Q as ->; left; reflexivity| |].
        -- specialize (F _ Q). cbn in F. lia.
        -- exfalso. apply (Q k). left. reflexivity.
      * intros [Q|Q]; [congruence|right; exact Q].
      * intros [Q|Q]; [congruence|right; exact Q].
    + destruct (Z.eq_dec w v) as [->|N]; split.
      * intros [Q|Q]; [injection Q as <-; right; split; [reflexivity|]; intros m [M|M]; [congruence|specialize (F _ M); cbn in F; lia]|].
        destruct Q as [Q|Q]; [congruence|specialize (F _ Q); cbn in F; lia].
      * intros [[m [-> [Q|Q]]]|[-> Q]]; [congruence|specialize (F _ Q); cbn in F; lia|left; reflexivity].
      * intros [Q|Q]; [congruence|exact Q].
      * intros Q. right. exact Q.
    + specialize (IH S1 w n). destruct (Z.eq_dec w v) as [->|N]; split.
      * intros [Q|Q]; [congruence|]. apply IH in Q. destruct Q as [[m [-> M]]|[-> M]]; [left; exists m; split; [reflexivity|right; exact M]|right; split; [reflexivity|]]. intros m [Q|Q]; [congruence|exact (M m Q)].
      * intros Q. right. apply IH. destruct Q as [[m [-> [M|M]]]|[-> M]]; [congruence|left; exists m; auto|right; split; [reflexivity|]]. intros m Q. apply (M m). right. exact Q.
      * intros [Q|Q]; [left; exact Q|right; apply IH, Q].
      * intros [Q|Q]; [left; exact Q|right; apply IH, Q].
Qed.
Lemma unique_increasing l : increasing (unique_counts l).
Proof. induction l as [|v l IH]; [constructor|]. apply insert_increasing, IH. Qed.
Lemma unique_spec l v n : In (v, n) (unique_counts l) <-> n = count l v /\ 0 < n.
Proof.
  revert v n. induction l as [|a l IH]; intros v n.
  - cbn. split; [intros []|intros [-> H]; lia].
  - cbn [unique_counts fold_right]. rewrite (insert_spec a _ (unique_increasing l)). unfold count. cbn [count_occ]. fold (count l v). destruct (Z.eq_dec v a) as [->|N].
    + destruct (Z.eq_dec a a) as [_|Q]; [|congruence]. split.
      * intros [[m [-> M]]|[-> M]]; [apply IH in M; lia|]. split; [|lia]. destruct (Nat.eq_dec (count l a) 0) as [->|Q]; [reflexivity|]. exfalso. apply (M (count l a)). apply IH. split; [reflexivity|lia].
      * intros [-> _]. destruct (Nat.eq_dec (count l a) 0) as [Q|Q].
        -- right. rewrite Q. split; [reflexivity|]. intros m M. apply IH in M. lia.
        -- left. exists (count l a). split; [reflexivity|]. apply IH. split; [reflexivity|lia].
    + destruct (Z.eq_dec a v) as [Q|_]; [congruence|]. apply IH.
Qed.
Lemma insert_sum v u : fold_right Nat.add 0 (map snd (insert_count v u)) = S (fold_right Nat.add 0 (map snd u)).
Proof. induction u as [|[a k] u IH]; cbn [insert_count]; [reflexivity|]. destruct (v =? a)%Z; [reflexivity|]. destruct (v <? a)%Z; [reflexivity|]. cbn [map snd fold_right]. rewrite IH. lia. Qed.
Lemma unique_sum l : fold_right Nat.add 0 (map snd (unique_counts l)) = length l.
Proof. induction l as [|v l IH]; [reflexivity|]. cbn [unique_counts fold_right length]. rewrite insert_sum, <- IH. reflexivity. Qed.
Lemma insert_weighted v u : increasing u -> fold_right Z.add 0%Z (map (fun p => fst p * Z.of_nat (snd p))%Z (insert_count v u)) = (v + fold_right Z.add 0%Z (map (fun p => fst p * Z.of_nat (snd p))%Z u))%Z.
Proof.
  induction u as [|[a k] u IH]; intros Sd; cbn [insert_count]; [cbn; lia|]. inversion Sd; subst. destruct (Z.eqb_spec v a) as [->|]; [cbn [map fst snd fold_right]; lia|]. destruct (v <? a)%Z; [cbn [map fst snd fold_right]; lia|].
  cbn [map fst snd fold_right]. rewrite IH by assumption. lia.
Qed.
Lemma unique_weighted l : fold_right Z.add 0%Z (map (fun p => fst p * Z.of_nat (snd p))%Z (unique_counts l)) = fold_right Z.add 0%Z l.
Proof. induction l as [|v l IH]; [reflexivity|]. cbn [unique_counts fold_right]. rewrite insert_weighted by apply unique_increasing. fold (unique_counts l). rewrite IH. reflexivity. Qed.

(** *** C112 *)
(** the events with a number of tracks *)
Definition events_with (event_numbers : list Z) (k : Z) (events : list Z) : Prop := NoDup events /\ forall e, In e events <-> In e event_numbers /\ Z.of_nat (count event_numbers e) = k.
(** The bars are at increasing numbers of tracks; a bar is as high as the number of events with this number of tracks, and there is a bar for every number of tracks that occurs; events without tracks have none. *)
Theorem C112_bars : forall event_numbers, let bars := fst (tracks_per_event event_numbers) in
  increasing bars /\
  (forall k n, In (k, n) bars -> (0 < k)%Z /\ 0 < n /\ exists events, events_with event_numbers k events /\ length events = n) /\
  (forall k e, In e event_numbers -> Z.of_nat (count event_numbers e) = k -> exists n, In (k, n) bars).
Proof.
  intros l. cbn [tracks_per_event fst]. set (u := unique_counts l). split; [apply unique_increasing|].
  assert (U : forall e n, In (e, n) u <-> n = count l e /\ 0 < n) by (intros; apply unique_spec).
  assert (ND : NoDup (map fst u)).
  { pose proof (unique_increasing l) as S. fold u in S. clear U. induction S as [|a u0 S IH F]; [constructor|]. cbn. constructor; [|exact IH]. intros Q. apply in_map_iff in Q. destruct Q as (b & E & B). rewrite Forall_forall in F. specialize (F _ B). lia. }
  assert (C : forall k, count (map (fun e => Z.of_nat (snd e)) u) k = length (map fst (filter (fun e => (Z.of_nat (snd e) =? k)%Z) u))).
  { intros k. rewrite map_length. clear. unfold count. induction u as [|a u IH]; [reflexivity|]. cbn [map count_occ filter]. destruct (Z.eq_dec _ k) as [E|E]; destruct (Z.eqb_spec (Z.of_nat (snd a)) k) as [F|F]; try congruence; cbn [length]; rewrite IH; reflexivity. }
  assert (W : forall k, events_with l k (map fst (filter (fun e => (Z.of_nat (snd e) =? k)%Z) u))).
  { intros k. split.
    - clear U C. induction u as [|a u IH]; [constructor|]. cbn [map] in ND. inversion ND as [|? ? N1 N2]; subst. cbn [filter]. destruct (_ =? k)%Z; [|apply IH, N2]. cbn [map]. constructor; [|apply IH, N2].
      intros Q. apply N1. apply in_map_iff in Q. destruct Q as (b & E & B). apply filter_In in B. apply in_map_iff. exists b. split; [exact E|apply B].
    - intros e. rewrite in_map_iff. split.
      + intros ([e' n] & <- & B). apply filter_In in B. destruct B as [B1 B2]. cbn [fst snd] in *. apply U in B1. apply Z.eqb_eq in B2. destruct B1 as [-> P]. split; [|exact B2]. apply (count_occ_In Z.eq_dec). exact P.
      + intros [I E]. exists (e, count l e). split; [reflexivity|]. apply filter_In. cbn [snd]. split; [|apply Z.eqb_eq, E]. apply U. split; [reflexivity|]. apply (count_occ_In Z.eq_dec), I. }
  split.
  - intros k n H. apply unique_spec in H. destruct H as [E P]. split; [|split; [exact P|]].
    + rewrite E in P. apply (count_occ_In Z.eq_dec) in P. apply in_map_iff in P. destruct P as ([e m] & <- & B). apply U in B. cbn. lia.
    + exists (map fst (filter (fun e => (Z.of_nat (snd e) =? k)%Z) u)). split; [apply W|]. rewrite <- C. auto.
  - intros k e I E. exists (count (map (fun e => Z.of_nat (snd e)) u) k). apply unique_spec. split; [reflexivity|]. rewrite C. destruct (map fst (filter _ _)) as [|x r] eqn:M; [|apply Nat.lt_0_succ]. exfalso.
    assert (Q : In e []) by (rewrite <- M; apply W; auto). exact Q.
Qed.
(** The heights of the bars sum up to the number of events in the title, the number of different event numbers; weighted with the number of tracks they sum up to the number of tracks. *)
Theorem C112_totals : forall event_numbers, let '(bars, n_events) := tracks_per_event event_numbers in
  fold_right Nat.add 0 (map snd bars) = n_events /\ n_events = length (nodup Z.eq_dec event_numbers) /\ fold_right Z.add 0%Z (map (fun p => fst p * Z.of_nat (snd p))%Z bars) = Z.of_nat (length event_numbers).
Proof.
  intros l. unfold tracks_per_event. rewrite unique_sum, map_length, unique_weighted. split; [reflexivity|]. split.
  - rewrite <- (map_length fst). apply Permutation_length. apply NoDup_Permutation.
    + pose proof (unique_increasing l) as S. induction S as [|a u0 S IH F]; [constructor|]. cbn. constructor; [|exact IH]. intros Q. apply in_map_iff in Q. destruct Q as (b & E & B). rewrite Forall_forall in F. specialize (F _ B). lia.
    + apply NoDup_nodup.
    + intros e. rewrite nodup_In, in_map_iff. split.
      * intros ([e' n] & <- & B). apply unique_spec in B. apply (count_occ_In Z.eq_dec). destruct B as [B1 B2]. rewrite B1 in B2. exact B2.
      * intros I. exists (e, count l e). split; [reflexivity|]. apply unique_spec. split; [reflexivity|]. apply (count_occ_In Z.eq_dec), I.
  - rewrite <- unique_sum. generalize (unique_counts l) as u. induction u as [|[e n] u IH]; [reflexivity|]. cbn [map snd fold_right]. rewrite IH. lia.
Qed.
Example C112_case : tracks_per_event [7; 3; 7; 9; 3; 7; 12]%Z = ([(1%Z, 2); (2%Z, 1); (3%Z, 1)], 4).
Proof. reflexivity. Qed.

(** *** C113 *)
(** all rows with a hit *)
Definition all_rows (in_clusters : bool) (chunks : list (list row)) : list row := concat (map (valid_rows in_clusters) chunks).
Lemma occurrences_app a b i : occurrences (a ++ b) i = occurrences a i + occurrences b i.
Proof. unfold occurrences. rewrite filter_app, app_length. reflexivity. Qed.
Lemma list_max_app a b : list_max (a ++ b) = Nat.max (list_max a) (list_max b).
Proof. unfold list_max. induction a as [|x a IH]; [reflexivity|]. cbn. rewrite IH. lia. Qed.
Lemma occurrences_above l i : list_max l < i -> occurrences l i = 0.
Proof.
  unfold occurrences. induction l as [|x l IH]; intros H; [reflexivity|]. cbn [list_max fold_right] in H. cbn [filter]. destruct (Nat.eqb_spec i x) as [E|E]; [lia|]. apply IH. unfold list_max. lia.
Qed.
Lemma nth_ext0 (a b : list nat) : length a = length b -> (forall i, i < length a -> nth i a 0 = nth i b 0) -> a = b.
Proof. intros L H. apply (nth_ext _ _ 0 0 L H). Qed.
Lemma bincount_length l m : l <> [] -> list_max l < m -> length (bincount l m) = m.
Proof. intros N H. unfold bincount. rewrite map_length, seq_length. destruct l; [congruence|lia]. Qed.
Lemma bincount_nth l m i : l <> [] -> nth i (bincount l m) 0 = occurrences l i.
Proof.
  intros N. unfold bincount. destruct (lt_dec i (Nat.max m (match l with [] => 0 | _ => S (list_max l) end))) as [L|L].
  - rewrite (nth_indep _ 0 (occurrences l 0)) by (rewrite map_length, seq_length; exact L). rewrite map_nth, seq_nth by exact L. reflexivity.
  - rewrite nth_overflow by (rewrite map_length, seq_length; lia). symmetry. apply occurrences_above. destruct l; [congruence|lia].
Qed.
Lemma add_spec a b : length a = length b -> exists c, add a b = Some c /\ length c = length a /\ forall i, nth i c 0 = nth i a 0 + nth i b 0.
Proof.
  intros L. unfold add. rewrite (proj2 (Nat.eqb_eq _ _) L). eexists. split; [reflexivity|]. split; [rewrite map_length, combine_length; lia|]. intros i.
  change 0 with ((fun p => fst p + snd p) (0, 0)) at 1. rewrite map_nth, combine_nth by exact L. reflexivity.
Qed.
Lemma resize_nth a n i : nth i (resize a n) 0 = nth i a 0.
Proof.
  unfold resize. destruct (lt_dec i (length a)) as [L|L]; [apply app_nth1, L|]. rewrite app_nth2, (nth_overflow a) by lia. clear. generalize (i - length a). induction (n - length a) as [|k IH]; intros [|j]; cbn; auto.
Qed.
Lemma nsum_app (a b : list nat) : fold_right Nat.add 0 (a ++ b) = fold_right Nat.add 0 a + fold_right Nat.add 0 b.
Proof. induction a as [|x a IH]; cbn; [reflexivity|lia]. Qed.
(** the histograms of a list of rows *)
Definition are_hists (rows : list row) (h : list nat) (g : Z -> nat) : Prop :=
  length h = S (list_max (map n_hits rows)) /\ (forall i, nth i h 0 = occurrences (map n_hits rows) i) /\ forall i, g i = shape_hist (map cluster_shape rows) i.
Lemma step_spec in_clusters s chunk rows : valid_rows in_clusters chunk <> [] ->
  (if initialize s then rows = [] else exists h g, hists s = Some (h, g) /\ rows <> [] /\ are_hists rows h g) -> total_hits s = fold_right Nat.add 0 (map n_hits rows) -> total_clusters s = length rows ->
  exists s' h g, chunk_step in_clusters s chunk = Some s' /\ hists s' = Some (h, g) /\ initialize s' = false /\ are_hists (rows ++ valid_rows in_clusters chunk) h g /\
  total_hits s' = fold_right Nat.add 0 (map n_hits (rows ++ valid_rows in_clusters chunk)) /\ total_clusters s' = length (rows ++ valid_rows in_clusters chunk).
Proof.
  intros V I H C. unfold chunk_step. set (new := valid_rows in_clusters chunk) in *. clearbody new. rewrite map_app, app_length.
  assert (Sz : map n_hits new <> []) by (destruct new; [congruence|discriminate]).
  assert (T : fold_right Nat.add 0 (map n_hits rows ++ map n_hits new) = fold_right Nat.add 0 (map n_hits rows) + fold_right Nat.add 0 (map n_hits new)) by apply nsum_app.
  rewrite T, <- H, <- C. unfold are_hists. rewrite !map_app, list_max_app.
  assert (Lr : length (map n_hits new) = length new) by apply map_length. set (sizes := map n_hits new) in *. clearbody sizes. destruct sizes as [|z0 zs]; [congruence|]. set (sizes := z0 :: zs) in *.
  destruct (initialize s) eqn:Ei.
  - subst rows. cbn [map app list_max fold_right]. exists (State (Some (bincount sizes (list_max sizes + 1), shape_hist (map cluster_shape new))) false (total_hits s + fold_right Nat.add 0 sizes) (total_clusters s + length sizes)), (bincount sizes (list_max sizes + 1)), (shape_hist (map cluster_shape new)).
    split; [reflexivity|]. split; [reflexivity|]. split; [reflexivity|]. split; [|split; [reflexivity|cbn [total_clusters]; rewrite Lr; reflexivity]].
    split; [rewrite bincount_length by (auto; lia); change (list_max []) with 0; lia|]. split; [intros i; apply bincount_nth, Sz|reflexivity].
  - destruct I as (h & g & -> & Nr & L & Hn & Hg).
    assert (B : exists h', (if length h - 1 <? list_max sizes then add (resize h (list_max sizes + 1)) (bincount sizes (list_max sizes + 1)) else add h (bincount sizes (length h))) = Some h' /\
      length h' = S (Nat.max (list_max (map n_hits rows)) (list_max sizes)) /\ forall i, nth i h' 0 = occurrences (map n_hits rows ++ sizes) i).
    { destruct (Nat.ltb_spec (length h - 1) (list_max sizes)) as [Q|Q].
      - destruct (add_spec (resize h (list_max sizes + 1)) (bincount sizes (list_max sizes + 1))) as (c & E & Lc & Nc).
        { rewrite bincount_length by (auto; lia). unfold resize. rewrite app_length, repeat_length. lia. }
        exists c. split; [exact E|]. split; [rewrite Lc; unfold resize; rewrite app_length, repeat_length; lia|]. intros i. rewrite Nc, resize_nth, bincount_nth, Hn, occurrences_app by exact Sz. reflexivity.
      - destruct (add_spec h (bincount sizes (length h))) as (c & E & Lc & Nc); [rewrite bincount_length by (auto; lia); reflexivity|].
        exists c. split; [exact E|]. split; [rewrite Lc; lia|]. intros i. rewrite Nc, bincount_nth, Hn, occurrences_app by exact Sz. reflexivity. }
    destruct B as (h' & -> & B1 & B2). eexists _, h', _. split; [reflexivity|]. split; [reflexivity|]. split; [reflexivity|]. split; [|split; [reflexivity|cbn [total_clusters]; rewrite Lr; reflexivity]].
    split; [exact B1|]. split; [exact B2|]. intros i. rewrite Hg. unfold shape_hist. rewrite filter_app, app_length. reflexivity.
Qed.
Lemma loop_spec in_clusters : forall chunks s rows, Forall (fun c => valid_rows in_clusters c <> []) chunks ->
  (if initialize s then rows = [] else exists h g, hists s = Some (h, g) /\ rows <> [] /\ are_hists rows h g) -> total_hits s = fold_right Nat.add 0 (map n_hits rows) -> total_clusters s = length rows -> chunks <> [] ->
  exists s' h g, chunks_loop in_clusters s chunks = Some s' /\ hists s' = Some (h, g) /\ are_hists (rows ++ all_rows in_clusters chunks) h g /\
  total_hits s' = fold_right Nat.add 0 (map n_hits (rows ++ all_rows in_clusters chunks)) /\ total_clusters s' = length (rows ++ all_rows in_clusters chunks).
Proof.
  induction chunks as [|c cs IH]; intros s rows F I H C N; [congruence|]. inversion F as [|? ? F1 F2]; subst. destruct (step_spec in_clusters s c rows F1 I H C) as (s' & h & g & E & E2 & E3 & A & H' & C').
  cbn [chunks_loop]. rewrite E. unfold all_rows. cbn [map concat]. rewrite app_assoc. destruct cs as [|c2 cs].
  - cbn [chunks_loop map concat]. rewrite app_nil_r. exists s', h, g. auto.
  - apply IH; [exact F2| |exact H'|exact C'|discriminate]. rewrite E3. exists h, g. split; [exact E2|]. split; [|exact A]. destruct rows; [|discriminate]. cbn. exact F1.
Qed.
Lemma shapes_disjoint l (shapes : list Z) : NoDup l -> Forall (fun i => 0 <= i < 2 ^ 16 - 2)%Z l ->
  fold_right Nat.add 0 (map (shape_hist shapes) l) = length (filter (fun s => if in_dec Z.eq_dec s l then true else false) shapes).
Proof.
  intros ND F. induction l as [|i l IH].
  - cbn. induction shapes as [|s shapes IHs]; [reflexivity|exact IHs].
  - inversion ND as [|? ? N1 N2]; subst. inversion F as [|? ? F1 F2]; subst. cbn [map fold_right]. rewrite (IH N2 F2). clear IH. unfold shape_hist. induction shapes as [|s shapes IHs]; [reflexivity|]. cbn [filter].
    assert (B : shape_bin i s = (s =? i)%Z). { unfold shape_bin. replace (0 <=? i)%Z with true by (symmetry; apply Z.leb_le; lia). replace (i <? 2 ^ 16 - 1)%Z with true by (symmetry; apply Z.ltb_lt; lia). replace (i =? 2 ^ 16 - 2)%Z with false by (symmetry; apply Z.eqb_neq; lia). cbn [andb orb]. apply orb_false_r. }
    rewrite B. destruct (Z.eqb_spec s i) as [E|E]; destruct (in_dec Z.eq_dec s l) as [J|J]; destruct (in_dec Z.eq_dec s (i :: l)) as [K|K]; cbn [length]; try lia.
    + subst s. contradiction.
    + subst s. contradiction.
    + exfalso. apply K. left. auto.
    + exfalso. apply K. right. exact J.
    + destruct K; [congruence|contradiction].
Qed.
Lemma analyzed_ok : NoDup analyze_cluster_shapes /\ Forall (fun i => 0 <= i < 2 ^ 16 - 2)%Z analyze_cluster_shapes.
Proof. split; [repeat constructor; cbn; intuition lia|repeat constructor; lia]. Qed.
(** the clusters with none of the shapes of the plot *)
Definition other_shape (r : row) : bool := if in_dec Z.eq_dec (cluster_shape r) analyze_cluster_shapes then false else true.
Lemma show_spec s rows h g : hists s = Some (h, g) -> are_hists rows h g -> total_hits s = fold_right Nat.add 0 (map n_hits rows) -> total_clusters s = length rows ->
  exists r, show s = Some r /\ length (size_bars r) = list_max (map n_hits rows) /\ (forall k, nth k (size_bars r) 0 = length (filter (fun c => n_hits c =? S k) rows)) /\
  (forall k, k < length analyze_cluster_shapes -> nth k (shape_bars r) 0 = length (filter (fun c => (cluster_shape c =? nth k analyze_cluster_shapes 0)%Z) rows)) /\ length (shape_bars r) = length analyze_cluster_shapes /\
  remaining r = Z.of_nat (length (filter other_shape rows)) /\ title_hits r = fold_right Nat.add 0 (map n_hits rows) /\ title_clusters r = length rows.
Proof.
  intros E (L & Hn & Hg) H C. unfold show. rewrite E. eexists. split; [reflexivity|]. cbn [size_bars shape_bars remaining title_hits title_clusters].
  assert (M : map g analyze_cluster_shapes = map (shape_hist (map cluster_shape rows)) analyze_cluster_shapes) by (apply map_ext; exact Hg). rewrite M. destruct analyzed_ok as [ND F].
  split; [destruct h; [discriminate L|injection L; auto]|]. split; [|split; [|split; [apply map_length|split; [|split; [exact H|exact C]]]]].
  - intros k. replace (nth k (tl h) 0) with (nth (S k) h 0) by (destruct h; [discriminate L|reflexivity]). rewrite Hn. unfold occurrences. clear. induction rows as [|r rows IH]; [reflexivity|]. cbn [map filter]. rewrite (Nat.eqb_sym (n_hits r)). destruct (S k =? n_hits r); cbn [length]; rewrite IH; reflexivity.
  - intros k Hk. rewrite (nth_indep _ 0 (shape_hist (map cluster_shape rows) 0%Z)) by (rewrite map_length; exact Hk). rewrite map_nth. set (i := nth k analyze_cluster_shapes 0%Z). assert (Hi : (0 <= i < 2 ^ 16 - 2)%Z) by (rewrite Forall_forall in F; apply F, nth_In, Hk).
    clearbody i. clear - Hi. unfold shape_hist. induction rows as [|r rows IH]; [reflexivity|]. cbn [map filter].
    assert (B : shape_bin i (cluster_shape r) = (cluster_shape r =? i)%Z). { unfold shape_bin. replace (0 <=? i)%Z with true by (symmetry; apply Z.leb_le; lia). replace (i <? 2 ^ 16 - 1)%Z with true by (symmetry; apply Z.ltb_lt; lia). replace (i =? 2 ^ 16 - 2)%Z with false by (symmetry; apply Z.eqb_neq; lia). cbn [andb orb]. apply orb_false_r. }
    rewrite B. destruct (_ =? i)%Z; cbn [length]; rewrite IH; reflexivity.
  - rewrite C, (shapes_disjoint _ _ ND F). clear. unfold other_shape. induction rows as [|r rows IH]; [reflexivity|]. cbn [map filter length]. destruct (in_dec Z.eq_dec (cluster_shape r) analyze_cluster_shapes); cbn [length]; lia.
Qed.
(** what has to be shown for the rows with a hit *)
Definition shows (r : shown) (rows : list row) : Prop :=
  length (size_bars r) = list_max (map n_hits rows) /\ (forall k, nth k (size_bars r) 0 = length (filter (fun c => n_hits c =? S k) rows)) /\
  length (shape_bars r) = length analyze_cluster_shapes /\ (forall k, k < length analyze_cluster_shapes -> nth k (shape_bars r) 0 = length (filter (fun c => (cluster_shape c =? nth k analyze_cluster_shapes 0)%Z) rows)) /\
  remaining r = Z.of_nat (length (filter other_shape rows)) /\ title_hits r = fold_right Nat.add 0 (map n_hits rows) /\ title_clusters r = length rows.
(** If every chunk has a row with a hit in the DUT, the plots show the clusters of all rows: the bar k is the number of clusters with k + 1 hits, and the bars of the shapes are the numbers of clusters of the shapes and of
    all other clusters.  They do not depend on the chunks and on the previous DUTs. *)
Theorem C113_shown : forall in_clusters previous chunks, chunks <> [] -> Forall (fun c => valid_rows in_clusters c <> []) chunks ->
  exists r hs, plot_dut in_clusters previous chunks = Some (r, hs) /\ shows r (all_rows in_clusters chunks).
Proof.
  intros in_clusters previous chunks N F. destruct (loop_spec in_clusters chunks (State previous true 0 0) [] F eq_refl eq_refl eq_refl N) as (s & h & g & E & E2 & A & H & C). cbn [app] in *.
  destruct (show_spec s _ h g E2 A H C) as (r & R1 & R2 & R3 & R4 & R5 & R6 & R7 & R8). exists r, (hists s). unfold plot_dut. rewrite E, R1. split; [reflexivity|]. unfold shows. auto 10.
Qed.
(** the rows with a hit in the specification are the rows of the table *)
Lemma all_rows_in c chunks r : In r (all_rows c chunks) <-> (c = true \/ has_hit r = true) /\ exists chunk, In chunk chunks /\ In r chunk.
Proof.
  unfold all_rows. rewrite in_concat. split.
  - intros (l & Hl & Hr). apply in_map_iff in Hl. destruct Hl as (ch & <- & Hc). unfold valid_rows in Hr. destruct c; [split; [left; reflexivity|exists ch; auto]|]. apply filter_In in Hr. split; [right; apply Hr|exists ch; split; [exact Hc|apply Hr]].
  - intros [Hh (ch & Hc & Hr)]. exists (valid_rows c ch). split; [apply in_map, Hc|]. unfold valid_rows. destruct c; [exact Hr|]. apply filter_In. split; [exact Hr|]. destruct Hh; [discriminate|assumption].
Qed.
(** A file with the histograms of the clustering shows the same. *)
Theorem C113_clusters : forall rows h g, are_hists rows h g -> exists r, plot_clusters h g = Some r /\ shows r rows.
Proof.
  intros rows h g A. unfold plot_clusters. set (s := State _ _ _ _).
  assert (T : total_hits s = fold_right Nat.add 0 (map n_hits rows) /\ total_clusters s = length rows).
  { destruct A as (L & Hn & _). unfold s. cbn [total_hits total_clusters]. rewrite <- (map_length n_hits rows). set (l := map n_hits rows) in *. clearbody l. clear s rows.
    assert (Eh : h = map (occurrences l) (seq 0 (S (list_max l)))).
    { apply nth_ext0; [rewrite map_length, seq_length; exact L|]. intros i Hi. rewrite Hn. rewrite (nth_indep _ 0 (occurrences l 0)) by (rewrite map_length, seq_length; lia). rewrite map_nth, seq_nth by lia. reflexivity. }
    rewrite Eh, map_length, seq_length. assert (B : forall n, list_max l < n -> fold_right Nat.add 0 (map (fun p => fst p * snd p) (combine (map (occurrences l) (seq 0 n)) (seq 0 n))) = fold_right Nat.add 0 l /\ fold_right Nat.add 0 (map (occurrences l) (seq 0 n)) = length l).
    { clear. induction l as [|x l IH]; intros n Hn.
      - assert (Z0 : forall k m, fold_right Nat.add 0 (map (fun p => fst p * snd p) (combine (map (occurrences []) (seq m k)) (seq m k))) = 0 /\ fold_right Nat.add 0 (map (occurrences []) (seq m k)) = 0).
        { induction k as [|k IH]; intros m; [split; reflexivity|]. exact (IH (S m)). }
        apply Z0.
      - cbn [list_max fold_right] in Hn. destruct (IH n) as [I1 I2]; [unfold list_max; lia|]. cbn [fold_right length]. rewrite <- I1, <- I2. clear I1 I2 IH.
        assert (O : forall i, occurrences (x :: l) i = (if i =? x then 1 else 0) + occurrences l i) by (intros i; unfold occurrences; cbn [filter]; destruct (i =? x); reflexivity).
        assert (G : forall k m, fold_right Nat.add 0 (map (fun p => fst p * snd p) (combine (map (occurrences (x :: l)) (seq m k)) (seq m k))) = (if (m <=? x) && (x <? m + k) then x else 0) + fold_right Nat.add 0 (map (fun p => fst p * snd p) (combine (map (occurrences l) (seq m k)) (seq m k))) /\
          fold_right Nat.add 0 (map (occurrences (x :: l)) (seq m k)) = (if (m <=? x) && (x <? m + k) then 1 else 0) + fold_right Nat.add 0 (map (occurrences l) (seq m k))).
        { induction k as [|k IH]; intros m.
          - cbn [seq map combine fold_right]. replace ((m <=? x) && (x <? m + 0)) with false; [split; reflexivity|]. symmetry. apply andb_false_iff. destruct (Nat.leb_spec m x); [right; apply Nat.ltb_ge; lia|left; reflexivity].
          - cbn [seq map combine fold_right fst snd]. destruct (IH (S m)) as [-> ->]. rewrite O. destruct (Nat.eqb_spec m x) as [E|E].
            + subst m. replace (x <=? x) with true by (symmetry; apply Nat.leb_refl). replace (x <? x + S k) with true by (symmetry; apply Nat.ltb_lt; lia). replace (S x <=? x) with false by (symmetry; apply Nat.leb_gt; lia). cbn [andb]. lia.
            + replace ((S m <=? x) && (x <? S m + k)) with ((m <=? x) && (x <? m + S k)); [destruct (_ && _); lia|]. apply eq_true_iff_eq. rewrite !andb_true_iff, !Nat.leb_le, !Nat.ltb_lt. lia. }
        destruct (G n 0) as [-> ->]. replace ((0 <=? x) && (x <? 0 + n)) with true; [split; reflexivity|]. symmetry. apply andb_true_intro. split; [apply Nat.leb_le|apply Nat.ltb_lt]; lia. }
    apply (B (S (list_max l))). lia. }
  destruct (show_spec s rows h g eq_refl A (proj1 T) (proj2 T)) as (r & R1 & R2 & R3 & R4 & R5 & R6 & R7 & R8). exists r. split; [exact R1|]. unfold shows. auto 10.
Qed.
(** One chunk without a hit in the DUT makes the plot fail. *)
Theorem C113_chunk_refuted : forall previous a b chunk, Forall (fun r => has_hit r = false) chunk -> plot_dut false previous (a ++ chunk :: b) = None.
Proof.
  intros previous a b chunk F. unfold plot_dut. generalize (State previous true 0 0) as s. assert (V : valid_rows false chunk = []).
  { unfold valid_rows. induction F as [|r l Hr F IH]; [reflexivity|]. cbn [filter]. rewrite Hr. exact IH. }
  induction a as [|c a IH]; intros s; cbn [app chunks_loop].
  - unfold chunk_step. rewrite V. reflexivity.
  - destruct (chunk_step false s c) as [s'|]; [apply IH|reflexivity].
Qed.
(** A DUT with an empty table shows the bars of the previous DUT, below the title "0 hits, 0 clusters"; for the first DUT the plot fails. *)
Theorem C113_empty_refuted : forall in_clusters h g, plot_dut in_clusters None [] = None /\
  exists r, plot_dut in_clusters (Some (h, g)) [] = Some (r, Some (h, g)) /\ size_bars r = tl h /\ shape_bars r = map g analyze_cluster_shapes /\ title_hits r = 0 /\ title_clusters r = 0 /\ remaining r = (- Z.of_nat (fold_right Nat.add 0%nat (shape_bars r)))%Z.
Proof. intros. split; [reflexivity|]. eexists. split; [reflexivity|]. cbn [size_bars shape_bars title_hits title_clusters remaining]. repeat split. Qed.
(** The last bin of the histogram of the shapes holds two shapes: 65534 and 65535, the cluster of 4x4 pixels; larger shapes are not counted. *)
Theorem C113_last_bin_refuted : forall shapes, shape_hist shapes (2 ^ 16 - 2) = length (filter (fun s => ((s =? 65534) || (s =? 65535))%Z) shapes) /\ shape_hist shapes (2 ^ 16 - 1) = 0.
Proof.
  intros shapes. unfold shape_hist. split; [reflexivity|]. induction shapes as [|s l IH]; [reflexivity|exact IH].
Qed.
Example C113_case : exists r hs, plot_dut false None [[Row 1 1 true; Row 0 0 false]; [Row 3 7 true; Row 2 3 true]; [Row 1 1 true]] = Some (r, hs) /\ size_bars r = [2; 1; 1] /\ remaining r = 0%Z /\ title_hits r = 7.
Proof. eexists _, _. split; [reflexivity|]. repeat split. Qed.
Example C113_case2 : are_hists [Row 1 1 true; Row 2 3 true] [0; 1; 1] (shape_hist [1; 3]%Z).
Proof. split; [reflexivity|]. split; [|reflexivity]. intros [|[|[|[|i]]]]; reflexivity. Qed.

Print Assumptions C112_bars.
Print Assumptions C112_totals.
Print Assumptions C113_shown.
Print Assumptions C113_clusters.
Print Assumptions C113_chunk_refuted.
Print Assumptions C113_empty_refuted.
Print Assumptions C113_last_bin_refuted.
