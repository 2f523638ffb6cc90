(** Properties of the simulation: C75 (event numbers), C76 (shuffling), C77 (charge sharing),
    C78 (digitised hits), C79 (number of DUTs). *)
From Coq Require Import ZArith QArith Qround Qabs List Bool Arith Lia Lqa Sorted Permutation.
From Verif Require Import SimulateModel.
Import ListNotations.
Local Open Scope nat_scope.

(** * Sorted lists *)
Lemma sorted_app (l m : list Z) : StronglySorted Z.le l -> StronglySorted Z.le m -> (forall a b, In a l -> In b m -> (a <= b)%Z) -> StronglySorted Z.le (l ++ m).
Proof.
  induction 1 as [|a l Sl IH F]; intros Sm Hlm; simpl; auto. constructor.
  - apply IH; auto. intros; apply Hlm; simpl; auto.
  - apply Forall_app. split; auto. apply Forall_forall. intros b Hb. apply Hlm; simpl; auto.
Qed.
Lemma sorted_repeat (e : Z) k : StronglySorted Z.le (repeat e k).
Proof. induction k; simpl; constructor; auto. apply Forall_forall. intros b Hb. apply repeat_spec in Hb. lia. Qed.
Lemma sorted_concat (ls : list (list Z)) (lo : nat -> Z) : (forall i, i < length ls -> StronglySorted Z.le (nth i ls []) /\ forall e, In e (nth i ls []) -> (lo i <= e <= lo (S i))%Z) ->
  (forall i j, i <= j -> (lo i <= lo j)%Z) -> StronglySorted Z.le (concat ls) /\ forall e, In e (concat ls) -> (lo O <= e <= lo (length ls))%Z.
Proof.
  revert lo. induction ls as [|l ls IH]; intros lo H M; simpl; [split; [constructor|intros e []]|].
  destruct (H 0 ltac:(simpl; lia)) as [S0 B0]. simpl in S0, B0.
  destruct (IH (fun i => lo (S i))) as [S1 B1].
  { intros i Hi. apply (H (S i)). simpl. lia. }
  { intros i j Hij. apply M. lia. }
  split.
  - apply sorted_app; auto. intros a b Ha Hb. apply B0 in Ha. apply B1 in Hb. lia.
  - intros e He. apply in_app_or in He. destruct He as [He|He]; [apply B0 in He|apply B1 in He]; [|pose proof (M 0 1 ltac:(lia)); lia].
    pose proof (M 1 (S (length ls)) ltac:(lia)). lia.
Qed.
Lemma sorted_filter A (f : A -> Z) (p : A -> bool) l : StronglySorted Z.le (map f l) -> StronglySorted Z.le (map f (filter p l)).
Proof.
  induction l as [|a l IH]; simpl; intros S; auto. inversion S as [|? ? S1 F]; subst. destruct (p a); simpl; auto. constructor; auto.
  apply Forall_forall. intros b Hb. rewrite Forall_forall in F. apply F. apply in_map_iff in Hb. destruct Hb as (x & <- & Hx). apply in_map. apply filter_In in Hx. apply Hx.
Qed.

(** * C75: event numbers *)
Lemma tn_length draws : length (track_numbers draws) = length draws. Proof. apply map_length. Qed.
Lemma ev_blocks start draws i : i < length draws ->
  nth i (map (fun ec => repeat (start + Z.of_nat (fst ec))%Z (snd ec)) (combine (seq 0 (length draws)) (track_numbers draws))) [] =
  repeat (start + Z.of_nat i)%Z (nth i (track_numbers draws) 0).
Proof.
  intros Hi. set (f := fun ec : nat * nat => repeat (start + Z.of_nat (fst ec))%Z (snd ec)).
  rewrite (nth_indep _ [] (f (0, 0))) by (rewrite map_length, combine_length, seq_length, tn_length; lia).
  rewrite map_nth, combine_nth by (rewrite seq_length, tn_length; auto). rewrite seq_nth by auto. auto.
Qed.
Lemma events_sorted start draws : StronglySorted Z.le (event_numbers start draws).
Proof.
  unfold event_numbers. apply (sorted_concat _ (fun i => start + Z.of_nat i)%Z); [|intros; lia].
  intros i Hi. rewrite map_length, combine_length, seq_length, tn_length, Nat.min_id in Hi. rewrite ev_blocks by auto.
  split; [apply sorted_repeat|]. intros e He. apply repeat_spec in He. lia.
Qed.
Lemma events_range start draws e : In e (event_numbers start draws) -> (start <= e < start + Z.of_nat (length draws))%Z.
Proof.
  unfold event_numbers. intros H. apply in_concat in H. destruct H as (l & Hl & He). apply in_map_iff in Hl. destruct Hl as ([i c] & <- & Hc).
  apply repeat_spec in He. simpl in He. apply in_combine_l in Hc. apply in_seq in Hc. lia.
Qed.
Lemma count_repeat (e f : Z) k : count_occ Z.eq_dec (repeat e k) f = if (e =? f)%Z then k else 0.
Proof. induction k as [|k IH]; simpl; [destruct (e =? f)%Z; auto|]. destruct (Z.eq_dec e f) as [->|N]; [rewrite Z.eqb_refl in *; auto|]. rewrite IH. destruct (Z.eqb_spec e f); auto; contradiction. Qed.
Lemma count_blocks start : forall cs a e, count_occ Z.eq_dec (concat (map (fun ec => repeat (start + Z.of_nat (fst ec))%Z (snd ec)) (combine (seq a (length cs)) cs))) (start + Z.of_nat e)%Z =
  if (a <=? e) then nth (e - a) cs 0 else 0.
Proof.
  induction cs as [|c cs IH]; intros a e; simpl; [destruct (a <=? e); auto; destruct (e - a); auto|].
  rewrite count_occ_app, count_repeat, IH. destruct (Nat.leb_spec a e) as [L|L].
  - destruct (Nat.eq_dec a e) as [->|N].
    + rewrite Z.eqb_refl, Nat.sub_diag. destruct (Nat.leb_spec (S e) e); lia.
    + destruct (Z.eqb_spec (start + Z.of_nat a) (start + Z.of_nat e)); [lia|]. destruct (Nat.leb_spec (S a) e); [|lia]. replace (e - a) with (S (e - S a)) by lia. auto.
  - destruct (Z.eqb_spec (start + Z.of_nat a) (start + Z.of_nat e)); [lia|]. destruct (Nat.leb_spec (S a) e); lia.
Qed.
Lemma events_count start draws i : count_occ Z.eq_dec (event_numbers start draws) (start + Z.of_nat i)%Z = nth i (track_numbers draws) 0.
Proof. unfold event_numbers. rewrite <- tn_length, count_blocks. simpl. rewrite Nat.sub_0_r. auto. Qed.

Lemma chunks_spec n c k : n_chunks n c = Some k -> let m := chunk_events n c in 0 < m /\ n <= k * m /\ k * m < n + m /\ 0 < n /\ 0 < c.
Proof.
  unfold n_chunks. cbv zeta. destruct (Nat.eqb_spec (chunk_events n c) 0) as [|N]; [discriminate|]. intros E. injection E as <-.
  set (m := chunk_events n c) in *. assert (0 < n /\ 0 < c) by (unfold m, chunk_events in N; destruct (Nat.ltb_spec n c); lia).
  pose proof (Nat.div_mod (n + m - 1) m N). pose proof (Nat.mod_upper_bound (n + m - 1) m N). nia.
Qed.

(** The event numbers are sorted and consecutive chunks use consecutive numbers: event e has the number of
    tracks drawn for it, once. *)
Theorem C75_events n c draws l : (forall i, length (draws i) = chunk_events n c) -> all_event_numbers n c draws = Some l ->
  StronglySorted Z.le l /\
  exists total, (forall e, In e l -> (0 <= e < Z.of_nat total)%Z) /\ n <= total < n + chunk_events n c /\ (exists k, total = k * chunk_events n c) /\
    forall e, e < total -> count_occ Z.eq_dec l (Z.of_nat e) = Z.to_nat (Z.max 0 (nth (e mod chunk_events n c) (draws (e / chunk_events n c)) 0%Z)).
Proof.
  intros L. unfold all_event_numbers. destruct (n_chunks n c) as [k|] eqn:K; [|discriminate]. intros E. injection E as <-.
  apply chunks_spec in K. cbv zeta in K. set (m := chunk_events n c) in *. destruct K as (Hm & K1 & K2 & _ & _).
  set (f := fun i => event_numbers (Z.of_nat (i * m)) (draws i)).
  assert (N : forall i, i < k -> nth i (map f (seq 0 k)) [] = f i).
  { intros i Hi. rewrite (nth_indep _ [] (f 0)) by (rewrite map_length, seq_length; auto). rewrite map_nth, seq_nth by auto. auto. }
  split.
  - apply (sorted_concat _ (fun i => Z.of_nat (i * m))); [|intros; apply inj_le; apply Nat.mul_le_mono_r; auto].
    intros i Hi. rewrite map_length, seq_length in Hi. rewrite N by auto. split; [apply events_sorted|]. intros e He. apply events_range in He. rewrite L in He. lia.
  - exists (k * m). split; [|split; [lia|split; [eauto|]]].
    + intros e He. apply in_concat in He. destruct He as (l & Hl & He). apply in_map_iff in Hl. destruct Hl as (i & <- & Hi). apply in_seq in Hi. apply events_range in He. rewrite L in He.
      assert (i * m + m <= k * m) by nia. lia.
    + intros e He. assert (G : forall a b, count_occ Z.eq_dec (concat (map f (seq a b))) (Z.of_nat e) = if (a <=? e / m) && (e / m <? a + b) then nth (e mod m) (track_numbers (draws (e / m))) 0 else 0).
      { intros a b. revert a. induction b as [|b IH]; intros a; simpl.
        - destruct (Nat.leb_spec a (e / m)), (Nat.ltb_spec (e / m) (a + 0)); auto; lia.
        - rewrite count_occ_app, IH. pose proof (Nat.div_mod e m ltac:(lia)) as D. pose proof (Nat.mod_upper_bound e m ltac:(lia)) as B.
          destruct (Nat.eq_dec a (e / m)) as [Ea|Na].
          + destruct (Nat.leb_spec (S a) (e / m)); [lia|]. destruct (Nat.leb_spec a (e / m)); [|lia]. destruct (Nat.ltb_spec (e / m) (a + S b)); [|lia]. simpl.
            rewrite Nat.add_0_r. unfold f. rewrite Ea at 1 2. replace (Z.of_nat e) with (Z.of_nat (e / m * m) + Z.of_nat (e mod m))%Z by lia. apply events_count.
          + assert (C0 : count_occ Z.eq_dec (f a) (Z.of_nat e) = 0).
            { apply count_occ_not_In. intros He'. apply events_range in He'. rewrite L in He'. assert (a * m <= e < a * m + m) by lia. apply Na. apply (Nat.div_unique e m a (e - a * m)); lia. }
            rewrite C0. cbn [Nat.add]. destruct (Nat.leb_spec (S a) (e / m)), (Nat.leb_spec a (e / m)); try lia; auto. cbn [andb].
            destruct (Nat.ltb_spec (e / m) (S (a + b))), (Nat.ltb_spec (e / m) (a + S b)); try lia; auto. }
      rewrite G. simpl. assert (Hd : e / m < k) by (apply Nat.div_lt_upper_bound; lia). apply Nat.ltb_lt in Hd. rewrite Hd. unfold track_numbers.
      change 0 with ((fun c => Z.to_nat (Z.max 0 c)) 0%Z) at 1. rewrite map_nth. auto.
Qed.
Theorem C75_defined n c draws : (exists l, all_event_numbers n c draws = Some l) <-> 0 < n /\ 0 < c.
Proof.
  unfold all_event_numbers. destruct (n_chunks n c) as [k|] eqn:K.
  - apply chunks_spec in K. cbv zeta in K. split; [lia|eauto].
  - split; [intros (l & E); discriminate|]. unfold n_chunks, chunk_events in K. intros [A B]. destruct (Nat.ltb_spec n c); [destruct (Nat.eqb_spec n 0)|destruct (Nat.eqb_spec c 0)]; try lia; discriminate.
Qed.
(** If the chunk size does not divide the number of events, there are more events than requested. *)
Theorem C75_more_events_refuted : exists n c draws l, (forall i, length (draws i) = chunk_events n c) /\ all_event_numbers n c draws = Some l /\ exists e, In e l /\ (Z.of_nat n <= e)%Z.
Proof. exists 3, 2, (fun _ => [1; 2]%Z), [0; 1; 1; 2; 3; 3]%Z. split; [reflexivity|]. split; [reflexivity|]. exists 3%Z. simpl. lia. Qed.
Theorem C75_divisible n c draws l e : (forall i, length (draws i) = chunk_events n c) -> (exists k, n = k * chunk_events n c) -> all_event_numbers n c draws = Some l -> In e l -> (0 <= e < Z.of_nat n)%Z.
Proof.
  intros L (k & Hk) E He. destruct (C75_events n c draws l L E) as (_ & total & R & T & (k' & ->) & _). apply R in He.
  set (m := chunk_events n c) in *. assert (k' * m = k * m); [|lia].
  destruct (Nat.lt_trichotomy k' k) as [Lt|[->|Lt]]; auto; [assert (S k' * m <= k * m) by (apply Nat.mul_le_mono_r; lia)|assert (S k * m <= k' * m) by (apply Nat.mul_le_mono_r; lia)]; rewrite Nat.mul_succ_l in *; lia.
Qed.
Example C75_example : all_event_numbers 4 2 (fun i => match i with 0 => [2; -1]%Z | _ => [1; 3]%Z end) = Some [0; 0; 2; 3; 3; 3]%Z.
Proof. reflexivity. Qed.

(** * C76: shuffling *)
Section Shuffling.
  Variable events : list Z.
  Variable n_tracks : list nat.
  Notation n := (length events).
  Variable shuffle : nat -> list nat -> list nat.
  Hypothesis Perm : forall i l, Permutation (shuffle i l) l.
  Notation ev := (ev events).
  Definition block_start (i : nat) : Prop := i = 0 \/ ev (i - 1) <> ev i.
  Hypothesis Blocks : forall i j, i < n -> block_start i -> i <= j -> j < i + nth i n_tracks 0 -> j < n /\ ev j = ev i.
  Hypothesis One : forall i, i < n -> block_start i -> nth i n_tracks 0 = 1 -> block_start (S i) \/ S i = n.

  Lemma last_start fuel : forall i, i < n -> n <= i + fuel + 1 -> let k := last_of_event events n fuel i in i <= k < n /\ (block_start (S k) \/ S k = n).
  Proof.
    induction fuel as [|fuel IH]; intros i Hi Hf; cbn [last_of_event]; cbv zeta.
    - split; [lia|]. right. lia.
    - destruct (Nat.ltb_spec i (n - 1)); [|split; [lia|right; lia]]. destruct (Z.eqb_spec (ev i) (ev (S i))) as [E|N].
      + destruct (IH (S i)) as [A B]; [lia|lia|]. split; [lia|auto].
      + split; [lia|]. left. right. simpl. rewrite Nat.sub_0_r. auto.
  Qed.
  Definition good (indices : list nat) : Prop := Permutation indices (seq 0 n) /\ forall k, k < n -> ev (nth k indices 0) = ev k.
  Lemma good_len l : good l -> length l = n.
  Proof. intros [P _]. apply Permutation_length in P. rewrite seq_length in P. auto. Qed.
  Lemma slice_good i indices : good indices -> i < n -> block_start i -> let k := nth i n_tracks 0 in
    good (firstn i indices ++ shuffle i (firstn k (skipn i indices)) ++ skipn k (skipn i indices)).
  Proof.
    intros G Hi B. cbv zeta. pose proof (good_len _ G) as Len. destruct G as [P E]. pose proof E as E0. set (k := nth i n_tracks 0).
    set (slice := firstn k (skipn i indices)). set (rest := skipn k (skipn i indices)).
    assert (S1 : indices = firstn i indices ++ slice ++ rest) by (unfold slice, rest; rewrite !firstn_skipn; auto).
    assert (PS : Permutation (shuffle i slice) slice) by apply Perm. assert (LS : length (shuffle i slice) = length slice) by (apply Permutation_length; auto).
    assert (Li : length (firstn i indices) = i) by (rewrite firstn_length; lia).
    assert (Lk : length slice <= k) by (unfold slice; rewrite firstn_length; lia).
    assert (Ls : i + length slice <= n) by (rewrite <- Len, S1 at 1; rewrite !app_length; lia).
    split.
    - transitivity indices; auto. rewrite S1 at 2. apply Permutation_app_head, Permutation_app_tail, Perm.
    - intros j Hj. specialize (E j Hj). rewrite S1 in E. destruct (Nat.lt_ge_cases j i) as [L|L].
      + rewrite app_nth1 in * by lia. auto.
      + rewrite app_nth2 in * by lia. rewrite Li in *. destruct (Nat.lt_ge_cases (j - i) (length slice)) as [L2|L2].
        * rewrite app_nth1 in * by lia.
          assert (In (nth (j - i) (shuffle i slice) 0) slice) as Hin by (apply (Permutation_in _ PS), nth_In; lia).
          destruct (In_nth _ _ 0 Hin) as (m & Hm & Em). rewrite <- Em.
          assert (Hn : nth m slice 0 = nth (i + m) indices 0) by (rewrite S1 at 1; rewrite app_nth2 by lia; rewrite Li; replace (i + m - i) with m by lia; rewrite app_nth1 by lia; auto).
          rewrite Hn, E0 by lia. destruct (Blocks i (i + m)) as [_ ->]; auto; try (unfold k in Lk; lia). symmetry. apply Blocks; auto. unfold k in Lk. lia.
        * rewrite app_nth2 in * by lia. rewrite LS. auto.
  Qed.
  Lemma loop_good : forall fuel i indices, good indices -> (block_start i \/ i = n) -> good (shuffle_loop events n_tracks n shuffle fuel i indices).
  Proof.
    induction fuel as [|fuel IH]; intros i indices G B; cbn [shuffle_loop]; auto.
    destruct (Nat.ltb_spec i n) as [Hi|Hi]; auto. destruct B as [B|B]; [|lia].
    destruct (Nat.eqb_spec (nth i n_tracks 0) 1) as [E1|N1].
    - apply IH; auto.
    - apply IH; [apply slice_good; auto|]. destruct (last_start n i Hi) as [_ R]; [lia|auto].
  Qed.

  (** The hits of an event stay in the event: the pairs of event number and hit are permuted. *)
  Lemma shuffle_permutes A (d : A) hits : length hits = n ->
    Permutation (combine events (shuffled events n_tracks n shuffle d hits)) (combine events hits).
  Proof.
    intros L. unfold shuffled. assert (G : good (shuffle_loop events n_tracks n shuffle n 0 (seq 0 n))).
    { apply loop_good; [|left; left; auto]. split; auto. intros k Hk. rewrite seq_nth by auto. auto. }
    pose proof (good_len _ G) as Len. destruct G as [P E]. set (idx := shuffle_loop _ _ _ _ _ _ _) in *.
    assert (C1 : combine events (map (fun i => nth i hits d) idx) = map (fun i => (ev i, nth i hits d)) idx).
    { apply (nth_ext _ _ (0%Z, d) (0%Z, d)); rewrite combine_length, !map_length, Len; [lia|]. rewrite Nat.min_id. intros k Hk.
      rewrite combine_nth by (rewrite map_length; auto). rewrite (nth_indep (map _ idx) d (nth 0 hits d)) by (rewrite map_length; lia).
      rewrite (nth_indep (map (fun i => (ev i, nth i hits d)) idx) (0%Z, d) (ev 0, nth 0 hits d)) by (rewrite map_length; lia).
      rewrite (map_nth (fun i => nth i hits d)), (map_nth (fun i => (ev i, nth i hits d))). rewrite E by auto. auto. }
    assert (C2 : combine events hits = map (fun i => (ev i, nth i hits d)) (seq 0 n)).
    { apply (nth_ext _ _ (0%Z, d) (0%Z, d)); rewrite combine_length, ?map_length, ?seq_length; [lia|]. rewrite L, Nat.min_id. intros k Hk.
      rewrite combine_nth by auto. rewrite (nth_indep (map (fun i => (ev i, nth i hits d)) (seq 0 n)) (0%Z, d) (ev 0, nth 0 hits d)) by (rewrite map_length, seq_length; lia).
      rewrite (map_nth (fun i => (ev i, nth i hits d))), seq_nth by auto. auto. }
    rewrite C1, C2. apply Permutation_map. auto.
  Qed.
End Shuffling.

(** The data of _create_data: the slice of an event is its block *)
Lemma concat_nth A (d : A) : forall ls j, j < length (concat ls) -> exists i k, i < length ls /\ k < length (nth i ls []) /\ j = length (concat (firstn i ls)) + k /\ nth j (concat ls) d = nth k (nth i ls []) d.
Proof.
  induction ls as [|l ls IH]; simpl; intros j Hj; [lia|]. rewrite app_length in Hj. destruct (Nat.lt_ge_cases j (length l)) as [L|L].
  - exists 0, j. simpl. repeat split; try lia. apply app_nth1; auto.
  - destruct (IH (j - length l)) as (i & k & Hi & Hk & E & N); [lia|]. exists (S i), k. simpl. rewrite app_length. repeat split; try lia. rewrite app_nth2 by lia. auto.
Qed.
Lemma event_at start : forall cs a j, let evs := concat (map (fun ec => repeat (start + Z.of_nat (fst ec))%Z (snd ec)) (combine (seq a (length cs)) cs)) in let nts := concat (map (fun c => repeat c c) cs) in
  length evs = length nts /\
  (j < length evs -> exists i first, i < length cs /\ nth j evs 0%Z = (start + Z.of_nat (a + i))%Z /\ nth j nts 0 = nth i cs 0 /\ first <= j < first + nth i cs 0 /\ first + nth i cs 0 <= length evs /\
    (forall k, first <= k < first + nth i cs 0 -> nth k evs 0%Z = (start + Z.of_nat (a + i))%Z) /\
    (forall k, k < length evs -> nth k evs 0%Z = (start + Z.of_nat (a + i))%Z -> first <= k < first + nth i cs 0)).
Proof.
  assert (Above : forall cs a k, k < length (concat (map (fun ec => repeat (start + Z.of_nat (fst ec))%Z (snd ec)) (combine (seq a (length cs)) cs))) ->
    (start + Z.of_nat a <= nth k (concat (map (fun ec => repeat (start + Z.of_nat (fst ec))%Z (snd ec)) (combine (seq a (length cs)) cs))) 0)%Z).
  { intros cs a k Hk. apply (nth_In _ 0%Z) in Hk. apply in_concat in Hk. destruct Hk as (l & Hl & He). apply in_map_iff in Hl. destruct Hl as ([i c] & <- & Hc).
    apply repeat_spec in He. simpl in He. apply in_combine_l in Hc. apply in_seq in Hc. lia. }
  induction cs as [|c cs IH]; intros a j; cbv zeta; simpl; [split; auto; intros; lia|].
  rewrite !app_length, !repeat_length. specialize (IH (S a) (j - c)). cbv zeta in IH. destruct IH as [Len IH]. split; [lia|].
  intros Hj. destruct (Nat.lt_ge_cases j c) as [L|L].
  - exists 0, 0. simpl. assert (R : forall k, k < c -> nth k (repeat (start + Z.of_nat a)%Z c ++ concat (map (fun ec => repeat (start + Z.of_nat (fst ec))%Z (snd ec)) (combine (seq (S a) (length cs)) cs))) 0%Z = (start + Z.of_nat (a + 0))%Z).
    { intros k Hk. rewrite app_nth1 by (rewrite repeat_length; auto). rewrite (nth_indep _ 0%Z (start + Z.of_nat a)%Z) by (rewrite repeat_length; auto). rewrite nth_repeat, Nat.add_0_r. auto. }
    split; [lia|]. split; [apply R; auto|]. split; [|split; [lia|split; [lia|split; [intros k Hk; apply R; lia|]]]].
    2: { intros k Hk Ek. destruct (Nat.lt_ge_cases k c) as [Lk|Lk]; [lia|]. exfalso. rewrite app_nth2 in Ek by (rewrite repeat_length; auto). rewrite repeat_length in Ek.
      pose proof (Above cs (S a) (k - c) ltac:(lia)). lia. }
    rewrite app_nth1 by (rewrite repeat_length; auto). rewrite (nth_indep _ 0 c) by (rewrite repeat_length; auto). apply nth_repeat.
  - destruct IH as (i & first & Hi & E1 & E2 & F1 & F2 & F3 & F4); [lia|]. exists (S i), (c + first). simpl. rewrite !app_nth2 by (rewrite repeat_length; lia). rewrite !repeat_length.
    split; [lia|]. split; [rewrite E1; f_equal; lia|]. split; [auto|]. split; [lia|]. split; [lia|]. split.
    + intros k Hk. rewrite app_nth2 by (rewrite repeat_length; lia). rewrite repeat_length, F3 by lia. f_equal. lia.
    + intros k Hk Ek. destruct (Nat.lt_ge_cases k c) as [Lk|Lk].
      * rewrite app_nth1 in Ek by (rewrite repeat_length; auto). rewrite (nth_indep _ 0%Z (start + Z.of_nat a)%Z), nth_repeat in Ek by (rewrite repeat_length; auto). lia.
      * rewrite app_nth2 in Ek by (rewrite repeat_length; auto). rewrite repeat_length in Ek. pose proof (F4 (k - c) ltac:(lia) ltac:(rewrite Ek; lia)). lia.
Qed.
(** shuffle_event_hits only permutes the hits of an event, for every outcome of np.random.shuffle. *)
Theorem C76_shuffle A (d : A) hits start draws shuffle : let events := event_numbers start draws in
  (forall i l, Permutation (shuffle i l) l) -> length hits = length events ->
  Permutation (combine events (shuffled events (tracks_of_event draws) (length events) shuffle d hits)) (combine events hits).
Proof.
  cbv zeta. intros P L.
  assert (EA := event_at start (track_numbers draws) 0). cbv zeta in EA. rewrite tn_length in EA. fold (event_numbers start draws) in EA. fold (tracks_of_event draws) in EA.
  set (evs := event_numbers start draws) in *.
  assert (B : forall i j, i < length evs -> block_start evs i -> i <= j -> j < i + nth i (tracks_of_event draws) 0 -> j < length evs /\ ev evs j = ev evs i).
  { intros i j Hi St Hij Hj. destruct (EA i) as [_ EAi]. destruct (EAi Hi) as (k & first & Hk & E1 & E2 & F1 & F2 & F3 & _). rewrite E2 in Hj.
    assert (first = i) as ->.
    { destruct St as [->|N]; [lia|]. destruct (Nat.eq_dec first i); auto. exfalso. apply N. unfold ev. rewrite !F3 by lia. auto. }
    split; [lia|]. unfold ev. rewrite !F3 by lia. auto. }
  apply shuffle_permutes; auto.
  intros i Hi St E1. destruct (Nat.eq_dec (S i) (length evs)) as [|N]; [right; auto|]. left. right. simpl. rewrite Nat.sub_0_r. unfold ev. intros C.
  destruct (EA i) as [_ EAi]. destruct (EAi Hi) as (k & first & Hk & V1 & V2 & F1 & F2 & F3 & F4). assert (first = i) as -> by lia.
  pose proof (F4 (S i) ltac:(lia) ltac:(congruence)). lia.
Qed.
Example C76_example : shuffled (event_numbers 5 [2; 0; 1; 3]%Z) (tracks_of_event [2; 0; 1; 3]%Z) 6 (fun _ l => rev l) 0 [10; 11; 12; 13; 14; 15] = [11; 10; 12; 15; 14; 13].
Proof. reflexivity. Qed.

Print Assumptions C75_events.
Print Assumptions C75_defined.
Print Assumptions C75_more_events_refuted.
Print Assumptions C75_divisible.
Print Assumptions C76_shuffle.
