(** C20, C21, C22: selection of events by max_events, of tracks by flags. *)
From Coq Require Import ZArith QArith List Bool Arith Lia Sorting.Sorted.
From Verif Require Import EventArraysProofs ChunksModel ChunksProofs ChunksProps SelectionModel SelectionProofs.
Import ListNotations.
Local Open Scope Z_scope.

Section Events.
  Context {A : Type}.
  Variable ev : A -> Z.
  Variable round : Q -> Z.
  Variable choice : list Z -> nat -> list Z.
  (** rounding a non-negative number gives a non-negative integer *)
  Definition rounds : Prop := forall q, (0 <= q)%Q -> 0 <= round q.
  (** a choice without replacement: the requested number of different elements of the list *)
  Definition chooses : Prop := forall l n, NoDup l -> (n <= length l)%nat ->
    NoDup (choice l n) /\ incl (choice l n) l /\ length (choice l n) = n.
  Hypothesis Hround : rounds.
  Hypothesis Hchoice : chooses.

  Notation mem v l := (existsb (Z.eqb v) l).
  Lemma mem_in v l : mem v l = true <-> In v l.
  Proof. rewrite existsb_exists. split; [intros (x & Hx & E); apply Z.eqb_eq in E; congruence|intros H; exists v; split; auto; apply Z.eqb_refl]. Qed.

  Lemma NoDup_app_intro (l1 l2 : list Z) : NoDup l1 -> NoDup l2 -> (forall v, In v l1 -> In v l2 -> False) -> NoDup (l1 ++ l2).
  Proof.
    induction 1 as [|x l H1 H2 IH]; intros H3 H4; simpl; auto. constructor.
    - rewrite in_app_iff. intros [H|H]; [auto|]. apply (H4 x); auto. left; auto.
    - apply IH; auto. intros v Hv. apply H4. right; auto.
  Qed.
  Lemma filter_filter' (f g : A -> bool) l : filter f (filter g l) = filter (fun a => g a && f a) l.
  Proof. induction l as [|x l IH]; simpl; auto. destruct (g x); simpl; rewrite IH; auto. Qed.

  Lemma sorted_filter (f : A -> bool) l : StronglySorted (fun a b => ev a <= ev b) l -> StronglySorted (fun a b => ev a <= ev b) (filter f l).
  Proof.
    induction 1 as [|x l S IH F]; simpl; [constructor|]. destruct (f x); auto. constructor; auto.
    rewrite Forall_forall in *. intros y Hy. apply filter_In in Hy. apply F, Hy.
  Qed.

  Lemma wanted_nonneg max T n_chunk idx cur s : 0 <= max -> 0 < n_chunk -> idx = cur + n_chunk -> 0 <= cur -> idx <= T ->
    0 <= s_stored s <= max ->
    (s_stored s <> 0 -> exists li, s_last s = Some (s_stored s, li) /\ 0 < li <= cur) ->
    exists w, wanted_events round true max T n_chunk idx s = inl w /\ 0 <= w /\ (T = idx -> w = max - s_stored s).
  Proof.
    intros Hm Hn Hi Hc HT Hs Hl. unfold wanted_events. destruct (Z.eqb_spec T idx) as [E|N].
    - eexists. split; [reflexivity|]. split; [lia|auto].
    - assert (PT : (0 < inject_Z T)%Q) by (apply qz_pos; lia).
      unfold qz. rewrite ndiv_fin by auto.
      assert (PF : (0 <= inject_Z n_chunk / inject_Z T)%Q) by (apply Qdiv_nonneg; auto; apply qz_nonneg; lia).
      assert (PM : (0 <= inject_Z max)%Q) by (apply qz_nonneg; lia).
      destruct (Z.eqb_spec (s_stored s) 0) as [E0|N0].
      + simpl. eexists. split; [reflexivity|]. split; [|congruence]. apply Hround. apply Qmult_le_0_compat; auto.
      + destruct (Hl N0) as (li & -> & H1).
        destruct (correction_fin max T idx li (s_stored s)) as (q & -> & Hq); try lia.
        simpl. eexists. split; [reflexivity|]. split; [|congruence]. apply Hround. apply Qmult_le_0_compat; auto. apply Qmult_le_0_compat; auto.
  Qed.

  Lemma select_loop_spec skip max T keep : 0 <= max -> forall ys cur tail s,
    indices_ok cur ys -> Forall (fun y => fst y <> []) ys -> separated ev (map fst ys) tail ->
    StronglySorted (fun a b => ev a <= ev b) (concat (map fst ys)) ->
    (Z.of_nat (cur + length (concat (map fst ys))) <= T) ->
    0 <= s_stored s <= max ->
    (s_stored s <> 0 -> exists li, s_last s = Some (s_stored s, li) /\ 0 < li <= Z.of_nat cur) ->
    exists out sel, select_loop ev round choice true skip max T keep s ys = inl out /\
      out = filter (fun a => keep a && mem (ev a) sel) (concat (map fst ys)) /\
      NoDup sel /\
      (forall v, In v sel -> exists a, In a (concat (map fst ys)) /\ keep a = true /\ ev a = v) /\
      s_stored s + Z.of_nat (length sel) <= max /\
      (forall pre c n, ys = pre ++ [(c, n)] -> Z.of_nat n = T ->
         s_stored s + Z.of_nat (length sel) = max \/ (forall a, In a c -> keep a = true -> In (ev a) sel)).
  Proof.
    intros Hm. induction ys as [|[c n] r IH]; intros cur tail s Hi Hf Hsep Hsort HT Hs Hl.
    - exists [], []. split; [reflexivity|]. split; [reflexivity|]. split; [constructor|]. split; [intros v []|].
      split; [simpl; lia|]. intros pre c n E. destruct pre; discriminate.
    - cbn [map fst concat] in *. destruct Hi as [Hn Hi]. inversion Hf as [|y l F1 F2]; subst y l. simpl in F1.
      destruct Hsep as [Hsep1 Hsep2]. destruct (sorted_app_inv ev _ _ Hsort) as (So1 & So2 & _).
      rewrite app_length in HT.
      assert (Hcl : (0 < length c)%nat) by (destruct c; [congruence|simpl; lia]).
      destruct (wanted_nonneg max T (Z.of_nat (length c)) (Z.of_nat n) (Z.of_nat cur) s) as (w & Hw & Hw0 & HwT); try lia; auto.
      cbn [select_loop]. unfold select_chunk. rewrite Hw.
      set (U := unique ev (filter keep c)) in *.
      assert (HU : NoDup U) by (apply unique_nodup, sorted_filter; auto).
      assert (HUin : forall v, In v U <-> exists a, In a c /\ keep a = true /\ ev a = v).
      { intros v. unfold U. rewrite unique_in. split.
        - intros (a & Ha & E). apply filter_In in Ha. exists a. tauto.
        - intros (a & H1 & H2 & H3). exists a. rewrite filter_In. auto. }
      assert (Hlt : forall v v', (exists a, In a c /\ keep a = true /\ ev a = v) -> (exists a, In a (concat (map fst r)) /\ keep a = true /\ ev a = v') -> v < v').
      { intros v v' (a & Ha & _ & <-) (b & Hb & _ & <-). apply Hsep1; auto. apply in_or_app. auto. }
      destruct (skip && (Z.of_nat (length U) =? 0)) eqn:Esk.
      + (* nothing left in this chunk *)
        apply andb_true_iff in Esk. destruct Esk as [_ Esk]. apply Z.eqb_eq in Esk.
        assert (EU : U = []) by (destruct U; [auto|simpl in Esk; lia]).
        assert (Hnone : forall a, In a c -> keep a = false).
        { intros a Ha. destruct (keep a) eqn:E; auto. assert (In (ev a) U) by (apply HUin; eauto). rewrite EU in H. contradiction. }
        destruct (IH n tail s) as (out & sel & I1 & I2 & I3 & I4 & I5 & I6); auto; try lia.
        { intros H. destruct (Hl H) as (li & L1 & L2). exists li. split; auto. lia. }
        rewrite I1. exists out, sel. split; [reflexivity|]. split; [|split; [auto|split; [|split; [auto|]]]].
        * rewrite filter_app, (filter_none _ c); [auto|]. intros a Ha. rewrite (Hnone a Ha). auto.
        * intros v Hv. destruct (I4 v Hv) as (a & Ha & Hk). exists a. split; auto. apply in_or_app; auto.
        * intros pre c' n' E En. destruct pre as [|y pre].
          -- injection E as <- <- ->. right. intros a Ha Hk. rewrite (Hnone a Ha) in Hk. discriminate.
          -- injection E as _ ->. eapply I6; eauto.
      + set (k := Z.min (Z.min (Z.of_nat (length U)) w) (max - s_stored s)).
        destruct (Z.ltb_spec k 0) as [Hk|Hk]; [lia|].
        destruct (Hchoice U (Z.to_nat k) HU ltac:(lia)) as (C1 & C2 & C3).
        set (S0 := choice U (Z.to_nat k)) in *.
        destruct (IH n tail (SState (s_stored s + Z.of_nat (length S0)) (Some (s_stored s + Z.of_nat (length S0), Z.of_nat n))))
          as (out & sel & I1 & I2 & I3 & I4 & I5 & I6); auto; try lia.
        { simpl. lia. }
        { simpl. intros _. exists (Z.of_nat n). split; auto. lia. }
        rewrite I1. cbn [s_stored] in I5, I6.
        exists (filter (fun a => mem (ev a) S0) (filter keep c) ++ out), (S0 ++ sel). split; [reflexivity|].
        split; [|split; [|split; [|split]]].
        * rewrite filter_app, filter_filter'. f_equal.
          -- apply filter_ext_in. intros a Ha. destruct (keep a) eqn:Ek; auto. simpl.
             apply eq_true_iff_eq. rewrite !mem_in. rewrite in_app_iff. split; auto. intros [|H]; auto.
             exfalso. assert (ev a < ev a); [|lia]. apply Hlt; auto; eauto.
          -- rewrite I2. apply filter_ext_in. intros a Ha. destruct (keep a) eqn:Ek; auto. simpl.
             apply eq_true_iff_eq. rewrite !mem_in. rewrite in_app_iff. split; auto. intros [H|]; auto.
             exfalso. assert (ev a < ev a); [|lia]. apply Hlt; auto; [|eauto]. apply HUin. auto.
        * apply NoDup_app_intro; auto. intros v H1 H2. assert (v < v); [|lia]. apply Hlt; auto. apply HUin. auto.
        * intros v Hv. apply in_app_or in Hv. destruct Hv as [Hv|Hv].
          -- apply C2, HUin in Hv. destruct Hv as (a & Ha & Hv). exists a. split; auto. apply in_or_app; auto.
          -- destruct (I4 v Hv) as (a & Ha & Hk'). exists a. split; auto. apply in_or_app; auto.
        * rewrite app_length. lia.
        * intros pre c' n' E En. rewrite app_length. destruct pre as [|y pre].
          -- injection E as <- <- ->. simpl in I4. destruct sel as [|v sel]; [|destruct (I4 v (or_introl eq_refl)) as (a & [] & _)].
             specialize (HwT (eq_sym En)). simpl.
             destruct (Z_le_gt_dec (Z.of_nat (length U)) (max - s_stored s)) as [L|L]; [right|left; lia].
             intros a Ha Hka. rewrite app_nil_r. apply (NoDup_length_incl (l' := U) C1); [lia|exact C2|apply HUin; eauto].
          -- injection E as _ ->. destruct (I6 pre c' n' eq_refl En) as [I|I]; [left; lia|right].
             intros a Ha Hka. apply in_or_app. auto.
  Qed.

  (** *** Specification: the selected events are complete, the others are left out *)
  Definition chosen (keep : A -> bool) (sel : list Z) (table out : list A) : Prop :=
    selects (fun a => keep a = true /\ In (ev a) sel) table out.

  (** C20/C21: whatever the table, the chunk size, the mask, the rounding and the random choice: with
      row counts that are numpy integers the selection never fails.  There is a list of at most
      max_events different events, all of them events of tracks that pass the mask, and exactly the
      tracks of these events that pass the mask are stored, in the order of the table.  If fewer than
      max_events events are selected, all events at the end of the table are among them. *)
  Theorem C20_max_events : forall skip falsy max keep table cs,
    StronglySorted (fun a b => ev a <= ev b) table -> (1 <= cs)%nat ->
    (forall v, (event_rows ev v table < cs)%nat) ->
    0 <= max -> (falsy = true -> max <> 0) ->
    exists out sel, select_events ev round choice true falsy skip max keep table cs = (inl out, GenDone) /\
      NoDup sel /\ Z.of_nat (length sel) <= max /\
      (forall v, In v sel -> exists a, In a table /\ keep a = true /\ ev a = v) /\
      chosen keep sel table out /\
      exists front end_, table = front ++ end_ /\ (table <> [] -> end_ <> []) /\
        (Z.of_nat (length sel) = max \/ forall a, In a end_ -> keep a = true -> In (ev a) sel).
  Proof.
    intros skip falsy max keep table cs Hs Hcs Hrows Hm Hf.
    pose proof (whole_table_chunks ev table cs Hs Hcs) as H.
    pose proof (C07_whole_table ev table cs Hs Hcs) as Hw.
    unfold select_events. change (Params None None None None cs false true true) with (default_call cs).
    destruct (data_aligned_at_events ev table (default_call cs)) as [ys e].
    destruct Hw as (Hw & _). specialize (Hw Hrows). subst e.
    destruct H as (tail & H1 & H2 & H3 & H4 & H5). rewrite (H2 eq_refl), app_nil_r in H1. rewrite (H2 eq_refl) in H3.
    assert (Eb : falsy && (max =? 0) = false).
    { destruct falsy; auto. simpl. apply Z.eqb_neq. auto. }
    rewrite Eb.
    destruct (select_loop_spec skip max (Z.of_nat (length table)) keep Hm ys 0 [] (SState 0 None))
      as (out & sel & I1 & I2 & I3 & I4 & I5 & I6); auto.
    { rewrite Forall_forall in *. intros y Hy. apply (H4 y Hy). }
    { rewrite <- H1. auto. }
    { rewrite <- H1. lia. }
    { simpl. lia. }
    { simpl. congruence. }
    rewrite I1. exists out, sel. split; [reflexivity|]. split; [auto|]. simpl in I5, I6. split; [auto|].
    rewrite <- H1 in I2, I4. split; [auto|]. split.
    - unfold chosen. rewrite I2. apply (selects_filter ev). intros a _. rewrite andb_true_iff, mem_in. tauto.
    - destruct ys as [|y0 r0] eqn:Ey.
      + exists [], []. simpl in H1. subst table. split; auto. split; [congruence|]. right. intros a [].
      + assert (Hne : ys <> []) by congruence. rewrite <- Ey in *. clear Ey.
        destruct (exists_last Hne) as (pre & [c n] & Epre).
        exists (concat (map fst pre)), c. split; [|split].
        * rewrite H1, Epre, map_app, concat_app. simpl. rewrite app_nil_r. auto.
        * intros _. rewrite Forall_forall in H4. apply (H4 (c, n)). rewrite Epre. apply in_or_app. right. left. auto.
        * apply (I6 pre c n Epre).
          rewrite (indices_split 0 ys H5 pre c n [] Epre). f_equal. rewrite H1, Epre, map_app, concat_app, !app_length. simpl. rewrite app_nil_r. auto.
  Qed.

  (** C20: if the table is read in one chunk, exactly min(max_events, number of events) events are
      selected. *)
  Theorem C20_single_chunk : forall skip falsy max keep table cs,
    StronglySorted (fun a b => ev a <= ev b) table -> (length table <= cs)%nat -> table <> [] ->
    0 <= max -> (falsy = true -> max <> 0) ->
    exists out sel, select_events ev round choice true falsy skip max keep table cs = (inl out, GenDone) /\
      NoDup sel /\ chosen keep sel table out /\
      (forall v, In v sel -> exists a, In a table /\ keep a = true /\ ev a = v) /\
      Z.of_nat (length sel) <= max /\
      (Z.of_nat (length sel) = max \/ forall a, In a table -> keep a = true -> In (ev a) sel).
  Proof.
    intros skip falsy max keep table cs Hs Hcs Hne Hm Hf.
    unfold select_events. change (Params None None None None cs false true true) with (default_call cs).
    rewrite (single_chunk ev table cs Hne Hcs).
    assert (Eb : falsy && (max =? 0) = false).
    { destruct falsy; auto. simpl. apply Z.eqb_neq. auto. }
    rewrite Eb.
    destruct (select_loop_spec skip max (Z.of_nat (length table)) keep Hm [(table, length table)] 0 [] (SState 0 None))
      as (out & sel & I1 & I2 & I3 & I4 & I5 & I6).
    { simpl. auto. } { constructor; auto. } { simpl. split; auto. intros a b _ []. }
    { simpl. rewrite app_nil_r. auto. } { simpl. rewrite app_nil_r. lia. } { simpl. lia. } { simpl. congruence. }
    cbn [map fst concat] in I2, I4. rewrite app_nil_r in I2, I4.
    rewrite I1. exists out, sel. split; [reflexivity|]. split; [auto|]. split.
    - unfold chosen. rewrite I2. apply (selects_filter ev). intros a _. rewrite andb_true_iff, mem_in. tauto.
    - split; auto. simpl in I5, I6. split; auto. apply (I6 [] table (length table)); auto.
  Qed.

  (** C20: without a limit all tracks that pass the mask are kept. *)
  Theorem C20_no_limit : forall skip keep table cs,
    StronglySorted (fun a b => ev a <= ev b) table -> (1 <= cs)%nat ->
    (forall v, (event_rows ev v table < cs)%nat) ->
    exists out, select_events ev round choice true true skip 0 keep table cs = (inl out, GenDone) /\
      selects (fun a => keep a = true) table out.
  Proof.
    intros skip keep table cs Hs Hcs Hrows.
    pose proof (C07_whole_table ev table cs Hs Hcs) as Hw.
    unfold select_events. change (Params None None None None cs false true true) with (default_call cs).
    destruct (data_aligned_at_events ev table (default_call cs)) as [ys e].
    destruct Hw as (Hw & Hw2 & _). specialize (Hw Hrows). subst e. destruct (Hw2 eq_refl) as [Hw3 _].
    cbn [andb]. rewrite Z.eqb_refl. eexists. split; [reflexivity|].
    replace (concat (map (fun y => filter keep (fst y)) ys)) with (filter keep table).
    - apply (selects_filter ev). intros; tauto.
    - rewrite <- Hw3. clear. induction ys as [|y r IH]; simpl; auto. rewrite filter_app, IH. auto.
  Qed.
End Events.

(** *** Concrete rounding and choice *)
(** Python's round: half to even *)
Definition py_round (q : Q) : Z :=
  let f := Qnum q / Zpos (Qden q) in
  let r := 2 * (Qnum q mod Zpos (Qden q)) in
  if r <? Zpos (Qden q) then f else if Zpos (Qden q) <? r then f + 1
  else if Z.even f then f else f + 1.

Lemma py_round_ok : rounds py_round.
Proof.
  intros [n d] H. unfold py_round. simpl. unfold Qle in H. simpl in H.
  assert (0 <= n / Zpos d) by (apply Z.div_pos; lia).
  destruct (_ <? _); auto. destruct (_ <? _); [lia|]. destruct (Z.even _); lia.
Qed.
Lemma firstn_chooses : chooses (fun l n => firstn n l).
Proof.
  intros l n Hl Hn. split; [|split].
  - rewrite <- (firstn_skipn n l) in Hl. revert Hl. generalize (firstn n l) (skipn n l). clear.
    induction l as [|x l IH]; intros l2 H; [constructor|]. simpl in H. inversion H; subst. constructor.
    + intros Hin. apply H2. apply in_or_app. auto.
    + eapply IH; eauto.
  - intros x Hx. apply (firstn_In x n l Hx).
  - rewrite firstn_length. lia.
Qed.

Definition ev_only (z : Z) : Z := z.
(* an event with n rows *)
Definition rows_of (e : Z) (n : nat) : list Z := repeat e n.

Lemma small_events table cs : (0 < cs)%nat -> forallb (fun v => (event_rows ev_only v table <? cs)%nat) table = true ->
  forall v, (event_rows ev_only v table < cs)%nat.
Proof.
  intros Hc H v. rewrite forallb_forall in H. destruct (in_dec Z.eq_dec v table) as [Hv|Hv].
  - apply Nat.ltb_lt. auto.
  - unfold event_rows. rewrite filter_none; [auto|]. intros a Ha. apply Z.eqb_neq. intros E. apply Hv. rewrite <- E. auto.
Qed.

(** Non-vacuity: three chunks, 4 of 10 events are selected, the last chunk fills up. *)
Example C20_example :
  select_events ev_only py_round (fun l n => firstn n l) true true false 4 (fun z => negb (z =? 2))
    [0; 0; 1; 2; 3; 4; 4; 5; 6; 7; 8; 9] 5 = (inl [0; 0; 3; 6; 7], GenDone).
Proof. vm_compute. reflexivity. Qed.

(** More requested events than there are does not mean that all events are kept: the number taken from
    a chunk is proportional to its rows, not to its events. *)
Theorem C20_keeps_all_refuted :
  exists (table : list Z) cs max out,
    StronglySorted Z.le table /\ (forall v, (event_rows ev_only v table < cs)%nat) /\
    length (nodup Z.eq_dec table) = Z.to_nat max /\
    select_events ev_only py_round (fun l n => firstn n l) true true false max (fun _ => true) table cs = (inl out, GenDone) /\
    length (nodup Z.eq_dec out) = 7%nat /\ max = 11.
Proof.
  exists ([0; 1; 2; 3; 4; 5; 6; 7; 8; 9] ++ rows_of 10 10), 11%nat, 11. eexists.
  split; [|split; [|split; [|split; [vm_compute; reflexivity|split; [vm_compute; reflexivity|reflexivity]]]]].
  - unfold rows_of. cbn [app repeat].
    repeat (apply SSorted_cons; [|repeat (apply Forall_cons; [lia|]); apply Forall_nil]). apply SSorted_nil.
  - apply small_events; [lia|vm_compute; reflexivity].
  - vm_compute. reflexivity.
Qed.

(** C21: with Python integers as row counts the formula would divide by zero once all requested events
    are taken before the last chunk. *)
Theorem C21_python_integers_refuted :
  exists (table : list Z) cs max,
    StronglySorted Z.le table /\ (forall v, (event_rows ev_only v table < cs)%nat) /\ 1 <= max /\
    select_events ev_only py_round (fun l n => firstn n l) false true false max (fun _ => true) table cs = (inr SelZeroDivision, GenDone).
Proof.
  exists [0; 1; 2; 3; 4; 5; 6; 7; 8; 9; 10], 4%nat, 2.
  split; [|split; [|split; [lia|vm_compute; reflexivity]]].
  - repeat (apply SSorted_cons; [|repeat (apply Forall_cons; [lia|]); apply Forall_nil]). apply SSorted_nil.
  - apply small_events; [lia|vm_compute; reflexivity].
Qed.

(** *** C22: flags *)
Lemma mask_fold duts : forall m n, 0 <= n ->
  Z.testbit (fold_left (fun m d => Z.lor m (Z.shiftl 1 (Z.of_nat d))) duts m) n = true <->
  Z.testbit m n = true \/ In (Z.to_nat n) duts.
Proof.
  induction duts as [|d r IH]; intros m n Hn; simpl; [tauto|]. rewrite IH by auto.
  rewrite Z.lor_spec, orb_true_iff.
  assert (E : Z.testbit (Z.shiftl 1 (Z.of_nat d)) n = true <-> d = Z.to_nat n).
  { rewrite Z.shiftl_1_l, Z.pow2_bits_eqb by lia. rewrite Z.eqb_eq. lia. }
  rewrite E. tauto.
Qed.
Lemma mask_bits duts n : 0 <= n -> (Z.testbit (mask_of duts) n = true <-> In (Z.to_nat n) duts).
Proof. intros Hn. unfold mask_of. rewrite mask_fold by auto. rewrite Z.testbit_0_l. intuition discriminate. Qed.

Lemma land_eq_iff x m : Z.land x m = m <-> (forall n, 0 <= n -> Z.testbit m n = true -> Z.testbit x n = true).
Proof.
  split.
  - intros E n Hn Hm. rewrite <- E in Hm. rewrite Z.land_spec in Hm. apply andb_true_iff in Hm. tauto.
  - intros H. apply Z.bits_inj'. intros n Hn. rewrite Z.land_spec. destruct (Z.testbit m n) eqn:E.
    + rewrite (H n Hn E). auto.
    + apply andb_false_r.
Qed.

Lemma lnot32_bits x n : 0 <= x < 2 ^ 32 -> 0 <= n < 32 -> Z.testbit (lnot32 x) n = negb (Z.testbit x n).
Proof.
  intros Hx Hn. unfold lnot32.
  replace (2 ^ 32 - 1 - x) with (Z.lxor x (Z.ones 32)).
  - rewrite Z.lxor_spec, Z.ones_spec_low by lia. destruct (Z.testbit x n); auto.
  - assert (E : Z.land x (Z.lnot (Z.ones 32)) = 0 ).
    { apply Z.bits_inj'. intros k Hk. rewrite Z.land_spec, Z.lnot_spec, Z.testbit_0_l by auto.
      destruct (Z_lt_le_dec k 32); [rewrite Z.ones_spec_low by lia; apply andb_false_r|].
      rewrite Z.ones_spec_high by lia.
      destruct (Z.testbit x k) eqn:Ek; auto.
      assert (Z.testbit x k = false); [|congruence].
      destruct (Z.eq_dec x 0) as [->|]; [apply Z.testbit_0_l|].
      apply Z.bits_above_log2; [lia|]. assert (Z.log2 x < 32) by (apply Z.log2_lt_pow2; lia). lia. }
    rewrite <- Z.ldiff_land in E.
    assert (S : Z.ones 32 - x = Z.ldiff (Z.ones 32) x) by (apply Z.sub_nocarry_ldiff; auto).
    change (2 ^ 32 - 1) with (Z.ones 32). rewrite S. apply Z.bits_inj'. intros k Hk.
    rewrite Z.lxor_spec, Z.ldiff_spec.
    assert (Ek : Z.testbit x k && negb (Z.testbit (Z.ones 32) k) = false)
      by (rewrite <- Z.ldiff_spec, E; apply Z.testbit_0_l).
    destruct (Z.testbit x k); destruct (Z.testbit (Z.ones 32) k); auto; discriminate.
Qed.

(** *** Specification of the selection: bit d of a flag word belongs to DUT d *)
Definition bit (word : Z) (dut : nat) : Prop := Z.testbit word (Z.of_nat dut) = true.
Definition requested (q : selection) (t : track_flags) : Prop :=
  (forall d, In d (q_hit q) -> bit (t_hit t) d) /\
  (forall d, In d (q_no_hit q) -> ~ bit (t_hit t) d) /\
  (forall d, In d (q_quality q) -> bit (t_hit t) d -> bit (t_quality t) d) /\
  (forall d, In d (q_iso_track q) -> bit (t_iso_track t) d) /\
  (forall d, In d (q_iso_hit q) -> bit (t_hit t) d -> bit (t_iso_hit t) d).
Definition uint32 (x : Z) : Prop := 0 <= x < 2 ^ 32.

Lemma mask_zero duts : mask_of duts = 0 <-> duts = [].
Proof.
  split; [|intros ->; reflexivity]. intros H. destruct duts as [|d r]; auto. exfalso.
  assert (T : Z.testbit (mask_of (d :: r)) (Z.of_nat d) = true).
  { apply mask_bits; [lia|]. rewrite Nat2Z.id. left. auto. }
  rewrite H, Z.testbit_0_l in T. discriminate.
Qed.

Lemma sub_mask x duts : Z.land x (mask_of duts) = mask_of duts <-> (forall d, In d duts -> bit x d).
Proof.
  rewrite land_eq_iff. split.
  - intros H d Hd. apply H; [lia|]. apply mask_bits; [lia|]. rewrite Nat2Z.id. auto.
  - intros H n Hn Hm. apply mask_bits in Hm; auto. specialize (H _ Hm). unfold bit in H. rewrite Z2Nat.id in H; auto.
Qed.
Lemma sub_mask_mod x h duts : Z.land x (Z.land (mask_of duts) h) = Z.land (mask_of duts) h <-> (forall d, In d duts -> bit h d -> bit x d).
Proof.
  rewrite land_eq_iff. split.
  - intros H d Hd Hb. apply H; [lia|]. rewrite Z.land_spec, Hb, andb_true_r. apply mask_bits; [lia|]. rewrite Nat2Z.id. auto.
  - intros H n Hn Hm. rewrite Z.land_spec in Hm. apply andb_true_iff in Hm. destruct Hm as [H1 H2].
    apply mask_bits in H1; auto. specialize (H _ H1). unfold bit in H. rewrite Z2Nat.id in H; auto.
Qed.

Lemma or_zero (m : list nat) (b : bool) (P : Prop) : (b = true <-> P) -> (m = [] -> P) -> ((mask_of m =? 0) || b = true <-> P).
Proof.
  intros H1 H2. destruct (Z.eqb_spec (mask_of m) 0) as [E|N]; simpl; auto. apply mask_zero in E. tauto.
Qed.

Lemma pass_iff q t : uint32 (t_hit t) -> (forall d, In d (q_no_hit q) -> (d < 32)%nat) ->
  (pass q t = true <-> requested q t).
Proof.
  intros Ht Hd. unfold requested.
  assert (P1 : (mask_of (q_hit q) =? 0) || (Z.land (t_hit t) (mask_of (q_hit q)) =? mask_of (q_hit q)) = true
    <-> forall d, In d (q_hit q) -> bit (t_hit t) d).
  { apply or_zero; [rewrite Z.eqb_eq; apply sub_mask|intros -> d []]. }
  assert (P2 : (mask_of (q_no_hit q) =? 0) || (Z.land (lnot32 (t_hit t)) (mask_of (q_no_hit q)) =? mask_of (q_no_hit q)) = true
    <-> forall d, In d (q_no_hit q) -> ~ bit (t_hit t) d).
  { apply or_zero; [rewrite Z.eqb_eq, sub_mask|intros -> d []]. split; intros H d Hin; specialize (H d Hin); specialize (Hd d Hin); unfold bit in *.
    - rewrite lnot32_bits in H by (auto; lia). destruct (Z.testbit (t_hit t) (Z.of_nat d)); [discriminate|auto].
    - rewrite lnot32_bits by (auto; lia). apply negb_true_iff. apply not_true_is_false. auto. }
  assert (P3 : pass_quality q t = true <-> forall d, In d (q_quality q) -> bit (t_hit t) d -> bit (t_quality t) d).
  { apply or_zero; [rewrite Z.eqb_eq; apply sub_mask_mod|intros -> d []]. }
  assert (P4 : pass_iso_track q t = true <-> forall d, In d (q_iso_track q) -> bit (t_iso_track t) d).
  { apply or_zero; [rewrite Z.eqb_eq; apply sub_mask|intros -> d []]. }
  assert (P5 : pass_iso_hit q t = true <-> forall d, In d (q_iso_hit q) -> bit (t_hit t) d -> bit (t_iso_hit t) d).
  { apply or_zero; [rewrite Z.eqb_eq; apply sub_mask_mod|intros -> d []]. }
  unfold pass. destruct (any_mask q) eqn:Ea.
  - rewrite !andb_true_iff. unfold pass_hit. rewrite andb_true_iff, P1, P2, P3, P4, P5. tauto.
  - unfold any_mask in Ea. rewrite !orb_false_iff, !negb_false_iff, !Z.eqb_eq, !mask_zero in Ea.
    destruct Ea as ((((-> & ->) & ->) & ->) & ->). split; auto. intros _. simpl. tauto.
Qed.

(** C22: exactly the tracks with the requested flags that match the query are kept, in order. *)
Theorem C22_select_tracks : forall A (flags : A -> track_flags) q query tracks,
  (forall a, In a tracks -> uint32 (t_hit (flags a))) -> (forall d, In d (q_no_hit q) -> (d < 32)%nat) ->
  selects (fun a => requested q (flags a) /\ query a = true) tracks (fst (select_tracks flags q query tracks)).
Proof.
  intros A flags q query tracks H Hd. simpl.
  replace (filter query (filter (fun a => pass q (flags a)) tracks)) with (filter (fun a => pass q (flags a) && query a) tracks).
  - apply (selects_filter (fun _ => 0)). intros a Ha. rewrite andb_true_iff, pass_iff; auto. tauto.
  - clear. induction tracks as [|a r IH]; simpl; auto. destruct (pass q (flags a)); simpl; rewrite IH; auto.
Qed.

(** C22: the call returns normally if some mask is used and some track has the requested flags... *)
Theorem C22_summary : forall A (flags : A -> track_flags) q query tracks,
  (forall a, In a tracks -> uint32 (t_hit (flags a))) -> (forall d, In d (q_no_hit q) -> (d < 32)%nat) ->
  q_hit q ++ q_no_hit q ++ q_quality q ++ q_iso_track q ++ q_iso_hit q <> [] ->
  (exists a, In a tracks /\ requested q (flags a)) ->
  snd (select_tracks flags q query tracks) = true.
Proof.
  intros A flags q query tracks H Hd Hq (a & Ha & Hr).
  assert (Ea : any_mask q = true).
  { unfold any_mask. apply not_false_is_true. rewrite !orb_false_iff, !negb_false_iff, !Z.eqb_eq, !mask_zero.
    intros ((((E1 & E2) & E3) & E4) & E5). rewrite E1, E2, E3, E4, E5 in Hq. apply Hq. reflexivity. }
  assert (Hp : pass q (flags a) = true) by (apply pass_iff; auto).
  assert (Hall : pass_hit q (flags a) && pass_quality q (flags a) && pass_iso_track q (flags a) && pass_iso_hit q (flags a) = true).
  { unfold pass in Hp. rewrite Ea in Hp. auto. }
  rewrite !andb_true_iff in Hall. destruct Hall as (((Q1 & Q2) & Q3) & Q4).
  assert (N : forall p : A -> bool, p a = true -> length (filter p tracks) <> 0%nat).
  { intros p Hpa E. apply length_zero_iff_nil in E. assert (In a (filter p tracks)) by (apply filter_In; auto). rewrite E in H0. contradiction. }
  cbn [select_tracks snd]. rewrite Ea. rewrite !andb_true_iff, !negb_true_iff, !Nat.eqb_neq.
  repeat split; apply N; rewrite ?Q1, ?Q2, ?Q3, ?Q4; auto.
Qed.
(** C22: the only calls which return normally: some mask is used and some track has the requested flags. *)
Theorem C22_summary_converse : forall A (flags : A -> track_flags) q query tracks,
  (forall a, In a tracks -> uint32 (t_hit (flags a))) -> (forall d, In d (q_no_hit q) -> (d < 32)%nat) ->
  snd (select_tracks flags q query tracks) = true ->
  q_hit q ++ q_no_hit q ++ q_quality q ++ q_iso_track q ++ q_iso_hit q <> [] /\ exists a, In a tracks /\ requested q (flags a).
Proof.
  intros A flags q query tracks H Hd E. cbn [select_tracks snd] in E. rewrite !andb_true_iff in E. destruct E as [_ E]. rewrite negb_true_iff, Nat.eqb_neq in E.
  destruct (any_mask q) eqn:Ea; [|congruence]. split.
  - intros Z. apply app_eq_nil in Z. destruct Z as [E1 Z]. apply app_eq_nil in Z. destruct Z as [E2 Z]. apply app_eq_nil in Z. destruct Z as [E3 Z]. apply app_eq_nil in Z. destruct Z as [E4 E5].
    unfold any_mask in Ea. rewrite E1, E2, E3, E4, E5 in Ea. discriminate Ea.
  - destruct (filter (fun a => pass q (flags a)) tracks) as [|a r] eqn:F; [destruct E; reflexivity|]. exists a.
    assert (I : In a (filter (fun a => pass q (flags a)) tracks)) by (rewrite F; left; reflexivity). apply filter_In in I. destruct I as [I P]. split; [exact I|]. apply pass_iff in P; auto.
Qed.
(** ... but the summary raises ZeroDivisionError after the first DUT if only a query is given. *)
Theorem C22_query_only_refuted :
  exists (tracks : list track_flags) q query,
    fst (select_tracks id q query tracks) = tracks /\ tracks <> [] /\ snd (select_tracks id q query tracks) = false.
Proof.
  exists [TrackFlags 7 7 7 7], (Selection [] [] [] [] []), (fun _ => true). vm_compute. split; [auto|]. split; [discriminate|auto].
Qed.

(** Non-vacuity: DUT 0 and 2 must have a hit, DUT 1 none, quality and isolation for DUTs 0 and 3. *)
Example C22_example :
  select_tracks id (Selection [0; 2]%nat [1]%nat [0; 3]%nat [0]%nat [3]%nat) (fun _ => true)
    [TrackFlags 5 1 1 0; TrackFlags 7 1 1 0; TrackFlags 13 1 1 8; TrackFlags 13 9 1 8; TrackFlags 5 1 2 0]
  = ([TrackFlags 5 1 1 0; TrackFlags 13 9 1 8], true).
Proof. vm_compute. reflexivity. Qed.

Print Assumptions C20_max_events.
Print Assumptions C20_single_chunk.
Print Assumptions C20_no_limit.
Print Assumptions C20_keeps_all_refuted.
Print Assumptions C21_python_integers_refuted.
Print Assumptions C22_select_tracks.
Print Assumptions C22_summary.
Print Assumptions C22_summary_converse.
Print Assumptions C22_query_only_refuted.
