(** C13: merging the clusters of all DUTs on the event number. *)
From Coq Require Import ZArith List Bool Lia Sorting.Sorted Arith.
From Verif Require Import EventArraysModel EventArraysProofs EventArraysProps ChunksModel ChunksProofs ChunksProps
  MergeModel MergeProofs.
Import ListNotations.
Local Open Scope Z_scope.

Section Props.
  Context {C : Type} (ev : C -> Z).

  (** *** Specification *)
  (** the rows of event e; the entries of DUT d in a list of rows *)
  Definition event_block (e : Z) (rows : list (row C)) : list (row C) := filter (fun r => row_event r =? e) rows.
  Definition entries (d : nat) (rows : list (row C)) : list (option C) :=
    map (fun r => nth d (row_clusters r) None) rows.

  (** [n] is the largest number of clusters a DUT has in event e *)
  Definition largest_count (e : Z) (tables : list (list C)) (n : nat) : Prop :=
    (forall l, In l tables -> (length (of_event ev e l) <= n)%nat) /\
    (n = 0%nat \/ exists l, In l tables /\ length (of_event ev e l) = n).

  Definition good_input (cs : nat) (tables : list (list C)) : Prop :=
    forall l, In l tables -> ascending_by ev l /\ forall e, (length (of_event ev e l) < cs)%nat.

  (** the merged table: events in order; no event behind the last event of DUT0; an event has as many
      rows as the DUT with most clusters in it; the clusters of a DUT fill the first rows of the event
      in their order; the bits of the hit flag tell which DUT has a cluster *)
  Definition merged (table0 : list C) (tables : list (list C)) (rows : list (row C)) : Prop :=
    ascending (map row_event rows) /\
    (forall r, In r rows -> (exists a, In a table0 /\ row_event r <= ev a) /\
        length (row_clusters r) = length (table0 :: tables)) /\
    (forall r d, In r rows -> (d < 32)%nat -> (d < length (table0 :: tables))%nat ->
        (Z.testbit (row_flag r) (Z.of_nat d) = true <-> nth d (row_clusters r) None <> None)) /\
    forall e, (exists a, In a table0 /\ e <= ev a) ->
      exists n, largest_count e (table0 :: tables) n /\
      forall d l, nth_error (table0 :: tables) d = Some l ->
        entries d (event_block e rows) =
        map Some (of_event ev e l) ++ repeat None (n - length (of_event ev e l)).

  Lemma largest_maxcount e tables : largest_count e tables (maxcount ev e 0 tables).
  Proof.
    split.
    - intros l Hl. exact (proj2 (maxcount_ge ev 1 (le_n 1) e 0 tables) l Hl).
    - unfold maxcount. induction tables as [|l tables IH]; simpl; auto. right.
      destruct (Nat.max_spec (length (filter (fun c => ev c =? e) l)) (fold_right (fun l m => Nat.max (length (filter (fun c => ev c =? e) l)) m) 0%nat tables)) as [[H ->]|[H ->]].
      + destruct IH as [E|(l' & H1 & H2)]; [lia|eauto].
      + exists l. auto.
  Qed.

  Lemma flag_shift d (l : list (option C)) : 0 <= d -> flag_from d l = Z.shiftl (flag_from 0 l) d.
  Proof.
    assert (G : forall l d k, 0 <= d -> 0 <= k -> flag_from (d + k) l = Z.shiftl (@flag_from C d l) k).
    { clear. induction l as [|c l IH]; intros d k Hd Hk; simpl; [rewrite Z.shiftl_0_l; auto|].
      replace (d + k + 1) with (d + 1 + k) by lia. rewrite IH by lia.
      rewrite !Z.shiftl_mul_pow2 by lia. rewrite Z.mul_add_distr_r. f_equal.
      destruct c; [|lia]. rewrite !Z.mul_1_l, Z.pow_add_r by lia. auto. }
    intros H. rewrite <- (G l 0 d) by lia. auto.
  Qed.
  Lemma flag_bit (l : list (option C)) : forall k, 0 <= k ->
    Z.testbit (flag_from 0 l) k = match nth (Z.to_nat k) l None with Some _ => true | None => false end.
  Proof.
    induction l as [|c l IH]; intros k Hk.
    - simpl. rewrite Z.bits_0. destruct (Z.to_nat k); auto.
    - cbn [flag_from]. change (0 + 1) with 1. rewrite flag_shift by lia.
      assert (E : (match c with Some _ => Z.shiftl 1 0 | None => 0 end) + Z.shiftl (flag_from 0 l) 1 =
                  (if match c with Some _ => true | None => false end then 1 else 0) + 2 * flag_from 0 l).
      { rewrite (Z.shiftl_mul_pow2 (flag_from 0 l) 1) by lia. change (2 ^ 1) with 2. rewrite (Z.mul_comm _ 2). destruct c; reflexivity. }
      rewrite E. destruct (Z.eq_dec k 0) as [->|Hn].
      + change (Z.to_nat 0) with 0%nat. simpl nth. rewrite Z.add_comm.
        destruct c; [apply Z.testbit_odd_0|rewrite Z.add_0_r; apply Z.testbit_even_0].
      + replace k with (Z.succ (k - 1)) at 1 by lia. rewrite Z.add_comm.
        assert (Hs : Z.testbit (2 * flag_from 0 l + (if match c with Some _ => true | None => false end then 1 else 0)) (Z.succ (k - 1)) = Z.testbit (flag_from 0 l) (k - 1)).
        { destruct c; [apply Z.testbit_odd_succ|rewrite Z.add_0_r; apply Z.testbit_even_succ]; lia. }
        rewrite Hs, IH by lia. replace (Z.to_nat k) with (S (Z.to_nat (k - 1))) by lia. reflexivity.
  Qed.

  (** C13 *)
  Theorem C13_merge_cluster_data : forall cs table0 tables,
    (1 <= cs)%nat -> good_input cs (table0 :: tables) ->
    exists rows, merge_cluster_data ev cs table0 tables = Ok rows /\ merged table0 tables rows.
  Proof.
    intros cs table0 tables Hcs Hgood. unfold merge_cluster_data.
    destruct (Hgood table0 (or_introl eq_refl)) as [S0 B0].
    set (p := Params None None None None cs false true true).
    assert (V : valid_call table0 p).
    { unfold valid_call, start_of, stop_of, p. simpl. repeat split; try lia. discriminate. }
    pose proof (C07_aligned_chunks ev table0 p S0 V) as H.
    destruct (data_aligned_at_events ev table0 p) as [ys e].
    assert (T : rows_between table0 (start_of p) (stop_of table0 p) = table0).
    { unfold rows_between, start_of, stop_of, p. simpl. rewrite Nat.sub_0_r. apply firstn_all. }
    rewrite T in H. destruct H as (rest & Sel & Hd & He & Hch & Hsep).
    assert (e = GenDone) as ->.
    { destruct He as [|[_ [[X _]|(v & X)]]]; auto.
      - exfalso. apply X. reflexivity.
      - exfalso. specialize (B0 v). unfold event_rows in X. unfold of_event in B0. simpl in X. lia. }
    rewrite (Hd eq_refl), ?app_nil_r in *.
    assert (E : concat (map fst ys) = table0).
    { eapply (selects_fun ev); [exact Sel|]. apply selects_all. intros a _.
      unfold is_requested, start_of, stop_of, p. simpl. repeat split; intros; try discriminate; try congruence. }
    destruct (merge_chunks_spec ev cs Hcs tables) with (chunks := map fst ys) (lo := @None Z)
      (s := mk_mstate (repeat None (length tables)) (repeat None (length tables)) None)
      as (rows & -> & R1 & R2 & R3).
    - apply Forall_forall. intros l Hl. destruct (Hgood l (or_intror Hl)). split; auto.
    - assert (P : positions ev None tables (repeat None (length tables))).
      { clear. induction tables; simpl; constructor; auto. }
      split; [reflexivity|]. split; exact P.
    - rewrite E. exact S0.
    - apply separated_split. intros pre c post Ep a b Ha Hb. apply (Hsep pre c post Ep); auto.
    - apply Forall_forall. intros c Hc. apply in_map_iff in Hc. destruct Hc as ([c0 n] & <- & Hc).
      apply (Hch c0 n Hc).
    - auto.
    - exists rows. split; [reflexivity|]. rewrite E in *. split; [exact R1|]. split; [|split].
      + intros r Hr. destruct (R2 r Hr) as (_ & X & Y & _). auto.
      + intros r d Hr H32 Hn. destruct (R2 r Hr) as (_ & _ & Y & ->). unfold hit_flag.
        rewrite Z.mod_pow2_bits_low by lia. rewrite flag_bit by lia. rewrite Nat2Z.id.
        destruct (nth d (row_clusters r) None); split; congruence.
      + intros e Hex. destruct (R3 e eq_refl Hex) as [_ Q].
        exists (maxcount ev e 0 (table0 :: tables)). split; [apply largest_maxcount|]. exact Q.
  Qed.

  (** Two lists sorted by event are equal if they have the same rows in each event. *)
  Lemma sorted_ext {T} (f : T -> Z) (l1 l2 : list T) : ascending_by f l1 -> ascending_by f l2 ->
    (forall e, of_event f e l1 = of_event f e l2) -> l1 = l2.
  Proof.
    revert l2. induction l1 as [|x l1 IH]; intros l2 S1 S2 H.
    - destruct l2 as [|y l2]; auto. specialize (H (f y)). unfold of_event in H. simpl in H. rewrite Z.eqb_refl in H. discriminate.
    - apply sorted_by_inv in S1. destruct S1 as [S1 H1]. destruct l2 as [|y l2].
      { specialize (H (f x)). unfold of_event in H. simpl in H. rewrite Z.eqb_refl in H. discriminate. }
      apply sorted_by_inv in S2. destruct S2 as [S2 H2].
      assert (Ex : In x (y :: l2)).
      { assert (In x (of_event f (f x) (y :: l2))); [|apply filter_In in H0; tauto].
        rewrite <- H. unfold of_event. simpl. rewrite Z.eqb_refl. left; auto. }
      assert (Ey : In y (x :: l1)).
      { assert (In y (of_event f (f y) (x :: l1))); [|apply filter_In in H0; tauto].
        rewrite H. unfold of_event. simpl. rewrite Z.eqb_refl. left; auto. }
      assert (f x = f y).
      { assert (f x <= f y) by (destruct Ey as [->|Ey]; [lia|auto]).
        assert (f y <= f x) by (destruct Ex as [->|Ex]; [lia|auto]). lia. }
      assert (x = y).
      { pose proof (H (f x)) as Q. unfold of_event in Q. simpl in Q. rewrite Z.eqb_refl, <- H0, Z.eqb_refl in Q.
        injection Q as Q _. auto. }
      subst y. f_equal. apply IH; auto. intros e. specialize (H e). unfold of_event in *. simpl in H.
      destruct (f x =? e); [injection H as H|]; auto.
  Qed.

  Fixpoint present (l : list (option C)) : list C :=
    match l with [] => [] | Some c :: r => c :: present r | None :: r => present r end.
  Lemma present_app a b : present (a ++ b) = present a ++ present b.
  Proof. induction a as [|[x|] a IH]; simpl; auto. f_equal. auto. Qed.
  Lemma present_padded l n : present (map Some l ++ repeat None n) = l.
  Proof.
    rewrite present_app. replace (present (repeat None n)) with (@nil C) by (induction n; simpl; auto).
    rewrite app_nil_r. induction l; simpl; congruence.
  Qed.

  Lemma covered_dec (table0 : list C) e : {exists a, In a table0 /\ e <= ev a} + {~ exists a, In a table0 /\ e <= ev a}.
  Proof.
    destruct (existsb (fun a => e <=? ev a) table0) eqn:X.
    - left. apply existsb_exists in X. destruct X as (a & Ha & Hl). apply Z.leb_le in Hl. eauto.
    - right. intros (a & Ha & Hl). assert (existsb (fun a => e <=? ev a) table0 = true); [|congruence].
      apply existsb_exists. exists a. split; auto. apply Z.leb_le. auto.
  Qed.

  (** C13: nothing lost, duplicated or reordered: the clusters of a DUT in the merged table are
      its clusters up to the last event of DUT0, in order, each exactly once; and every cluster is in a
      row of its own event. *)
  Theorem C13_clusters_once : forall table0 tables rows d l cov,
    merged table0 tables rows -> nth_error (table0 :: tables) d = Some l -> ascending_by ev l ->
    selects (fun c => exists a, In a table0 /\ ev c <= ev a) l cov ->
    present (entries d rows) = cov /\
    forall r c, In r rows -> nth d (row_clusters r) None = Some c -> ev c = row_event r.
  Proof.
    intros table0 tables rows d l cov (M1 & M2 & _ & M4) Hd Sl Hcov.
    assert (Hown : forall r c, In r rows -> nth d (row_clusters r) None = Some c -> ev c = row_event r).
    { intros r c Hr Hc. destruct (M2 r Hr) as [Hex _]. destruct (M4 (row_event r) Hex) as (n & _ & Q).
      specialize (Q d l Hd).
      assert (X : In (Some c) (entries d (event_block (row_event r) rows))).
      { unfold entries. apply in_map_iff. exists r. split; auto. unfold event_block. apply filter_In. split; auto. apply Z.eqb_refl. }
      rewrite Q in X. apply in_app_iff in X. destruct X as [X|X].
      - apply in_map_iff in X. destruct X as (c' & E & X). injection E as <-. unfold of_event in X. apply filter_In in X.
        apply Z.eqb_eq. tauto.
      - apply repeat_spec in X. discriminate. }
    split; [|exact Hown].
    assert (cov = filter (fun c => if covered_dec table0 (ev c) then true else false) l) as ->.
    { eapply (selects_fun ev); [exact Hcov|]. apply (selects_filter ev). intros a Ha.
      destruct (covered_dec table0 (ev a)); intuition discriminate. }
    apply (sorted_ext ev).
    - (* clusters follow the order of the rows *)
      assert (G : forall rs, ascending (map row_event rs) ->
        (forall r c, In r rs -> nth d (row_clusters r) None = Some c -> ev c = row_event r) ->
        ascending_by ev (present (entries d rs))).
      { induction rs as [|r rs IH]; intros S H; simpl; [constructor|]. simpl in S.
        apply sortedZ_inv in S. destruct S as [S Hx].
        assert (IH' : ascending_by ev (present (entries d rs))).
        { apply IH; auto. intros r' c Hr'. apply H. right; auto. }
        destruct (nth d (row_clusters r) None) as [c|] eqn:Ec; auto.
        constructor; auto. apply Forall_forall. intros c' Hc'.
        assert (X : exists r', In r' rs /\ nth d (row_clusters r') None = Some c').
        { clear - Hc'. induction rs as [|r0 rs IH]; simpl in *; [contradiction|].
          destruct (nth d (row_clusters r0) None) as [c0|] eqn:E0.
          - destruct Hc' as [->|Hc']; [eauto|]. destruct (IH Hc') as (r' & ? & ?). eauto.
          - destruct (IH Hc') as (r' & ? & ?). eauto. }
        destruct X as (r' & Hr' & Ec'). rewrite (H r c (or_introl eq_refl) Ec), (H r' c' (or_intror Hr') Ec').
        apply Hx. apply in_map. auto. }
      apply G; auto.
    - clear - Sl. induction l as [|x l IH]; simpl; [constructor|]. apply sorted_by_inv in Sl. destruct Sl as [Sl Hx].
      destruct (covered_dec table0 (ev x)); [|apply IH; auto]. constructor; [apply IH; auto|].
      apply Forall_forall. intros y Hy. apply filter_In in Hy. apply Hx. tauto.
    - intros e.
      assert (Hev : of_event ev e (present (entries d rows)) = present (entries d (event_block e rows))).
      { clear - Hown. induction rows as [|r rows IH]; simpl; auto.
        assert (IH' := IH (fun r' c Hr' => Hown r' c (or_intror Hr'))).
        specialize (Hown r). simpl in *.
        destruct (nth d (row_clusters r) None) as [c|] eqn:Ec.
        - specialize (Hown c (or_introl eq_refl) eq_refl). unfold of_event in *. simpl. rewrite Hown.
          destruct (row_event r =? e); simpl; [rewrite Ec; f_equal|]; auto.
        - destruct (row_event r =? e); simpl; [rewrite Ec|]; auto. }
      rewrite Hev. unfold of_event at 1. 
      assert (Hff : filter (fun r => ev r =? e) (filter (fun c => if covered_dec table0 (ev c) then true else false) l)
         = if covered_dec table0 e then of_event ev e l else []).
      { unfold of_event. clear. induction l as [|x l IH]; simpl; [destruct (covered_dec table0 e); auto|].
        destruct (Z.eqb_spec (ev x) e) as [Hxe|N].
        - rewrite Hxe. destruct (covered_dec table0 e); simpl; [rewrite Hxe, Z.eqb_refl; f_equal|]; auto.
        - destruct (covered_dec table0 (ev x)); simpl; auto. destruct (Z.eqb_spec (ev x) e); [congruence|auto]. }
      rewrite Hff. destruct (covered_dec table0 e) as [Hex|Hno].
      + destruct (M4 e Hex) as (n & _ & Q). rewrite (Q d l Hd). apply present_padded.
      + assert (X : event_block e rows = []).
        { unfold event_block. apply filter_none. intros r Hr. apply Z.eqb_neq. intros <-.
          apply Hno. destruct (M2 r Hr). auto. }
        rewrite X. reflexivity.
  Qed.

  (** C13: the chunk size has no influence on clusters and events of the rows. *)
  Lemma largest_unique e tables n m : largest_count e tables n -> largest_count e tables m -> n = m.
  Proof.
    intros [A1 A2] [B1 B2]. destruct A2 as [->|(l & L1 & <-)]; destruct B2 as [->|(l' & L1' & <-)]; auto.
    - specialize (A1 l' L1'). lia.
    - specialize (B1 l L1). lia.
    - specialize (A1 l' L1'). specialize (B1 l L1). lia.
  Qed.

  Theorem C13_chunk_size_independent : forall cs1 cs2 table0 tables rows1 rows2,
    (1 <= cs1)%nat -> (1 <= cs2)%nat -> good_input cs1 (table0 :: tables) -> good_input cs2 (table0 :: tables) ->
    merge_cluster_data ev cs1 table0 tables = Ok rows1 ->
    merge_cluster_data ev cs2 table0 tables = Ok rows2 ->
    map (fun r => (row_event r, row_clusters r)) rows1 = map (fun r => (row_event r, row_clusters r)) rows2.
  Proof.
    intros cs1 cs2 table0 tables rows1 rows2 H1 H2 G1 G2 E1 E2.
    destruct (C13_merge_cluster_data cs1 table0 tables H1 G1) as (r1 & E1' & M1).
    destruct (C13_merge_cluster_data cs2 table0 tables H2 G2) as (r2 & E2' & M2).
    rewrite E1 in E1'. injection E1' as <-. rewrite E2 in E2'. injection E2' as <-.
    set (k := fun r : row C => (row_event r, row_clusters r)).
    destruct M1 as (A1 & A2 & _ & A4). destruct M2 as (B1 & B2 & _ & B4).
    assert (Sk : forall rs, ascending (map row_event rs) -> ascending_by (@fst Z (list (option C))) (map k rs)).
    { clear. induction rs as [|r rs IH]; simpl; intros S; [constructor|].
      apply sortedZ_inv in S. destruct S as [S Hx]. constructor; [apply IH; auto|].
      apply Forall_forall. intros y Hy. apply in_map_iff in Hy. destruct Hy as (r' & <- & Hr). simpl. apply Hx. apply in_map. auto. }
    apply (sorted_ext fst); auto. intros e.
    assert (Hk : forall rs, of_event fst e (map k rs) = map k (event_block e rs)).
    { clear. induction rs as [|r rs IH]; simpl; auto. unfold of_event in *. simpl. destruct (row_event r =? e); simpl; rewrite IH; auto. }
    rewrite !Hk. destruct (covered_dec table0 e) as [Hex|Hno].
    - destruct (A4 e Hex) as (n1 & L1 & Q1). destruct (B4 e Hex) as (n2 & L2 & Q2).
      pose proof (largest_unique _ _ _ _ L1 L2) as <-.
      assert (Q : forall d, (d < length (table0 :: tables))%nat -> entries d (event_block e rows1) = entries d (event_block e rows2)).
      { intros d Hd. destruct (nth_error (table0 :: tables) d) as [l|] eqn:El.
        - rewrite (Q1 d l El), (Q2 d l El). auto.
        - apply nth_error_None in El. lia. }
      assert (W1 : forall r, In r (event_block e rows1) -> row_event r = e /\ length (row_clusters r) = length (table0 :: tables)).
      { intros r Hr. unfold event_block in Hr. apply filter_In in Hr. destruct Hr as [Hr He]. split; [apply Z.eqb_eq; auto|]. apply A2; auto. }
      assert (W2 : forall r, In r (event_block e rows2) -> row_event r = e /\ length (row_clusters r) = length (table0 :: tables)).
      { intros r Hr. unfold event_block in Hr. apply filter_In in Hr. destruct Hr as [Hr He]. split; [apply Z.eqb_eq; auto|]. apply B2; auto. }
      clear - Q W1 W2. set (m := length (table0 :: tables)) in *.
      assert (Hm : (0 < m)%nat) by (unfold m; simpl; lia).
      generalize dependent (event_block e rows2). generalize dependent (event_block e rows1). clearbody m.
      induction l as [|x l IH]; intros W1 l' Q W2; destruct l' as [|y l']; auto.
      + specialize (Q 0%nat Hm). discriminate.
      + specialize (Q 0%nat Hm). discriminate.
      + simpl. f_equal.
        * unfold k. destruct (W1 x (or_introl eq_refl)) as [-> Lx]. destruct (W2 y (or_introl eq_refl)) as [-> Ly]. f_equal.
          apply (nth_ext _ _ None None); [congruence|]. intros d Hd. specialize (Q d). rewrite Lx in Hd.
          specialize (Q Hd). simpl in Q. injection Q as Q _. auto.
        * apply IH.
          -- intros r Hr. apply W1. right; auto.
          -- intros d Hd. specialize (Q d Hd). simpl in Q. injection Q as _ Q. auto.
          -- intros r Hr. apply W2. right; auto.
    - assert (X : forall rs, (forall r, In r rs -> exists a, In a table0 /\ row_event r <= ev a) -> event_block e rs = []).
      { intros rs Hr. unfold event_block. apply filter_none. intros r Hin. apply Z.eqb_neq. intros <-. apply Hno. auto. }
      rewrite !X; auto; intros r Hr; [destruct (B2 r Hr)|destruct (A2 r Hr)]; auto.
  Qed.
End Props.

(** A cluster of another DUT behind the last event of DUT0 is lost. *)
Theorem C13_clusters_behind_dut0_lost_refuted : exists table0 table1 rows,
  good_input (@fst Z Z) 10 [table0; table1] /\
  merge_cluster_data fst 10 table0 [table1] = Ok rows /\
  exists c, In c table1 /\ forall r, In r rows -> ~ In (Some c) (row_clusters r).
Proof.
  exists [(0, 100)], [(0, 200); (1, 201)].
  eexists. split; [|split; [vm_compute; reflexivity|]].
  - intros l [<-|[<-|[]]]; (split; [repeat constructor; simpl; lia|]); intros e; unfold of_event; cbn [filter fst];
      repeat destruct (_ =? e); simpl; lia.
  - exists (1, 201). split; [right; left; auto|]. intros r [<-|[]]. simpl. intros [H|[H|[]]]; discriminate.
Qed.

Example C13_example : merge_cluster_data (@fst Z Z) 4
    [(1, 10); (1, 11); (3, 12); (8, 13)] [[(0, 20); (1, 21); (3, 22); (3, 23); (3, 24)]; [(2, 30); (8, 31)]] =
  Ok [mk_row 0 [None; Some (0, 20); None] 2;
      mk_row 1 [Some (1, 10); Some (1, 21); None] 3;
      mk_row 1 [Some (1, 11); None; None] 1;
      mk_row 2 [None; None; Some (2, 30)] 4;
      mk_row 3 [Some (3, 12); Some (3, 22); None] 3;
      mk_row 3 [None; Some (3, 23); None] 2;
      mk_row 3 [None; Some (3, 24); None] 2;
      mk_row 8 [Some (8, 13); None; Some (8, 31)] 5].
Proof. vm_compute. reflexivity. Qed.
Example C13_example_input : good_input (@fst Z Z) 4
    [[(1, 10); (1, 11); (3, 12); (8, 13)]; [(0, 20); (1, 21); (3, 22); (3, 23); (3, 24)]; [(2, 30); (8, 31)]].
Proof.
  intros l [<-|[<-|[<-|[]]]]; (split; [repeat (apply SSorted_cons; [|repeat (apply Forall_cons; [simpl; lia|]); apply Forall_nil]); apply SSorted_nil|]); intros e; unfold of_event; cbn [filter fst];
  repeat match goal with |- context [?a =? e] => destruct (Z.eqb_spec a e) end; cbn [length]; lia.
Qed.

Print Assumptions C13_merge_cluster_data.
Print Assumptions C13_clusters_once.
Print Assumptions C13_chunk_size_independent.
Print Assumptions C13_clusters_behind_dut0_lost_refuted.
