(** Proofs about MergeModel. *)
From Coq Require Import ZArith List Bool Lia Sorting.Sorted Arith.
From Verif Require Import EventArraysModel EventArraysProofs ChunksModel ChunksProofs MergeModel.
Import ListNotations.
Local Open Scope Z_scope.

Section P.
  Context {C : Type}.
  Variable ev : C -> Z.
  Variable cs : nat.
  Hypothesis Hcs : (1 <= cs)%nat.
  Notation sorted := (sorted_by ev).
  Notation of_ev e l := (filter (fun c => ev c =? e) l).
  Notation occ e l := (count_occ Z.eq_dec l e).

  Definition in_lo (lo : option Z) (z : Z) : bool := match lo with None => true | Some v => v <=? z end.
  Definition rng (lo : option Z) (t : Z) (l : list C) : list C :=
    filter (fun a => in_lo lo (ev a) && (ev a <? t)) l.
  Definition cnt (lo : option Z) (l : list C) : nat :=
    match lo with None => O | Some v => length (filter (below ev v) l) end.
  Definition pos (i : option nat) : nat := match i with None => O | Some k => k end.
  Definition no_big (l : list C) : Prop := forall v, (length (of_ev v l) < cs)%nat.

  Lemma filter_filter2 (f g : C -> bool) l : filter f (filter g l) = filter (fun a => g a && f a) l.
  Proof. induction l as [|x l IH]; simpl; auto. destruct (g x); simpl; rewrite IH; auto. Qed.

  Lemma next_index_last idx cur (ys : list (list C * nat)) : indices_ok cur ys ->
    pos (next_index idx ys) = match ys with [] => pos idx | _ => (cur + length (concat (map fst ys)))%nat end.
  Proof.
    revert idx cur. induction ys as [|[c n] ys IH]; intros idx cur H; [reflexivity|].
    destruct H as [-> H]. unfold next_index in *. simpl.
    rewrite (IH _ _ H). destruct ys; simpl; rewrite ?app_length; simpl; lia.
  Qed.

  Lemma cnt_le lo l : (cnt lo l <= length l)%nat.
  Proof. destruct lo; simpl; [|lia]. induction l; simpl; [lia|]. destruct (below ev z a); simpl; lia. Qed.

  Lemma skipn_cnt lo l : sorted l -> skipn (cnt lo l) l = filter (fun a => in_lo lo (ev a)) l.
  Proof.
    intros S. destruct lo as [v|]; simpl.
    - rewrite skipn_below by auto. apply filter_ext. intros a. unfold from. rewrite Z.ltb_antisym, negb_involutive. auto.
    - symmetry. apply filter_all. auto.
  Qed.

  (** rows of [lo, t) end at the index of the first row >= t *)
  Lemma rng_cnt lo t l : sorted l -> (forall v, lo = Some v -> v <= t) ->
    (cnt lo l + length (rng lo t l) = cnt (Some t) l)%nat.
  Proof.
    intros S H. unfold cnt, rng. destruct lo as [v|]; simpl.
    - clear S. specialize (H v eq_refl). induction l as [|x l IH]; simpl; auto. unfold below in *.
      destruct (Z.ltb_spec (ev x) v); destruct (Z.ltb_spec (ev x) t); destruct (Z.leb_spec v (ev x)); simpl; lia.
    - reflexivity.
  Qed.

  Lemma big_event_false l n : no_big l -> big_event ev cs (skipn n l) -> False.
  Proof.
    intros NB B. apply big_event_skipn in B. unfold big_event in B.
    destruct B as (v & B). specialize (NB v). lia.
  Qed.

  Lemma read_dut_spec table lo start t idx :
    sorted table -> no_big table -> pos idx = cnt lo table ->
    (forall v, lo = Some v -> v <= t) -> (forall s, start = Some s -> s <= t) ->
    (forall a, In a table -> in_lo lo (ev a) = true -> ev a < t -> in_lo start (ev a) = true) ->
    exists ys, read_dut ev cs table start t idx = (ys, GenDone) /\
      concat (map fst ys) = rng lo t table /\ separated ev (map fst ys) [] /\
      Forall (fun y => fst y <> []) ys /\ pos (next_index idx ys) = cnt (Some t) table.
  Proof.
    intros S NB Hp Hlo Hst Hin.
    set (k := pos idx) in *.
    assert (Hk : (k <= length table)%nat) by (rewrite Hp; apply cnt_le).
    set (p := Params start (Some t) idx None cs false true false).
    assert (Hsl : read table k (length table) = skipn k table).
    { unfold read. apply firstn_all2. rewrite skipn_length. lia. }
    assert (Ss : sorted (skipn k table)) by (apply sorted_skipn; auto).
    assert (Hle : exists le, skipn k table <> [] -> last_event ev (skipn k table) = Some le).
    { destruct (skipn k table) as [|x r] eqn:E; [exists 0; congruence|].
      destruct (last_event_some ev (x :: r)) as [v Hv]; [discriminate|]. exists v. auto. }
    destruct Hle as (le & Hle).
    pose proof (read_in_chunks_spec ev table p k (length table) Hcs Hk (le_n _)) as R.
    cbv zeta in R. rewrite Hsl in R. specialize (R Ss le Hle).
    assert (Hrun : read_dut ev cs table start t idx = read_in_chunks ev table p k (length table)).
    { unfold read_dut, data_aligned_at_events. fold p. cbn [p_start_index p_stop_index p_start_event p_stop_event p_indexed p].
      fold (pos idx). fold k. destruct (Nat.ltb_spec (length table) k); [lia|].
      destruct start as [s|]; auto. destruct (Z.ltb_spec t s); auto. specialize (Hst s eq_refl). lia. }
    rewrite Hrun. destruct (read_in_chunks ev table p k (length table)) as [ys e].
    destruct R as [He (i & Hi & Hri & (tail & Ht & Htl & Hsep & HF & Hix))].
    assert (e = GenDone) as ->.
    { destruct He as [|[_ [[_ F]|B]]]; auto; [discriminate F|].
      exfalso. eapply big_event_false; eauto. }
    exists ys. split; [reflexivity|]. rewrite (Htl eq_refl), ?app_nil_r in *.
    assert (Hc : concat (map fst ys) = rng lo t table).
    { rewrite <- Ht, filter_filter2, Hp, skipn_cnt by auto. unfold rng. rewrite filter_filter2.
      apply filter_ext_in'. intros a Ha. unfold wanted. rewrite Nat.eqb_refl. cbn [p_stop_event p orb].
      rewrite andb_true_r. destruct (in_lo lo (ev a)) eqn:E1; simpl; auto.
      destruct (Z.ltb_spec (ev a) t) as [Hlt|]; [|rewrite andb_false_r; auto].
      rewrite andb_true_r. specialize (Hin a Ha E1 Hlt).
      unfold low_ok, low_event. cbn [p_start_event p_first_aligned p negb andb].
      destruct start as [s|]; auto. unfold low_bound. cbn [p_first_aligned p negb andb]. unfold from. simpl in Hin.
      rewrite Z.ltb_antisym, negb_involutive. auto. }
    split; [exact Hc|]. split; [exact Hsep|]. split.
    { eapply Forall_impl; [|exact HF]. simpl. tauto. }
    rewrite (next_index_last idx i ys Hix). rewrite <- (rng_cnt lo t table S Hlo), <- Hp, <- Hc. fold k.
    destruct ys as [|y ys]; [simpl; lia|].
    (* the data starts at k: it cannot start later, since the rows in front of t would not suffice *)
    assert (Hi2 : (i <= k)%nat).
    { assert (Hlen : (length (filter (below ev t) (read table i (length table))) = length (rng lo t table))%nat).
      { rewrite Hri, <- Hc, <- Ht. f_equal. apply filter_ext_in'. intros a Ha.
        unfold wanted, below. rewrite Nat.eqb_refl. cbn [p_stop_event p orb]. rewrite andb_true_r. auto. }
      destruct (Nat.le_gt_cases i k) as [|Hik]; auto. exfalso.
      pose proof (rng_cnt lo t table S Hlo) as RC. rewrite <- Hp in RC. simpl in RC.
      assert (Hil : (i <= length table)%nat \/ (length table < i)%nat) by lia.
      assert (E : read table i (length table) = skipn i table).
      { unfold read. apply firstn_all2. rewrite skipn_length. lia. }
      rewrite E in Hlen.
      (* number of rows below t *)
      assert (Hsum : (length (filter (below ev t) (firstn i table)) + length (filter (below ev t) (skipn i table)) = length (filter (below ev t) table))%nat).
      { rewrite <- app_length, <- filter_app, firstn_skipn. auto. }
      assert (Hf : length (filter (below ev t) (firstn i table)) = k) by lia.
      (* the first chunk is not empty, so there is a row below t from index i on *)
      assert (Hne : rng lo t table <> []).
      { rewrite <- Hc. inversion HF as [|? ? [N _] _]; subst. destruct y as [c0 n0]; simpl in *. destruct c0; [congruence|discriminate]. }
      assert (Hex : exists b, In b (skipn i table) /\ ev b < t).
      { destruct (filter (below ev t) (skipn i table)) as [|b r] eqn:Eb.
        - exfalso. apply Hne. destruct (rng lo t table); [auto|discriminate].
        - exists b. assert (In b (filter (below ev t) (skipn i table))) by (rewrite Eb; left; auto).
          apply filter_In in H. destruct H as [H1 H2]. split; auto. apply Z.ltb_lt. exact H2. }
      destruct Hex as (b & Hb1 & Hb2).
      assert (Hall : filter (below ev t) (firstn i table) = firstn i table).
      { apply filter_all. intros a Ha. apply Z.ltb_lt.
        assert (ev a <= ev b); [|lia].
        assert (Sx : sorted (firstn i table ++ skipn i table)) by (rewrite firstn_skipn; auto).
        apply sorted_app_inv in Sx. destruct Sx as (_ & _ & Sx). apply Sx; auto. }
      rewrite Hall, firstn_length in Hf.
      assert (i <= length table)%nat; [|lia].
      destruct (Nat.le_gt_cases i (length table)); auto. rewrite skipn_all2 in Hb1 by lia. contradiction. }
    rewrite Hc. lia.
  Qed.

  (** *** first loop *)
  Definition maxcount (e : Z) (k : nat) (ls : list (list C)) : nat :=
    fold_right (fun l m => Nat.max (length (of_ev e l)) m) k ls.
  Lemma occ_map e l : occ e (map ev l) = length (of_ev e l).
  Proof.
    induction l as [|x l IH]; simpl; auto. destruct (Z.eq_dec (ev x) e) as [->|N].
    - rewrite Z.eqb_refl. simpl. auto.
    - destruct (Z.eqb_spec (ev x) e); [congruence|auto].
  Qed.
  Lemma sortedZ_map l : sorted l -> sortedZ (map ev l).
  Proof.
    induction l as [|x l IH]; intros S; simpl; [constructor|].
    apply sorted_by_inv in S. destruct S as [S Hx]. apply sortedZ_cons; auto.
    intros y Hy. apply in_map_iff in Hy. destruct Hy as (b & <- & Hb). auto.
  Qed.

  Lemma in_app_r_sep l1 l2 e : (forall a b, In a l1 -> In b l2 -> ev a < ev b) ->
    length (of_ev e (l1 ++ l2)) = Nat.max (length (of_ev e l1)) (length (of_ev e l2)).
  Proof.
    intros H. rewrite filter_app, app_length.
    destruct (of_ev e l1) as [|x r1] eqn:E1; [simpl; lia|].
    destruct (of_ev e l2) as [|y r2] eqn:E2; [simpl; lia|]. exfalso.
    assert (X : In x (of_ev e l1)) by (rewrite E1; left; auto).
    assert (Y : In y (of_ev e l2)) by (rewrite E2; left; auto).
    apply filter_In in X. apply filter_In in Y. destruct X as [X1 X2], Y as [Y1 Y2].
    specialize (H x y X1 Y1). lia.
  Qed.

  Lemma sorted_chunks cs' : separated ev cs' [] -> sorted (concat cs') -> forall c, In c cs' -> sorted c.
  Proof.
    induction cs' as [|c0 r IH]; intros Hs S c Hc; [contradiction|].
    simpl in *. apply sorted_app_inv in S. destruct S as (S1 & S2 & _). destruct Hs as [_ Hs].
    destruct Hc as [<-|Hc]; auto.
  Qed.

  Lemma merge_events_spec ys : forall common, common <> [] -> sortedZ common ->
    separated ev (map fst ys) [] -> sorted (concat (map fst ys)) -> Forall (fun y => fst y <> []) ys ->
    exists c', merge_events ev common ys = Ok c' /\ c' <> [] /\ sortedZ c' /\
      forall e, occ e c' = Nat.max (occ e common) (length (of_ev e (concat (map fst ys)))).
  Proof.
    unfold merge_events. induction ys as [|[c n] ys IH]; intros common N S Sep Ss F; simpl.
    - exists common. repeat split; auto. intros; lia.
    - inversion F as [|? ? Nc F']; subst. simpl in Nc, Sep, Ss. destruct Sep as [Sep1 Sep2].
      apply sorted_app_inv in Ss. destruct Ss as (S1 & S2 & _).
      destruct (get_max_events_spec common (map ev c)) as (r & Hr & M); auto.
      { destruct c; [congruence|discriminate]. }
      { apply sortedZ_map. auto. }
      rewrite Hr. destruct M as [Mr Mc].
      assert (Nr : r <> []).
      { destruct common as [|x common]; [congruence|]. intros ->. specialize (Mc x). simpl in Mc.
        destruct (Z.eq_dec x x); [|congruence]. lia. }
      destruct (IH r Nr Mr Sep2 S2 F') as (c' & H1 & H2 & H3 & H4).
      exists c'. repeat split; auto. intros e. rewrite H4, Mc, occ_map.
      rewrite in_app_r_sep; [lia|]. intros a b Ha Hb. apply Sep1; auto. rewrite app_nil_r. auto.
  Qed.

  Lemma rng_sorted lo t l : sorted l -> sorted (rng lo t l).
  Proof.
    intros S. unfold rng. induction l as [|x l IH]; simpl; [constructor|].
    apply sorted_by_inv in S. destruct S as [S Hx]. destruct (in_lo lo (ev x) && (ev x <? t)); auto.
    constructor; [apply IH; exact S|]. apply Forall_forall. intros y Hy. apply filter_In in Hy. apply Hx. tauto.
  Qed.

  Definition positions (lo : option Z) (tables : list (list C)) (idx : list (option nat)) : Prop :=
    Forall2 (fun t i => pos i = cnt lo t) tables idx.

  Lemma first_loop_spec lo t : (forall v, lo = Some v -> v <= t) ->
    forall tables idx common,
    Forall (fun l => sorted l /\ no_big l) tables -> positions lo tables idx ->
    common <> [] -> sortedZ common ->
    exists c' idx', first_loop ev cs tables idx lo t common = Ok (c', idx') /\ c' <> [] /\ sortedZ c' /\
      (forall e, occ e c' = maxcount e (occ e common) (map (rng lo t) tables)) /\
      positions (Some t) tables idx'.
  Proof.
    intros Hlo tables. induction tables as [|tb tables IH]; intros idx common F P N S.
    - simpl. exists common, []. repeat split; auto. constructor.
    - inversion P as [|? i ? idx0 Hi P0]; subst. inversion F as [|? ? [Sb Nb] F0]; subst. cbn [first_loop].
      destruct (read_dut_spec tb lo lo t i Sb Nb Hi Hlo Hlo) as (ys & -> & Hc & Hsep & Hne & Hp); [auto|].
      destruct (merge_events_spec ys common N S Hsep) as (c1 & -> & N1 & S1 & O1); auto.
      { rewrite Hc. apply rng_sorted. auto. }
      destruct (IH idx0 c1 F0 P0 N1 S1) as (c' & idx' & -> & N' & S' & O' & P').
      exists c', (next_index i ys :: idx'). repeat split; auto.
      + intros e. rewrite O', O1, Hc. unfold maxcount. cbn [map fold_right].
        generalize (map (rng lo t) tables). induction l as [|l0 l IHl]; simpl; lia.
      + constructor; auto.
  Qed.

  (** *** columns *)
  Lemma select_repeat {T} (x : T) e common : select e common (repeat x (length common)) = repeat x (occ e common).
  Proof.
    induction common as [|y l IH]; [reflexivity|]. simpl length. cbn [repeat]. rewrite select_cons. simpl.
    destruct (Z.eq_dec y e) as [->|Hn].
    - rewrite Z.eqb_refl. simpl. congruence.
    - destruct (Z.eqb_spec y e); [congruence|]. auto.
  Qed.
  Lemma overlay_length a b : length a = length b -> length (@overlay C a b) = length a.
  Proof. revert b. induction a; intros [|y b] H; simpl in *; auto; discriminate. Qed.
  Lemma overlay_select e common : forall a b, length a = length common -> length b = length common ->
    select e common (@overlay C a b) = overlay (select e common a) (select e common b).
  Proof.
    induction common as [|x l IH]; intros a b Ha Hb.
    - destruct a; [|discriminate]. destruct b; [|discriminate]. reflexivity.
    - destruct a as [|u a]; [discriminate|]. destruct b as [|v b]; [discriminate|]. cbn [overlay].
      rewrite !select_cons. injection Ha as Ha. injection Hb as Hb.
      destruct (x =? e); simpl; rewrite IH; auto.
  Qed.
  Lemma overlay_none a n : length a = n -> overlay a (repeat (@None C) n) = a.
  Proof. revert n. induction a; intros [|n] H; simpl in *; try discriminate; auto. rewrite IHa; auto. Qed.
  Lemma none_overlay b n : length b = n -> overlay (repeat (@None C) n) b = b.
  Proof. revert n. induction b as [|[x|] b IH]; intros [|n] H; simpl in *; try discriminate; auto; rewrite IH; auto. Qed.

  Definition padded (e : Z) (n : nat) (l : list C) : list (option C) :=
    map Some (of_ev e l) ++ repeat None (n - length (of_ev e l)).

  Lemma map_to_events_length common l : length (map_to_events ev common l) = length common.
  Proof. unfold map_to_events. rewrite map_cluster_length; rewrite repeat_length; auto. Qed.

  Lemma filter_map_some e (l : list C) :
    filter (fun c => ev_opt ev c =? e) (map Some l) = map Some (of_ev e l).
  Proof. induction l as [|x l IH]; simpl; auto. destruct (ev x =? e); simpl; rewrite IH; auto. Qed.

  Lemma map_to_events_select e common l : sorted l -> sortedZ common ->
    (length (of_ev e l) <= occ e common)%nat ->
    select e common (map_to_events ev common l) = padded e (occ e common) l.
  Proof.
    intros S Sc H. unfold map_to_events.
    rewrite map_cluster_select; auto.
    - rewrite filter_map_some, map_length, select_repeat. unfold padded.
      rewrite firstn_all2 by (rewrite map_length; auto). f_equal.
      clear. generalize (length (of_ev e l)). generalize (occ e common).
      induction n as [|n IH]; intros [|k]; simpl; auto.
    - clear - S. induction l as [|x l IH]; simpl; [constructor|]. apply sorted_by_inv in S. destruct S as [S Hx].
      constructor; [apply IH; auto|]. apply Forall_forall. intros y Hy. apply in_map_iff in Hy.
      destruct Hy as (z & <- & Hz). simpl. auto.
    - rewrite repeat_length. auto.
  Qed.

  Lemma padded_nil e n l : of_ev e l = [] -> padded e n l = repeat None n.
  Proof. intros E. unfold padded. rewrite E. simpl. rewrite Nat.sub_0_r. auto. Qed.
  Lemma padded_length e n l : (length (of_ev e l) <= n)%nat -> length (padded e n l) = n.
  Proof. intros H. unfold padded. rewrite app_length, map_length, repeat_length. lia. Qed.

  Lemma fill_column_spec common : sortedZ common -> forall ys,
    separated ev (map fst ys) [] -> sorted (concat (map fst ys)) ->
    (forall e, (length (of_ev e (concat (map fst ys))) <= occ e common)%nat) ->
    length (fill_column ev common ys) = length common /\
    forall e, select e common (fill_column ev common ys) = padded e (occ e common) (concat (map fst ys)).
  Proof.
    intros Sc. unfold fill_column.
    assert (G : forall (ys : list (list C * nat)) col before, length col = length common ->
      separated ev (map fst ys) [] -> sorted (concat (map fst ys)) ->
      (forall a b, In a before -> In b (concat (map fst ys)) -> ev a < ev b) ->
      (forall e, (length (of_ev e (before ++ concat (map fst ys))) <= occ e common)%nat) ->
      (forall e, select e common col = padded e (occ e common) before) ->
      length (fold_left (fun col y => overlay col (map_to_events ev common (fst y))) ys col) = length common /\
      forall e, select e common (fold_left (fun col y => overlay col (map_to_events ev common (fst y))) ys col)
        = padded e (occ e common) (before ++ concat (map fst ys))).
    { induction ys as [|[c n] ys IH]; intros col before L Sep S Hb Hn Hcol; simpl.
      - split; auto. intros e. rewrite app_nil_r. auto.
      - simpl in *. destruct Sep as [Sep1 Sep2]. apply sorted_app_inv in S. destruct S as (S1 & S2 & _).
        rewrite app_nil_r in Sep1.
        destruct (IH (overlay col (map_to_events ev common c)) (before ++ c)) as [L' H'].
        + rewrite overlay_length; auto. rewrite map_to_events_length. auto.
        + auto.
        + auto.
        + intros a b Ha Hb'. apply in_app_iff in Ha. destruct Ha as [Ha|Ha]; auto.
          apply Hb; auto. apply in_app_iff. auto.
        + intros e. rewrite <- app_assoc. auto.
        + intros e. specialize (Hn e). rewrite !filter_app, !app_length in Hn.
          rewrite overlay_select; auto; [|apply map_to_events_length].
          rewrite Hcol, map_to_events_select by (auto; lia).
          destruct (of_ev e before) as [|x r] eqn:E1.
          * rewrite (padded_nil e _ before) by auto. rewrite none_overlay by (apply padded_length; lia).
            unfold padded. rewrite filter_app, E1. reflexivity.
          * assert (E2 : of_ev e c = []).
            { destruct (of_ev e c) as [|y r2] eqn:E2; auto. exfalso.
              assert (X : In x (of_ev e before)) by (rewrite E1; left; auto).
              assert (Y : In y (of_ev e c)) by (rewrite E2; left; auto).
              apply filter_In in X. apply filter_In in Y. destruct X as [X1 X2], Y as [Y1 Y2].
              specialize (Hb x y X1). rewrite in_app_iff in Hb. specialize (Hb (or_introl Y1)). lia. }
            rewrite (padded_nil e _ c) by auto.
            rewrite overlay_none by (apply padded_length; rewrite E1; simpl in *; lia).
            unfold padded. rewrite filter_app, E2, app_nil_r. reflexivity.
        + split; auto. intros e. rewrite H', <- app_assoc. auto. }
    intros ys Sep S Hn. apply (G ys (repeat None (length common)) []); auto.
    - apply repeat_length.
    - intros a b [].
    - intros e. rewrite select_repeat. unfold padded. simpl. rewrite Nat.sub_0_r. auto.
  Qed.

  Lemma second_loop_spec lo t start common : (forall v, lo = Some v -> v <= t) -> start <= t ->
    sortedZ common ->
    forall tables idx,
    Forall (fun l => sorted l /\ no_big l) tables -> positions lo tables idx ->
    (forall l a, In l tables -> In a (rng lo t l) -> start <= ev a) ->
    (forall l e, In l tables -> (length (of_ev e (rng lo t l)) <= occ e common)%nat) ->
    exists cols idx', second_loop ev cs tables idx start t common = Ok (cols, idx') /\
      positions (Some t) tables idx' /\
      Forall2 (fun l col => length col = length common /\
         forall e, select e common col = padded e (occ e common) (rng lo t l)) tables cols.
  Proof.
    intros Hlo Hst Sc tables. induction tables as [|tb tables IH]; intros idx F P Hs Hn.
    - simpl. exists [], []. repeat split; constructor.
    - inversion P as [|? i ? idx0 Hi P0]; subst. inversion F as [|? ? [Sb Nb] F0]; subst. cbn [second_loop].
      destruct (read_dut_spec tb lo (Some start) t i Sb Nb Hi Hlo) as (ys & -> & Hc & Hsep & Hne & Hp).
      { intros s E. injection E as <-. auto. }
      { intros a Ha H1 H2. simpl. apply Z.leb_le. apply (Hs tb); [left; auto|].
        unfold rng. apply filter_In. split; auto. rewrite H1. simpl. apply Z.ltb_lt. auto. }
      destruct (IH idx0 F0 P0) as (cols & idx' & -> & P' & F').
      { intros l a Hl. apply Hs. right; auto. }
      { intros l e Hl. apply Hn. right; auto. }
      exists (fill_column ev common ys :: cols), (next_index i ys :: idx').
      split; [reflexivity|]. split; [constructor; auto|]. constructor; auto.
      rewrite <- Hc. apply fill_column_spec; auto.
      + rewrite Hc. apply rng_sorted; auto.
      + intros e. rewrite Hc. apply Hn. left; auto.
  Qed.

  (** *** rows *)
  Definition rows_of (e : Z) (rows : list (row C)) : list (row C) := filter (fun r => row_event r =? e) rows.
  Definition column (d : nat) (rows : list (row C)) : list (option C) :=
    map (fun r => nth d (row_clusters r) None) rows.

  Lemma make_rows_spec common : forall cols,
    Forall (fun col => length col = length common) cols ->
    map row_event (make_rows common cols) = common /\
    (forall r, In r (make_rows common cols) -> length (row_clusters r) = length cols /\ row_flag r = hit_flag (row_clusters r)) /\
    forall e d col, nth_error cols d = Some col ->
      column d (rows_of e (make_rows common cols)) = select e common col.
  Proof.
    induction common as [|x es IH]; intros cols F; simpl.
    - repeat split; auto; contradiction.
    - destruct (IH (map (@tl _) cols)) as (I1 & I2 & I3).
      { apply Forall_forall. intros c Hc. apply in_map_iff in Hc. destruct Hc as (c0 & <- & Hc).
        rewrite Forall_forall in F. specialize (F c0 Hc). destruct c0; simpl in *; [discriminate|lia]. }
      split; [f_equal; auto|]. split.
      + intros r [<-|Hr]; [simpl; rewrite map_length; auto|].
        destruct (I2 r Hr) as [-> ->]. rewrite map_length. auto.
      + intros e d col Hd. specialize (I3 e d (tl col)). rewrite nth_error_map, Hd in I3. specialize (I3 eq_refl).
        assert (L : length col = S (length es)).
        { rewrite Forall_forall in F. apply F. eapply nth_error_In; eauto. }
        destruct col as [|c0 col]; [discriminate|]. rewrite select_cons. unfold rows_of in *. simpl filter.
        destruct (x =? e); [|exact I3]. unfold column in *. simpl. f_equal; [|exact I3].
        assert (E : nth_error (map (fun c : list (option C) => hd None c) cols) d = Some c0)
          by (rewrite nth_error_map, Hd; reflexivity).
        apply nth_error_nth. exact E.
  Qed.

  Lemma occ_in e (l : list Z) : (0 < occ e l)%nat <-> In e l.
  Proof. rewrite (count_occ_In Z.eq_dec). lia. Qed.
  Lemma maxcount_pos e k ls : (0 < maxcount e k ls)%nat -> (0 < k)%nat \/ exists l, In l ls /\ (0 < length (of_ev e l))%nat.
  Proof.
    induction ls as [|l ls IH]; simpl; auto. intros H.
    destruct (Nat.lt_ge_cases 0 (length (of_ev e l))); [right; eauto|].
    destruct IH as [|(l' & ? & ?)]; [lia|auto|right; eauto].
  Qed.
  Lemma maxcount_ge e k ls : (k <= maxcount e k ls)%nat /\ forall l, In l ls -> (length (of_ev e l) <= maxcount e k ls)%nat.
  Proof.
    induction ls as [|l ls [I1 I2]]; simpl; [split; [lia|tauto]|]. split; [lia|].
    intros l' [<-|H]; [lia|]. specialize (I2 l' H). lia.
  Qed.
  Lemma of_ev_pos e l : (0 < length (of_ev e l))%nat <-> exists a, In a l /\ ev a = e.
  Proof.
    split.
    - destruct (of_ev e l) as [|x r] eqn:E; simpl; [lia|]. intros _. exists x.
      assert (In x (of_ev e l)) by (rewrite E; left; auto). apply filter_In in H. split; [tauto|].
      apply Z.eqb_eq. tauto.
    - intros (a & Ha & He). assert (In a (of_ev e l)) by (apply filter_In; split; auto; apply Z.eqb_eq; auto).
      destruct (of_ev e l); [contradiction|simpl; lia].
  Qed.
  Lemma rev_last {T} (l : list T) x r : rev l = x :: r -> l = rev r ++ [x].
  Proof. intros E. rewrite <- (rev_involutive l), E. reflexivity. Qed.
  Lemma sortedZ_last l x : sortedZ (l ++ [x]) -> forall y, In y (l ++ [x]) -> y <= x.
  Proof.
    induction l as [|z l IH]; intros S y Hy; simpl in *.
    - destruct Hy as [<-|[]]; lia.
    - apply sortedZ_inv in S. destruct S as [S Hz]. destruct Hy as [<-|Hy]; auto.
      apply Hz. apply in_app_iff. right; left; auto.
  Qed.

  Definition st_ok (lo : option Z) (tables : list (list C)) (s : mstate) : Prop :=
    ms_start s = lo /\ positions lo tables (ms_merging s) /\ positions lo tables (ms_data s).

  (** what the rows of one iteration are *)
  Definition block_ok (lo : option Z) (t : Z) (ls : list (list C)) (rows : list (row C)) : Prop :=
    sortedZ (map row_event rows) /\
    (forall r, In r rows -> in_lo lo (row_event r) = true /\ row_event r < t /\
        length (row_clusters r) = length ls /\ row_flag r = hit_flag (row_clusters r)) /\
    forall e, in_lo lo e = true -> e < t ->
      length (rows_of e rows) = maxcount e 0 ls /\
      forall d l, nth_error ls d = Some l -> column d (rows_of e rows) = padded e (maxcount e 0 ls) l.

  Lemma rng_of_ev lo t l e : in_lo lo e = true -> e < t -> of_ev e (rng lo t l) = of_ev e l.
  Proof.
    intros H1 H2. unfold rng. rewrite filter_filter2. apply filter_ext. intros a.
    destruct (Z.eqb_spec (ev a) e) as [->|]; [|rewrite andb_false_r; auto].
    rewrite H1. simpl. rewrite andb_true_r. apply Z.ltb_lt. auto.
  Qed.
  Lemma padded_rng lo t l e n : in_lo lo e = true -> e < t -> padded e n (rng lo t l) = padded e n l.
  Proof. intros H1 H2. unfold padded. rewrite rng_of_ev; auto. Qed.
  Lemma maxcount_rng lo t k ls e : in_lo lo e = true -> e < t -> maxcount e k (map (rng lo t) ls) = maxcount e k ls.
  Proof. intros H1 H2. induction ls; simpl; auto. rewrite rng_of_ev; auto. Qed.

  Lemma length_rows_of e rows : length (rows_of e rows) = occ e (map row_event rows).
  Proof.
    unfold rows_of. induction rows as [|r rows IH]; simpl; auto.
    destruct (Z.eq_dec (row_event r) e) as [->|N]; [rewrite Z.eqb_refl; simpl; auto|].
    destruct (Z.eqb_spec (row_event r) e); [congruence|auto].
  Qed.

  Lemma merge_chunk_spec tables lo s chunk :
    Forall (fun l => sorted l /\ no_big l) tables -> st_ok lo tables s ->
    sorted chunk -> chunk <> [] -> (forall a, In a chunk -> in_lo lo (ev a) = true) ->
    exists rows s' t, merge_chunk ev cs tables s chunk = Ok (rows, s') /\
      (exists a, In a chunk /\ t = ev a + 1) /\ (forall a, In a chunk -> ev a < t) /\
      st_ok (Some t) tables s' /\ block_ok lo t (chunk :: tables) rows.
  Proof.
    intros F (Es & Pm & Pd) S N Hlo. unfold merge_chunk. rewrite Es.
    destruct (rev (map ev chunk)) as [|lst r] eqn:Er.
    { exfalso. apply N. apply (f_equal (@length Z)) in Er. rewrite rev_length, map_length in Er. destruct chunk; [auto|discriminate]. }
    apply rev_last in Er.
    assert (Sm : sortedZ (map ev chunk)) by (apply sortedZ_map; auto).
    assert (Hlast : forall a, In a chunk -> ev a <= lst).
    { intros a Ha. rewrite Er in Sm. apply (sortedZ_last _ _ Sm). rewrite <- Er. apply in_map. auto. }
    assert (Hin : In lst (map ev chunk)) by (rewrite Er; apply in_app_iff; right; left; auto).
    apply in_map_iff in Hin. destruct Hin as (al & Eal & Hal).
    set (t := lst + 1) in *.
    assert (Hlt : forall v, lo = Some v -> v <= t).
    { intros v ->. specialize (Hlo al Hal). simpl in Hlo. apply Z.leb_le in Hlo. lia. }
    destruct (first_loop_spec lo t Hlt tables (ms_merging s) (map ev chunk) F Pm) as (common & im & -> & Nc & Sc & Oc & Pm').
    { destruct chunk; [congruence|discriminate]. }
    { auto. }
    set (ls := map (rng lo t) tables) in *.
    assert (Hcm : forall e, In e common -> in_lo lo e = true /\ e < t).
    { intros e He. apply occ_in in He. rewrite Oc in He. apply maxcount_pos in He.
      destruct He as [He|(l & Hl & He)].
      - apply occ_in in He. apply in_map_iff in He. destruct He as (a & <- & Ha). split; auto. specialize (Hlast a Ha). lia.
      - apply of_ev_pos in He. destruct He as (a & Ha & <-). unfold ls in Hl. apply in_map_iff in Hl.
        destruct Hl as (l0 & <- & _). unfold rng in Ha. apply filter_In in Ha. destruct Ha as [_ Ha].
        apply andb_true_iff in Ha. rewrite Z.ltb_lt in Ha. auto. }
    destruct common as [|e0 common0] eqn:Ecom; [congruence|]. rewrite <- Ecom in *. clear Nc.
    assert (He0 : forall e, In e common -> e0 <= e).
    { intros e He. rewrite Ecom in He, Sc. apply sortedZ_inv in Sc. destruct Sc as [_ Sc]. destruct He as [<-|He]; [lia|auto]. }
    destruct (rev common) as [|e1 r1] eqn:Er1.
    { exfalso. apply (f_equal (@length Z)) in Er1. rewrite rev_length, Ecom in Er1. discriminate. }
    apply rev_last in Er1.
    assert (e1 + 1 = t) as ->.
    { assert (In e1 common) by (rewrite Er1; apply in_app_iff; right; left; auto).
      apply Hcm in H. destruct H as [_ H].
      assert (In lst common).
      { apply occ_in. rewrite Oc. pose proof (proj1 (maxcount_ge lst (occ lst (map ev chunk)) ls)).
        assert (0 < occ lst (map ev chunk))%nat; [|lia]. apply occ_in. apply in_map_iff. eauto. }
      rewrite Er1 in Sc, H0. pose proof (sortedZ_last _ _ Sc lst H0). lia. }
    assert (Hin0 : In e0 common) by (rewrite Ecom; left; auto).
    destruct (second_loop_spec lo t e0 common Hlt) with (tables := tables) (idx := ms_data s) as (cols & id & -> & Pd' & Fc); auto.
    { apply Hcm in Hin0. lia. }
    { intros l a Hl Ha. apply He0. apply occ_in. rewrite Oc.
      pose proof (proj2 (maxcount_ge (ev a) (occ (ev a) (map ev chunk)) ls) (rng lo t l)) as M.
      assert (0 < length (of_ev (ev a) (rng lo t l)))%nat by (apply of_ev_pos; eauto).
      specialize (M (in_map _ _ _ Hl)). lia. }
    { intros l e Hl. rewrite Oc. apply maxcount_ge. apply in_map. auto. }
    rewrite Ecom. rewrite <- Ecom.
    eexists _, _, t. split; [reflexivity|]. split; [exists al; split; auto; lia|].
    split; [intros a Ha; specialize (Hlast a Ha); lia|].
    split; [split; [reflexivity|split; auto]|].
    assert (Hlen : Forall (fun col => length col = length common) (map_to_events ev common chunk :: cols)).
    { constructor; [apply map_to_events_length|]. clear - Fc. induction Fc; constructor; auto. tauto. }
    destruct (make_rows_spec common _ Hlen) as (R1 & R2 & R3).
    assert (Lc : length cols = length tables) by (clear - Fc; induction Fc; simpl; auto).
    assert (Hmax : forall e, in_lo lo e = true -> e < t -> occ e common = maxcount e 0 (chunk :: tables)).
    { intros e H1 H2. rewrite Oc. unfold ls. rewrite maxcount_rng by auto. rewrite occ_map. simpl.
      clear. induction tables; simpl; lia. }
    split; [rewrite R1; auto|]. split.
    - intros r0 Hr. destruct (R2 r0 Hr) as [Q1 Q2].
      assert (Hre : In (row_event r0) common) by (rewrite <- R1; apply in_map; auto).
      apply Hcm in Hre. simpl in Q1. rewrite Lc in Q1. simpl. tauto.
    - intros e H1 H2. split.
      + rewrite length_rows_of, R1. auto.
      + intros d l Hd. destruct d as [|d]; simpl in Hd.
        * injection Hd as <-. rewrite (R3 e 0%nat _ eq_refl). rewrite map_to_events_select; auto.
          -- rewrite Hmax; auto.
          -- rewrite Oc, occ_map. exact (proj1 (maxcount_ge _ _ _)).
        * assert (X : exists col, nth_error cols d = Some col /\ select e common col = padded e (occ e common) (rng lo t l)).
          { clear - Fc Hd. revert d Hd. induction Fc as [|l0 c0 ls0 cs0 [_ H0] Fc IH]; intros d Hd; [destruct d; discriminate|].
            destruct d as [|d]; simpl in *; [injection Hd as <-; eauto|auto]. }
          destruct X as (col & X1 & X2). rewrite (R3 e (Datatypes.S d) col X1), X2, padded_rng by auto. rewrite Hmax; auto.
  Qed.

  (** all iterations; [hi] is the end of the processed event range *)
  Lemma merge_chunks_spec tables : Forall (fun l => sorted l /\ no_big l) tables ->
    forall chunks lo s, st_ok lo tables s ->
    sorted (concat chunks) -> separated ev chunks [] -> Forall (fun c => c <> []) chunks ->
    (forall a, In a (concat chunks) -> in_lo lo (ev a) = true) ->
    exists rows, merge_chunks ev cs tables s chunks = Ok rows /\
      sortedZ (map row_event rows) /\
      (forall r, In r rows -> in_lo lo (row_event r) = true /\
        (exists a, In a (concat chunks) /\ row_event r <= ev a) /\
        length (row_clusters r) = S (length tables) /\ row_flag r = hit_flag (row_clusters r)) /\
      forall e, in_lo lo e = true -> (exists a, In a (concat chunks) /\ e <= ev a) ->
        length (rows_of e rows) = maxcount e 0 (concat chunks :: tables) /\
        forall d l, nth_error (concat chunks :: tables) d = Some l ->
          column d (rows_of e rows) = padded e (maxcount e 0 (concat chunks :: tables)) l.
  Proof.
    intros F. induction chunks as [|c chunks IH]; intros lo s St S Sep Ne Hlo; cbn [merge_chunks concat].
    - exists []. split; [reflexivity|]. split; [constructor|]. split; [intros r []|].
      intros e _ (a & [] & _).
    - simpl in S, Sep. destruct Sep as [Sep1 Sep2]. rewrite app_nil_r in Sep1.
      apply sorted_app_inv in S. destruct S as (S1 & S2 & S12). inversion Ne as [|? ? N1 N2]; subst.
      destruct (merge_chunk_spec tables lo s c F St S1 N1) as (rows & s' & t & -> & (al & Hal & Et) & Hlt & St' & B1 & B2 & B3).
      { intros a Ha. apply Hlo. simpl. apply in_app_iff. auto. }
      assert (Hge : forall a, In a (concat chunks) -> in_lo (Some t) (ev a) = true).
      { intros a Ha. simpl. apply Z.leb_le. specialize (Sep1 al a Hal Ha). lia. }
      destruct (IH (Some t) s' St' S2 Sep2 N2 Hge) as (rows' & -> & I1 & I2 & I3).
      exists (rows ++ rows'). split; [reflexivity|].
      assert (Hr' : forall r, In r rows' -> t <= row_event r).
      { intros r Hr. apply I2 in Hr. destruct Hr as [Hr _]. simpl in Hr. apply Z.leb_le. auto. }
      assert (Htlo : forall e, t <= e -> in_lo lo e = true).
      { intros e He. specialize (Hlo al). simpl in Hlo. rewrite in_app_iff in Hlo. specialize (Hlo (or_introl Hal)).
        unfold in_lo in *. destruct lo; auto. apply Z.leb_le in Hlo. apply Z.leb_le. lia. }
      split; [|split].
      + rewrite map_app. clear - B1 B2 I1 Hr'. induction rows as [|r rows IHr]; simpl; auto.
        simpl in B1. apply sortedZ_inv in B1. destruct B1 as [B1 Bx]. apply sortedZ_cons.
        * apply IHr; auto. intros; apply B2; right; auto.
        * intros y Hy. apply in_app_iff in Hy. destruct Hy as [Hy|Hy]; auto.
          apply in_map_iff in Hy. destruct Hy as (r' & <- & Hy). specialize (Hr' r' Hy).
          destruct (B2 r (or_introl eq_refl)) as (_ & X & _). lia.
      + intros r Hr. apply in_app_iff in Hr. destruct Hr as [Hr|Hr].
        * destruct (B2 r Hr) as (X1 & X2 & X3 & X4). split; [auto|]. split; [|auto].
          exists al. split; [apply in_app_iff; auto|lia].
        * pose proof (Hr' r Hr) as X0. destruct (I2 r Hr) as (X1 & (a & Ha & X2) & X3 & X4).
          split; [auto|]. split; [|auto]. exists a. split; [apply in_app_iff; auto|auto].
      + intros e He (a & Ha & Hea).
        assert (Hrows : rows_of e (rows ++ rows') = if e <? t then rows_of e rows else rows_of e rows').
        { unfold rows_of. rewrite filter_app. destruct (Z.ltb_spec e t).
          - rewrite (filter_none _ rows'); [apply app_nil_r|]. intros r Hr. specialize (Hr' r Hr). apply Z.eqb_neq. lia.
          - rewrite (filter_none _ rows); [auto|]. intros r Hr. apply Z.eqb_neq. destruct (B2 r Hr) as (_ & X & _). lia. }
        rewrite Hrows.
        destruct (Z.ltb_spec e t) as [Hlt'|Hge'].
        * (* event of this chunk: nothing in later chunks *)
          assert (E : of_ev e (c ++ concat chunks) = of_ev e c).
          { rewrite filter_app, (filter_none _ (concat chunks)); [apply app_nil_r|].
            intros x Hx. specialize (Hge x Hx). simpl in Hge. apply Z.leb_le in Hge. apply Z.eqb_neq. lia. }
          destruct (B3 e He Hlt') as [Q1 Q2].
          assert (M : maxcount e 0 ((c ++ concat chunks) :: tables) = maxcount e 0 (c :: tables))
            by (simpl; rewrite E; auto).
          rewrite M. split; auto. intros [|d] l Hd; simpl in Hd.
          -- injection Hd as <-. rewrite (Q2 0%nat c eq_refl). unfold padded. rewrite E. auto.
          -- apply Q2. auto.
        * assert (E : of_ev e (c ++ concat chunks) = of_ev e (concat chunks)).
          { rewrite filter_app, (filter_none _ c); [auto|].
            intros x Hx. specialize (Hlt x Hx). apply Z.eqb_neq. lia. }
          destruct (I3 e) as [Q1 Q2].
          { simpl. apply Z.leb_le. auto. }
          { apply in_app_iff in Ha. destruct Ha as [Ha|Ha]; [specialize (Hlt a Ha); lia|eauto]. }
          assert (M : maxcount e 0 ((c ++ concat chunks) :: tables) = maxcount e 0 (concat chunks :: tables))
            by (simpl; rewrite E; auto).
          rewrite M. split; auto. intros [|d] l Hd; simpl in Hd.
          -- injection Hd as <-. rewrite (Q2 0%nat _ eq_refl). unfold padded. rewrite E. auto.
          -- apply Q2. auto.
  Qed.
End P.
