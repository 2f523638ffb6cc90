(** Lemmas for the selection of events and tracks. *)
From Coq Require Import ZArith QArith List Bool Arith Lia Sorting.Sorted.
From Verif Require Import EventArraysProofs ChunksModel ChunksProofs ChunksProps SelectionModel.
Import ListNotations.
Local Open Scope Z_scope.

Section Events.
  Context {A : Type}.
  Variable ev : A -> Z.

  Lemma unique_in rows v : In v (unique ev rows) <-> exists a, In a rows /\ ev a = v.
  Proof.
    induction rows as [|a r IH]; [simpl; split; [tauto|intros (a & [] & _)]|].
    cbn [unique]. destruct r as [|b r'].
    - simpl. split; [intros [<-|[]]; exists a; auto|intros (x & [<-|[]] & <-); auto].
    - destruct (Z.eqb_spec (ev a) (ev b)) as [E|N].
      + rewrite IH. split.
        * intros (x & Hx & Hv). exists x. split; auto. right. auto.
        * intros (x & [<-|Hx] & Hv); [exists b; split; [left; auto|congruence]|exists x; auto].
      + split.
        * intros [<-|H]; [exists a; split; auto; left; auto|]. apply IH in H. destruct H as (x & Hx & Hv). exists x. split; auto. right; auto.
        * intros (x & [<-|Hx] & Hv); [left; auto|right]. apply IH. eauto.
  Qed.

  Lemma unique_nodup rows : StronglySorted (fun a b => ev a <= ev b) rows -> NoDup (unique ev rows).
  Proof.
    induction rows as [|a r IH]; intros S; [constructor|]. inversion S as [|x l S1 F]; subst.
    cbn [unique]. destruct r as [|b r']; [repeat constructor; auto|].
    destruct (Z.eqb_spec (ev a) (ev b)) as [E|N]; [auto|]. constructor; [|auto].
    intros H. apply unique_in in H. destruct H as (x & Hx & Hv).
    rewrite Forall_forall in F. pose proof (F b (or_introl eq_refl)) as Fb.
    inversion S1 as [|y l' S2 F2]; subst. destruct Hx as [<-|Hx]; [lia|].
    rewrite Forall_forall in F2. specialize (F2 x Hx). lia.
  Qed.

  Lemma unique_nil rows : unique ev rows = [] -> rows = [].
  Proof.
    destruct rows as [|a r]; auto. intros H. assert (In (ev a) (unique ev (a :: r))) by (apply unique_in; exists a; split; auto; left; auto).
    rewrite H in H0. contradiction.
  Qed.

  (** the chunks of a whole table *)
  Lemma whole_table_chunks table cs : StronglySorted (fun a b => ev a <= ev b) table -> (1 <= cs)%nat ->
    let (ys, e) := data_aligned_at_events ev table (default_call cs) in
    exists tail, table = concat (map fst ys) ++ tail /\ (e = GenDone -> tail = []) /\
      separated ev (map fst ys) tail /\
      Forall (fun y => fst y <> [] /\ (length (fst y) <= cs)%nat) ys /\ indices_ok 0 ys.
  Proof.
    intros Hs Hcs.
    set (p := default_call cs).
    assert (Hle : exists le, table <> [] -> last_event ev table = Some le).
    { destruct (last_event ev table) as [le|] eqn:E; [exists le; auto|]. exists 0. intros Hne.
      destruct (last_event_some ev table Hne) as (v & Hv). congruence. }
    destruct Hle as (le & Hle).
    assert (Hr : read table 0 (length table) = table) by (unfold read; simpl; rewrite Nat.sub_0_r; apply firstn_all).
    pose proof (data_loop_spec ev table cs (length table) None Hcs (le_n _) le (S (length table)) 0) as H.
    rewrite Hr in H. specialize (H Hs Hle ltac:(lia)).
    unfold data_aligned_at_events. simpl. unfold read_in_chunks. cbn -[data_loop].
    destruct (data_loop ev (S (length table)) table cs (length table) None 0) as [ys e].
    destruct H as [_ (tail & H1 & H2 & H3 & H4 & H5)]. exists tail.
    rewrite filter_all in H1; [auto|]. intros a _. unfold wanted. rewrite Nat.eqb_refl. reflexivity.
  Qed.

  Lemma data_loop_end fuel table cs stop se cur : (stop <= cur)%nat -> data_loop ev fuel table cs stop se cur = ([], GenDone).
  Proof. intros H. assert (L : (cur <? stop)%nat = false) by (apply Nat.ltb_ge; auto). destruct fuel; simpl; rewrite L; reflexivity. Qed.

  Lemma single_chunk table cs : table <> [] -> (length table <= cs)%nat ->
    data_aligned_at_events ev table (default_call cs) = ([(table, length table)], GenDone).
  Proof.
    intros Hne Hl. unfold data_aligned_at_events. simpl. unfold read_in_chunks. cbn [default_call p_start_event p_first_aligned negb andb p_chunk_size p_stop_event].
    cbn [data_loop]. destruct (Nat.ltb_spec 0 (length table)) as [H0|H0]; [|destruct table; simpl in H0; [congruence|lia]]. cbn [negb].
    rewrite Nat.min_r by lia.
    assert (Hr : read table 0 (length table) = table) by (unfold read; simpl; rewrite Nat.sub_0_r; apply firstn_all).
    rewrite Hr.
    assert (exists fe, first_event ev table = Some fe) as (fe & Hfe) by (destruct table; [congruence|simpl; eauto]).
    destruct (last_event_some ev table Hne) as (le & Hle). rewrite Hfe, Hle, Nat.eqb_refl.
    destruct (Nat.eqb_spec (length table) 0); [lia|].
    rewrite data_loop_end by lia. rewrite firstn_all. reflexivity.
  Qed.
End Events.

(** *** the selection formula *)
Section Formula.
  Local Open Scope Q_scope.
  Lemma qz_nonneg z : (0 <= z)%Z -> 0 <= inject_Z z.
  Proof. intros H. unfold inject_Z, Qle. simpl. lia. Qed.
  Lemma qz_pos z : (0 < z)%Z -> 0 < inject_Z z.
  Proof. intros H. unfold inject_Z, Qlt. simpl. lia. Qed.
  Lemma Qdiv_nonneg a b : 0 <= a -> 0 < b -> 0 <= a / b.
  Proof. intros Ha Hb. apply Qle_shift_div_l; auto. rewrite Qmult_0_l. auto. Qed.
  Lemma Qdiv_pos a b : 0 < a -> 0 < b -> 0 < a / b.
  Proof. intros Ha Hb. apply Qlt_shift_div_l; auto. rewrite Qmult_0_l. auto. Qed.
  Lemma ndiv_fin np x y : 0 < y -> ndiv np (Fin x) (Fin y) = Some (Fin (x / y)).
  Proof.
    intros H. simpl. destruct (Qeq_bool y 0) eqn:E; auto. apply Qeq_bool_iff in E. rewrite E in H. exfalso. apply (Qlt_irrefl 0). auto.
  Qed.

  Lemma correction_fin (max T idx li sl : Z) : (0 < max)%Z -> (0 < li)%Z -> (li < idx)%Z -> (idx <= T)%Z ->
    (0 < sl)%Z -> (sl <= max)%Z ->
    exists q, correction true max T idx li sl = Some (Fin q) /\ 0 <= q.
  Proof.
    intros Hm Hli Hidx HT Hsl Hslm. unfold correction.
    assert (PT : 0 < inject_Z T) by (apply qz_pos; lia).
    assert (Pm : 0 < inject_Z max) by (apply qz_pos; lia).
    unfold qz. rewrite !ndiv_fin by auto. cbn [obind].
    set (a1 := inject_Z (T - idx) / inject_Z T). set (b1 := inject_Z (T - li) / inject_Z T).
    set (c1 := inject_Z (max - sl) / inject_Z max).
    set (a2 := inject_Z idx / inject_Z T). set (b2 := inject_Z li / inject_Z T). set (c2 := inject_Z sl / inject_Z max).
    assert (Ha1 : 0 <= a1) by (apply Qdiv_nonneg; auto; apply qz_nonneg; lia).
    assert (Hb1 : 0 < b1) by (apply Qdiv_pos; auto; apply qz_pos; lia).
    assert (Ha2 : 0 <= a2) by (apply Qdiv_nonneg; auto; apply qz_nonneg; lia).
    assert (Hb2 : 0 < b2) by (apply Qdiv_pos; auto; apply qz_pos; lia).
    assert (Hc2 : 0 < c2) by (apply Qdiv_pos; auto; apply qz_pos; lia).
    assert (Hc1 : c1 == 0 \/ 0 < c1).
    { destruct (Z.eq_dec max sl) as [->|N].
      - left. unfold c1. rewrite Z.sub_diag. unfold Qdiv. apply Qmult_0_l.
      - right. apply Qdiv_pos; auto. apply qz_pos. lia. }
    assert (S2 : forall t1 : num, obind (ndiv true (Fin b2) (Fin c2)) (fun d2 => obind (ndiv true (Fin a2) d2) (fun t2 => Some (nadd t1 t2)))
       = Some (nadd t1 (Fin (a2 / (b2 / c2))))).
    { intros t1. rewrite ndiv_fin by auto. cbn [obind]. rewrite ndiv_fin by (apply Qdiv_pos; auto). reflexivity. }
    assert (P2 : 0 <= a2 / (b2 / c2)) by (apply Qdiv_nonneg; auto; apply Qdiv_pos; auto).
    destruct Hc1 as [Z|P].
    - assert (E : ndiv true (Fin b1) (Fin c1) = Some Inf).
      { unfold ndiv. rewrite (proj2 (Qeq_bool_iff c1 0) Z). destruct (Qeq_bool b1 0) eqn:Eb; auto.
        apply Qeq_bool_iff in Eb. rewrite Eb in Hb1. exfalso. apply (Qlt_irrefl 0). auto. }
      rewrite E. cbn [obind ndiv]. setoid_rewrite S2. eexists. split; [reflexivity|]. rewrite Qplus_0_l. auto.
    - rewrite (ndiv_fin true b1 c1 P). cbn [obind]. rewrite (ndiv_fin true a1) by (apply Qdiv_pos; auto). cbn [obind].
      setoid_rewrite S2. eexists. split; [reflexivity|].
      apply (Qle_trans _ (0 + 0)); [discriminate|]. apply Qplus_le_compat; auto. apply Qdiv_nonneg; auto. apply Qdiv_pos; auto.
  Qed.
End Formula.
