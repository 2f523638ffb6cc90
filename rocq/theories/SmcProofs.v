(** Invariants of the split-map-combine threads. *)
From Coq Require Import ZArith List Bool Arith Lia.
From Verif Require Import SmcModel.
Import ListNotations.

Section P.
  Context {A R : Type} (func : A -> option R) (n_cores : nat).
  Notation step := (step func n_cores).
  Notation steps := (steps func n_cores).
  Notation st := (state A R).

  Fixpoint somes {T} (l : list (option T)) : list T :=
    match l with [] => [] | Some x :: r => x :: somes r | None :: r => somes r end.
  Lemma somes_app {T} (a b : list (option T)) : somes (a ++ b) = somes a ++ somes b.
  Proof. induction a as [|[x|] a IH]; simpl; auto. f_equal. auto. Qed.
  Lemma somes_map {T} (a : list T) : somes (map Some a) = a.
  Proof. induction a; simpl; congruence. Qed.

  Definition w_hand (w : @worker_pc A) : list A := match w with WHave d => [d] | WDead d => [d] | _ => [] end.
  Definition p_hand (p : @writer_pc A) : list A := match p with PHave t => [fst t] | PDead (Some d) => [d] | _ => [] end.

  (** a task is in state "ready" only, and was called successfully, if there is one core *)
  Definition task_ok (t : @task A) : Prop := n_cores = 1 -> snd t = true /\ func (fst t) <> None.

  Record inv0 (chunks : list A) (s : st) (done : list A) (ts : list task) (fin : bool) : Prop := {
    i_out : map func done = map Some (out s);
    i_all : done ++ p_hand (ppc s) ++ map fst ts ++ w_hand (wpc s) ++ somes (data_deque s) ++ rem s = chunks;
    i_rq : res_deque s = map Some ts ++ (if fin then [None] else []);
    i_fin : fin = true -> wpc s = WDone;
    i_len : length ts <= n_cores + 1;
    i_dq : data_deque s = [] \/ (data_deque s = [None] /\ rpc s = RDone) \/ (exists d, data_deque s = [Some d] /\ rpc s = RWait);
    i_rdone : rpc s = RDone -> rem s = [];
    i_wdone : wpc s = WDone -> rpc s = RDone /\ data_deque s = [];
    i_end : rpc s = RDone -> data_deque s = [None] \/ wpc s = WDone;
    i_pdone : (ppc s = PDone \/ ppc s = PDead None) -> fin = false /\ ts = [] /\ wpc s = WDone;
    i_wend : wpc s = WDone -> fin = true \/ ppc s = PDone \/ ppc s = PDead None;
    i_tasks : Forall task_ok ts;
    i_held : forall t, ppc s = PHave t -> task_ok t;
    i_dead : forall d, ppc s = PDead (Some d) -> func d = None /\ n_cores <> 1;
    i_wdead : forall d, wpc s = WDead d -> n_cores = 1 /\ func d = None;
    i_pend : ppc s = PDone -> out s <> [];
    i_pempty : ppc s = PDead None -> out s = []
  }.
  Definition inv chunks s := exists done ts fin, inv0 chunks s done ts fin.

  Lemma inv_init chunks : inv chunks (init chunks).
  Proof.
    exists [], [], false. constructor; simpl; auto; try discriminate; try lia.
    all: try (intros [E | E]; discriminate E). all: intros; discriminate.
  Qed.

  (* a [None] in the queue is the last entry *)
  Lemma rq_none (ts : list (@task A)) (fin : bool) (rq : list (option (@task A))) :
    None :: rq = map Some ts ++ (if fin then [None] else []) -> ts = [] /\ fin = true /\ rq = [].
  Proof.
    destruct ts as [|t ts]; simpl; [|discriminate].
    destruct fin; [|discriminate]. intros E. injection E as <-. auto.
  Qed.
  Lemma rq_some (ts : list (@task A)) (fin : bool) t (rq : list (option (@task A))) :
    Some t :: rq = map Some ts ++ (if fin then [None] else []) ->
    exists ts', ts = t :: ts' /\ rq = map Some ts' ++ (if fin then [None] else []).
  Proof.
    destruct ts as [|t' ts]; simpl; [destruct fin; discriminate|].
    intros E. injection E as -> ->. eauto.
  Qed.
  Lemma rq_mid (ts : list (@task A)) (fin : bool) t rq1 rq2 :
    rq1 ++ Some t :: rq2 = map Some ts ++ (if fin then [None] else []) ->
    exists t1 t2, ts = t1 ++ t :: t2 /\ rq1 = map Some t1 /\ rq2 = map Some t2 ++ (if fin then [None] else []).
  Proof.
    revert ts. induction rq1 as [|x rq1 IH]; intros ts E; simpl in E.
    - apply rq_some in E. destruct E as (ts' & -> & ->). exists [], ts'. auto.
    - destruct ts as [|t' ts]; simpl in E.
      + exfalso. destruct fin; [|discriminate]. injection E as _ E. destruct rq1; discriminate.
      + injection E as -> E. apply IH in E. destruct E as (t1 & t2 & -> & -> & ->).
        exists (t' :: t1), t2. auto.
  Qed.

  Ltac fin_tac :=
    simpl in *; subst; auto; try tauto; try congruence; try lia;
    repeat match goal with
    | H : _ \/ _ |- _ => destruct H
    | H : _ /\ _ |- _ => destruct H
    | H : exists _, _ |- _ => destruct H
    end; subst; auto; try tauto; try congruence; try lia; eauto 6.

  Lemma inv_step chunks s s' : inv chunks s -> step s s' -> inv chunks s'.
  Proof.
    intros (dn & ts & fin & I) St. destruct St; destruct I; simpl in *.
    - (* read_chunk *)
      assert (dq = []) as -> by (destruct i_dq0 as [|[[? ?]|(? & ? & ?)]]; congruence).
      exists dn, ts, fin. constructor; simpl; auto; try congruence; intros; try discriminate.
      + right; right. eauto.
      + exfalso. apply i_wdone0 in H. destruct H. discriminate.
    - exists dn, ts, fin. constructor; simpl; auto; try congruence; intros; try discriminate.
      exfalso. apply i_wdone0 in H. destruct H. discriminate.
    - assert (dq = []) as -> by (destruct i_dq0 as [|[[? ?]|(? & ? & ?)]]; congruence).
      exists dn, ts, fin. constructor; simpl; auto; try congruence; intros.
      exfalso. apply i_wdone0 in H. destruct H. discriminate.
    - (* work_pop *)
      assert (dq = []) as -> by (destruct i_dq0 as [|[[? ?]|(? & ? & ?)]]; congruence).
      exists dn, ts, fin. constructor; simpl in *; auto; try congruence; intros; try discriminate.
      + exfalso. apply i_fin0 in H. discriminate.
      + subst r. exfalso. destruct (i_end0 eq_refl); congruence.
      + exfalso. apply i_pdone0 in H. destruct H as (_ & _ & H). discriminate.
    - (* work_end *)
      assert (dq = [] /\ r = RDone) as [-> ->] by (destruct i_dq0 as [|[[? ?]|(? & ? & ?)]]; split; congruence).
      assert (fin = false) as -> by (destruct fin; auto; apply i_fin0 in eq_refl || (specialize (i_fin0 eq_refl); discriminate)).
      exists dn, ts, true. constructor; simpl in *; auto; try congruence; intros; try discriminate.
      + rewrite i_rq0, app_nil_r. auto.
      + exfalso. apply i_pdone0 in H. destruct H as (_ & _ & H). discriminate.
    - (* work_submit *)
      assert (fin = false) as -> by (destruct fin; auto; specialize (i_fin0 eq_refl); discriminate).
      exists dn, (ts ++ [(d, false)]), false. constructor; simpl in *; auto; try congruence; intros; try discriminate.
      + rewrite map_app. simpl. rewrite <- i_all0, <- ?app_assoc. auto.
      + rewrite i_rq0, map_app, !app_nil_r. auto.
      + rewrite app_length. simpl. rewrite i_rq0, app_nil_r, map_length in H. lia.
      + subst r. destruct (i_end0 eq_refl); [auto|discriminate].
      + exfalso. apply i_pdone0 in H1. destruct H1 as (_ & _ & H1). discriminate.
      + apply Forall_app. split; auto. constructor; auto. intros E. congruence.
    - assert (fin = false) as -> by (destruct fin; auto; specialize (i_fin0 eq_refl); discriminate).
      exists dn, (ts ++ [(d, true)]), false. constructor; simpl in *; auto; try congruence; intros; try discriminate.
      + rewrite map_app. simpl. rewrite <- i_all0, <- ?app_assoc. auto.
      + rewrite i_rq0, map_app, !app_nil_r. auto.
      + rewrite app_length. simpl. rewrite i_rq0, app_nil_r, map_length in H. lia.
      + subst r. destruct (i_end0 eq_refl); [auto|discriminate].
      + exfalso. apply i_pdone0 in H2. destruct H2 as (_ & _ & H2). discriminate.
      + apply Forall_app. split; auto. constructor; auto. intros E. simpl. split; congruence.
    - exists dn, ts, fin. constructor; simpl in *; auto; try congruence; intros; try discriminate.
      + exfalso. apply i_fin0 in H2. discriminate.
      + subst r. destruct (i_end0 eq_refl); [auto|discriminate].
      + exfalso. apply i_pdone0 in H2. destruct H2 as (_ & _ & H2). discriminate.
      + split; congruence.
    - (* pool_queue *)
      apply rq_mid in i_rq0. destruct i_rq0 as (t1 & t2 & -> & -> & ->).
      exists dn, (t1 ++ (d, true) :: t2), fin. constructor; simpl in *; auto; try congruence; intros.
      + rewrite !map_app in *. auto.
      + rewrite map_app, <- app_assoc. auto.
      + rewrite app_length in *. auto.
      + apply i_pdone0 in H. destruct H as (_ & E & _). destruct t1; discriminate.
      + apply Forall_app in i_tasks0. destruct i_tasks0 as [? F]. inversion F; subst.
        apply Forall_app. split; auto. constructor; auto. intros E. simpl. apply H2 in E. simpl in E. destruct E; congruence.
    - exists dn, ts, fin. constructor; simpl in *; auto; try congruence; intros.
      + destruct H; discriminate.
      + destruct (i_wend0 H) as [E|[E|E]]; auto; discriminate.
      + injection H as <-. intros E. apply (i_held0 _ eq_refl) in E. destruct E; discriminate.
    - apply rq_some in i_rq0. destruct i_rq0 as (ts' & -> & ->).
      exists dn, ts', fin. constructor; simpl in *; auto; try congruence; intros.
      + lia.
      + destruct H; discriminate.
      + destruct (i_wend0 H) as [E|[E|E]]; auto; discriminate.
      + inversion i_tasks0; auto.
      + injection H as <-. inversion i_tasks0; auto.
    - exists (dn ++ [d]), ts, fin. constructor; simpl in *; auto; try congruence; intros.
      + rewrite !map_app. simpl. congruence.
      + rewrite <- i_all0, <- app_assoc. auto.
      + destruct H0; discriminate.
      + destruct (i_wend0 H0) as [E|[E|E]]; auto; discriminate.
    - exists dn, ts, fin. constructor; simpl in *; auto; try congruence; intros.
      + destruct H0; discriminate.
      + destruct (i_wend0 H0) as [E|[E|E]]; auto; discriminate.
      + injection H0 as <-. split; auto. intros E. apply (i_held0 _ eq_refl) in E. simpl in E. destruct E; congruence.
    - apply rq_none in i_rq0. destruct i_rq0 as (-> & -> & ->).
      exists dn, [], false. constructor; simpl in *; auto; try congruence; intros; try discriminate.
    - apply rq_none in i_rq0. destruct i_rq0 as (-> & -> & ->).
      exists dn, [], false. constructor; simpl in *; auto; try congruence; intros; try discriminate.
  Qed.

  Lemma inv_reachable chunks s : reachable func n_cores chunks s -> inv chunks s.
  Proof.
    intros [k H]. remember (init chunks) as s0 eqn:E. revert E.
    induction H as [s|k s s' s'' H IH St]; intros ->; [apply inv_init|].
    eapply inv_step; [apply IH; auto|exact St].
  Qed.

  (* ---------- termination ---------- *)
  Definition w_dq (o : option A) : nat := match o with Some _ => 6 | None => 3 end.
  Definition w_task (o : option (@task A)) : nat := match o with Some (_, false) => 4 | Some (_, true) => 3 | None => 2 end.
  Definition w_r (p : reader_pc) : nat := match p with RNext => 4 | RWait => 5 | RDone => 0 end.
  Definition w_w (w : @worker_pc A) : nat := match w with WHave _ => 5 | _ => 0 end.
  Definition w_p (p : @writer_pc A) : nat := match p with PHave (_, false) => 3 | PHave (_, true) => 2 | _ => 0 end.
  Definition measure (s : st) : nat :=
    8 * length (rem s) + list_sum (map w_dq (data_deque s)) + list_sum (map w_task (res_deque s)) +
    w_r (rpc s) + w_w (wpc s) + w_p (ppc s).

  Lemma measure_step s s' : step s s' -> measure s' < measure s.
  Proof.
    destruct 1; unfold measure; simpl;
      repeat (rewrite map_app || rewrite list_sum_app); simpl; try (destruct t as [? []]; simpl); lia.
  Qed.
  Lemma measure_steps k s s' : steps k s s' -> k + measure s' <= measure s.
  Proof. induction 1 as [|k s s' s'' H IH St]; [lia|]. apply measure_step in St. lia. Qed.

  (* ---------- who can move ---------- *)
  Definition stuck (s : st) : Prop := forall s', ~ step s s'.

  Lemma stuck_cases chunks s : 1 <= n_cores -> inv chunks s -> stuck s ->
    (rpc s = RDone /\ wpc s = WDone /\ (ppc s = PDone \/ ppc s = PDead None)) \/
    (exists d, wpc s = WDead d /\ (ppc s = PPop)) \/
    (exists d, ppc s = PDead (Some d)).
  Proof.
    intros Hn (dn & ts & fin & H) K. destruct s as [cs dq rq r w p o]. destruct H; simpl in *.
    destruct p as [|[d []]| |[d|]].
    - (* PPop *)
      destruct rq as [|[t|] rq].
      2:{ exfalso. eapply K. constructor. }
      2:{ exfalso. destruct o as [|x o]; eapply K; [apply write_end_empty|apply write_end; discriminate]. }
      destruct w as [|d| |d].
      + destruct dq as [|[d|] dq].
        2:{ exfalso. eapply K. constructor. }
        2:{ exfalso. eapply K. constructor. }
        destruct r.
        * exfalso. destruct cs; eapply K; constructor.
        * exfalso. eapply K. constructor.
        * exfalso. destruct (i_end0 eq_refl); discriminate.
      + exfalso. destruct (Nat.eq_dec n_cores 1) as [E|E].
        * destruct (func d) eqn:F; eapply K; [eapply work_call|eapply work_raise]; simpl; eauto; lia.
        * eapply K. apply work_submit; simpl; auto; lia.
      + exfalso. destruct (i_wend0 eq_refl) as [->|[E|E]]; try discriminate.
        destruct ts; discriminate.
      + right; left. eauto.
    - exfalso. destruct (func d) eqn:F; eapply K; [eapply write_result|eapply write_raise]; eauto.
    - exfalso. eapply K. constructor.
    - left. destruct (i_pdone0 (or_introl eq_refl)) as (_ & _ & W). destruct (i_wdone0 W). auto.
    - right; right. eauto.
    - left. destruct (i_pdone0 (or_intror eq_refl)) as (_ & _ & W). destruct (i_wdone0 W). auto.
  Qed.

  Lemma inv_tail_empty chunks s dn ts fin : inv0 chunks s dn ts fin -> wpc s = WDone -> ts = [] ->
    p_hand (ppc s) = [] -> dn = chunks.
  Proof.
    intros H W -> P. destruct H. destruct (i_wdone0 W) as [Rd D].
    rewrite P, W, D, (i_rdone0 Rd) in i_all0. simpl in i_all0. rewrite !app_nil_r in i_all0. auto.
  Qed.
End P.

(* ---------- histograms ---------- *)
Local Open Scope Z_scope.
Lemma resize_length l n : length (resize l n) = n.
Proof. unfold resize. rewrite app_length, firstn_length, repeat_length. lia. Qed.
Lemma nth_repeat0 n i : nth i (repeat 0 n) 0 = 0.
Proof. revert i. induction n; intros [|i]; simpl; auto. Qed.
Lemma resize_nth l n i : (length l <= n)%nat -> nth i (resize l n) 0 = nth i l 0.
Proof.
  intros H. unfold resize. rewrite firstn_all2 by lia.
  destruct (Nat.lt_ge_cases i (length l)).
  - rewrite app_nth1; auto.
  - rewrite app_nth2 by lia. rewrite nth_repeat0, nth_overflow; auto.
Qed.
Lemma add_arrays_length a b : length a = length b -> length (add_arrays a b) = length a.
Proof. revert b. induction a as [|x a IH]; intros [|y b] H; simpl in *; auto. Qed.
Lemma add_arrays_nth a b i : length a = length b -> nth i (add_arrays a b) 0 = nth i a 0 + nth i b 0.
Proof.
  revert b i. induction a as [|x a IH]; intros [|y b] i H; simpl in *; try discriminate.
  - destruct i; auto.
  - destruct i; auto.
Qed.
Lemma combine_hist_length h r : length (combine_hist h r) = Nat.max (length h) (length r).
Proof. unfold combine_hist. cbv zeta. rewrite add_arrays_length; rewrite !resize_length; auto. Qed.
Lemma combine_hist_nth h r i : nth i (combine_hist h r) 0 = nth i h 0 + nth i r 0.
Proof.
  unfold combine_hist. cbv zeta. rewrite add_arrays_nth by (rewrite !resize_length; auto).
  rewrite !resize_nth by lia. auto.
Qed.

Definition total {T} (f : T -> Z) (l : list T) : Z := fold_right (fun x a => f x + a) 0 l.

Lemma fold_hist rs h :
  length (fold_left combine_hist rs h) = fold_right Nat.max (length h) (map (@length Z) rs) /\
  forall i, nth i (fold_left combine_hist rs h) 0 = nth i h 0 + total (fun r => nth i r 0) rs.
Proof.
  revert h. induction rs as [|r rs IH]; intros h; simpl; [split; [auto|intros; lia]|].
  destruct (IH (combine_hist h r)) as [L N]. split.
  - rewrite L, combine_hist_length. clear. induction rs as [|r' rs IH]; simpl; lia.
  - intros i. rewrite N, combine_hist_nth. lia.
Qed.

Definition wf2 (h : hist2) : Prop := length (flat2 h) = (rows2 h * cols2 h)%nat.
Lemma combine2_spec h r : wf2 h -> wf2 r -> cols2 h = cols2 r ->
  wf2 (combine_hist2 h r) /\ cols2 (combine_hist2 h r) = cols2 h /\
  rows2 (combine_hist2 h r) = Nat.max (rows2 h) (rows2 r) /\
  forall i, nth i (flat2 (combine_hist2 h r)) 0 = nth i (flat2 h) 0 + nth i (flat2 r) 0.
Proof.
  unfold wf2, combine_hist2. simpl. intros H1 H2 E. rewrite <- E, Nat.max_id in *.
  split; [|split; [auto|split; [auto|]]].
  - rewrite add_arrays_length; rewrite !resize_length; auto.
  - intros i. rewrite add_arrays_nth by (rewrite !resize_length; auto). rewrite !resize_nth; auto; nia.
Qed.
Lemma fold_hist2 rs h c : wf2 h -> cols2 h = c -> Forall (fun r => wf2 r /\ cols2 r = c) rs ->
  let f := fold_left combine_hist2 rs h in
  wf2 f /\ cols2 f = c /\ rows2 f = fold_right Nat.max (rows2 h) (map rows2 rs) /\
  forall i, nth i (flat2 f) 0 = nth i (flat2 h) 0 + total (fun r => nth i (flat2 r) 0) rs.
Proof.
  revert h. induction rs as [|r rs IH]; intros h W C F; simpl; [repeat split; auto; intros; lia|].
  inversion F as [|? ? [Wr Cr] F']; subst.
  destruct (combine2_spec h r W Wr (eq_sym Cr)) as (W' & C' & R' & N').
  destruct (IH (combine_hist2 h r) W' C' F') as (W2 & C2 & R2 & N2).
  split; [auto|]. split; [auto|]. split.
  - rewrite R2, R'. clear. induction rs as [|r' rs IH]; simpl; lia.
  - intros i. rewrite N2, N'. lia.
Qed.
