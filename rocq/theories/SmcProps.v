(** C15-C18: the split-map-combine class SMC. *)
From Coq Require Import ZArith List Bool Arith Lia Sorting.Sorted.
From Verif Require Import ChunksModel ChunksProps SmcModel SmcProofs.
Import ListNotations.
Local Open Scope nat_scope.

(** *** Specification: the sequential loop "for chunk in chunks: append func(chunk)". *)
Inductive sequential {A R : Type} (func : A -> option R) : list A -> list R -> Prop :=
| seq_nil : sequential func [] []
| seq_cons c cs r rs : func c = Some r -> sequential func cs rs -> sequential func (c :: cs) (r :: rs).

Lemma sequential_map {A R} (func : A -> option R) cs rs :
  map func cs = map Some rs -> sequential func cs rs.
Proof.
  revert rs. induction cs as [|c cs IH]; intros [|r rs] E; try discriminate; [constructor|].
  simpl in E. injection E as E1 E2. constructor; auto.
Qed.

Section Props.
  Context {A R : Type} (func : A -> option R) (n_cores : nat).

  (** C15: at any time the results written are those of the first chunks, in order; when the
      writer ends normally they are the results of all chunks. *)
  Theorem C15_smc_order : forall chunks s,
    reachable func n_cores chunks s ->
    (exists finished rest, chunks = finished ++ rest /\ sequential func finished (out s)) /\
    (ppc s = PDone -> sequential func chunks (out s)).
  Proof.
    intros chunks s H. apply inv_reachable in H. destruct H as (dn & ts & fin & H). split.
    - eexists dn, _. split; [symmetry; exact (i_all _ _ _ _ _ _ _ H)|].
      apply sequential_map. apply (i_out _ _ _ _ _ _ _ H).
    - intros P. pose proof (i_pdone _ _ _ _ _ _ _ H (or_introl P)) as (_ & T & W).
      rewrite <- (inv_tail_empty _ _ _ _ _ _ _ H W T) by (rewrite P; reflexivity).
      apply sequential_map. apply (i_out _ _ _ _ _ _ _ H).
  Qed.

  (** C16: memory. *)
  Theorem C16_smc_bounded : forall chunks s,
    reachable func n_cores chunks s ->
    length (data_deque s) <= 1 /\ length (res_deque s) <= n_cores + 2.
  Proof.
    intros chunks s H. apply inv_reachable in H. destruct H as (dn & ts & fin & H). split.
    - destruct (i_dq _ _ _ _ _ _ _ H) as [->|[[-> _]|(d & -> & _)]]; simpl; lia.
    - pose proof (i_len _ _ _ _ _ _ _ H). rewrite (i_rq _ _ _ _ _ _ _ H), app_length, map_length. destruct fin; simpl; lia.
  Qed.

  (** C16: no run is longer than 8 steps per chunk plus 4, and a run can only come to a halt in a
      state in which everything is written and the constructor returns; so every run completes. *)
  Theorem C16_smc_completes : forall chunks,
    1 <= n_cores -> chunks <> [] -> (forall c, In c chunks -> func c <> None) ->
    (forall k s, steps func n_cores k (init chunks) s -> k <= 8 * length chunks + 4) /\
    (forall s, reachable func n_cores chunks s ->
       (forall s', ~ step func n_cores s s') ->
       returned s /\ ppc s = PDone /\ sequential func chunks (out s)).
  Proof.
    intros chunks Hn Hne Hf. split.
    - intros k s H. apply measure_steps in H. unfold measure in H. simpl in H. lia.
    - intros s H K. pose proof (C15_smc_order chunks s H) as [_ Hseq].
      apply inv_reachable in H. pose proof H as (dn & ts & fin & I).
      destruct (stuck_cases func n_cores chunks s Hn H K) as [(Rd & W & [P | P])|[(d & W & P)|(d & P)]].
      + split; [|auto]. split; [auto|]. split; auto.
      + exfalso. pose proof (i_pdone _ _ _ _ _ _ _ I (or_intror P)) as (_ & T & _).
        pose proof (inv_tail_empty _ _ _ _ _ _ _ I W T) as E. rewrite P in E. specialize (E eq_refl).
        pose proof (i_out _ _ _ _ _ _ _ I) as O. rewrite (i_pempty _ _ _ _ _ _ _ I P) in O. simpl in O.
        destruct dn; [congruence|discriminate].
      + exfalso. destruct (i_wdead _ _ _ _ _ _ _ I d W) as [_ F]. apply (Hf d); auto.
        rewrite <- (i_all _ _ _ _ _ _ _ I), W. simpl. rewrite !in_app_iff. simpl. tauto.
      + exfalso. destruct (i_dead _ _ _ _ _ _ _ I d P) as [F _]. apply (Hf d); auto.
        rewrite <- (i_all _ _ _ _ _ _ _ I), P. simpl. rewrite !in_app_iff. simpl. tauto.
  Qed.

  (** C16: from every reachable state the run can be completed. *)
  Theorem C16_smc_can_complete : forall chunks s,
    1 <= n_cores -> chunks <> [] -> (forall c, In c chunks -> func c <> None) ->
    reachable func n_cores chunks s ->
    exists k s', steps func n_cores k s s' /\ returned s' /\ sequential func chunks (out s').
  Proof.
    intros chunks s Hn Hne Hf.
    assert (App : forall k s1 s2 k' s3, steps func n_cores k s1 s2 -> steps func n_cores k' s2 s3 ->
              steps func n_cores (k + k') s1 s3).
    { intros k s1 s2 k' s3 H1 H2. revert H1. induction H2; intros H1.
      - rewrite Nat.add_0_r. auto.
      - rewrite Nat.add_succ_r. econstructor; eauto. }
    remember (measure s) as m eqn:E. revert s E.
    induction m as [m IH] using lt_wf_ind. intros s -> H.
    assert (D : (exists s', step func n_cores s s') \/ (returned s /\ sequential func chunks (out s))).
    { pose proof (inv_reachable func n_cores chunks s H) as I.
      assert (X : (exists s', step func n_cores s s') \/ ~ exists s', step func n_cores s s').
      { destruct s as [cs dq rq r w p o].
        destruct p as [|[d []]| |[d|]].
        - destruct rq as [|[t|] rq].
          2:{ left. eexists. constructor. }
          2:{ left. destruct o; eexists; [apply write_end_empty|apply write_end; discriminate]. }
          destruct w as [|d| |d].
          + destruct dq as [|[d|] dq]; [|left; eexists; constructor|left; eexists; constructor].
            destruct r; [left; destruct cs; eexists; constructor|left; eexists; constructor|].
            right. intros [s' St]. inversion St; destruct rq1; discriminate.
          + left. destruct (Nat.eq_dec n_cores 1) as [E|E].
            * destruct (func d) eqn:F; eexists; [eapply work_call|eapply work_raise]; simpl; eauto; lia.
            * eexists. apply work_submit; simpl; auto; lia.
          + destruct r; [left; destruct cs; eexists; constructor| |].
            * destruct dq; [left; eexists; constructor|].
              right. intros [s' St]. inversion St; destruct rq1; discriminate.
            * right. intros [s' St]. inversion St; destruct rq1; discriminate.
          + exfalso. destruct I as (dn & ts & fin & I). destruct (i_wdead _ _ _ _ _ _ _ I d eq_refl) as [_ F].
            apply (Hf d); auto. rewrite <- (i_all _ _ _ _ _ _ _ I). simpl. rewrite !in_app_iff. simpl. tauto.
        - left. destruct (func d) eqn:F; eexists; [eapply write_result|eapply write_raise]; eauto.
        - left. eexists. constructor.
        - right. intros [s' St]. destruct I as (dn & ts & fin & I).
          pose proof (i_pdone _ _ _ _ _ _ _ I (or_introl eq_refl)) as (-> & -> & W). simpl in W. subst w.
          destruct (i_wdone _ _ _ _ _ _ _ I eq_refl) as [Rd D]. simpl in Rd, D. subst.
          pose proof (i_rq _ _ _ _ _ _ _ I) as Q. simpl in Q. subst rq.
          inversion St; destruct rq1; discriminate.
        - exfalso. destruct I as (dn & ts & fin & I). destruct (i_dead _ _ _ _ _ _ _ I d eq_refl) as [F _].
          apply (Hf d); auto. rewrite <- (i_all _ _ _ _ _ _ _ I). simpl. rewrite !in_app_iff. simpl. tauto.
        - right. intros [s' St]. destruct I as (dn & ts & fin & I).
          pose proof (i_pdone _ _ _ _ _ _ _ I (or_intror eq_refl)) as (-> & -> & W). simpl in W. subst w.
          destruct (i_wdone _ _ _ _ _ _ _ I eq_refl) as [Rd D]. simpl in Rd, D. subst.
          pose proof (i_rq _ _ _ _ _ _ _ I) as Q. simpl in Q. subst rq.
          inversion St; destruct rq1; discriminate. }
      destruct X as [X|X]; [auto|right].
      destruct (proj2 (C16_smc_completes chunks Hn Hne Hf) s H) as (? & _ & ?); [|auto].
      intros s' St. apply X. eauto. }
    destruct D as [[s' St]|[D1 D2]].
    - destruct (IH (measure s')) with (s := s') as (k & s'' & H1 & H2); auto.
      + eapply measure_step; eauto.
      + destruct H as [k H]. exists (S k). econstructor; eauto.
      + exists (1 + k), s''. split; auto. eapply App; [|exact H1]. econstructor; [constructor|auto].
    - exists 0, s. split; [constructor|auto].
  Qed.

  (** C17, one core: if func raises on some chunk the constructor never returns: it hangs. *)
  Theorem C17_smc_one_core_hangs : forall chunks c s,
    n_cores = 1 -> In c chunks -> func c = None ->
    reachable func n_cores chunks s -> ~ returned s.
  Proof.
    intros chunks c s Hn Hc Hf H (_ & _ & P).
    apply inv_reachable in H. destruct H as (dn & ts & fin & I).
    assert (P' : ppc s = PDone \/ ppc s = PDead None).
    { destruct P as [|[[d|] P]]; auto. exfalso. apply (i_dead _ _ _ _ _ _ _ I) in P. tauto. }
    pose proof (i_pdone _ _ _ _ _ _ _ I P') as (_ & T & W).
    assert (E : dn = chunks). { eapply inv_tail_empty; eauto. destruct P' as [-> | ->]; reflexivity. }
    subst dn. pose proof (i_out _ _ _ _ _ _ _ I) as O.
    assert (X : In (func c) (map Some (out s))) by (rewrite <- O; apply in_map; auto).
    rewrite Hf in X. apply in_map_iff in X. destruct X as (x & X & _). discriminate.
  Qed.

  (** C17: whenever the constructor returns, either all results are written, or the writer thread
      died of an exception that the caller does not see: the input has no chunk or func raised. *)
  Theorem C17_smc_returned : forall chunks s,
    reachable func n_cores chunks s -> returned s ->
    (ppc s = PDone /\ sequential func chunks (out s)) \/
    (ppc s = PDead None /\ chunks = []) \/
    (exists d, ppc s = PDead (Some d) /\ In d chunks /\ func d = None /\ n_cores <> 1).
  Proof.
    intros chunks s H (_ & _ & P). pose proof (C15_smc_order chunks s H) as [_ Hseq].
    apply inv_reachable in H. destruct H as (dn & ts & fin & I).
    destruct P as [P|[[d|] P]]; [auto| |].
    - right; right. exists d. destruct (i_dead _ _ _ _ _ _ _ I d P). repeat split; auto.
      rewrite <- (i_all _ _ _ _ _ _ _ I), P. simpl. rewrite !in_app_iff. simpl. tauto.
    - right; left. split; auto. pose proof (i_pdone _ _ _ _ _ _ _ I (or_intror P)) as (_ & T & W).
      pose proof (inv_tail_empty _ _ _ _ _ _ _ I W T) as E. rewrite P in E. rewrite <- (E eq_refl).
      pose proof (i_out _ _ _ _ _ _ _ I) as O. rewrite (i_pempty _ _ _ _ _ _ _ I P) in O.
      destruct dn; [auto|discriminate].
  Qed.

  (** Every run on a table without rows ends with the caller unaware of a dead writer. *)
  Theorem C15_smc_empty_table_refuted : forall s, 1 <= n_cores ->
    reachable func n_cores [] s -> (forall s', ~ step func n_cores s s') ->
    returned s /\ ppc s = PDead None.
  Proof.
    intros s Hn H K. apply inv_reachable in H. pose proof H as (dn & ts & fin & I).
    assert (Z : dn = [] /\ p_hand (ppc s) = [] /\ w_hand (wpc s) = []).
    { pose proof (i_all _ _ _ _ _ _ _ I) as E. apply app_eq_nil in E. destruct E as [-> E].
      apply app_eq_nil in E. destruct E as [-> E]. apply app_eq_nil in E. destruct E as [_ E].
      apply app_eq_nil in E. tauto. }
    destruct Z as (-> & Zp & Zw).
    destruct (stuck_cases func n_cores [] s Hn H K) as [(Rd & W & [P | P])|[(d & W & P)|(d & P)]].
    - exfalso. apply (i_pend _ _ _ _ _ _ _ I P). pose proof (i_out _ _ _ _ _ _ _ I) as O.
      destruct (out s); [auto|discriminate].
    - split; auto. split; [auto|]. split; eauto.
    - rewrite W in Zw. discriminate.
    - rewrite P in Zp. discriminate.
  Qed.
End Props.

Lemma steps_cons {A R} (func : A -> option R) n k s s' s'' :
  step func n s s' -> steps func n k s' s'' -> steps func n (S k) s s''.
Proof.
  intros St H. induction H.
  - econstructor; [constructor|auto].
  - econstructor; eauto.
Qed.
Ltac go c := eapply steps_cons; [eapply c; simpl; try lia; try reflexivity; try discriminate|simpl].

(** C17 refuted for two cores: func raises on the first of two chunks, the constructor returns, no
    result is written. *)
Theorem C17_smc_silent_refuted : exists (func : nat -> option nat) s,
  func 1 = None /\ func 2 = Some 20 /\ reachable func 2 [1; 2] s /\ returned s /\ out s = [].
Proof.
  exists (fun x => if x =? 1 then None else Some 20).
  exists (mk_state [] [] [Some (2, false); None] RDone WDone (PDead (Some 1)) []).
  split; [reflexivity|]. split; [reflexivity|]. split; [|split; [|reflexivity]].
  - eexists. unfold init.
    go @read_chunk. go @work_pop. go @work_submit. go @read_wait. go @read_chunk. go @work_pop. go @work_submit.
    go @read_wait. go @read_end. go @work_end. go @write_pop. go @pool_held. go @write_raise. apply steps_O.
  - split; [reflexivity|]. split; [left; reflexivity|]. right. exists (Some 1). reflexivity.
Qed.

(** With more chunks than fit into the queue the same failure blocks the constructor for ever. *)
Theorem C17_smc_blocked_refuted : exists (func : nat -> option nat) s,
  func 1 = None /\ reachable func 2 [1; 2; 3; 4; 5; 6] s /\
  (forall s', ~ step func 2 s s') /\ ~ returned s.
Proof.
  exists (fun x => if x =? 1 then None else Some 20).
  exists (mk_state [] [Some 6] [Some (2, true); Some (3, true); Some (4, true)] RWait (WHave 5) (PDead (Some 1)) []).
  split; [reflexivity|]. split; [|split].
  - eexists. unfold init.
    do 4 (go @read_chunk; go @work_pop; go @work_submit; go @read_wait; try (go @write_pop; go @pool_held; go @write_raise)).
    go @read_chunk. go @work_pop. go @read_wait. go @read_chunk.
    eapply steps_cons. { apply (@pool_queue nat nat _ 2 [] [Some 6] [] 2). } simpl.
    eapply steps_cons. { apply (@pool_queue nat nat _ 2 [] [Some 6] [Some (2, true)] 3). } simpl.
    eapply steps_cons. { apply (@pool_queue nat nat _ 2 [] [Some 6] [Some (2, true); Some (3, true)] 4). } simpl.
    apply steps_O.
  - intros s' St. inversion St; subst; simpl in *; try lia.
    all: repeat (destruct rq1 as [|? rq1]; try discriminate).
  - intros (E & _). discriminate.
Qed.

(** Non-vacuity of the positive theorems: a complete run with two cores in which the second
    chunk is finished by the pool before the first. *)
Example C15_example : exists s,
  reachable (fun x => Some (10 * x)) 2 [1; 2] s /\ ppc s = PDone /\ out s = [10; 20].
Proof.
  exists (mk_state [] [] [] RDone WDone PDone [10; 20]). split; [|split; reflexivity].
  eexists. unfold init.
  go @read_chunk. go @work_pop. go @work_submit. go @read_wait. go @read_chunk. go @work_pop. go @work_submit.
  eapply steps_cons. { apply (@pool_queue nat nat _ 2 [] [] [Some (1, false)] 2). } simpl.
  go @write_pop. go @pool_held. go @read_wait. go @read_end. go @work_end. go @write_result. go @write_pop. go @write_result.
  go @write_end. apply steps_O.
Qed.
Example C16_example : 1 <= 2 /\ [1; 2] <> [] /\ forall c, In c [1; 2] -> Some (10 * c) <> None.
Proof. split; [lia|]. split; [discriminate|]. intros; discriminate. Qed.
Example C17_one_core_example :
  reachable (fun x => if x =? 2 then None else Some x) 1 [1; 2] (init [1; 2]) /\ In 2 [1; 2].
Proof. split; [exists 0; constructor|simpl; auto]. Qed.
Example C15_empty_example : exists s, reachable (fun x : nat => Some x) 1 [] s /\
  forall s', ~ step (fun x : nat => Some x) 1 s s'.
Proof.
  exists (mk_state [] [] [] RDone WDone (PDead None) []). split.
  - eexists. unfold init. go @read_end. go @work_end. go @write_end_empty. apply steps_O.
  - intros s' St. inversion St; destruct rq1; discriminate.
Qed.

(** *** The table written.  func works event by event if, whenever all events of one part of the
    table are before all events of another part, it can be applied to the parts separately. *)
Section Table.
  Context {A B : Type} (ev : A -> Z).
  Local Open Scope Z_scope.
  Definition event_local (F : list A -> list B) : Prop :=
    F [] = [] /\ forall a b, (forall x y, In x a -> In y b -> ev x < ev y) -> F (a ++ b) = F a ++ F b.

  Lemma sequential_concat (F : list A -> list B) chunks rs :
    event_local F ->
    (forall pre c post, chunks = pre ++ c :: post -> forall a b, In a c -> In b (concat post) -> ev a < ev b) ->
    sequential (fun c => Some (F c)) chunks rs -> concat rs = F (concat chunks).
  Proof.
    intros [F0 Fa] Hsep H. induction H as [|c cs r rs E H IH]; simpl; [auto|].
    injection E as <-. rewrite Fa.
    - f_equal. apply IH. intros pre c' post -> a b. apply (Hsep (c :: pre) c' post). reflexivity.
    - intros x y. apply (Hsep [] c cs). reflexivity.
  Qed.

  (** C15: the table written by SMC is func applied to the whole input table: it depends neither on
      the schedule nor on the number of cores nor on the chunk size. *)
  Theorem C15_smc_table : forall (F : list A -> list B) table p n_cores s,
    event_local F ->
    StronglySorted (fun a b => ev a <= ev b) table ->
    (1 <= p_chunk_size p)%nat ->
    p_start_index p = None -> p_stop_index p = None -> p_start_event p = None -> p_stop_event p = None ->
    p_indexed p = false ->
    let (ys, e) := data_aligned_at_events ev table p in
    e = GenDone ->
    reachable (fun c => Some (F c)) n_cores (map fst ys) s ->
    ppc s = PDone ->
    concat (out s) = F table.
  Proof.
    intros F table p n_cores s HF Hs Hc H1 H2 H3 H4 H5.
    assert (V : valid_call table p).
    { unfold valid_call, start_of, stop_of. rewrite H1, H2, H3, H4.
      split; [auto|]. split; [lia|]. split; [lia|]. split; [discriminate|auto]. }
    pose proof (C07_aligned_chunks ev table p Hs V) as C7.
    destruct (data_aligned_at_events ev table p) as [ys e].
    destruct C7 as (rest & Sel & Hd & _ & _ & Hsep). intros -> Hr P.
    rewrite (Hd eq_refl), app_nil_r in Sel. rewrite (Hd eq_refl) in Hsep.
    assert (T : rows_between table (start_of p) (stop_of table p) = table).
    { unfold rows_between, start_of, stop_of. rewrite H1, H2. simpl. rewrite Nat.sub_0_r. apply firstn_all. }
    rewrite T in Sel.
    assert (E : concat (map fst ys) = table).
    { eapply (selects_fun ev); [exact Sel|]. apply selects_all. intros a _.
      unfold is_requested, start_of, stop_of. rewrite H1, H2, H3, H4.
      repeat split; intros; try discriminate; congruence. }
    pose proof (proj2 (C15_smc_order _ _ _ _ Hr) P) as Q.
    rewrite <- E. apply sequential_concat; auto.
    intros pre c post Ep a b Ha Hb. apply (Hsep pre c post Ep); auto. rewrite app_nil_r. auto.
  Qed.
End Table.

(** A row selection is event-local. *)
Example C15_event_local_example {A} (ev : A -> Z) (q : A -> bool) : event_local ev (filter q).
Proof. split; [reflexivity|]. intros a b _. apply filter_app. Qed.

(** *** C18.  Specification: content of a bin, zero outside of the histogram; the sum over chunks. *)
Local Open Scope Z_scope.
Definition bin (h : list Z) (i : nat) : Z := nth i h 0.
Definition bin2 (h : hist2) (i j : nat) : Z :=
  if andb (i <? rows2 h)%nat (j <? cols2 h)%nat then nth (i * cols2 h + j) (flat2 h) 0 else 0.
Definition sum_over {T} (f : T -> Z) (l : list T) : Z := fold_right Z.add 0 (map f l).

Lemma total_sum {T} (f : T -> Z) l : total f l = sum_over f l.
Proof. unfold total, sum_over. induction l; simpl; congruence. Qed.

(** One dimension, any lengths: every bin is the sum over the chunks, and the stored array is as
    long as the longest. *)
Theorem C18_histogram_sum : forall results,
  (forall i, bin (combine_hists results) i = sum_over (fun r => bin r i) results) /\
  (forall r, In r results -> (length r <= length (combine_hists results))%nat) /\
  (results <> [] -> exists r, In r results /\ length (combine_hists results) = length r).
Proof.
  intros [|r0 rs].
  { split; [intros [|i]; reflexivity|]. split; [intros r []|congruence]. }
  unfold combine_hists. destruct (fold_hist (r0 :: rs) (repeat 0 (length r0))) as [L N].
  rewrite repeat_length in L. set (f := fold_left combine_hist (r0 :: rs) (repeat 0 (length r0))) in *.
  split; [|split].
  - intros i. unfold bin at 1. rewrite N, nth_repeat0, total_sum. reflexivity.
  - rewrite L. clear. generalize (length r0). generalize (r0 :: rs). intros l k r.
    induction l as [|x l IH]; simpl; [tauto|]. intros [->|H]; [lia|]. apply IH in H. lia.
  - intros _. rewrite L. clear.
    assert (H : forall l, fold_right Nat.max (length r0) (map (@length Z) l) = length r0 \/
       exists r, In r l /\ fold_right Nat.max (length r0) (map (@length Z) l) = length r).
    { induction l as [|x l IH]; simpl; [auto|].
      destruct (Nat.max_spec (length x) (fold_right Nat.max (length r0) (map (@length Z) l))) as [[_ M]|[_ M]]; rewrite M.
      - destruct IH as [E|(r & H & E)]; [auto|right; exists r; auto].
      - right. exists x; auto. }
    destruct (H (r0 :: rs)) as [E|E]; [|exact E]. exists r0. split; [left; auto|exact E].
Qed.

(** Two dimensions: correct if all histograms have the same number of columns ... *)
Theorem C18_histogram2_sum : forall results c,
  (forall r, In r results -> cols2 r = c /\ length (flat2 r) = (rows2 r * c)%nat) ->
  forall i j, bin2 (combine_hists2 results) i j = sum_over (fun r => bin2 r i j) results.
Proof.
  intros [|r0 rs] c H i j; [unfold bin2; simpl; reflexivity|].
  unfold combine_hists2.
  set (z := mk_hist2 (rows2 r0) (cols2 r0) (repeat 0 (rows2 r0 * cols2 r0))).
  destruct (H r0 (or_introl eq_refl)) as [C0 _].
  destruct (fold_hist2 (r0 :: rs) z c) as (W & C & Rr & N).
  { unfold wf2, z. simpl. apply repeat_length. }
  { exact C0. }
  { apply Forall_forall. intros r Hr. destruct (H r Hr) as [E1 E2]. unfold wf2. rewrite E1. auto. }
  set (f := fold_left combine_hist2 (r0 :: rs) z) in *.
  assert (Hz : forall k, nth k (flat2 z) 0 = 0) by (intros; apply nth_repeat0).
  assert (Hin : forall r, In r (r0 :: rs) -> (rows2 r <= rows2 f)%nat).
  { rewrite Rr. generalize (rows2 z). generalize (r0 :: rs). intros l k r.
    induction l as [|x l IH]; simpl; [tauto|]. intros [->|Hx]; [lia|]. apply IH in Hx. lia. }
  unfold bin2 at 1. rewrite C.
  assert (Hr : forall r, In r (r0 :: rs) -> (j < c)%nat -> bin2 r i j = nth (i * c + j) (flat2 r) 0).
  { intros r Hr Hj. destruct (H r Hr) as [E1 E2]. unfold bin2. rewrite E1.
    destruct (Nat.ltb_spec i (rows2 r)); destruct (Nat.ltb_spec j c); simpl; try lia; auto.
    symmetry. apply nth_overflow. nia. }
  assert (S : forall (g1 g2 : hist2 -> Z) l, (forall r, In r l -> g1 r = g2 r) -> sum_over g1 l = sum_over g2 l).
  { intros g1 g2 l E. unfold sum_over. f_equal. apply map_ext_in. auto. }
  destruct (Nat.ltb_spec j c) as [Hj|Hj].
  - destruct (Nat.ltb_spec i (rows2 f)) as [Hi|Hi]; cbn [andb].
    + rewrite N, Hz, total_sum. apply S. intros r Hr'. symmetry. auto.
    + rewrite (S _ (fun _ => 0)).
      * unfold sum_over. clear. induction (r0 :: rs); simpl; auto.
      * intros r Hr'. unfold bin2. apply Hin in Hr'. destruct (Nat.ltb_spec i (rows2 r)); [lia|]. reflexivity.
  - rewrite andb_false_r. rewrite (S _ (fun _ => 0)).
    + unfold sum_over. clear. induction (r0 :: rs); simpl; auto.
    + intros r Hr'. unfold bin2. destruct (H r Hr') as [-> _]. destruct (Nat.ltb_spec j c); [lia|].
      rewrite andb_false_r. reflexivity.
Qed.

(** ... but not in general: a 2 x 1 and a 2 x 2 histogram. *)
Theorem C18_histogram2_refuted : exists results i j,
  (forall r, In r results -> length (flat2 r) = (rows2 r * cols2 r)%nat) /\
  bin2 (combine_hists2 results) i j <> sum_over (fun r => bin2 r i j) results.
Proof.
  exists [mk_hist2 2 1 [1; 2]; mk_hist2 2 2 [10; 20; 30; 40]], 1%nat, 0%nat. split.
  - intros r [<-|[<-|[]]]; reflexivity.
  - vm_compute. discriminate.
Qed.

Example C18_example : combine_hists [[1; 2]; [10]; [5; 5; 5]] = [16; 7; 5] /\
  flat2 (combine_hists2 [mk_hist2 1 2 [1; 2]; mk_hist2 2 2 [1; 1; 1; 1]]) = [2; 3; 1; 1].
Proof. split; reflexivity. Qed.

Print Assumptions C15_smc_order.
Print Assumptions C15_smc_table.
Print Assumptions C15_smc_empty_table_refuted.
Print Assumptions C16_smc_bounded.
Print Assumptions C16_smc_completes.
Print Assumptions C16_smc_can_complete.
Print Assumptions C17_smc_one_core_hangs.
Print Assumptions C17_smc_returned.
Print Assumptions C17_smc_silent_refuted.
Print Assumptions C17_smc_blocked_refuted.
Print Assumptions C18_histogram_sum.
Print Assumptions C18_histogram2_sum.
Print Assumptions C18_histogram2_refuted.
