(** Properties C01, C02, C03, C05, C06: event array helpers. *)
From Coq Require Import ZArith List Bool Lia Sorting.Sorted Sorting.Permutation.
From Verif Require Import EventArraysModel EventArraysProofs.
Import ListNotations.
Open Scope Z_scope.

(** Specification vocabulary (independent of the model). *)
Definition ascending (l : list Z) : Prop := StronglySorted Z.le l.
Definition strictly_ascending (l : list Z) : Prop := StronglySorted Z.lt l.
Definition occurrences (v : Z) (l : list Z) : nat := count_occ Z.eq_dec l v.
Definition ascending_by {T} (f : T -> Z) (l : list T) : Prop :=
  StronglySorted (fun a b => f a <= f b) l.
(** rows of event [e], in order *)
Definition of_event {T} (f : T -> Z) (e : Z) (l : list T) : list T :=
  filter (fun r => f r =? e) l.
(** all pairs of rows of the same event, for each row of the first table in order *)
Definition same_event_pairs {A B} (f : A -> Z) (g : B -> Z) (d1 : list A) (d2 : list B)
  : list (A * B) :=
  flat_map (fun a => map (fun b => (a, b)) (of_event g (f a) d2)) d1.

(** ** C01 *)
Theorem C01_common_events : forall arr1 arr2,
  ascending arr1 -> ascending arr2 -> (forall e, In e arr1 -> 0 <= e) -> arr2 <> [] ->
  exists r, get_events_in_both_arrays arr1 arr2 = Ok r /\
    strictly_ascending r /\
    (forall e, In e r <-> In e arr1 /\ In e arr2) /\
    (length r <= length arr1)%nat.
Proof.
  intros arr1 arr2 H1 H2 H0 Hne.
  destruct (events_in_both_loop_spec arr1 (-1) arr2 Hne H2 H1) as (r & Hr & Hs & Hin & Hl).
  { intros x Hx. specialize (H0 x Hx). lia. }
  exists r. repeat split; auto.
  - apply Hin in H; tauto.
  - apply Hin in H; tauto.
  - intros [Ha Hb]. apply Hin. specialize (H0 e Ha). repeat split; auto; lia.
Qed.

Example C01_nonvacuous :
  ascending [0; 1; 1; 4; 7; 7] /\ ascending [1; 2; 7; 7; 9] /\
  get_events_in_both_arrays [0; 1; 1; 4; 7; 7] [1; 2; 7; 7; 9] = Ok [1; 7].
Proof. repeat split; try reflexivity; repeat constructor; lia. Qed.

(** Without the two side conditions the statement fails: an event number -1 is never
    reported, and an empty second array is read out of bounds. *)
Theorem C01_negative_event_refuted :
  exists arr1 arr2, ascending arr1 /\ ascending arr2 /\ In (-1) arr1 /\ In (-1) arr2 /\
    get_events_in_both_arrays arr1 arr2 = Ok [].
Proof. exists [-1], [-1]. repeat split; try (repeat constructor; lia); simpl; auto. Qed.

Theorem C01_empty_second_array_refuted : forall e rest, 0 <= e ->
  get_events_in_both_arrays (e :: rest) [] = OutOfBounds.
Proof.
  intros e rest He. unfold get_events_in_both_arrays. simpl.
  destruct (Z.eqb_spec e (-1)); [lia|reflexivity].
Qed.

(** ** C02 *)
Theorem C02_max_events : forall arr1 arr2,
  ascending arr1 -> ascending arr2 -> arr1 <> [] -> arr2 <> [] ->
  exists r, get_max_events_in_both_arrays arr1 arr2 = Ok r /\ ascending r /\
    forall v, occurrences v r = Nat.max (occurrences v arr1) (occurrences v arr2).
Proof.
  intros arr1 arr2 H1 H2 N1 N2.
  destruct (get_max_events_spec arr1 arr2 N1 N2 H1 H2) as (r & Hr & Hs & Hc).
  exists r. auto.
Qed.

Example C02_nonvacuous :
  get_max_events_in_both_arrays [0; 0; 1; 3; 3; 3; 8] [0; 2; 3; 3; 9; 9]
  = Ok [0; 0; 1; 2; 3; 3; 3; 8; 9; 9].
Proof. reflexivity. Qed.

(** An empty array (e.g. a chunk without clusters) is read out of bounds. *)
Theorem C02_empty_array_refuted : forall arr,
  get_max_events_in_both_arrays [] arr = OutOfBounds /\
  get_max_events_in_both_arrays arr [] = OutOfBounds.
Proof. intros arr; split; [|destruct arr]; reflexivity. Qed.

(** ** C03 *)
Theorem C03_in1d_events : forall arr1 arr2,
  ascending arr1 -> ascending arr2 -> arr1 <> [] -> arr2 <> [] ->
  exists r, in1d_events arr1 arr2 = Ok r /\ length r = length arr1 /\
    forall i e b, nth_error arr1 i = Some e -> nth_error r i = Some b ->
                  (b = true <-> In e arr2).
Proof.
  intros arr1 arr2 H1 H2 N1 N2. unfold in1d_events.
  destruct (in1d_loop_spec arr1 arr2 N2 H2 H1) as (r & Hr & HF).
  exists r. destruct arr1 as [|x arr1]; [congruence|]. split; [exact Hr|].
  split; [clear - HF; induction HF; simpl; congruence|].
  clear - HF. induction HF as [|e b l l' Heb HF IH]; intros i e' b' Hi Hb.
  - destruct i; discriminate.
  - destruct i; simpl in *; [injection Hi as <-; injection Hb as <-; exact Heb|].
    eapply IH; eauto.
Qed.

Example C03_nonvacuous :
  in1d_events [0; 1; 1; 5; 6] [1; 1; 2; 6; 6] = Ok [false; true; true; false; true].
Proof. reflexivity. Qed.

(** ** C05 *)
Theorem C05_event_pairs : forall A B (evA : A -> Z) (evB : B -> Z) zA zB d1 d2,
  ascending_by evA d1 -> ascending_by evB d2 ->
  exists r1 r2, merge_on_event_number evA evB zA zB d1 d2 = Ok (r1, r2) /\
    length r1 = length r2 /\
    combine r1 r2 = same_event_pairs evA evB d1 d2.
Proof.
  intros A B evA evB zA zB d1 d2 H1 H2.
  eexists; eexists. split; [apply merge_on_event_number_spec; auto|].
  rewrite !map_length. split; [reflexivity|].
  change (same_event_pairs evA evB d1 d2) with (pairs_spec evA evB d1 d2).
  generalize (pairs_spec evA evB d1 d2). clear.
  induction l as [|[a b] l IH]; simpl; congruence.
Qed.

(** The pair list is what the property says: a pair is listed iff both rows are rows
    of the inputs and the events agree, and the number of its listings is the product
    of the numbers of occurrences. *)
Theorem C05_event_pairs_meaning : forall A B (evA : A -> Z) (evB : B -> Z) d1 d2 a b,
  In (a, b) (same_event_pairs evA evB d1 d2) <-> In a d1 /\ In b d2 /\ evA a = evB b.
Proof.
  intros. unfold same_event_pairs. rewrite in_flat_map. split.
  - intros (a' & Ha & Hb). apply in_map_iff in Hb. destruct Hb as (b' & E & Hb).
    injection E as -> ->. apply filter_In in Hb. rewrite Z.eqb_eq in Hb. intuition.
  - intros (Ha & Hb & E). exists a. split; [exact Ha|]. apply in_map.
    apply filter_In. rewrite Z.eqb_eq. intuition.
Qed.

Section Multiplicity.
  Context {A B : Type} (decA : forall x y : A, {x = y} + {x <> y})
          (decB : forall x y : B, {x = y} + {x <> y}).
  Definition dec_pair : forall x y : A * B, {x = y} + {x <> y}.
  Proof. decide equality. Defined.

  Lemma count_map_pair (a a0 : A) (b : B) l :
    count_occ dec_pair (map (fun b => (a0, b)) l) (a, b) =
    if decA a0 a then count_occ decB l b else O.
  Proof.
    induction l as [|x l IH]; simpl.
    - destruct (decA a0 a); reflexivity.
    - rewrite IH. destruct (dec_pair (a0, x) (a, b)) as [E|E];
        destruct (decA a0 a) as [Ea|Ea]; destruct (decB x b) as [Eb|Eb]; subst; try congruence; reflexivity.
  Qed.

  Lemma count_filter_event (g : B -> Z) e b l :
    count_occ decB (filter (fun r => g r =? e) l) b =
    if g b =? e then count_occ decB l b else O.
  Proof.
    induction l as [|x l IH]; simpl.
    - destruct (g b =? e); reflexivity.
    - destruct (g x =? e) eqn:Ex; simpl; rewrite IH; destruct (decB x b) as [->|];
        try reflexivity; rewrite Ex; reflexivity.
  Qed.

  Theorem C05_multiplicity : forall (evA : A -> Z) (evB : B -> Z) d1 d2 a b,
    evA a = evB b ->
    count_occ dec_pair (same_event_pairs evA evB d1 d2) (a, b) =
    (count_occ decA d1 a * count_occ decB d2 b)%nat.
  Proof.
    intros evA evB d1 d2 a b E. unfold same_event_pairs.
    induction d1 as [|x d1 IH]; simpl; [reflexivity|].
    rewrite count_occ_app, IH, count_map_pair. unfold of_event. rewrite count_filter_event.
    destruct (decA x a) as [->|]; [|reflexivity].
    rewrite E, Z.eqb_refl. reflexivity.
  Qed.
End Multiplicity.

Example C05_nonvacuous :
  merge_on_event_number fst fst (0, 0) (0, 0)
    [(1, 10); (1, 11); (3, 12)] [(0, 20); (1, 21); (1, 22); (2, 23); (3, 24)]
  = Ok ([(1, 10); (1, 10); (1, 11); (1, 11); (3, 12)],
        [(1, 21); (1, 22); (1, 21); (1, 22); (3, 24)]).
Proof. reflexivity. Qed.

(** ** C06 *)
(** Entry [i] of the result is the k-th cluster of the event of entry [i], where k
    counts the earlier entries of that event on the axis, if such a cluster exists;
    else the initial (empty) entry. *)
Theorem C06_map_cluster : forall B (evB : B -> Z) events clusters init,
  ascending events -> ascending_by evB clusters -> length init = length events ->
  length (map_cluster evB events clusters init) = length events /\
  forall i m, nth_error init i = Some m ->
    let e := nth i events 0 in
    nth_error (map_cluster evB events clusters init) i =
    Some (nth (occurrences e (firstn i events)) (of_event evB e clusters) m).
Proof.
  intros B evB events clusters init H1 H2 Hl. split.
  - rewrite map_cluster_length; auto.
  - intros i m Hm. apply map_cluster_spec; auto.
Qed.

(** No cluster is lost if the axis has enough entries for each event: on the entries
    of an event, the result holds all clusters of the event in order, then the initial
    entries. *)
Definition axis_entries {T} (e : Z) (events : list Z) (l : list T) : list T :=
  map snd (filter (fun p => fst p =? e) (combine events l)).

Theorem C06_no_cluster_lost : forall B (evB : B -> Z) events clusters init e,
  ascending events -> ascending_by evB clusters -> length init = length events ->
  (length (of_event evB e clusters) <= occurrences e events)%nat ->
  axis_entries e events (map_cluster evB events clusters init) =
  of_event evB e clusters ++
  skipn (length (of_event evB e clusters)) (axis_entries e events init).
Proof.
  intros B evB events clusters init e H1 H2 Hl Hn.
  change (axis_entries (T:=B)) with (select (T:=B)).
  rewrite map_cluster_select by auto. cbv zeta.
  unfold of_event, occurrences in *.
  rewrite firstn_all2; auto.
Qed.

(** Too many clusters: exactly the first ones are kept. *)
Theorem C06_surplus_clusters_dropped : forall B (evB : B -> Z) events clusters init e,
  ascending events -> ascending_by evB clusters -> length init = length events ->
  (occurrences e events <= length (of_event evB e clusters))%nat ->
  axis_entries e events (map_cluster evB events clusters init) =
  firstn (occurrences e events) (of_event evB e clusters).
Proof.
  intros B evB events clusters init e H1 H2 Hl Hn.
  change (axis_entries (T:=B)) with (select (T:=B)).
  rewrite map_cluster_select by auto. cbv zeta.
  unfold of_event, occurrences in *.
  rewrite (skipn_all2 (select e events init)); [apply app_nil_r|].
  rewrite select_length; auto.
Qed.

Example C06_nonvacuous :
  map_cluster (fun x => x) [0; 1; 1; 2; 3; 3] [0; 1; 2; 2; 3; 4] [-1; -1; -1; -1; -1; -1]
  = [0; 1; -1; 2; 3; -1].
Proof. reflexivity. Qed.

Print Assumptions C01_common_events.
Print Assumptions C01_negative_event_refuted.
Print Assumptions C01_empty_second_array_refuted.
Print Assumptions C02_max_events.
Print Assumptions C02_empty_array_refuted.
Print Assumptions C03_in1d_events.
Print Assumptions C05_event_pairs.
Print Assumptions C05_event_pairs_meaning.
Print Assumptions C05_multiplicity.
Print Assumptions C06_map_cluster.
Print Assumptions C06_no_cluster_lost.
Print Assumptions C06_surplus_clusters_dropped.
