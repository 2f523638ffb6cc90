(** Properties of the correlation histograms: C42 (two devices), C61 (consecutive events of one device). *)
From Coq Require Import ZArith List Bool Lia Arith Permutation Sorting.Sorted Reals Lra.
From Verif Require Import EventArraysModel EventArraysProofs EventArraysProps ChunksModel ChunksProofs ChunksProps MergeModel MergeProofs CorrelateModel CorrelateProofs.
Import ListNotations.
Local Open Scope Z_scope.

Lemma filter_length_le' {A} (f : A -> bool) l : (length (filter f l) <= length l)%nat.
Proof. induction l as [|x l IH]; cbn; [lia|]. destruct (f x); cbn; lia. Qed.

(** ** Specification *)
(** The number of pairs of a hit of the DUT and a hit of the reference in the same event with indices i and j *)
Definition pairs_in_bin (f : hit -> Z) (ref dut : list hit) (i j : Z) : nat :=
  length (filter (fun p => (h_event (fst p) =? h_event (snd p)) && ((f (fst p) =? i) && (f (snd p) =? j))) (list_prod dut ref)).
(** The table is sorted by the event number and each event has fewer than cs hits *)
Definition readable (cs : nat) (table : list hit) : Prop :=
  StronglySorted (fun a b => h_event a <= h_event b) table /\ forall e, (length (filter (fun a => (h_event a =? e)%Z) table) < cs)%nat.
Definition inside (nx ny : Z) (a : hit) : Prop := 0 <= h_x a < nx /\ 0 <= h_y a < ny.

Lemma count_app f P Q i j : count f (P ++ Q) i j = (count f P i j + count f Q i j)%nat.
Proof. unfold count. now rewrite filter_app, app_length. Qed.
Lemma count_pairs f dut r i j : count f (pairs_of dut r) i j = pairs_in_bin f [r] dut i j.
Proof.
  unfold count, pairs_of, pairs_in_bin. induction dut as [|d dut IH]; [reflexivity|]. cbn [list_prod map app filter fst snd].
  unfold same at 1. destruct (Z.eqb_spec (h_event d) (h_event r)) as [E|E]; cbn [map filter fst snd andb]; [|exact IH].
  destruct ((f d =? i) && (f r =? j)); cbn [length]; now rewrite IH.
Qed.
Lemma pairs_cons f r ref dut i j : pairs_in_bin f (r :: ref) dut i j = (pairs_in_bin f [r] dut i j + pairs_in_bin f ref dut i j)%nat.
Proof.
  unfold pairs_in_bin. induction dut as [|d dut IH]; [reflexivity|]. cbn [list_prod map app filter fst snd].
  destruct ((h_event d =? h_event r) && _); cbn [length]; rewrite !filter_app, !app_length, IH; lia.
Qed.
Lemma count_all f ref dut i j : count f (flat_map (pairs_of dut) ref) i j = pairs_in_bin f ref dut i j.
Proof.
  induction ref as [|r ref IH]; cbn [flat_map].
  - unfold pairs_in_bin, count. induction dut; [reflexivity|]. exact IHdut.
  - rewrite count_app, count_pairs, IH. now rewrite <- pairs_cons.
Qed.

(** C42: each pair of hits of the same event is counted once, whatever the chunk size; the entries are integers with 32 bits *)
Theorem C42_correlate cs ref dut nx nx' ny ny' : (1 <= cs)%nat -> readable cs ref -> readable cs dut ->
  Forall (inside nx' ny') ref -> Forall (inside nx ny) dut ->
  exists hx hy, correlate cs ref dut (zeros nx nx', zeros ny ny') = Ok (hx, hy) /\
    forall i j, bin hx i j = wrap32 (Z.of_nat (pairs_in_bin h_x ref dut i j)) /\ bin hy i j = wrap32 (Z.of_nat (pairs_in_bin h_y ref dut i j)).
Proof.
  intros Hcs [Sr Br] [Sd Bd] Or Od. unfold correlate. set (p := Params None None None None cs false true true).
  pose proof (C07_aligned_chunks h_event ref p Sr) as H.
  assert (V : valid_call ref p) by (unfold valid_call, start_of, stop_of, p; simpl; repeat split; try lia; discriminate).
  specialize (H V). pose proof (C07_whole_table h_event ref cs Sr Hcs) as W. unfold default_call in W. fold p in W.
  destruct (data_aligned_at_events h_event ref p) as [ys e]. destruct W as (W1 & W2 & _). specialize (W1 Br). subst e. destruct (W2 eq_refl) as [C _].
  destruct H as (rest & _ & Hd & _ & Hc & Hsep). rewrite (Hd eq_refl) in Hsep.
  destruct (correlate_loop_ok cs Hcs nx nx' ny ny' dut) with (chunks := ys) (lo := @None Z) (idx := @None nat) (hs := (zeros nx nx', zeros ny ny')) (P := @nil (hit * hit)) as (hs' & -> & (_ & _ & _ & _ & B)); auto.
  - apply Forall_forall. intros [c i] Hi. now apply (Hc c i).
  - apply separated_split. exact Hsep.
  - now rewrite C.
  - now rewrite C.
  - discriminate.
  - repeat split.
  - exists (fst hs'), (snd hs'). split; [now destruct hs'|]. intros i j. destruct (B i j) as [B1 B2]. rewrite app_nil_r, C, count_all in B1, B2. now split.
Qed.
(** ... and exact as long as there are fewer than 2^31 pairs in the bin *)
Theorem C42_exact cs ref dut nx nx' ny ny' : (1 <= cs)%nat -> readable cs ref -> readable cs dut ->
  Forall (inside nx' ny') ref -> Forall (inside nx ny) dut ->
  exists hx hy, correlate cs ref dut (zeros nx nx', zeros ny ny') = Ok (hx, hy) /\
    forall i j, (Z.of_nat (pairs_in_bin h_x ref dut i j) < 2 ^ 31 -> bin hx i j = Z.of_nat (pairs_in_bin h_x ref dut i j))
      /\ (Z.of_nat (pairs_in_bin h_y ref dut i j) < 2 ^ 31 -> bin hy i j = Z.of_nat (pairs_in_bin h_y ref dut i j)).
Proof.
  intros. destruct (C42_correlate cs ref dut nx nx' ny ny') as (hx & hy & E & B); auto. exists hx, hy. split; [exact E|].
  assert (W : forall n, Z.of_nat n < 2 ^ 31 -> wrap32 (Z.of_nat n) = Z.of_nat n) by (intros n Hn; unfold wrap32; rewrite Z.mod_small; lia).
  intros i j. destruct (B i j) as [-> ->]. split; apply W.
Qed.
(** A bin with 2^31 pairs has a negative number of entries *)
Theorem C42_overflow_refuted : exists cs ref dut hx hy, readable cs ref /\ readable cs dut /\ Forall (inside 1 1) ref /\ Forall (inside 1 1) dut
  /\ correlate cs ref dut (zeros 1 1, zeros 1 1) = Ok (hx, hy) /\ Z.of_nat (pairs_in_bin h_x ref dut 0 0) = 2 ^ 31 /\ bin hx 0 0 = - 2 ^ 31.
Proof.
  set (n := Z.to_nat (2 ^ 31)). set (h := Hit 5 0 0).
  assert (Hn : Z.of_nat n = 2 ^ 31) by (unfold n; rewrite Z2Nat.id; [reflexivity|discriminate]). clearbody n.
  assert (R1 : readable (S (S n)) [h]).
  { split; [repeat constructor|]. intros e. pose proof (filter_length_le' (fun a => h_event a =? e) [h]) as L. cbn [length] in L. lia. }
  assert (R2 : readable (S (S n)) (repeat h n)).
  { split.
    - clear. induction n as [|n IH]; constructor; auto. apply Forall_forall. intros x Hx. apply repeat_spec in Hx. subst. lia.
    - intros e. rewrite <- (repeat_length h n) at 2. apply Nat.lt_trans with (S (length (repeat h n))); [|lia]. apply Nat.lt_succ_r. apply filter_length_le'. }
  assert (O1 : Forall (inside 1 1) [h]) by (repeat constructor; cbn; lia).
  assert (O2 : Forall (inside 1 1) (repeat h n)) by (apply Forall_forall; intros x Hx; apply repeat_spec in Hx; subst; split; cbn; lia).
  destruct (C42_correlate (S (S n)) [h] (repeat h n) 1 1 1 1) as (hx & hy & E & B); auto; [lia|].
  assert (Np : pairs_in_bin h_x [h] (repeat h n) 0 0 = n) by (unfold pairs_in_bin; clear; induction n as [|n IH]; [reflexivity|]; cbn in *; now rewrite IH).
  exists (S (S n)), [h], (repeat h n), hx, hy. repeat split; try apply R1; try apply R2; auto.
  - now rewrite Np.
  - rewrite (proj1 (B 0 0)), Np, Hn. reflexivity.
Qed.
(** An index outside of the histogram writes to memory outside of it *)
Theorem C42_outside_refuted : exists cs ref dut, readable cs ref /\ readable cs dut /\ Forall (inside 2 2) ref /\ correlate cs ref dut (zeros 2 2, zeros 2 2) = OutOfBounds.
Proof.
  exists 5%nat, [Hit 1 0 0], [Hit 1 2 0]. assert (R : forall h, readable 5 [h]).
  { intros h. split; [repeat constructor|]. intros e. pose proof (filter_length_le' (fun a => h_event a =? e) [h]) as L. cbn [length] in L. lia. }
  repeat split; try apply R. repeat constructor; cbn; lia.
Qed.
(** Three chunks of the reference, two of which end in an event the DUT does not have *)
Example C42_example :
  match correlate 3 [Hit 1 0 1; Hit 1 1 1; Hit 4 1 0; Hit 6 0 0; Hit 7 1 1] [Hit 1 0 0; Hit 2 0 0; Hit 4 1 1; Hit 4 1 0; Hit 7 0 1; Hit 9 0 0] (zeros 2 2, zeros 2 2) with
  | Ok (hx, hy) => Some (map (fun p => bin hx (fst p) (snd p)) [(0, 0); (0, 1); (1, 0); (1, 1)], map (fun p => bin hy (fst p) (snd p)) [(0, 0); (0, 1); (1, 0); (1, 1)])
  | _ => None
  end = Some ([1; 2; 0; 2], [1; 2; 1; 1]).
Proof. vm_compute. reflexivity. Qed.

(** ** C61: correlation of the hits of an event with those of the preceding events (for an event building without errors no correlation is seen) *)
(** The number of pairs of hits such that the first one is in one of the [range] events in front of the second one *)
Definition pairs_in_range (f : hit -> Z) (range : Z) (hits : list hit) (i j : Z) : nat :=
  length (filter (fun p => ((h_event (snd p) - range <=? h_event (fst p)) && (h_event (fst p) <? h_event (snd p))) && ((f (fst p) =? i) && (f (snd p) =? j))) (list_prod hits hits)).
Definition pairs_range2 (f : hit -> Z) (range : Z) (hits todo : list hit) (i j : Z) : nat :=
  length (filter (fun p => ((h_event (snd p) - range <=? h_event (fst p)) && (h_event (fst p) <? h_event (snd p))) && ((f (fst p) =? i) && (f (snd p) =? j))) (list_prod hits todo)).
Lemma count_before f range all cur i j : count f (pairs_before range all cur) i j = pairs_range2 f range all [cur] i j.
Proof.
  unfold count, pairs_before, pairs_range2. induction all as [|d all IH]; [reflexivity|]. cbn [list_prod map app filter fst snd].
  unfold window at 1. destruct (_ && _) eqn:E; cbn [map filter fst snd andb]; [|exact IH].
  destruct ((f d =? i) && (f cur =? j)); cbn [length]; now rewrite IH.
Qed.
Lemma range_cons f range all r todo i j : pairs_range2 f range all (r :: todo) i j = (pairs_range2 f range all [r] i j + pairs_range2 f range all todo i j)%nat.
Proof.
  unfold pairs_range2. induction all as [|d all IH]; [reflexivity|]. cbn [list_prod map app filter fst snd].
  destruct (_ && _); cbn [length]; rewrite !filter_app, !app_length, IH; lia.
Qed.
Theorem C61_range hits range nx ny : 0 <= range -> StronglySorted (fun a b => h_event a <= h_event b) hits -> (forall a, In a hits -> 0 <= h_event a) -> Forall (inside nx ny) hits ->
  exists hx hy, correlate_hits_on_event_range hits range (zeros nx nx, zeros ny ny) = Ok (hx, hy) /\
    forall i j, bin hx i j = wrap32 (Z.of_nat (pairs_in_range h_x range hits i j)) /\ bin hy i j = wrap32 (Z.of_nat (pairs_in_range h_y range hits i j)).
Proof.
  intros Hr S Hp O. destruct (range_loop_ok nx nx ny ny hits range Hr S O O hits (-1) None (zeros nx nx, zeros ny ny) []) as (hs & E & (_ & _ & _ & _ & B)); auto.
  - intros a Ha H. specialize (Hp a Ha). lia.
  - repeat split.
  - exists (fst hs), (snd hs). split; [now destruct hs|]. intros i j. rewrite app_nil_r in B. destruct (B i j) as [-> ->].
    assert (G : forall f todo, count f (flat_map (pairs_before range hits) todo) i j = pairs_range2 f range hits todo i j).
    { intros f. induction todo as [|r todo IH]; cbn [flat_map].
      - unfold pairs_range2, count. clear. induction hits as [|d hits IH]; [reflexivity|]. exact IH.
      - rewrite count_app, count_before, IH. now rewrite <- range_cons. }
    split; rewrite G; reflexivity.
Qed.
(** check_file adds up the pairs within each of the chunks, all with the same range of events *)
Fixpoint sum_chunks (n : list hit -> nat) (chunks : list (list hit)) : nat :=
  match chunks with [] => 0%nat | c :: chunks => (n c + sum_chunks n chunks)%nat end.
Theorem C61_chunks chunks range nx ny : 0 <= range ->
  Forall (fun c => StronglySorted (fun a b => h_event a <= h_event b) c /\ (forall a, In a c -> 0 <= h_event a) /\ Forall (inside nx ny) c) chunks ->
  exists hx hy, check_loop chunks range (zeros nx nx, zeros ny ny) = Ok (hx, hy) /\
    forall i j, bin hx i j = wrap32 (Z.of_nat (sum_chunks (fun c => pairs_in_range h_x range c i j) chunks))
             /\ bin hy i j = wrap32 (Z.of_nat (sum_chunks (fun c => pairs_in_range h_y range c i j) chunks)).
Proof.
  intros Hr Hc.
  assert (G : forall hs P, holds nx nx ny ny hs P -> exists hs', check_loop chunks range hs = Ok hs' /\
    forall i j, bin (fst hs') i j = wrap32 (Z.of_nat (sum_chunks (fun c => pairs_in_range h_x range c i j) chunks + count h_x P i j))
             /\ bin (snd hs') i j = wrap32 (Z.of_nat (sum_chunks (fun c => pairs_in_range h_y range c i j) chunks + count h_y P i j))).
  { induction chunks as [|c chunks IH]; intros hs P Hh; cbn [check_loop sum_chunks].
    - exists hs. split; [reflexivity|]. intros i j. destruct Hh as (_ & _ & _ & _ & B). apply B.
    - inversion Hc as [|? ? (So & Hp & O) Hc']; subst.
      destruct (range_loop_ok nx nx ny ny c range Hr So O O c (-1) None hs P) as (hs1 & E & H1); auto.
      { intros a Ha H. specialize (Hp a Ha). lia. }
      unfold correlate_hits_on_event_range. rewrite E.
      destruct (IH Hc' hs1 _ H1) as (hs2 & E2 & B). exists hs2. split; [exact E2|]. intros i j. destruct (B i j) as [B1 B2].
      assert (K : forall f todo, count f (flat_map (pairs_before range c) todo) i j = pairs_range2 f range c todo i j).
      { intros f. induction todo as [|r todo IHt]; cbn [flat_map].
        - unfold pairs_range2, count. clear. induction c as [|d c IHc]; [reflexivity|]. exact IHc.
        - rewrite count_app, count_before, IHt. now rewrite <- range_cons. }
      rewrite B1, B2, !count_app, !K. split; do 2 f_equal; unfold pairs_in_range, pairs_range2; lia. }
  destruct (G (zeros nx nx, zeros ny ny) []) as (hs & E & B); [repeat split|].
  exists (fst hs), (snd hs). split; [now destruct hs|]. intros i j. destruct (B i j) as [-> ->]. split; do 2 f_equal; cbn; lia.
Qed.
(** The function is called for each chunk: pairs with one hit in the chunk before are not counted.  Same hits, in one chunk and in two *)
Theorem C61_chunks_refuted : exists c1 c2 hs1 hs2, StronglySorted (fun a b => h_event a <= h_event b) (c1 ++ c2) /\ Forall (inside 1 1) (c1 ++ c2)
  /\ check_loop [c1 ++ c2] 1 (zeros 1 1, zeros 1 1) = Ok hs1 /\ check_loop [c1; c2] 1 (zeros 1 1, zeros 1 1) = Ok hs2
  /\ bin (fst hs1) 0 0 = 2 /\ bin (fst hs2) 0 0 = 1.
Proof.
  exists [Hit 1 0 0; Hit 2 0 0], [Hit 3 0 0].
  assert (V : forall chunks v, match check_loop chunks 1 (zeros 1 1, zeros 1 1) with Ok hs => bin (fst hs) 0 0 =? v | _ => false end = true ->
    exists hs, check_loop chunks 1 (zeros 1 1, zeros 1 1) = Ok hs /\ bin (fst hs) 0 0 = v).
  { intros chunks v. destruct check_loop as [hs| | |]; try discriminate. intros H. apply Z.eqb_eq in H. now exists hs. }
  destruct (V [[Hit 1 0 0; Hit 2 0 0] ++ [Hit 3 0 0]] 2) as (hs1 & E1 & V1); [vm_compute; reflexivity|].
  destruct (V [[Hit 1 0 0; Hit 2 0 0]; [Hit 3 0 0]] 1) as (hs2 & E2 & V2); [vm_compute; reflexivity|].
  exists hs1, hs2. repeat split; auto; repeat constructor; cbn; lia.
Qed.
Example C61_example :
  match correlate_hits_on_event_range [Hit 1 0 0; Hit 2 1 0; Hit 2 0 0; Hit 4 1 1] 2 (zeros 2 2, zeros 2 2) with
  | Ok (hx, hy) => Some (map (fun p => bin hx (fst p) (snd p)) [(0, 0); (0, 1); (1, 0); (1, 1)])
  | _ => None
  end = Some [1; 2; 0; 1].
Proof. vm_compute. reflexivity. Qed.

Print Assumptions C42_correlate.
Print Assumptions C42_exact.
Print Assumptions C42_overflow_refuted.
Print Assumptions C42_outside_refuted.
Print Assumptions C61_range.
Print Assumptions C61_chunks.
Print Assumptions C61_chunks_refuted.
