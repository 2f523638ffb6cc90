(** C14: noisy pixel masking. *)
From Coq Require Import ZArith List Bool Lia Arith.
From Verif Require Import PixelMaskModel.
Import ListNotations.
Local Open Scope Z_scope.

Section Props.
  Variable n_pixels : nat.
  Variable median : (nat -> Z) -> (nat -> Z).
  Variable exceeds : (nat -> Z) -> (nat -> Z) -> nat -> bool.
  Notation loop := (mask_loop n_pixels median exceeds).

  (** *** Specification: the image the next iteration works on is the original one in which the
      masked pixels were replaced by something. *)
  Definition replaced (occ0 : nat -> Z) (mask : nat -> bool) (occ : nat -> Z) : Prop :=
    forall i, mask i = false -> occ i = occ0 i.
  (** a pixel is noisy in an image *)
  Definition noisy (occ : nat -> Z) (i : nat) : Prop := occ i <> 0 /\ exceeds occ (median occ) i = true.
  Definition n_masked (mask : nat -> bool) : nat := length (filter mask (seq 0 n_pixels)).

  Lemma filter_mono (f g : nat -> bool) l : (forall i, In i l -> f i = true -> g i = true) ->
    (length (filter f l) <= length (filter g l))%nat.
  Proof.
    induction l as [|x l IH]; intros H; simpl; auto.
    assert (IH' := IH (fun i Hi => H i (or_intror Hi))). specialize (H x (or_introl eq_refl)).
    destruct (f x) eqn:E1; destruct (g x) eqn:E2; simpl; try lia; specialize (H eq_refl); discriminate.
  Qed.
  Lemma filter_mono_lt (f g : nat -> bool) l k : (forall i, In i l -> f i = true -> g i = true) ->
    In k l -> f k = false -> g k = true -> (length (filter f l) < length (filter g l))%nat.
  Proof.
    induction l as [|x l IH]; intros H Hk F G; [contradiction|]. simpl.
    assert (M := filter_mono f g l (fun i Hi => H i (or_intror Hi))).
    destruct Hk as [->|Hk].
    - rewrite F, G. simpl. lia.
    - specialize (IH (fun i Hi => H i (or_intror Hi)) Hk F G). specialize (H x (or_introl eq_refl)).
      destruct (f x) eqn:E1; destruct (g x) eqn:E2; simpl; try lia; specialize (H eq_refl); discriminate.
  Qed.
  Lemma n_masked_le mask : (n_masked mask <= n_pixels)%nat.
  Proof.
    unfold n_masked. pose proof (filter_mono mask (fun _ => true) (seq 0 n_pixels) (fun _ _ _ => eq_refl)) as H.
    assert (E : filter (fun _ : nat => true) (seq 0 n_pixels) = seq 0 n_pixels) by (generalize (seq 0 n_pixels); induction l; simpl; congruence).
    rewrite E, seq_length in H. auto.
  Qed.

  (* one more pixel is masked unless the loop stops *)
  Lemma n_new_pos occ mask : n_new n_pixels median exceeds occ mask <> 0%nat ->
    (n_masked mask < n_masked (new_mask median exceeds occ mask))%nat.
  Proof.
    intros H. unfold n_new in H.
    destruct (filter (fun i => tmp_mask median exceeds occ i && xorb (tmp_mask median exceeds occ i) (mask i)) (seq 0 n_pixels)) as [|k r] eqn:E.
    { simpl in H. congruence. }
    assert (K : In k (k :: r)) by (left; auto). rewrite <- E in K. apply filter_In in K. destruct K as [K1 K2].
    apply andb_true_iff in K2. destruct K2 as [K2 K3]. rewrite K2 in K3. 
    apply (filter_mono_lt _ _ _ k); auto.
    - intros i _ Hi. unfold new_mask. rewrite Hi. auto.
    - destruct (mask k); auto; discriminate.
    - unfold new_mask. rewrite K2. apply orb_true_r.
  Qed.

  Lemma loop_spec occ0 iterations : forall fuel i occ mask,
    (n_pixels < fuel + n_masked mask)%nat -> replaced occ0 mask occ ->
    (forall k, mask k = true -> occ0 k <> 0) ->
    exists m j occ', loop fuel iterations i occ mask = Some (m, j) /\
      (j <= S i + (n_masked m - n_masked mask))%nat /\
      (forall k, mask k = true -> m k = true) /\
      (forall k, m k = true -> occ0 k <> 0) /\
      replaced occ0 m occ' /\
      ((iterations = 0%nat -> forall k, (k < n_pixels)%nat -> noisy occ' k -> m k = true) /\
       (iterations <> 0%nat -> (i < iterations)%nat -> (j <= iterations)%nat)).
  Proof.
    induction fuel as [|fuel IH]; intros i occ mask Hf Hr Hz.
    { pose proof (n_masked_le mask). lia. }
    cbn [mask_loop].
    set (m1 := new_mask median exceeds occ mask).
    assert (Hz1 : forall k, m1 k = true -> occ0 k <> 0).
    { intros k Hk. unfold m1, new_mask in Hk. destruct (mask k) eqn:Ek; auto. simpl in Hk.
      unfold tmp_mask in Hk. apply andb_true_iff in Hk. destruct Hk as [Hk _].
      rewrite (Hr k Ek) in Hk. destruct (Z.eqb_spec (occ0 k) 0); [discriminate|auto]. }
    assert (Hm1 : forall k, mask k = true -> m1 k = true) by (intros k Hk; unfold m1, new_mask; rewrite Hk; auto).
    assert (Hle : (n_masked mask <= n_masked m1)%nat) by (apply filter_mono; auto).
    assert (Hrep : replaced occ0 m1 occ).
    { intros k Hk. apply Hr. destruct (mask k) eqn:E; auto. rewrite (Hm1 k E) in Hk. discriminate. }
    destruct (Nat.eqb_spec (n_new n_pixels median exceeds occ mask) 0) as [E|N]; cbn [orb].
    - exists m1, (S i), occ. split; [reflexivity|]. split; [lia|]. split; [auto|]. split; [auto|]. split; [auto|]. split.
      + intros _ k Hk [N1 N2]. destruct (m1 k) eqn:E1; auto. exfalso.
        assert (T : tmp_mask median exceeds occ k = true).
        { unfold tmp_mask. rewrite N2. destruct (Z.eqb_spec (occ k) 0); [congruence|auto]. }
        unfold m1, new_mask in E1. rewrite T, orb_true_r in E1. discriminate.
      + intros. lia.
    - destruct (negb (iterations =? 0)%nat && (iterations <=? S i)%nat) eqn:Es.
      + apply andb_true_iff in Es. destruct Es as [Es1 Es2]. apply Nat.leb_le in Es2.
        destruct (Nat.eqb_spec iterations 0); [discriminate|].
        exists m1, (S i), occ. split; [reflexivity|]. split; [lia|]. split; [auto|]. split; [auto|]. split; [auto|]. split; lia.
      + pose proof (n_new_pos occ mask N) as Hlt. fold m1 in Hlt.
        destruct (IH (S i) (new_occ median exceeds occ mask) m1) as (m & j & occ' & H1 & H2 & H3 & H4 & H5 & H6 & H7).
        * lia.
        * intros k Hk. unfold new_occ. fold m1. rewrite Hk. apply Hrep. auto.
        * auto.
        * assert (n_masked m1 <= n_masked m)%nat by (apply filter_mono; auto).
          exists m, j, occ'. split; [exact H1|]. split; [lia|]. split; [auto|]. split; [auto|]. split; [auto|].
          split; [exact H6|]. intros Hi Hlt'. apply H7; auto.
          destruct (Nat.eqb_spec iterations 0); [congruence|]. simpl in Es. apply Nat.leb_gt in Es. auto.
  Qed.

  (** C14: for every occupancy map, filter and threshold rule the loop ends after at most one iteration
      more than there are masked pixels, only pixels with hits are masked, and, if the number of
      iterations is not limited, in the image with the masked pixels replaced no further pixel is
      noisy.  With a limit at most that many iterations are made. *)
  Theorem C14_masking : forall iterations occ,
    exists m j occ', mask_pixels n_pixels median exceeds iterations occ = Some (m, j) /\
      (j <= S (n_masked m))%nat /\
      (forall k, m k = true -> occ k <> 0) /\
      (forall k, m k = false -> occ' k = occ k) /\
      (iterations = 0%nat -> forall k, (k < n_pixels)%nat -> occ' k <> 0 ->
         exceeds occ' (median occ') k = true -> m k = true) /\
      (iterations <> 0%nat -> (j <= iterations)%nat).
  Proof.
    intros iterations occ. unfold mask_pixels.
    destruct (loop_spec occ iterations (S n_pixels) 0 occ (fun _ => false)) as (m & j & occ' & H1 & H2 & H3 & H4 & H5 & H6 & H7).
    - lia.
    - intros k _. auto.
    - discriminate.
    - exists m, j, occ'. split; [exact H1|]. split; [unfold n_masked in *; lia|]. split; [auto|]. split; [auto|].
      split.
      + intros Hi k Hk N1 N2. apply (H6 Hi k Hk). split; auto.
      + intros Hi. apply H7; auto. lia.
  Qed.

  (** *** The iterations, as the user would describe them: [iterated n occ mask] holds for the image
      and the mask after [n] iterations that all found a new noisy pixel. *)
  Inductive iterated (occ0 : nat -> Z) : nat -> (nat -> Z) -> (nat -> bool) -> Prop :=
  | it_start : forall mask, (forall k, mask k = false) -> iterated occ0 0 occ0 mask
  | it_next : forall n occ mask occ' mask',
      iterated occ0 n occ mask ->
      (forall k, mask' k = true <-> mask k = true \/ noisy occ k) ->
      (forall k, mask' k = true -> occ' k = median occ k) ->
      (forall k, mask' k = false -> occ' k = occ k) ->
      (exists k, (k < n_pixels)%nat /\ mask k = false /\ mask' k = true) ->
      iterated occ0 (S n) occ' mask'.

  Lemma new_mask_iff occ mask k : new_mask median exceeds occ mask k = true <-> mask k = true \/ noisy occ k.
  Proof.
    unfold new_mask, tmp_mask, noisy. rewrite orb_true_iff, andb_true_iff, negb_true_iff, Z.eqb_neq. tauto.
  Qed.

  Lemma loop_iterated occ0 iterations : forall fuel i occ mask m j,
    iterated occ0 i occ mask -> loop fuel iterations i occ mask = Some (m, j) ->
    exists n occ' mask', j = S n /\ iterated occ0 n occ' mask' /\
      (forall k, m k = true <-> mask' k = true \/ noisy occ' k) /\
      ((forall k, (k < n_pixels)%nat -> m k = mask' k) \/ (iterations <> 0%nat /\ (iterations <= j)%nat)).
  Proof.
    induction fuel as [|fuel IH]; intros i occ mask m j I H; [discriminate|]. cbn [mask_loop] in H.
    destruct (Nat.eqb_spec (n_new n_pixels median exceeds occ mask) 0) as [E|N]; cbn [orb] in H.
    - injection H as <- <-. exists i, occ, mask. split; [auto|]. split; [auto|]. split; [apply new_mask_iff|].
      left. intros k Hk. unfold n_new in E. apply length_zero_iff_nil in E.
      unfold new_mask. destruct (tmp_mask median exceeds occ k) eqn:T; [|apply orb_false_r].
      destruct (mask k) eqn:M; [auto|]. exfalso.
      assert (In k []) as []. rewrite <- E. apply filter_In. split; [apply in_seq; lia|]. rewrite T, M. auto.
    - destruct (negb (iterations =? 0)%nat && (iterations <=? S i)%nat) eqn:Es.
      + injection H as <- <-. exists i, occ, mask. split; [auto|]. split; [auto|]. split; [apply new_mask_iff|].
        right. apply andb_true_iff in Es. destruct Es as [E1 E2]. apply Nat.leb_le in E2.
        destruct (Nat.eqb_spec iterations 0); [discriminate|]. auto.
      + apply (IH (S i)) in H; auto.
        apply (it_next occ0 i occ mask); auto.
        * apply new_mask_iff.
        * intros k Hk. unfold new_occ. rewrite Hk. auto.
        * intros k Hk. unfold new_occ. rewrite Hk. auto.
        * unfold n_new in N.
          destruct (filter (fun i => tmp_mask median exceeds occ i && xorb (tmp_mask median exceeds occ i) (mask i)) (seq 0 n_pixels)) as [|k r] eqn:E; [simpl in N; congruence|].
          assert (K : In k (k :: r)) by (left; auto). rewrite <- E in K. apply filter_In in K. destruct K as [K1 K2].
          apply andb_true_iff in K2. destruct K2 as [K2 K3]. rewrite K2 in K3. apply in_seq in K1.
          exists k. split; [lia|]. split; [destruct (mask k); auto; discriminate|]. unfold new_mask. rewrite K2. apply orb_true_r.
  Qed.

  (** C14: the mask is the one of the described iteration, which ends only when no new noisy pixel is
      found or the limit is reached. *)
  Theorem C14_iteration : forall iterations occ m j,
    mask_pixels n_pixels median exceeds iterations occ = Some (m, j) ->
    exists n occ' mask', j = S n /\ iterated occ n occ' mask' /\
      (forall k, m k = true <-> mask' k = true \/ noisy occ' k) /\
      ((forall k, (k < n_pixels)%nat -> m k = mask' k) \/ (iterations <> 0%nat /\ (iterations <= j)%nat)).
  Proof. intros iterations occ m j H. eapply loop_iterated; eauto. apply it_start. auto. Qed.

  Lemma loop_limit n : forall fuel i occ mask m j m' j' fuel',
    loop fuel n i occ mask = Some (m, j) -> loop fuel' 0 i occ mask = Some (m', j') ->
    forall k, m k = true -> m' k = true.
  Proof.
    induction fuel as [|fuel IH]; intros i occ mask m j m' j' fuel' H H' k Hk; [discriminate|].
    destruct fuel' as [|fuel']; [discriminate|]. cbn [mask_loop] in H, H'. simpl in H'. rewrite orb_false_r in H'.
    destruct (n_new n_pixels median exceeds occ mask =? 0)%nat; cbn [orb] in *.
    - injection H as <- <-. injection H' as <- <-. auto.
    - destruct (negb (n =? 0)%nat && (n <=? S i)%nat).
      + injection H as <- <-.
        (* later iterations only add pixels *)
        assert (G : forall fuel i occ mask m j, loop fuel 0 i occ mask = Some (m, j) -> forall k, mask k = true -> m k = true).
        { clear. induction fuel as [|fuel IH]; intros i occ mask m j H k Hk; [discriminate|].
          cbn [mask_loop] in H. simpl in H. rewrite orb_false_r in H.
          assert (Hn : new_mask median exceeds occ mask k = true) by (unfold new_mask; rewrite Hk; auto).
          destruct (n_new n_pixels median exceeds occ mask =? 0)%nat; [injection H as <- <-; auto|].
          eapply IH; eauto. }
        eapply G; eauto.
      + eapply IH; eauto.
  Qed.

  (** C14: a limit on the number of iterations can only lead to fewer masked pixels. *)
  Theorem C14_more_iterations_mask_more : forall iterations occ m j m' j',
    mask_pixels n_pixels median exceeds iterations occ = Some (m, j) ->
    mask_pixels n_pixels median exceeds 0 occ = Some (m', j') ->
    forall k, m k = true -> m' k = true.
  Proof. intros iterations occ m j m' j' H H'. eapply loop_limit; eauto. Qed.
End Props.

(** Non-vacuity: five pixels in a row, "blurred" is the left neighbour, noisy is a difference above 9;
    pixel 1 is masked first, then pixel 3, which profits from its left neighbour 2 at first. *)
Example C14_example :
  option_map (fun r => (map (fst r) (seq 0 5), snd r))
    (mask_pixels 5 (fun o i => match i with O => o O | S j => o j end) (fun o b i => 9 <? o i - b i) 0
       (fun i => nth i [1; 20; 12; 25; 1] 0)) = Some ([false; true; true; true; false], 3%nat).
Proof. vm_compute. reflexivity. Qed.
Example C14_example_limited :
  option_map (fun r => (map (fst r) (seq 0 5), snd r))
    (mask_pixels 5 (fun o i => match i with O => o O | S j => o j end) (fun o b i => 9 <? o i - b i) 1
       (fun i => nth i [1; 20; 12; 25; 1] 0)) = Some ([false; true; false; true; false], 1%nat).
Proof. vm_compute. reflexivity. Qed.

Print Assumptions C14_masking.
Print Assumptions C14_iteration.
Print Assumptions C14_more_iterations_mask_more.
