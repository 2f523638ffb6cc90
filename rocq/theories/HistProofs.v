(** Proofs about HistModel. *)
From Coq Require Import ZArith List Bool Lia Arith.
From Verif Require Import EventArraysModel HistModel.
Import ListNotations.
Open Scope Z_scope.

(** number of entries satisfying a boolean test *)
Fixpoint count_if {T} (f : T -> bool) (l : list T) : Z :=
  match l with [] => 0 | t :: r => (if f t then 1 else 0) + count_if f r end.

Fixpoint sumZ (l : list Z) : Z := match l with [] => 0 | x :: r => x + sumZ r end.

Lemma count_if_nonneg {T} (f : T -> bool) l : 0 <= count_if f l.
Proof. induction l; simpl; [lia|]. destruct (f a); lia. Qed.

Lemma update_length l i v : length (update l i v) = length l.
Proof. revert i; induction l; intros [|i]; simpl; auto. Qed.

Lemma update_nth l i v j d : (i < length l)%nat ->
  nth j (update l i v) d = if Nat.eqb i j then v else nth j l d.
Proof.
  revert i j; induction l as [|x l IH]; intros i j H; simpl in *; [lia|].
  destruct i, j; simpl; auto. rewrite IH by lia. reflexivity.
Qed.

Lemma update_sum l i v : (i < length l)%nat -> sumZ (update l i v) = sumZ l + v - nth i l 0.
Proof.
  revert i; induction l as [|x l IH]; intros i H; simpl in *; [lia|].
  destruct i; simpl; [lia|]. rewrite IH by lia. lia.
Qed.

Section Loop.
  Context {T : Type} (in_range : T -> bool) (index : T -> Z) (limit : Z).

  Lemma hist_loop_ok entries : forall res,
    (forall t, In t entries -> in_range t = true -> 0 <= index t < Z.of_nat (length res)) ->
    (forall t, In t entries -> in_range t = true) ->
    (forall k, (k < length res)%nat ->
       nth k res 0 + count_if (fun t => index t =? Z.of_nat k) entries <= limit) ->
    exists r, hist_loop in_range index limit entries res = Ok r /\ length r = length res /\
      (forall k, (k < length res)%nat ->
         nth k r 0 = nth k res 0 + count_if (fun t => index t =? Z.of_nat k) entries) /\
      sumZ r = sumZ res + Z.of_nat (length entries).
  Proof.
    induction entries as [|t es IH]; intros res Hi Hr Hl.
    - exists res. simpl. repeat split; auto; intros; lia.
    - simpl. rewrite (Hr t) by (left; auto). simpl.
      assert (Ht : 0 <= index t < Z.of_nat (length res)) by (apply Hi; [left|apply Hr; left]; auto).
      assert (Hk : (Z.to_nat (index t) < length res)%nat) by lia.
      destruct (nth_error res (Z.to_nat (index t))) as [c|] eqn:E;
        [|apply nth_error_None in E; lia].
      apply nth_error_nth with (d := 0) in E.
      assert (Hc : c < limit).
      { specialize (Hl _ Hk). simpl in Hl. rewrite E, Z2Nat.id, Z.eqb_refl in Hl by lia.
        pose proof (count_if_nonneg (fun t0 => index t0 =? index t) es). lia. }
      apply Z.ltb_lt in Hc. rewrite Hc.
      edestruct (IH (update res (Z.to_nat (index t)) (c + 1))) as (r & Hrr & Hlen & Hnth & Hsum).
      + rewrite update_length. intros; apply Hi; [right|]; auto.
      + intros; apply Hr; right; auto.
      + rewrite update_length. intros k Hkk. rewrite update_nth by auto.
        specialize (Hl k Hkk). simpl in Hl.
        destruct (Nat.eqb_spec (Z.to_nat (index t)) k) as [<-|Hne].
        * rewrite Z2Nat.id, Z.eqb_refl in Hl by lia. rewrite Z2Nat.id by lia. lia.
        * destruct (Z.eqb_spec (index t) (Z.of_nat k)); lia.
      + exists r. rewrite update_length in *. split; [exact Hrr|]. split; [exact Hlen|]. split.
        * intros k Hkk. rewrite Hnth by auto. rewrite update_nth by auto. simpl.
          destruct (Nat.eqb_spec (Z.to_nat (index t)) k) as [<-|Hne].
          -- rewrite Z2Nat.id, Z.eqb_refl by lia. lia.
          -- destruct (Z.eqb_spec (index t) (Z.of_nat k)); lia.
        * rewrite Hsum, update_sum by auto. rewrite E. simpl length. lia.
  Qed.

  Lemma hist_loop_raises entries : forall res,
    (forall t, In t entries -> in_range t = true -> 0 <= index t < Z.of_nat (length res)) ->
    ((exists t, In t entries /\ in_range t = false) \/
     (exists k, (k < length res)%nat /\ nth k res 0 <= limit /\
        limit < nth k res 0 + count_if (fun t => index t =? Z.of_nat k) entries)) ->
    hist_loop in_range index limit entries res = Raised.
  Proof.
    induction entries as [|t es IH]; intros res Hi H.
    - exfalso. destruct H as [(t & [] & _)|(k & Hk & H1 & H2)]. simpl in H2. lia.
    - simpl. destruct (in_range t) eqn:Ert; simpl; [|reflexivity].
      assert (Ht : 0 <= index t < Z.of_nat (length res)) by (apply Hi; [left|]; auto).
      assert (Hk : (Z.to_nat (index t) < length res)%nat) by lia.
      destruct (nth_error res (Z.to_nat (index t))) as [c|] eqn:E;
        [|apply nth_error_None in E; lia].
      apply nth_error_nth with (d := 0) in E.
      destruct (Z.ltb_spec c limit) as [Hc|Hc]; [|reflexivity].
      apply IH.
      + rewrite update_length. intros; apply Hi; [right|]; auto.
      + destruct H as [(t' & [<-|Hin] & Hf)|(k & Hkk & H1 & H2)].
        * congruence.
        * left. exists t'. auto.
        * right. exists k. rewrite update_length, update_nth by auto.
          simpl in H2. split; [auto|].
          destruct (Nat.eqb_spec (Z.to_nat (index t)) k) as [<-|Hne].
          -- rewrite Z2Nat.id, Z.eqb_refl in H2 by lia. rewrite Z2Nat.id by lia. lia.
          -- destruct (Z.eqb_spec (index t) (Z.of_nat k)); lia.
  Qed.
End Loop.

Lemma nth_repeat0 k n : nth k (repeat 0 n) 0 = 0.
Proof. revert k; induction n; intros [|k]; simpl; auto. Qed.

Lemma sumZ_repeat0 n : sumZ (repeat 0 n) = 0.
Proof. induction n; simpl; auto. Qed.

Lemma count_if_ext {T} (f g : T -> bool) l :
  (forall t, In t l -> f t = g t) -> count_if f l = count_if g l.
Proof.
  induction l as [|x l IH]; intros H; simpl; auto.
  rewrite (H x) by (left; auto). rewrite IH; auto. intros; apply H; right; auto.
Qed.

Lemma to_u32_small x : 0 <= x < 2 ^ 32 -> to_u32 x = x.
Proof. intros. apply Z.mod_small; auto. Qed.

Lemma to_u32_neg x : - 2 ^ 31 <= x < 0 -> 2 ^ 31 <= to_u32 x < 2 ^ 32.
Proof.
  intros. unfold to_u32. rewrite <- (Z.mod_add x 1) by lia. rewrite Z.mod_small; lia.
Qed.

Lemma count_if_map {S T} (f : T -> bool) (g : S -> T) l :
  count_if f (map g l) = count_if (fun s => f (g s)) l.
Proof. induction l; simpl; auto. rewrite IHl. reflexivity. Qed.

Lemma combine_map {A B C D} (f : A -> C) (g : B -> D) la lb :
  combine (map f la) (map g lb) = map (fun p => (f (fst p), g (snd p))) (combine la lb).
Proof. revert lb; induction la; intros [|b lb]; simpl; auto. f_equal; auto. Qed.

Lemma count_if_filter {T} (f : T -> bool) l : count_if f l = Z.of_nat (length (filter f l)).
Proof. induction l as [|x l IH]; simpl; auto. rewrite IH. destruct (f x); simpl length; lia. Qed.

(** Complete description of a run starting from an empty histogram with [n] bins. *)
Lemma hist_loop_total {T} (in_range : T -> bool) (index : T -> Z) (limit : Z) n entries :
  0 <= limit ->
  (forall t, In t entries -> in_range t = true -> 0 <= index t < Z.of_nat n) ->
  match hist_loop in_range index limit entries (repeat 0 n) with
  | Ok r => (forall t, In t entries -> in_range t = true) /\ length r = n /\
      (forall k, (k < n)%nat ->
         nth k r 0 = count_if (fun t => index t =? Z.of_nat k) entries) /\
      (forall k, (k < n)%nat -> count_if (fun t => index t =? Z.of_nat k) entries <= limit) /\
      sumZ r = Z.of_nat (length entries)
  | Raised => (exists t, In t entries /\ in_range t = false) \/
      ((forall t, In t entries -> in_range t = true) /\
       exists k, (k < n)%nat /\ limit < count_if (fun t => index t =? Z.of_nat k) entries)
  | _ => False
  end.
Proof.
  intros Hlim Hi.
  assert (Hlen : length (repeat 0 n) = n) by apply repeat_length.
  destruct (forallb in_range entries) eqn:Er.
  - rewrite forallb_forall in Er.
    destruct (forallb (fun k => count_if (fun t => index t =? Z.of_nat k) entries <=? limit)
                      (seq 0 n)) eqn:Ec.
    + rewrite forallb_forall in Ec.
      assert (Ec' : forall k, (k < n)%nat ->
                count_if (fun t => index t =? Z.of_nat k) entries <= limit).
      { intros k Hk. apply Z.leb_le, Ec, in_seq. lia. }
      destruct (hist_loop_ok in_range index limit entries (repeat 0 n)) as (r & -> & H1 & H2 & H3).
      * rewrite Hlen. auto.
      * auto.
      * rewrite Hlen. intros k Hk. rewrite nth_repeat0. apply Ec'; auto.
      * rewrite Hlen in *. repeat split; auto.
        -- intros k Hk. rewrite H2, nth_repeat0 by auto. lia.
        -- rewrite H3, sumZ_repeat0. lia.
    + assert (Hex : exists k, (k < n)%nat /\
                limit < count_if (fun t => index t =? Z.of_nat k) entries).
      { clear - Ec. assert (H : forall l, forallb (fun k => count_if (fun t => index t =? Z.of_nat k) entries <=? limit) l = false -> exists k, In k l /\ limit < count_if (fun t => index t =? Z.of_nat k) entries).
        { induction l as [|k l IH]; simpl; [discriminate|]. intros H.
          apply andb_false_iff in H. destruct H as [H|H].
          - exists k. apply Z.leb_gt in H. auto.
          - destruct (IH H) as (k' & ? & ?). exists k'; auto. }
        destruct (H _ Ec) as (k & Hk & Hc). apply in_seq in Hk. exists k. split; [lia|auto]. }
      rewrite hist_loop_raises; [auto| |].
      * rewrite Hlen. auto.
      * right. destruct Hex as (k & Hk & Hc). exists k.
        rewrite Hlen, nth_repeat0. split; [auto|lia].
  - assert (Hex : exists t, In t entries /\ in_range t = false).
    { clear - Er. induction entries as [|t es IH]; simpl in *; [discriminate|].
      apply andb_false_iff in Er. destruct Er as [H|H].
      - exists t; auto.
      - destruct (IH H) as (t' & ? & ?). exists t'; auto. }
    rewrite hist_loop_raises; auto. rewrite Hlen. auto.
Qed.
