(** C155: page with the arrows of the residuals of the efficiency plots. *)
From Coq Require Import List Bool Arith ZArith QArith Qminmax Lia Lqa.
From Verif Require Import ArrowsModel.
Import ListNotations.
Local Open Scope nat_scope.

(** ** Specification *)
(** the bin [i] of an axis has the centre [c] *)
Definition bin_at (edges : list Q) (i : nat) (c : Q) : Prop := exists a b, nth_error edges i = Some a /\ nth_error edges (S i) = Some b /\ (2 * c == a + b)%Q.
(** a value is between the ends of a range, in whatever order they are given *)
Definition between (range : Q * Q) (c : Q) : Prop := (fst range <= c <= snd range \/ snd range <= c <= fst range)%Q.
(** what is drawn for a mean residual *)
Definition drawn (v : option Q) (d : Q) : Prop := match v with Some x => d = x | None => d = 0%Q end.

(** ** Proofs *)
Lemma centers_length edges : length (bin_centers edges) = length edges - 1.
Proof. induction edges as [|a [|b r] IH]; try reflexivity. cbn [bin_centers length] in *. rewrite IH. lia. Qed.
Lemma centers_nth edges : forall i, i < length (bin_centers edges) -> bin_at edges i (nth i (bin_centers edges) 0%Q).
Proof.
  induction edges as [|a [|b r] IH]; intros i L; try (cbn in L; lia). destruct i as [|i].
  - exists a, b. split; [reflexivity|]. split; [reflexivity|]. cbn [bin_centers nth]. field.
  - change (bin_centers (a :: b :: r)) with (((b + a) / 2)%Q :: bin_centers (b :: r)) in *. cbn [length nth] in *. destruct (IH i ltac:(lia)) as (x & y & A & B & C). exists x, y. split; [exact A|]. split; [exact B|exact C].
Qed.
Lemma bin_at_length edges i c : bin_at edges i c -> i < length (bin_centers edges) /\ (nth i (bin_centers edges) 0 == c)%Q.
Proof.
  intros (a & b & A & B & C). assert (L : i < length (bin_centers edges)) by (rewrite centers_length; assert (S i < length edges) by (apply nth_error_Some; congruence); lia). split; [exact L|].
  destruct (centers_nth edges i L) as (x & y & X & Y & Z). rewrite A in X. rewrite B in Y. injection X as <-. injection Y as <-. lra.
Qed.
Lemma in_range_between range c : in_range range c = true <-> between range c.
Proof.
  unfold in_range, between. rewrite andb_true_iff, !Qle_bool_iff. destruct (Q.min_spec (fst range) (snd range)) as [(A & E)|(A & E)], (Q.max_spec (fst range) (snd range)) as [(B & F)|(B & F)]; rewrite E, F; lra.
Qed.
Lemma between_eq range c d : (c == d)%Q -> between range c -> between range d.
Proof. unfold between. intros E H. lra. Qed.
Lemma arrows_in ex ey rx ry fx fy a : In a (arrows ex ey rx ry fx fy) <-> exists i j, i < length (bin_centers ex) /\ j < length (bin_centers ey) /\ selected rx (bin_centers ex) i = true /\ selected ry (bin_centers ey) j = true /\
  a = Arrow (nth i (bin_centers ex) 0%Q) (nth j (bin_centers ey) 0%Q) (nan_to_num (fx i j)) (nan_to_num (fy i j)).
Proof.
  unfold arrows. rewrite in_flat_map. split.
  - intros (i & I & H). apply in_flat_map in H. destruct H as (j & J & H). apply in_seq in I. apply in_seq in J. destruct (selected rx (bin_centers ex) i) eqn:A; [|destruct H]. destruct (selected ry (bin_centers ey) j) eqn:B; [|destruct H]. destruct H as [<-|[]]. exists i, j. repeat split; try lia; assumption.
  - intros (i & j & I & J & A & B & ->). exists i. split; [apply in_seq; lia|]. apply in_flat_map. exists j. split; [apply in_seq; lia|]. rewrite A, B. left. reflexivity.
Qed.
(** Every bin whose two indices are multiples of 4 and whose centre is in the plotted range has an arrow; it starts in the centre of the bin and is the mean residual of the bin, or of length 0 if the bin has none. *)
Theorem C155_drawn n ex ey rx ry fx fy l : arrows_page n ex ey rx ry fx fy = Some l -> forall i j x y, bin_at ex (4 * i) x -> bin_at ey (4 * j) y -> between rx x -> between ry y ->
  exists a, In a l /\ (start_x a == x)%Q /\ (start_y a == y)%Q /\ drawn (fx (4 * i) (4 * j)) (vector_x a) /\ drawn (fy (4 * i) (4 * j)) (vector_y a).
Proof.
  unfold arrows_page. destruct (100000 <? n)%Z; [discriminate|]. intros [= <-] i j x y X Y Rx Ry. destruct (bin_at_length _ _ _ X) as (Lx & Ex), (bin_at_length _ _ _ Y) as (Ly & Ey). eexists. split.
  - apply arrows_in. exists (4 * i), (4 * j). split; [exact Lx|]. split; [exact Ly|]. unfold selected. rewrite !(Nat.mul_comm 4), !Nat.mod_mul by lia. rewrite !(Nat.mul_comm _ 4). cbn [Nat.eqb andb].
    split; [apply in_range_between; apply (between_eq _ x); [rewrite Ex; reflexivity|exact Rx]|]. split; [apply in_range_between; apply (between_eq _ y); [rewrite Ey; reflexivity|exact Ry]|]. reflexivity.
  - cbn [start_x start_y vector_x vector_y]. split; [exact Ex|]. split; [exact Ey|]. split; [destruct (fx _ _)|destruct (fy _ _)]; reflexivity.
Qed.
(** There are no other arrows. *)
Theorem C155_only n ex ey rx ry fx fy l : arrows_page n ex ey rx ry fx fy = Some l -> forall a, In a l ->
  exists i j, bin_at ex (4 * i) (start_x a) /\ bin_at ey (4 * j) (start_y a) /\ between rx (start_x a) /\ between ry (start_y a) /\ drawn (fx (4 * i) (4 * j)) (vector_x a) /\ drawn (fy (4 * i) (4 * j)) (vector_y a).
Proof.
  unfold arrows_page. destruct (100000 <? n)%Z; [discriminate|]. intros [= <-] a H. apply arrows_in in H. destruct H as (i & j & I & J & A & B & ->). unfold selected in A, B. apply andb_true_iff in A. apply andb_true_iff in B. destruct A as (A1 & A2), B as (B1 & B2). apply Nat.eqb_eq in A1. apply Nat.eqb_eq in B1. apply in_range_between in A2. apply in_range_between in B2.
  assert (Ei := Nat.div_mod i 4 ltac:(lia)). assert (Ej := Nat.div_mod j 4 ltac:(lia)). rewrite A1, Nat.add_0_r in Ei. rewrite B1, Nat.add_0_r in Ej. exists (i / 4), (j / 4). rewrite <- Ei, <- Ej. cbn [start_x start_y vector_x vector_y].
  split; [apply centers_nth; exact I|]. split; [apply centers_nth; exact J|]. split; [exact A2|]. split; [exact B2|]. split; [destruct (fx i j)|destruct (fy i j)]; reflexivity.
Qed.
Lemma flat_select {A} (p : nat -> bool) (f : nat -> A) l : length (flat_map (fun j => if p j then [f j] else []) l) = length (filter p l).
Proof. induction l as [|x l IH]; [reflexivity|]. cbn [flat_map filter]. rewrite app_length, IH. destruct (p x); reflexivity. Qed.
Lemma multiples n : forall s, s mod 4 = 0 -> length (filter (fun i => i mod 4 =? 0) (seq s n)) = (n + 3) / 4.
Proof.
  induction n as [n IH] using lt_wf_ind. intros s M. assert (E := Nat.div_mod s 4 ltac:(lia)). rewrite M, Nat.add_0_r in E. assert (K : forall k, 0 < k < 4 -> (s + k) mod 4 =? 0 = false) by (intros k Hk; apply Nat.eqb_neq; rewrite E, (Nat.mul_comm 4), Nat.add_comm, Nat.mod_add by lia; rewrite Nat.mod_small; lia).
  pose proof (K 1 ltac:(lia)) as K1. pose proof (K 2 ltac:(lia)) as K2. pose proof (K 3 ltac:(lia)) as K3. replace (s + 1) with (S s) in K1 by lia. replace (s + 2) with (S (S s)) in K2 by lia. replace (s + 3) with (S (S (S s))) in K3 by lia.
  apply Nat.eqb_eq in M. destruct n as [|[|[|[|n]]]]; cbn [seq filter]; rewrite ?M, ?K1, ?K2, ?K3; try reflexivity. cbn [length]. rewrite (IH n); [|lia|].
  - replace (S (S (S (S n))) + 3) with (n + 3 + 1 * 4) by lia. rewrite Nat.div_add by lia. lia.
  - replace (S (S (S (S s)))) with (s + 1 * 4) by lia. rewrite Nat.mod_add by lia. apply Nat.eqb_eq. exact M.
Qed.
Lemma filter_and_le {A} (p q : A -> bool) l : length (filter (fun x => p x && q x) l) <= length (filter p l).
Proof. induction l as [|x l IH]; [reflexivity|]. cbn [filter]. destruct (p x), (q x); cbn [andb length]; lia. Qed.
(** Of n x m bins at most every fourth of every fourth row has an arrow, and each has one. *)
Theorem C155_number n ex ey rx ry fx fy l : arrows_page n ex ey rx ry fx fy = Some l -> length l <= ((length ex - 1 + 3) / 4) * ((length ey - 1 + 3) / 4) /\
  ((forall i c, bin_at ex i c -> between rx c) -> (forall j c, bin_at ey j c -> between ry c) -> length l = ((length ex - 1 + 3) / 4) * ((length ey - 1 + 3) / 4)).
Proof.
  unfold arrows_page. destruct (100000 <? n)%Z; [discriminate|]. intros [= <-].
  assert (G : forall is, length (flat_map (fun i => flat_map (fun j => if selected rx (bin_centers ex) i && selected ry (bin_centers ey) j then [Arrow (nth i (bin_centers ex) 0%Q) (nth j (bin_centers ey) 0%Q) (nan_to_num (fx i j)) (nan_to_num (fy i j))] else []) (seq 0 (length (bin_centers ey)))) is)
    = length (filter (selected rx (bin_centers ex)) is) * length (filter (selected ry (bin_centers ey)) (seq 0 (length (bin_centers ey))))).
  { induction is as [|i is IH]; [reflexivity|]. cbn [flat_map filter]. rewrite app_length, IH. rewrite (flat_select (fun j => selected rx (bin_centers ex) i && selected ry (bin_centers ey) j)). destruct (selected rx (bin_centers ex) i); cbn [andb length].
    - rewrite (filter_ext (fun j => true && selected ry (bin_centers ey) j) (selected ry (bin_centers ey))) by reflexivity. lia.
    - assert (Z : forall A (k : list A), filter (fun _ => false) k = []) by (intros A k; induction k; [reflexivity|assumption]). rewrite Z. reflexivity. }
  unfold arrows. rewrite G. assert (B : forall e r, length (filter (selected r (bin_centers e)) (seq 0 (length (bin_centers e)))) <= (length e - 1 + 3) / 4).
  { intros e r. rewrite <- (multiples (length e - 1) 0) by reflexivity. rewrite <- centers_length. apply filter_and_le. }
  split; [apply Nat.mul_le_mono; apply B|]. intros Hx Hy.
  assert (F : forall e r, (forall i c, bin_at e i c -> between r c) -> length (filter (selected r (bin_centers e)) (seq 0 (length (bin_centers e)))) = (length e - 1 + 3) / 4).
  { intros e r H. rewrite <- (multiples (length e - 1) 0) by reflexivity. rewrite <- centers_length. f_equal. apply filter_ext_in. intros i I. apply in_seq in I. unfold selected. rewrite (proj2 (in_range_between r (nth i (bin_centers e) 0%Q))); [apply andb_true_r|]. apply (H i). apply centers_nth. lia. }
  rewrite (F ex rx Hx), (F ey ry Hy). reflexivity.
Qed.
(** The page is omitted exactly for more than 100000 pixels. *)
Theorem C155_omitted n ex ey rx ry fx fy : arrows_page n ex ey rx ry fx fy = None <-> (100000 < n)%Z.
Proof. unfold arrows_page. destruct (Z.ltb_spec 100000 n); split; intros; try reflexivity; try assumption; [discriminate|lia]. Qed.
(** "The arrows show the residuals of the sensor" is false: residuals of the bins between are not shown whatever they are, and a bin without a residual looks like one with the residual 0. *)
Theorem C155_between_refuted n ex ey rx ry fx fy gx gy : (forall i j, nan_to_num (fx (4 * i) (4 * j)) = nan_to_num (gx (4 * i) (4 * j)) /\ nan_to_num (fy (4 * i) (4 * j)) = nan_to_num (gy (4 * i) (4 * j))) -> arrows_page n ex ey rx ry fx fy = arrows_page n ex ey rx ry gx gy.
Proof.
  intros H. unfold arrows_page. destruct (100000 <? n)%Z; [reflexivity|]. f_equal. unfold arrows. apply flat_map_ext. intros i. apply flat_map_ext. intros j. destruct (selected rx (bin_centers ex) i) eqn:A; [|reflexivity]. destruct (selected ry (bin_centers ey) j) eqn:B; [|reflexivity]. cbn [andb].
  unfold selected in A, B. apply andb_true_iff in A. apply andb_true_iff in B. destruct A as (A & _), B as (B & _). apply Nat.eqb_eq in A. apply Nat.eqb_eq in B. assert (Ei := Nat.div_mod i 4 ltac:(lia)). assert (Ej := Nat.div_mod j 4 ltac:(lia)). rewrite A, Nat.add_0_r in Ei. rewrite B, Nat.add_0_r in Ej. destruct (H (i / 4) (j / 4)) as (E & F). rewrite <- Ei, <- Ej in E, F. rewrite E, F. reflexivity.
Qed.

(** Non-vacuity: 5 x 2 bins, of which two have arrows; the residual of 7 in the second column is not shown and the bin without residual has an arrow of length 0. *)
Example C155_case : let ex := [0; 2; 4; 6; 8; 10]%Q in let ey := [0; 1; 2]%Q in let fx := fun i j => if i =? 4 then None else if i =? 1 then Some 7%Q else Some 3%Q in
  match arrows_page 50 ex ey (10, 0)%Q (0, 2)%Q fx fx with Some l => map (fun a => (Qred (start_x a), Qred (start_y a), vector_x a, vector_y a)) l = [(1, 1 # 2, 3, 3); (9, 1 # 2, 0, 0)]%Q | None => False end.
Proof. vm_compute. reflexivity. Qed.

Print Assumptions C155_drawn.
Print Assumptions C155_only.
Print Assumptions C155_number.
Print Assumptions C155_omitted.
Print Assumptions C155_between_refuted.
