(** C140: ranges of the maps of mean residuals and charges. *)
From Coq Require Import List Arith ZArith QArith Qround Bool Lia Lqa.
From Verif Require Import ArrayUtilsModel ArrayUtilsProofs ArrayUtilsProps MapRangeModel.
Import ListNotations.
Local Open Scope list_scope.
Local Open Scope nat_scope.

(** * Specification *)
(** m is the largest one *)
Definition largest (m : Q) (values : list Q) : Prop := (exists v, In v values /\ v == m)%Q /\ forall v, In v values -> (v <= m)%Q.
Definition how_many {A} (p : A -> bool) (l : list A) : nat := length (filter p l).

Lemma maximum_ge values v : In v values -> (v <= maximum values)%Q.
Proof.
  induction values as [|a l IH]; [intros []|]. cbn [maximum fold_right]. fold (maximum l). intros I. destruct (Qle_bool a (maximum l)) eqn:E.
  - apply Qle_bool_iff in E. destruct I as [<-|I]; [exact E|apply IH, I].
  - assert (H : (maximum l < a)%Q) by (apply Qnot_le_lt; intros C; apply Qle_bool_iff in C; congruence). destruct I as [<-|I]; [apply Qle_refl|]. apply Qlt_le_weak. apply Qle_lt_trans with (maximum l); [apply IH, I|exact H].
Qed.
Lemma maximum_in values : (forall v, In v values -> (0 <= v)%Q) -> values <> [] -> exists v, In v values /\ (v == maximum values)%Q.
Proof.
  induction values as [|a l IH]; intros P N; [congruence|]. cbn [maximum fold_right]. fold (maximum l). destruct (Qle_bool a (maximum l)) eqn:E; [|exists a; split; [now left|reflexivity]].
  apply Qle_bool_iff in E. destruct l as [|b l].
  - exists a. split; [now left|]. cbn in E |- *. apply Qle_antisym; [exact E|]. apply P. now left.
  - destruct (IH (fun v I => P v (or_intror I)) ltac:(discriminate)) as (v & I & H). exists v. split; [now right|exact H].
Qed.
Lemma largest_maximum m values : (forall v, In v values -> (0 <= v)%Q) -> largest m values -> (m == maximum values)%Q.
Proof.
  intros P [(v & I & E) H]. apply Qle_antisym; [rewrite <- E; apply maximum_ge, I|]. destruct (maximum_in values P ltac:(intros ->; destruct I)) as (w & J & F). rewrite <- F. apply H, J.
Qed.
Lemma n_edges_ceil m values : (forall v, In v values -> (0 <= v)%Q) -> largest m values -> Z.of_nat (n_edges values) = Qceiling m.
Proof.
  intros P L. unfold n_edges. rewrite <- (Qceiling_comp _ _ (largest_maximum m values P L)). apply Z2Nat.id. destruct L as [(v & I & E) _]. apply P in I. rewrite E in I. pose proof (Qle_ceiling m) as C.
  assert (H : (inject_Z 0 <= inject_Z (Qceiling m))%Q) by (apply Qle_trans with m; assumption). rewrite <- Zle_Qle in H. exact H.
Qed.

(** * Sums of the bins *)
Lemma total_bins {A} (b : A -> option nat) (l : list A) a m :
  totalZ (map (fun i => Z.of_nat (length (filter (fun v => match b v with Some c => c =? i | None => false end) l))) (seq a m)) =
  Z.of_nat (how_many (fun v => match b v with Some c => (a <=? c) && (c <? a + m) | None => false end) l).
Proof.
  revert a. induction m as [|m IH]; intros a; cbn [seq map totalZ fold_right].
  - replace (how_many _ l) with 0; [reflexivity|]. unfold how_many. induction l as [|v l IHl]; [reflexivity|]. cbn [filter]. replace (match b v with Some c => (a <=? c) && (c <? a + 0) | None => false end) with false; [exact IHl|].
    destruct (b v) as [c|]; [|reflexivity]. destruct (Nat.leb_spec a c), (Nat.ltb_spec c (a + 0)); reflexivity || lia.
  - change (fold_right Z.add 0%Z ?x) with (totalZ x). rewrite IH. rewrite <- Nat2Z.inj_add. f_equal. clear IH. unfold how_many. induction l as [|v l IHl]; [reflexivity|]. cbn [filter].
    destruct (b v) as [c|]; [|exact IHl]. destruct (Nat.eqb_spec c a), (Nat.leb_spec (S a) c), (Nat.ltb_spec c (S a + m)), (Nat.leb_spec a c), (Nat.ltb_spec c (a + S m)); cbn [andb length] in *; lia.
Qed.
Lemma skipn_seq k : forall a m, skipn k (seq a m) = seq (a + k) (m - k).
Proof.
  induction k as [|k IH]; intros a m; [cbn [skipn]; now rewrite Nat.add_0_r, Nat.sub_0_r|]. destruct m as [|m]; [reflexivity|]. cbn [seq skipn]. rewrite IH. f_equal; lia.
Qed.
Lemma skipn_map_ {A B} (f : A -> B) k : forall l, skipn k (map f l) = map f (skipn k l).
Proof. induction k as [|k IH]; intros [|a l]; cbn; auto. Qed.
Lemma how_many_mono {A} (p q : A -> bool) l : (forall x, In x l -> p x = true -> q x = true) -> how_many p l <= how_many q l.
Proof.
  unfold how_many. induction l as [|a l IH]; intros H; [auto|]. cbn [filter]. specialize (IH (fun x I => H x (or_intror I))). pose proof (H a (or_introl eq_refl)) as Ha. destruct (p a); [rewrite (Ha eq_refl); cbn [length]; lia|]. destruct (q a); cbn [length]; lia.
Qed.
Lemma how_many_same {A} (p q : A -> bool) l : (forall x, In x l -> p x = q x) -> how_many p l = how_many q l.
Proof. intros H. unfold how_many. f_equal. apply filter_ext_in, H. Qed.
Lemma how_many_pos {A} (p : A -> bool) l : 0 < how_many p l <-> exists x, In x l /\ p x = true.
Proof.
  unfold how_many. split.
  - destruct (filter p l) as [|x r] eqn:E; [cbn; lia|]. intros _. exists x. apply filter_In. rewrite E. now left.
  - intros (x & H). apply filter_In in H. destruct (filter p l); [destruct H|cbn; lia].
Qed.

(** all zeros: the quantile is behind the last bin *)
Lemma quantiles_zero hist : totalZ hist = 0%Z -> (forall c, In c hist -> (0 <= c)%Z) -> hist_quantiles hist 0 (19 # 20) = (0, length hist).
Proof.
  intros T P. assert (Z0 : forall c, In c hist -> c = 0%Z).
  { induction hist as [|a l IH]; [intros c []|]. cbn [totalZ fold_right] in T. change (fold_right Z.add 0%Z l) with (totalZ l) in T. assert (0 <= totalZ l)%Z by (clear - P; assert (forall c, In c l -> (0 <= c)%Z) by (intros; apply P; now right); clear P; induction l as [|b l IH]; cbn [totalZ fold_right]; [lia|]; pose proof (H b (or_introl eq_refl)); change (fold_right Z.add 0%Z l) with (totalZ l); specialize (IH (fun c I => H c (or_intror I))); lia).
    pose proof (P a (or_introl eq_refl)). intros c [<-|I]; [lia|]. apply IH; [lia|intros d J; apply P; now right|exact I]. }
  assert (C : forall c, In c (cumsum 0 hist) -> c = 0%Z).
  { clear - Z0. induction hist as [|a l IH]; intros c; [intros []|]. cbn [cumsum]. rewrite (Z0 a (or_introl eq_refl)). cbn [Z.add In]. intros [<-|I]; [reflexivity|]. apply IH; [intros d J; apply Z0; now right|exact I]. }
  unfold hist_quantiles. assert (L : last (cumsum 0 hist) 0%Z = 0%Z) by (destruct (cumsum 0 hist) as [|x l] eqn:E; [reflexivity|]; apply C; rewrite <- E; destruct (exists_last (l := cumsum 0 hist)) as (u & w & W); [rewrite E; discriminate|]; rewrite W, last_last; apply in_or_app; right; now left).
  unfold normcdf. rewrite L. cbn [Z.eqb]. destruct (first_index _ (map inject_Z (cumsum 0 hist))) as [h|] eqn:F; [|reflexivity]. exfalso. destruct (first_index_Some _ _ _ (inject_Z 0) F) as (A & B & _). rewrite map_length in A. rewrite map_nth in B.
  rewrite (C (nth h (cumsum 0 hist) 0%Z)) in B; [discriminate B|]. apply nth_In, A.
Qed.

(** The map of the mean residuals: an exception is raised if and only if no mean residual is larger than 1. Otherwise let n be the largest value rounded up. If all values are above n - 1, the range ends at n; if not, it
    ends at a number from 1 to n - 1, and fewer than 5 % of the values up to n - 1 are above it. *)
Theorem C140_residuals m values : largest m values -> (forall v, In v values -> (0 <= v)%Q) ->
  (residual_z_max values = None <-> (m <= 1)%Q) /\
  forall z, residual_z_max values = Some z ->
    ((forall v, In v values -> (inject_Z (Qceiling m - 1) < v)%Q) -> Z.of_nat z = Qceiling m) /\
    ((exists v, In v values /\ (v <= inject_Z (Qceiling m - 1))%Q) -> (1 <= Z.of_nat z <= Qceiling m - 1)%Z /\
      20 * how_many (fun v => Qle_bool v (inject_Z (Qceiling m - 1)) && negb (Qle_bool v (inject_Z (Z.of_nat z)))) values < how_many (fun v => Qle_bool v (inject_Z (Qceiling m - 1))) values).
Proof.
  intros L P. pose proof (n_edges_ceil m values P L) as N. set (n := n_edges values) in *.
  assert (M1 : n <= 1 <-> (m <= 1)%Q).
  { split; intros H.
    - apply Qle_trans with (inject_Z (Qceiling m)); [apply Qle_ceiling|]. rewrite <- N. change 1%Q with (inject_Z 1). rewrite <- Zle_Qle. lia.
    - apply Qceiling_resp_le in H. change (Qceiling 1) with 1%Z in H. lia. }
  assert (H0 : residual_hist values = [] <-> n <= 1).
  { unfold residual_hist. fold n. split; intros H; [apply (f_equal (@length _)) in H; rewrite map_length, seq_length in H; cbn in H; lia|]. replace (n - 1) with 0 by lia. reflexivity. }
  unfold residual_z_max, z_max. split; [rewrite <- M1, <- H0; destruct (residual_hist values); split; intros; congruence|].
  intros z E. assert (N2 : 2 <= n) by (destruct (le_lt_dec n 1) as [H|H]; [|exact H]; apply H0 in H; rewrite H in E; discriminate).
  assert (Z1 : z = snd (hist_quantiles (residual_hist values) 0 (19 # 20)) + 1) by (destruct (residual_hist values); congruence). clear E.
  assert (Bn : forall v, In v values -> forall a k, a + k = n - 1 -> (match bin_of n v with Some c => (a <=? c) && (c <? a + k) | None => false end) = Qle_bool v (inject_Z (Qceiling m - 1)) && (a <=? Nat.min (Z.to_nat (Qfloor v)) (n - 2))).
  { intros v I a k K. unfold bin_of. rewrite N. replace (2 <=? n) with true by (symmetry; apply Nat.leb_le; exact N2). rewrite andb_true_r. destruct (Qle_bool v (inject_Z (Qceiling m - 1))); [|reflexivity]. cbn [andb].
    replace (Nat.min (Z.to_nat (Qfloor v)) (n - 2) <? a + k) with true by (symmetry; apply Nat.ltb_lt; lia). apply andb_true_r. }
  assert (Tot : totalZ (residual_hist values) = Z.of_nat (how_many (fun v => Qle_bool v (inject_Z (Qceiling m - 1))) values)).
  { unfold residual_hist. fold n. rewrite (total_bins (bin_of n)). f_equal. apply how_many_same. intros v I. rewrite (Bn v I 0 (n - 1)) by lia. apply andb_true_r. }
  assert (Pos : forall c, In c (residual_hist values) -> (0 <= c)%Z) by (intros c I; unfold residual_hist in I; apply in_map_iff in I; destruct I as (i & <- & _); lia).
  assert (Len : length (residual_hist values) = n - 1) by (unfold residual_hist; fold n; now rewrite map_length, seq_length).
  split.
  - intros H. rewrite (quantiles_zero (residual_hist values)) in Z1; [rewrite Len in Z1; cbn [snd] in Z1; lia| |exact Pos]. rewrite Tot. destruct (how_many _ values) eqn:Hm; [reflexivity|]. exfalso. assert (X : 0 < how_many (fun v => Qle_bool v (inject_Z (Qceiling m - 1))) values) by lia.
    apply how_many_pos in X. destruct X as (v & I & X). apply Qle_bool_iff in X. apply (Qlt_not_le _ _ (H v I) X).
  - intros (v & I & Hv). destruct (hist_quantiles (residual_hist values) 0 (19 # 20)) as [lp hp] eqn:Hq. cbn [snd] in Z1.
    assert (T0 : (0 < totalZ (residual_hist values))%Z) by (rewrite Tot; assert (0 < how_many (fun v => Qle_bool v (inject_Z (Qceiling m - 1))) values); [apply how_many_pos; exists v; split; [exact I|apply Qle_bool_iff, Hv]|lia]).
    destruct (C51_quantiles _ 0%Q (19 # 20)%Q lp hp Pos T0 ltac:(discriminate) ltac:(reflexivity) Hq) as (A & _ & C & _). rewrite Len in A. split; [lia|].
    assert (Sk : totalZ (skipn (hp + 1) (residual_hist values)) = Z.of_nat (how_many (fun v => Qle_bool v (inject_Z (Qceiling m - 1)) && (hp + 1 <=? Nat.min (Z.to_nat (Qfloor v)) (n - 2))) values)).
    { unfold residual_hist. fold n. rewrite skipn_map_, skipn_seq. rewrite (total_bins (bin_of n)). f_equal. apply how_many_same. intros w J. apply (Bn w J). lia. }
    rewrite Sk, Tot in C.
    assert (Le : how_many (fun v => Qle_bool v (inject_Z (Qceiling m - 1)) && negb (Qle_bool v (inject_Z (Z.of_nat z)))) values <= how_many (fun v => Qle_bool v (inject_Z (Qceiling m - 1)) && (hp + 1 <=? Nat.min (Z.to_nat (Qfloor v)) (n - 2))) values).
    { apply how_many_mono. intros w J X. apply andb_true_iff in X. destruct X as [X Y]. apply andb_true_iff. split; [exact X|]. apply Qle_bool_iff in X. apply negb_true_iff in Y. assert (Y' : (inject_Z (Z.of_nat z) < w)%Q) by (apply Qnot_le_lt; intros Q; apply Qle_bool_iff in Q; congruence). 
      apply Nat.leb_le. assert (F1 : (Z.of_nat z <= Qfloor w)%Z) by (apply Qlt_le_weak, Qfloor_resp_le in Y'; rewrite Qfloor_Z in Y'; exact Y').
      assert (F2 : (Z.of_nat z < Qceiling m - 1)%Z) by (rewrite Zlt_Qlt; apply Qlt_le_trans with w; assumption). lia. }
    match type of Le with ?p <= ?q => set (x := p) in *; set (y := q) in * end. match type of C with context [Z.of_nat (how_many ?f values)] => set (t := how_many f values) in * end.
    assert (Y : (20 * Z.of_nat y < Z.of_nat t)%Z) by (rewrite Zlt_Qlt, inject_Z_mult; replace (inject_Z 20) with 20%Q by reflexivity; lra).
    lia.
Qed.

(** Desired: the range of the map contains all mean residuals, or all but a few. False: if a value is at most the largest one rounded up minus 1, the largest one is above the range. *)
Theorem C140_largest_refuted m values z : largest m values -> (forall v, In v values -> (0 <= v)%Q) -> residual_z_max values = Some z -> (exists v, In v values /\ (v <= inject_Z (Qceiling m - 1))%Q) -> (inject_Z (Z.of_nat z) < m)%Q.
Proof.
  intros L P E H. destruct (C140_residuals m values L P) as [_ R]. destruct (R z E) as [_ Q]. destruct (Q H) as [[_ B] _]. apply Qle_lt_trans with (inject_Z (Qceiling m - 1)); [rewrite <- Zle_Qle; exact B|].
  apply Qnot_le_lt. intros C. apply Qceiling_resp_le in C. rewrite Qceiling_Z in C. lia.
Qed.

(** The page of the charges: the bars are the numbers of hits of the charges 0, 1, ... up to a charge which is not larger than the largest one; fewer than 5 % of the hits have a larger charge. *)
Theorem C140_charges charges : charges <> [] -> exists z, z_max (bincount charges) = Some z /\ 1 <= z /\ (exists c, In c charges /\ z <= S c) /\
  charge_bars (bincount charges) = map (fun c => (c, Some (Z.of_nat (count_occ Nat.eq_dec charges c)))) (seq 0 z) /\ 20 * how_many (fun c => z <=? c) charges < length charges.
Proof.
  intros N. set (M := fold_right Nat.max 0 charges). assert (Mx : forall c, In c charges -> c <= M) by (unfold M; clear; induction charges as [|a l IH]; intros c; [intros []|]; cbn [fold_right]; intros [<-|I]; [lia|]; specialize (IH c I); lia).
  assert (Mi : In M charges) by (unfold M; clear - N; induction charges as [|a [|b l] IH]; [congruence|left; cbn; lia|]; cbn [fold_right] in *; destruct (Nat.max_spec a (Nat.max b (fold_right Nat.max 0 l))) as [[_ E]|[_ E]]; rewrite E; [right; apply IH; discriminate|now left]).
  assert (MM : M = fold_right Nat.max 0 charges) by reflexivity. clearbody M.
  assert (Bc : bincount charges = map (fun i => Z.of_nat (length (filter (fun v => match Some v with Some c => c =? i | None => false end) charges))) (seq 0 (S M))).
  { unfold bincount. replace (match charges with [] => 0 | _ => S (fold_right Nat.max 0 charges) end) with (S M) by (rewrite MM; destruct charges; [congruence|reflexivity]). apply map_ext. intros i. f_equal. clear. induction charges as [|a l IH]; [reflexivity|]. cbn [count_occ filter].
    destruct (Nat.eq_dec a i) as [->|Ne]; [rewrite Nat.eqb_refl; cbn [length]; now rewrite IH|]. destruct (Nat.eqb_spec a i); [contradiction|exact IH]. }
  assert (Pos : forall c, In c (bincount charges) -> (0 <= c)%Z) by (intros c I; unfold bincount in I; apply in_map_iff in I; destruct I as (i & <- & _); lia).
  assert (Tot : totalZ (bincount charges) = Z.of_nat (length charges)).
  { rewrite Bc, (total_bins (fun v => Some v)). f_equal. unfold how_many. f_equal. clear - Mx. revert Mx. induction charges as [|a l IH]; intros Mx; [reflexivity|]. cbn [filter]. replace ((0 <=? a) && (a <? 0 + S M)) with true; [f_equal; apply IH; intros c I; apply Mx; now right|].
    symmetry. apply andb_true_iff. split; [apply Nat.leb_le; lia|apply Nat.ltb_lt; specialize (Mx a (or_introl eq_refl)); lia]. }
  assert (T0 : (0 < totalZ (bincount charges))%Z) by (rewrite Tot; destruct charges; [congruence|cbn [length]; lia]).
  assert (Len : length (bincount charges) = S M) by (rewrite Bc, map_length, seq_length; reflexivity).
  destruct (hist_quantiles (bincount charges) 0 (19 # 20)) as [lp hp] eqn:Hq. destruct (C51_quantiles _ 0%Q (19 # 20)%Q lp hp Pos T0 ltac:(discriminate) ltac:(reflexivity) Hq) as (A & B & C & _). rewrite Len in A.
  assert (Zm : z_max (bincount charges) = Some (hp + 1)) by (unfold z_max; rewrite Hq; destruct (bincount charges); [discriminate Len|reflexivity]). exists (hp + 1). split; [exact Zm|]. split; [lia|]. split; [exists M; split; [exact Mi|lia]|].
  assert (Lp : lp = 0). { destruct B as [B|B]; [exact B|]. exfalso. rewrite Qmult_0_l in B. change 0%Q with (inject_Z 0) in B. rewrite <- Zlt_Qlt in B. assert (G : forall l, (forall c, In c l -> (0 <= c)%Z) -> (0 <= totalZ l)%Z).
    { clear. induction l as [|a l IH]; intros H; cbn [totalZ fold_right]; [lia|]. change (fold_right Z.add 0%Z l) with (totalZ l). pose proof (H a (or_introl eq_refl)). specialize (IH (fun c I => H c (or_intror I))). lia. }
    specialize (G (firstn lp (bincount charges))). assert (0 <= totalZ (firstn lp (bincount charges)))%Z; [apply G; intros c I; apply Pos; rewrite <- (firstn_skipn lp (bincount charges)); apply in_or_app; now left|lia]. }
  split.
  - unfold charge_bars. rewrite Zm, Hq, Lp. cbn [fst]. rewrite Len. unfold bincount. replace (match charges with [] => 0 | _ => S (fold_right Nat.max 0 charges) end) with (S M) by (rewrite MM; destruct charges; [congruence|reflexivity]).
    assert (G : forall k a, k <= S M - a -> combine (seq a k) (map (fun e : nat * Z => if 0 <=? fst e then Some (snd e) else None) (combine (seq a (S M - a)) (map (fun i => Z.of_nat (count_occ Nat.eq_dec charges i)) (seq a (S M - a))))) = map (fun c => (c, Some (Z.of_nat (count_occ Nat.eq_dec charges c)))) (seq a k)).
    { induction k as [|k IH]; intros a K; [reflexivity|]. destruct (S M - a) as [|r] eqn:Er; [lia|]. cbn [seq map combine fst snd Nat.leb]. f_equal. specialize (IH (S a)). replace (S M - S a) with r in IH by lia. apply IH. lia. }
    specialize (G (hp + 1) 0). rewrite Nat.sub_0_r in G. apply G. lia.
  - assert (Sk : totalZ (skipn (hp + 1) (bincount charges)) = Z.of_nat (how_many (fun c => hp + 1 <=? c) charges)).
    { rewrite Bc, skipn_map_, skipn_seq, (total_bins (fun v => Some v)). f_equal. apply how_many_same. intros c I. specialize (Mx c I). replace (0 + (hp + 1)) with (hp + 1) by lia. replace (c <? hp + 1 + (S M - (hp + 1))) with true by (symmetry; apply Nat.ltb_lt; lia). apply andb_true_r. }
    rewrite Sk, Tot in C. set (y := how_many _ charges) in *. set (t := length charges) in *. assert (Y : (20 * Z.of_nat y < Z.of_nat t)%Z) by (rewrite Zlt_Qlt, inject_Z_mult; replace (inject_Z 20) with 20%Q by reflexivity; lra). lia.
Qed.

(** cases *)
Example C140_case : largest (5 # 2) [1 # 2; 3 # 2; 5 # 2; 1 # 3] /\ residual_z_max [1 # 2; 3 # 2; 5 # 2; 1 # 3] = Some 2 /\ residual_z_max [1 # 2; 1 # 3] = None /\ residual_z_max [7 # 3; 5 # 2] = Some 3 /\
  z_max (bincount (repeat 2 30 ++ [7])) = Some 3.
Proof.
  split; [split; [exists (5 # 2)%Q; split; [cbn; auto|reflexivity]|intros v [<-|[<-|[<-|[<-|[]]]]]; discriminate]|]. repeat split; vm_compute; reflexivity.
Qed.

Print Assumptions C140_residuals.
Print Assumptions C140_largest_refuted.
Print Assumptions C140_charges.
