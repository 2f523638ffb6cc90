(** Property C116: the arguments of fit_tracks. *)
From Coq Require Import ZArith List Arith Bool Lia.
From Verif Require Import SelectionModel BitsModel SelectionProps FitTracksModel FitTracksProps FitArgsModel.
Import ListNotations.
Local Open Scope nat_scope.

Lemma bind_inr {A B} (r : error + A) (f : A -> error + B) b : bind r f = inr b <-> exists a, r = inr a /\ f a = inr b.
Proof. destruct r as [e|a]; cbn; split; [discriminate|intros (a & H & _); discriminate|eauto|intros (a' & H & E)]. injection H as ->. exact E. Qed.
Lemma guard_bind {B} ok e (f : unit -> error + B) b : bind (guard ok e) f = inr b <-> ok = true /\ f tt = inr b.
Proof. destruct ok; cbn; split; intuition discriminate. Qed.

(** ** Specification *)
(** what a user asks for with [s] for the selected DUT with index [k]: without a selection the default, with a list of DUTs this list, with a list of lists and None the item
    of the DUT *)
Inductive asks (default : list nat) (s : selection) (k : nat) : list nat -> Prop :=
| asks_default : s = SNone -> asks default s k default
| asks_same tuple l : s = SIter tuple (map Leaf l) -> asks default s k l
| asks_item tuple items l : s = SIter tuple items -> nth_error items k = Some (Items l) -> asks default s k l
| asks_none items : s = SIter false items -> nth_error items k = Some INone -> asks default s k default.
(** the same for values that are given once or for each DUT *)
Definition asks_value {A} (a : A + list A) (k : nat) (v : A) : Prop :=
  match a with inl w => v = w | inr l => nth_error l k = Some v end.
(** the selected DUTs *)
Definition selected (n_duts : nat) (s : selection) (duts : list nat) : Prop :=
  (s = SNone /\ duts = seq 0 n_duts) \/ (exists d, s = SNumber d /\ duts = [d]) \/ (exists t, s = SIter t (map Leaf duts)).
(** the shape of a selection that is accepted for [n] selected DUTs *)
Definition well_shaped (n : nat) (s : selection) : Prop :=
  s = SNone \/ (exists t l, s = SIter t (map Leaf l)) \/
  (exists t items, s = SIter t items /\ length items = n /\ (forall i, In i items -> is_leaf i = false) /\ (t = true -> ~ In INone items)).

Lemma leaf_all l : forallb is_leaf l = true <-> l = map Leaf (map leaf_dut l).
Proof.
  induction l as [|[|d|ds] l IH]; cbn; [tauto|split; discriminate| |split; discriminate].
  rewrite IH. split; intros H; [f_equal; exact H|injection H as H; exact H].
Qed.
Lemma leaf_map l : map leaf_dut (map Leaf l) = l.
Proof. rewrite map_map. cbn. apply map_id. Qed.
Lemma none_in l : existsb is_none l = true <-> In INone l.
Proof.
  rewrite existsb_exists. split; [intros ([| |] & H & E); try discriminate; exact H|intros H; exists INone; auto].
Qed.
Lemma forallb_leaf l : forallb is_leaf (map Leaf l) = true.
Proof. induction l; cbn; auto. Qed.

(** the cases of [asks] *)
Lemma asks_cases default s k l : asks default s k l <->
  (s = SNone /\ l = default) \/ (exists t, s = SIter t (map Leaf l)) \/ (exists t items, s = SIter t items /\ nth_error items k = Some (Items l)) \/
  (exists items, s = SIter false items /\ nth_error items k = Some INone /\ l = default).
Proof.
  split.
  - intros [H|t l' H|t items l' H1 H2|items H1 H2]; [left; auto|right; left; eauto|right; right; left; eauto|right; right; right; eauto].
  - intros [[-> ->]|[(t & ->)|[(t & items & -> & H)|(items & -> & H & ->)]]]; [apply asks_default; auto|eapply asks_same; auto|eapply asks_item; eauto|eapply asks_none; eauto].
Qed.
Lemma no_items l k i : nth_error (map Leaf l) k = Some i -> exists d, i = Leaf d.
Proof. intros H. apply nth_error_In, in_map_iff in H. destruct H as (d & <- & _). eauto. Qed.
Lemma leaf_inj l m : map Leaf l = map Leaf m -> l = m.
Proof. intros H. apply (f_equal (map leaf_dut)) in H. rewrite !leaf_map in H. exact H. Qed.
(** a selection asks for one list *)
Lemma asks_unique default s k l m : asks default s k l -> asks default s k m -> l = m.
Proof.
  rewrite !asks_cases.
  intros [[-> ->]|[(t & ->)|[(t & items & -> & H)|(items & -> & H & ->)]]] [[E ->]|[(t' & E)|[(t' & items' & E & H')|(items' & E & H' & ->)]]];
    try discriminate; auto; injection E; intros; subst; auto using leaf_inj;
    try (apply no_items in H; destruct H; discriminate); try (apply no_items in H'; destruct H'; discriminate); congruence.
Qed.
Lemma asks_all default l k m : asks default (SIter false (map Leaf l)) k m -> m = l.
Proof. intros H. apply (asks_unique _ _ _ _ _ H). eapply asks_same. reflexivity. Qed.

(** the lists used for the selected DUTs are those asked for *)
Lemma expand_ok t items default n r after : expand t items default n = inr (r, after) ->
  length r = n /\ forall k, k < n -> exists l, nth_error r k = Some l /\ asks default (SIter t items) k l.
Proof.
  unfold expand. destruct (forallb is_leaf items) eqn:E.
  - intros H. injection H as <- <-. split; [apply repeat_length|]. intros k Hk. exists (map leaf_dut items). split.
    + rewrite (nth_error_nth' _ []) by (rewrite repeat_length; exact Hk). f_equal. 
      assert (G : forall m j, j < m -> nth j (repeat (map leaf_dut items) m) [] = map leaf_dut items).
      { clear. induction m as [|m IH]; intros [|j] Hj; cbn; try lia; [reflexivity|apply IH; lia]. }
      apply G. exact Hk.
    + apply (asks_same _ _ _ t). f_equal. apply leaf_all. exact E.
  - rewrite !guard_bind. intros (H1 & H2 & H3 & H4). injection H4 as <- <-. apply Nat.eqb_eq in H3. rewrite map_length in H3.
    split; [rewrite !map_length; exact H3|]. intros k Hk. destruct (nth_error items k) as [i|] eqn:Ei.
    2:{ apply nth_error_None in Ei. lia. }
    rewrite map_map, (map_nth_error _ _ _ Ei). eexists. split; [reflexivity|]. destruct i as [|d|l]; cbn.
    + assert (N : In INone items) by (apply (nth_error_In _ _ Ei)). apply none_in in N. rewrite N in H1. destruct t; [discriminate|].
      apply (asks_none _ _ _ items); auto.
    + exfalso. rewrite forallb_forall in H2. specialize (H2 (Leaf d)). cbn in H2. enough (false = true) by discriminate. apply H2.
      apply in_map_iff. exists (Leaf d). split; [reflexivity|]. apply (nth_error_In _ _ Ei).
    + apply (asks_item _ _ _ t items); auto.
Qed.
Lemma expand_accepts t items default n : (exists r, expand t items default n = inr r) <-> well_shaped n (SIter t items).
Proof.
  unfold expand. destruct (forallb is_leaf items) eqn:E.
  - split; intros _; [|eexists; reflexivity]. right. left. exists t, (map leaf_dut items). f_equal. apply leaf_all. exact E.
  - split.
    + intros (r & H). rewrite !guard_bind in H. destruct H as (H1 & H2 & H3 & _). right. right. exists t, items. apply Nat.eqb_eq in H3. rewrite map_length in H3.
      split; [reflexivity|]. split; [exact H3|]. split.
      * intros i Hi. destruct i as [|d|l]; [reflexivity| |reflexivity]. rewrite forallb_forall in H2.
        specialize (H2 (Leaf d)). exfalso. enough (false = true) by discriminate. apply H2. apply in_map_iff. exists (Leaf d). auto.
      * intros ->. rewrite <- none_in. destruct (existsb is_none items); [discriminate|congruence].
    + intros [H|[(t' & l & H)|(t' & its & H & L & Q & N)]]; [discriminate| |].
      * injection H as _ ->. rewrite forallb_leaf in E. discriminate.
      * injection H as -> ->. eexists. rewrite !guard_bind. split; [|split; [|split; [|reflexivity]]].
        -- destruct t'; [|reflexivity]. cbn. apply negb_true_iff, not_true_iff_false. rewrite none_in. auto.
        -- apply forallb_forall. intros i Hi. apply in_map_iff in Hi. destruct Hi as (j & <- & Hj). specialize (Q j Hj). destruct j; [reflexivity|discriminate|reflexivity].
        -- rewrite map_length. apply Nat.eqb_eq. exact L.
Qed.

(** ** The arguments that are accepted *)
Lemma nodup_length (l : list nat) : length l = length (nodup Nat.eq_dec l) <-> NoDup l.
Proof.
  split.
  - induction l as [|d l IH]; cbn; [constructor|]. destruct (in_dec Nat.eq_dec d l) as [I|N]; cbn; intros H.
    + exfalso. assert (B : length (nodup Nat.eq_dec l) <= length l) by (apply NoDup_incl_length; [apply NoDup_nodup|intros v Hv; apply nodup_In in Hv; exact Hv]). lia.
    + constructor; [exact N|]. apply IH. lia.
  - intros H. rewrite nodup_fixed_point; auto.
Qed.
Theorem C116_select_duts n s duts : check_select_duts n s = inr duts <-> selected n s duts /\ NoDup duts.
Proof.
  unfold check_select_duts, selected. rewrite !guard_bind, Nat.eqb_eq, nodup_length. destruct s as [|d|t items].
  - rewrite forallb_leaf, leaf_map. split.
    + intros (_ & N & H). injection H as <-. auto.
    + intros ([(_ & ->)|[(d & H & _)|(t & H)]] & N); try discriminate. auto.
  - cbn. split.
    + intros (_ & N & H). injection H as <-. split; [right; left; eauto|exact N].
    + intros ([(H & _)|[(d' & H & ->)|(t & H)]] & N); try discriminate. injection H as ->. auto.
  - rewrite leaf_all. split.
    + intros (L & N & H). injection H as <-. split; [|exact N]. right. right. exists t. f_equal. exact L.
    + intros ([(H & _)|[(d' & H & ->)|(t' & H)]] & N); try discriminate. injection H as -> ->. rewrite leaf_map. auto.
Qed.

Lemma check_fit_ok n_duts n s r after : check_fit_duts n_duts n s = inr (r, after) ->
  length r = n /\ forall k, k < n -> exists l, nth_error r k = Some l /\ asks (seq 0 n_duts) s k l /\ 2 <= length l.
Proof.
  unfold check_fit_duts. rewrite bind_inr. intros ([t items] & E & H). rewrite guard_bind in H. destruct H as (_ & H). cbn [fst snd] in H.
  rewrite bind_inr in H. destruct H as ([r' a'] & X & H). rewrite guard_bind in H. destruct H as (F & H). injection H as -> ->. cbn [fst] in F.
  apply expand_ok in X. destruct X as [L X]. split; [exact L|]. intros k Hk. destruct (X k Hk) as (l & Hl & A). exists l. split; [exact Hl|]. split.
  - destruct s as [|d|t' its]; [|discriminate|injection E as -> ->; exact A]. injection E as <- <-.
    apply asks_all in A. subst l. apply asks_default. reflexivity.
  - rewrite forallb_forall in F. specialize (F l (nth_error_In _ _ Hl)). apply negb_true_iff, Nat.ltb_ge in F. exact F.
Qed.
Lemma check_hit_ok n s r after : check_hit_duts n s = inr (r, after) ->
  length r = n /\ forall k, k < n -> exists l, nth_error r k = Some l /\ asks [] s k l.
Proof.
  unfold check_hit_duts. rewrite bind_inr. intros ([t items] & E & X). cbn [fst snd] in X.
  apply expand_ok in X. destruct X as [L X]. split; [exact L|]. intros k Hk. destruct (X k Hk) as (l & Hl & A). exists l. split; [exact Hl|].
  destruct s as [|d|t' its]; [|discriminate|injection E as -> ->; exact A]. injection E as <- <-.
  apply (asks_all [] []) in A. subst l. apply asks_default. reflexivity.
Qed.
Lemma nth_repeat_some {A} (v : A) n k : k < n -> nth_error (repeat v n) k = Some v.
Proof. revert k. induction n as [|n IH]; intros [|k] H; cbn; try lia; [reflexivity|apply IH; lia]. Qed.
Lemma check_exclude_ok a n l : check_exclude a n = inr l ->
  length l = n /\ forall k, k < n -> exists b, nth_error l k = Some b /\ asks_value a k (Some b).
Proof.
  unfold check_exclude. rewrite bind_inr. intros (vs & E & H). rewrite !guard_bind in H. destruct H as (H1 & H2 & H3). injection H3 as <-.
  apply Nat.eqb_eq in H1. split; [rewrite map_length; exact H1|]. intros k Hk.
  destruct (nth_error vs k) as [v|] eqn:Ev; [|apply nth_error_None in Ev; lia]. rewrite (map_nth_error _ _ _ Ev).
  rewrite forallb_forall in H2. specialize (H2 v (nth_error_In _ _ Ev)). destruct v as [b|]; [|discriminate]. exists b. split; [reflexivity|].
  destruct a as [w|ws]; cbn.
  - injection E as <-. rewrite nth_repeat_some in Ev by exact Hk. congruence.
  - rewrite guard_bind in E. destruct E as [_ E]. injection E as ->. exact Ev.
Qed.
Lemma check_min_ok a n l : check_min_hits a n = inr l ->
  length l = n /\ forall k, k < n -> exists m, nth_error l k = Some m /\ asks_value a k m.
Proof.
  unfold check_min_hits. rewrite guard_bind. intros (H1 & H2). injection H2 as H2. apply Nat.eqb_eq in H1. subst l. split; [exact H1|]. intros k Hk.
  destruct a as [w|ws]; cbn.
  - exists w. split; [apply nth_repeat_some; exact Hk|reflexivity].
  - destruct (nth_error ws k) as [v|] eqn:Ev; [eauto|apply nth_error_None in Ev; lia].
Qed.
Lemma configs_nth : forall duts fits hits ex mins n, length duts = n -> length fits = n -> length hits = n -> length ex = n -> length mins = n ->
  map f_dut (configs duts fits hits ex mins) = duts /\
  forall k d f h e m, nth_error duts k = Some d -> nth_error fits k = Some f -> nth_error hits k = Some h -> nth_error ex k = Some e -> nth_error mins k = Some m ->
    nth_error (configs duts fits hits ex mins) k = Some (FitConfig d f h e m).
Proof.
  induction duts as [|d duts IH]; intros [|f fits] [|h hits] [|e ex] [|m mins] n L1 L2 L3 L4 L5; cbn in *; try lia.
  - split; [reflexivity|]. intros [|k]; discriminate.
  - destruct n as [|n]; [lia|]. destruct (IH fits hits ex mins n) as [I1 I2]; try lia. split; [f_equal; exact I1|].
    intros [|k]; cbn; [congruence|apply I2].
Qed.

(** what was asked for a configuration *)
Definition as_asked (n_duts : nat) (a : arguments) (k : nat) (c : fit_config) : Prop :=
  asks (seq 0 n_duts) (a_fit a) k (f_fit c) /\ 2 <= length (f_fit c) /\ asks [] (a_hit a) k (f_hit c) /\
  asks_value (a_exclude a) k (Some (f_exclude c)) /\ asks_value (a_min a) k (f_min c).

(** If the arguments are accepted, there is one configuration for each selected DUT, in the order of the selection, and it is the one asked for: all DUTs without a
    selection of DUTs for the fit, no required hits without a selection of required DUTs. *)
Theorem C116_as_asked n_duts a cs : check_arguments n_duts a = inr cs ->
  selected n_duts (a_select a) (map f_dut cs) /\ NoDup (map f_dut cs) /\
  forall k c, nth_error cs k = Some c -> as_asked n_duts a k c.
Proof.
  unfold check_arguments. rewrite bind_inr. intros (duts & Hs & H). apply C116_select_duts in Hs. destruct Hs as [Hs Nd].
  rewrite bind_inr in H. destruct H as ([fits fa] & Hf & H). apply check_fit_ok in Hf. destruct Hf as [Lf Hf].
  rewrite bind_inr in H. destruct H as ([hits ha] & Hh & H). apply check_hit_ok in Hh. destruct Hh as [Lh Hh].
  rewrite bind_inr in H. destruct H as (ex & He & H). apply check_exclude_ok in He. destruct He as [Le He].
  rewrite bind_inr in H. destruct H as (mins & Hm & H). apply check_min_ok in Hm. destruct Hm as [Lm Hm].
  cbn [fst] in H. injection H as <-. destruct (configs_nth duts fits hits ex mins _ eq_refl Lf Lh Le Lm) as [M N].
  rewrite M. split; [exact Hs|]. split; [exact Nd|]. intros k c Hc.
  assert (Hk : k < length duts). { rewrite <- M, map_length. apply nth_error_Some. congruence. }
  destruct (nth_error duts k) as [d|] eqn:Ed; [|apply nth_error_None in Ed; lia].
  destruct (Hf k Hk) as (f & Ef & Af & Bf), (Hh k Hk) as (h & Eh & Ah), (He k Hk) as (e & Ee & Ae), (Hm k Hk) as (m & Em & Am).
  rewrite (N k d f h e m) in Hc by assumption. injection Hc as <-. unfold as_asked. cbn. auto.
Qed.

(** the arguments that are accepted *)
Definition acceptable (n_duts : nat) (a : arguments) (duts : list nat) : Prop :=
  selected n_duts (a_select a) duts /\ NoDup duts /\
  well_shaped (length duts) (a_fit a) /\ a_fit a <> SIter false [] /\ a_fit a <> SIter true [] /\ (a_fit a = SNone -> n_duts <> 0) /\
  (forall k l, k < length duts -> asks (seq 0 n_duts) (a_fit a) k l -> 2 <= length l) /\
  well_shaped (length duts) (a_hit a) /\
  match a_exclude a with inl v => duts <> [] -> v <> None | inr l => l <> [] /\ length l = length duts /\ ~ In None l end /\
  match a_min a with inl _ => True | inr l => length l = length duts end.

Lemma well_shaped_none n t l : well_shaped n (SIter t (map Leaf l)).
Proof. right. left. eauto. Qed.

Theorem C116_accepted n_duts a : (exists cs, check_arguments n_duts a = inr cs) <-> exists duts, acceptable n_duts a duts.
Proof.
  split.
  - intros (cs & H0). pose proof (C116_as_asked _ _ _ H0) as (_ & _ & As). unfold check_arguments in H0.
    rewrite bind_inr in H0. destruct H0 as (duts & Hs & H). apply C116_select_duts in Hs. destruct Hs as [Hs Nd]. exists duts.
    split; [exact Hs|]. split; [exact Nd|].
    rewrite bind_inr in H. destruct H as ([fits fa] & Hf & H).
    rewrite bind_inr in H. destruct H as ([hits ha] & Hh & H).
    rewrite bind_inr in H. destruct H as (ex & He & H).
    rewrite bind_inr in H. destruct H as (mins & Hm & H). clear H As.
    pose proof (check_fit_ok _ _ _ _ _ Hf) as [Lf Gf].
    unfold check_fit_duts in Hf. rewrite bind_inr in Hf. destruct Hf as ([t items] & E & Hf). cbn [fst snd] in Hf. rewrite guard_bind, bind_inr in Hf.
    destruct Hf as (Ne & r & X & _). assert (W := proj1 (expand_accepts t items _ _) (ex_intro _ _ X)).
    split. { destruct (a_fit a) as [|d|t' its]; [left; reflexivity|discriminate|injection E as -> ->; exact W]. }
    split. { intros Q. rewrite Q in E. injection E as <- <-. discriminate. }
    split. { intros Q. rewrite Q in E. injection E as <- <-. discriminate. }
    split. { intros Q. rewrite Q in E. injection E as <- <-. rewrite map_length, seq_length in Ne. destruct n_duts; [discriminate|lia]. }
    split. { intros k l Hk A. destruct (Gf k Hk) as (l' & _ & A' & B).
      rewrite (asks_unique _ _ _ _ _ A A'). exact B. }
    split. { unfold check_hit_duts in Hh. rewrite bind_inr in Hh. destruct Hh as ([t' its] & E' & X'). cbn [fst snd] in X'. assert (W' := proj1 (expand_accepts t' its _ _) (ex_intro _ _ X')).
      destruct (a_hit a) as [|d|t2 its2]; [left; reflexivity|discriminate|injection E' as -> ->; exact W']. }
    split.
    + unfold check_exclude in He. rewrite bind_inr in He. destruct He as (vs & E' & He). rewrite !guard_bind in He. destruct He as (L & F & _). rewrite forallb_forall in F. apply Nat.eqb_eq in L.
      destruct (a_exclude a) as [v|l].
      * injection E' as <-. intros Q ->. destruct duts; [congruence|]. specialize (F None (or_introl eq_refl)). discriminate.
      * rewrite guard_bind in E'. destruct E' as [Q E']. injection E' as ->. split; [destruct vs; [discriminate|congruence]|]. split; [exact L|]. intros I. specialize (F _ I). discriminate.
    + unfold check_min_hits in Hm. rewrite guard_bind in Hm. destruct Hm as [L _]. apply Nat.eqb_eq in L. destruct (a_min a); auto.
  - intros (duts & Hs & Nd & Wf & N1 & N2 & N0 & F2 & Wh & He & Hm). unfold check_arguments.
    rewrite (proj2 (C116_select_duts _ _ duts)) by auto. cbn [bind].
    assert (X : exists r, check_fit_duts n_duts (length duts) (a_fit a) = inr r).
    { assert (G : forall t items, (a_fit a = SNone /\ t = false /\ items = map Leaf (seq 0 n_duts)) \/ a_fit a = SIter t items ->
        exists r, bind (guard (negb (length items =? 0)) ValueErr) (fun _ => bind (expand t items (seq 0 n_duts) (length duts)) (fun r => bind (guard (forallb (fun l => negb (length l <? 2)) (fst r)) ValueErr) (fun _ => inr r))) = inr r).
      { intros t items C. assert (W : well_shaped (length duts) (SIter t items)). { destruct C as [(_ & -> & ->)|C]; [apply well_shaped_none|rewrite <- C; exact Wf]. }
        apply (proj2 (expand_accepts t items (seq 0 n_duts) _)) in W. destruct W as ([r after] & X). exists (r, after). rewrite guard_bind. split.
        - destruct C as [(C & -> & ->)|C].
          + rewrite map_length, seq_length. specialize (N0 C). destruct n_duts; [congruence|reflexivity].
          + destruct items; [destruct t; congruence|reflexivity].
        - rewrite X. cbn [bind fst]. rewrite guard_bind. split; [|reflexivity]. apply forallb_forall. intros l Hl. apply negb_true_iff, Nat.ltb_ge.
          apply expand_ok in X. destruct X as [Lr X]. apply In_nth_error in Hl. destruct Hl as [k Hk].
          assert (Kk : k < length duts) by (rewrite <- Lr; apply nth_error_Some; congruence). apply (F2 k); [exact Kk|].
          destruct (X k Kk) as (l' & Hl' & A). assert (l' = l) by congruence. subst l'. destruct C as [(C & -> & ->)|C]; [|rewrite C; exact A].
          rewrite C. apply asks_all in A. subst l. apply asks_default. reflexivity. }
      unfold check_fit_duts. destruct (a_fit a) as [|d|t items] eqn:Ea; cbn [bind fst snd].
      - apply G. left. auto.
      - destruct Wf as [Q|[(? & ? & Q)|(? & ? & Q & _)]]; discriminate.
      - apply G. right. reflexivity. }
    destruct X as (r & ->). cbn [bind].
    assert (X : exists r, check_hit_duts (length duts) (a_hit a) = inr r).
    { unfold check_hit_duts. destruct (a_hit a) as [|d|t items] eqn:Ea; cbn [bind fst snd].
      - apply expand_accepts. apply (well_shaped_none _ false []).
      - destruct Wh as [Q|[(? & ? & Q)|(? & ? & Q & _)]]; discriminate.
      - apply expand_accepts. exact Wh. }
    destruct X as (r' & ->). cbn [bind].
    assert (X : exists r, check_exclude (a_exclude a) (length duts) = inr r).
    { unfold check_exclude. destruct (a_exclude a) as [v|l]; cbn [bind].
      - eexists. rewrite !guard_bind, repeat_length, Nat.eqb_refl. split; [reflexivity|]. split; [|reflexivity]. apply forallb_forall. intros w Hw. apply repeat_spec in Hw as Q. subst w.
        destruct v; [reflexivity|]. exfalso. destruct duts; [destruct Hw|]. apply He; congruence.
      - destruct He as (Q1 & Q2 & Q3). destruct l as [|v l]; [congruence|]. cbn [length negb Nat.eqb bind guard]. eexists. rewrite !guard_bind. cbn in Q2. rewrite <- Q2, Nat.eqb_refl. split; [reflexivity|].
        split; [|reflexivity]. apply forallb_forall. intros [b|] Hw; [reflexivity|contradiction]. }
    destruct X as (ex & ->). cbn [bind].
    assert (X : exists r, check_min_hits (a_min a) (length duts) = inr r).
    { unfold check_min_hits. eexists. rewrite guard_bind. split; [|reflexivity]. apply Nat.eqb_eq. destruct (a_min a); [apply repeat_length|exact Hm]. }
    destruct X as (mins & ->). cbn [bind]. eauto.
Qed.

(** ** The fits *)
Lemma steps_ok : forall steps, check_steps steps = inr tt -> forall l duts, In (l, duts) steps -> 2 <= min_hits l <= length (fit_duts l).
Proof.
  induction steps as [|s steps IH]; intros H l duts Hi; [destruct Hi|]. cbn [check_steps] in H. rewrite bind_inr in H. destruct H as ([] & H1 & H2).
  destruct Hi as [->|Hi]; [|apply (IH H2 _ _ Hi)]. unfold check_required in H1. cbn [fst] in H1. rewrite guard_bind in H1. destruct H1 as [A B].
  unfold guard in B. destruct (negb (length (fit_duts l) <? min_hits l)) eqn:E; [|discriminate]. apply negb_true_iff, Nat.ltb_ge in A, E. lia.
Qed.

(** the lists of DUTs asked for have no repetition *)
Definition no_repetition (n_duts : nat) (a : arguments) (duts : list nat) : Prop :=
  forall k l, k < length duts -> asks (seq 0 n_duts) (a_fit a) k l -> NoDup l.

(** If fit_tracks does not reject its arguments, then every selected DUT is in exactly one fit, and this fit uses the DUTs asked for (without the DUT itself, if its
    hits are to be excluded), requires the hits and the number of hits asked for (all fit DUTs if no number is given), at least two hits and not more than there are DUTs
    in the fit. *)
Theorem C116_fits n_duts a steps duts : fit_arguments n_duts a = inr steps -> selected n_duts (a_select a) duts -> no_repetition n_duts a duts ->
  forall k d, nth_error duts k = Some d ->
  (exists before after l ds, steps = before ++ (l, ds) :: after /\ In d ds /\ ~ In d (concat (map snd (before ++ after))) /\
    2 <= min_hits l <= length (fit_duts l) /\
    exists fit hit exclude min, asks (seq 0 n_duts) (a_fit a) k fit /\ asks [] (a_hit a) k hit /\ asks_value (a_exclude a) k (Some exclude) /\ asks_value (a_min a) k min /\
      (forall e, In e (fit_duts l) <-> In e fit /\ (exclude = true -> e <> d)) /\ (forall e, In e (f_hit l) <-> In e hit) /\
      min_hits l = match min with Some m => m | None => length (filter (fun e => negb (exclude && (e =? d))) fit) end).
Proof.
  unfold fit_arguments. rewrite bind_inr. intros (cs & Hc & H) Hs Nr k d Hd. rewrite bind_inr in H. destruct H as ([] & Hr & H). injection H as <-.
  destruct (C116_as_asked _ _ _ Hc) as (Hs' & Nd & As).
  assert (Eq : duts = map f_dut cs).
  { unfold selected in Hs, Hs'. destruct (a_select a) as [|d'|t items].
    - destruct Hs as [[_ ->]|[(? & Q & _)|(? & Q)]]; try discriminate. destruct Hs' as [[_ ->]|[(? & Q & _)|(? & Q)]]; try discriminate. reflexivity.
    - destruct Hs as [[Q _]|[(? & Q & ->)|(? & Q)]]; try discriminate. destruct Hs' as [[Q' _]|[(? & Q' & ->)|(? & Q')]]; try discriminate. congruence.
    - destruct Hs as [[Q _]|[(? & Q & _)|(? & Q)]]; try discriminate. destruct Hs' as [[Q' _]|[(? & Q' & _)|(? & Q')]]; try discriminate.
      injection Q as _ Q. injection Q' as _ Q'. apply leaf_inj. congruence. }
  subst duts. rewrite nth_error_map in Hd. destruct (nth_error cs k) as [c|] eqn:Ec; [|discriminate]. injection Hd as <-.
  pose proof (nth_error_In _ _ Ec) as Ic. destruct (steps_spec cs Nd) as (S1 & S2 & S3). specialize (S1 c Ic).
  apply in_concat in S1. destruct S1 as (ds & Hds & Hin). apply in_map_iff in Hds. destruct Hds as ([l ds'] & E & Hst). cbn in E. subst ds'.
  pose proof (in_split _ _ Hst) as (before & after & Es). exists before, after, l, ds. split; [exact Es|]. split; [exact Hin|]. split; [|split].
  - rewrite Es, map_app, concat_app in S2. cbn [map snd concat] in S2. rewrite map_app, concat_app, in_app_iff. intros Q.
    assert (G : forall A (x y z : list A) v, NoDup (x ++ y ++ z) -> In v y -> ~ (In v x \/ In v z)).
    { clear. intros A x y z v N Iy Q. destruct (in_split _ _ Iy) as (y1 & y2 & ->). rewrite app_assoc in N.
      replace ((x ++ y1 ++ v :: y2) ++ z) with ((x ++ y1) ++ v :: (y2 ++ z)) in N by (rewrite <- !app_assoc; reflexivity).
      apply NoDup_remove_2 in N. apply N. rewrite !in_app_iff. tauto. }
    apply (G _ _ _ _ _ S2 Hin Q).
  - apply (steps_ok _ Hr _ _ Hst).
  - destruct (As k c Ec) as (A1 & A2 & A3 & A4 & A5). exists (f_fit c), (f_hit c), (f_exclude c), (f_min c). repeat (split; [assumption|]).
    assert (Nf : forall c', In c' cs -> NoDup (f_fit c')).
    { intros c' Hc'. apply In_nth_error in Hc'. destruct Hc' as [k' Hk']. apply (Nr k'); [rewrite map_length; apply nth_error_Some; congruence|]. apply (As k' c' Hk'). }
    destruct (C26_own_configuration cs Nd Nf l ds c Hst Ic Hin) as (O1 & O2 & O3). split; [exact O1|]. split; [exact O2|]. rewrite O3. destruct (f_min c); [reflexivity|].
    unfold fit_duts. destruct (f_exclude c); cbn [andb].
    + unfold set_minus. rewrite nodup_fixed_point; [reflexivity|]. apply NoDup_filter. auto.
    + clear. induction (f_fit c) as [|e f IH]; cbn; [reflexivity|]. rewrite IH. reflexivity.
Qed.

(** ** The requirements can be met *)
Definition storable (kalman : bool) (c : fit_config) : Prop := exists hit_flag, (0 <= hit_flag)%Z /\ select_store kalman c hit_flag = true.
Lemma mask_nonneg duts : (0 <= mask_of duts)%Z.
Proof.
  unfold mask_of. assert (K : forall l m, (0 <= m)%Z -> (0 <= fold_left (fun m d => Z.lor m (Z.shiftl 1 (Z.of_nat d))) l m)%Z).
  { induction l as [|d l IH]; intros m Hm; simpl; auto. apply IH. apply Z.lor_nonneg. split; auto. apply Z.shiftl_nonneg. lia. }
  apply K. lia.
Qed.
(** If no DUT is listed twice, a track with hits in all DUTs is stored; for the Kalman filter iff there are at least three fit DUTs. *)
Theorem C116_storable n_duts a steps l ds : fit_arguments n_duts a = inr steps -> In (l, ds) steps ->
  NoDup (f_fit l) -> (forall d, In d (f_fit l) -> d < 32) ->
  storable false l /\ (storable true l <-> 3 <= length (fit_duts l)).
Proof.
  unfold fit_arguments. rewrite bind_inr. intros (cs & _ & H) Hi Nf B. rewrite bind_inr in H. destruct H as ([] & Hr & H). injection H as <-.
  pose proof (steps_ok _ Hr _ _ Hi) as M.
  set (full := mask_of (f_hit l ++ fit_duts l)). assert (F0 : (0 <= full)%Z) by apply mask_nonneg.
  assert (Fb : forall d, In d (f_hit l ++ fit_duts l) -> Z.testbit full (Z.of_nat d) = true).
  { intros d Hd. unfold full. apply mask_bits; [lia|]. rewrite Nat2Z.id. exact Hd. }
  assert (Fh : hits_in full (fit_duts l) = length (fit_duts l)).
  { unfold hits_in. f_equal. assert (G : forall x, (forall d, In d x -> Z.testbit full (Z.of_nat d) = true) -> filter (fun d => Z.testbit full (Z.of_nat d)) x = x).
    { induction x as [|d x IH]; intros G; cbn; [reflexivity|]. rewrite (G d) by (left; reflexivity). rewrite IH; [reflexivity|]. intros e He. apply G. right. exact He. }
    apply G. intros d Hd. apply Fb, in_or_app. auto. }
  split.
  - exists full. split; [exact F0|]. apply C52_stored_tracks; auto. split; [intros d Hd; apply Fb, in_or_app; auto|]. rewrite Fh. lia.
  - split.
    + intros (hf & H0 & H). apply C52_stored_tracks in H; auto. destruct H as [_ H].
      assert (hits_in hf (fit_duts l) <= length (fit_duts l)); [|lia]. unfold hits_in. clear. induction (fit_duts l) as [|d x IH]; cbn; [lia|]. destruct (Z.testbit hf (Z.of_nat d)); cbn; lia.
    + intros H3. exists full. split; [exact F0|]. apply C52_stored_tracks; auto. split; [intros d Hd; apply Fb, in_or_app; auto|]. rewrite Fh. lia.
Qed.

(** Repetitions in select_fit_duts are not rejected, and then no track can be stored: two different DUTs cannot have the three required hits. *)
Theorem C116_duplicates_refuted : exists n_duts a steps l ds, fit_arguments n_duts a = inr steps /\ In (l, ds) steps /\
  a_fit a = SIter false [Leaf 0; Leaf 0; Leaf 1] /\ ~ storable false l /\ ~ storable true l.
Proof.
  set (a := Arguments (SIter false [Leaf 2]) (SIter false [Leaf 0; Leaf 0; Leaf 1]) SNone (inl (Some false)) (inl None)).
  set (l := FitConfig 2 [0; 0; 1] [] false None).
  exists 3, a, [(l, [2])], l, [2]. split; [reflexivity|]. split; [left; reflexivity|]. split; [reflexivity|].
  assert (G : forall hf, (0 <= hf)%Z -> (number_of_set_bits (Z.land hf (mask_of (fit_duts l))) <= 2)%Z).
  { intros hf H. replace (mask_of (fit_duts l)) with (mask_of [0; 1]) by reflexivity. rewrite popcount_mask; auto.
    - unfold hits_in. assert (length (filter (fun d => Z.testbit hf (Z.of_nat d)) [0; 1]) <= 2); [|lia]. cbn [filter]. destruct (Z.testbit hf (Z.of_nat 0)), (Z.testbit hf (Z.of_nat 1)); cbn; lia.
    - repeat constructor; simpl; intuition lia.
    - simpl. intuition lia. }
  split; intros (hf & H0 & H); specialize (G hf H0); unfold select_store in H; rewrite !andb_true_iff in H; destruct H as [_ H]; apply Z.leb_le in H; change (min_hits l) with 3 in H; lia.
Qed.
(** With the Kalman filter two fit DUTs are not rejected, although no track can be stored. *)
Theorem C116_kalman_refuted : exists n_duts a steps l ds, fit_arguments n_duts a = inr steps /\ In (l, ds) steps /\
  NoDup (f_fit l) /\ a_min a = inl (Some 2) /\ storable false l /\ ~ storable true l.
Proof.
  set (a := Arguments (SIter false [Leaf 2]) (SIter false [Leaf 0; Leaf 1]) SNone (inl (Some false)) (inl (Some 2))).
  set (l := FitConfig 2 [0; 1] [] false (Some 2)). exists 3, a, [(l, [2])], l, [2].
  assert (E : fit_arguments 3 a = inr [(l, [2])]) by reflexivity. split; [exact E|]. split; [left; reflexivity|].
  assert (N : NoDup (f_fit l)) by (repeat constructor; simpl; intuition lia). split; [exact N|]. split; [reflexivity|].
  destruct (C116_storable _ _ _ _ _ E (or_introl eq_refl) N) as [S1 S2]; [simpl; intuition lia|]. split; [exact S1|]. rewrite S2. cbn. lia.
Qed.

(** ** Defaults *)
Definition defaults (exclude : bool) : arguments := Arguments SNone SNone SNone (inl (Some exclude)) (inl None).
Lemma defaults_configs n b : 2 <= n -> check_arguments n (defaults b) = inr (map (fun d => FitConfig d (seq 0 n) [] b None) (seq 0 n)).
Proof.
  intros Hn. unfold check_arguments. cbn [a_select a_fit a_hit a_exclude a_min defaults].
  rewrite (proj2 (C116_select_duts n SNone (seq 0 n))) by (split; [left; auto|apply seq_NoDup]). cbn [bind]. rewrite seq_length.
  unfold check_fit_duts. cbn [bind fst snd]. unfold expand at 1. rewrite forallb_leaf, leaf_map, map_length, seq_length.
  destruct n as [|n']; [lia|]. cbn [Nat.eqb negb guard bind fst]. set (n := S n') in *.
  assert (F : forallb (fun l => negb (length l <? 2)) (repeat (seq 0 n) n) = true).
  { apply forallb_forall. intros l Hl. apply repeat_spec in Hl. subst l. rewrite seq_length. apply negb_true_iff, Nat.ltb_ge. exact Hn. }
  rewrite F. cbn [guard bind]. unfold check_hit_duts. cbn [bind fst snd expand forallb map]. unfold check_exclude. cbn [bind]. rewrite repeat_length, Nat.eqb_refl. cbn [guard bind].
  assert (F2 : forallb (fun v : option bool => match v with Some _ => true | None => false end) (repeat (Some b) n) = true).
  { apply forallb_forall. intros l Hl. apply repeat_spec in Hl. subst l. reflexivity. }
  rewrite F2. cbn [guard bind]. unfold check_min_hits. rewrite repeat_length, Nat.eqb_refl. cbn [guard bind fst]. f_equal.
  assert (G : forall m x, configs (seq x m) (repeat (seq 0 n) m) (repeat [] m) (map (fun v : option bool => match v with Some b => b | None => false end) (repeat (Some b) m)) (repeat None m)
     = map (fun d => FitConfig d (seq 0 n) [] b None) (seq x m)).
  { clear. induction m as [|m IH]; intros x; cbn; [reflexivity|]. rewrite IH. reflexivity. }
  apply G.
Qed.
Lemma fit_loop_all_same all todo c : (forall e, In e all -> same_tracks c e = true) -> (forall e, In e todo -> In e all) ->
  fit_loop all todo (map f_dut all) = [].
Proof.
  intros H. induction todo as [|e todo IH]; intros Q; cbn; [reflexivity|]. assert (M : memb (f_dut e) (map f_dut all) = true) by (apply memb_in, in_map, Q; left; reflexivity).
  rewrite M. apply IH. intros x Hx. apply Q. right. exact Hx.
Qed.
(** Without arguments tracks are fitted once, with all DUTs for all DUTs, with a hit in every DUT required; two DUTs are needed. *)
Theorem C116_defaults n : 2 <= n -> fit_arguments n (defaults false) = inr [(FitConfig 0 (seq 0 n) [] false None, seq 0 n)] /\
  min_hits (FitConfig 0 (seq 0 n) [] false None) = n.
Proof.
  intros Hn. split; [|cbn; apply seq_length]. unfold fit_arguments. rewrite defaults_configs by exact Hn. cbn [bind].
  set (all := map (fun d => FitConfig d (seq 0 n) [] false None) (seq 0 n)).
  assert (E : fit_steps all = [(FitConfig 0 (seq 0 n) [] false None, seq 0 n)]).
  { assert (Hsame : forall e, In e all -> same_tracks (FitConfig 0 (seq 0 n) [] false None) e = true).
    { intros e He. unfold all in He. apply in_map_iff in He. destruct He as (d & <- & _). unfold same_tracks. cbn [f_dut f_fit f_hit f_exclude f_min negb andb orb option_eqb].
      rewrite (proj2 (set_eqb_spec _ _)) by (intros x; reflexivity). cbn [orb andb]. rewrite (proj2 (set_eqb_spec _ _)) by (intros x; reflexivity). apply orb_true_r. }
    assert (Fil : filter (same_tracks (FitConfig 0 (seq 0 n) [] false None)) all = all).
    { clearbody all. revert Hsame. clear. induction all as [|e all IH]; intros Hsame; cbn [filter]; [reflexivity|]. rewrite (Hsame e) by (left; reflexivity). f_equal. apply IH. intros x Hx. apply Hsame. right. exact Hx. }
    assert (Md : map f_dut all = seq 0 n) by (unfold all; rewrite map_map; cbn; apply map_id).
    assert (H0 : exists rest, all = FitConfig 0 (seq 0 n) [] false None :: rest) by (unfold all; destruct n; [lia|]; eexists; reflexivity).
    destruct H0 as (rest & H0). unfold fit_steps. rewrite H0 at 2. cbn [fit_loop f_dut memb existsb]. rewrite Fil, Md. f_equal. cbn [app]. rewrite <- Md.
    apply (fit_loop_all_same _ _ (FitConfig 0 (seq 0 n) [] false None) Hsame). intros e He. rewrite H0. right. exact He. }
  rewrite E. cbn [check_steps fst bind]. unfold check_required, min_hits, fit_duts. cbn [f_min f_fit f_exclude]. rewrite seq_length.
  rewrite (proj2 (Nat.ltb_ge _ _) Hn), Nat.ltb_irrefl. reflexivity.
Qed.

Lemma excluded_fit n d : d < n -> length (fit_duts (FitConfig d (seq 0 n) [] true None)) = n - 1.
Proof.
  intros Hd. unfold fit_duts. cbn [f_exclude f_fit f_dut]. rewrite nodup_fixed_point by (apply NoDup_filter, seq_NoDup).
  assert (G : forall m x, set_minus (seq x m) d = if (x <=? d) && (d <? x + m) then seq x (d - x) ++ seq (S d) (x + m - S d) else seq x m).
  { clear. induction m as [|m IH]; intros x; cbn [seq set_minus filter].
    - destruct (Nat.leb_spec x d), (Nat.ltb_spec d (x + 0)); cbn; try reflexivity. lia.
    - unfold set_minus in IH. rewrite IH. destruct (Nat.eqb_spec x d) as [E|Q]; cbn [negb].
      + subst. destruct (Nat.leb_spec (S d) d); [lia|]. cbn [andb]. destruct (Nat.leb_spec d d), (Nat.ltb_spec d (d + S m)); try lia. cbn [andb].
        replace (d - d) with 0 by lia. cbn. f_equal. lia.
      + destruct (Nat.leb_spec (S x) d), (Nat.leb_spec x d), (Nat.ltb_spec d (S x + m)), (Nat.ltb_spec d (x + S m)); try lia; cbn [andb]; try reflexivity.
        replace (d - x) with (S (d - S x)) by lia. cbn [seq app]. f_equal. f_equal. f_equal. lia. }
  rewrite G. destruct (Nat.leb_spec 0 d), (Nat.ltb_spec d (0 + n)); try lia. cbn [andb]. rewrite app_length, !seq_length. lia.
Qed.
(** With exclude_dut_hit every DUT has its own fit with the other DUTs, all of which must have a hit; with two DUTs this is rejected. *)
Theorem C116_excluded n : 3 <= n -> fit_arguments n (defaults true) = inr (map (fun d => (FitConfig d (seq 0 n) [] true None, [d])) (seq 0 n)) /\
  (forall d, d < n -> min_hits (FitConfig d (seq 0 n) [] true None) = n - 1).
Proof.
  intros Hn. split; [|intros d Hd; unfold min_hits; cbn [f_min]; apply excluded_fit; exact Hd]. unfold fit_arguments. rewrite defaults_configs by lia. cbn [bind].
  set (cfg := fun d => FitConfig d (seq 0 n) [] true None). fold cfg. set (all := map cfg (seq 0 n)).
  assert (Same : forall d e, d < n -> e < n -> same_tracks (cfg d) (cfg e) = (e =? d)).
  { intros d e Hd He. unfold same_tracks, cfg. cbn [f_dut f_fit f_hit f_exclude f_min negb andb orb option_eqb].
    destruct (Nat.eqb_spec e d) as [E|Q]; [reflexivity|]. cbn [orb].
    assert (X : set_eqb (set_minus (seq 0 n) e) (set_minus (seq 0 n) d) = false).
    { apply not_true_iff_false. rewrite set_eqb_spec. intros X. specialize (X d). rewrite !set_minus_in, in_seq in X. lia. }
    rewrite X. reflexivity. }
  assert (Fil : forall d, d < n -> map f_dut (filter (same_tracks (cfg d)) all) = [d]).
  { intros d Hd. unfold all.
    assert (G : forall m x, x + m <= n -> map f_dut (filter (same_tracks (cfg d)) (map cfg (seq x m))) = if (x <=? d) && (d <? x + m) then [d] else []).
    { induction m as [|m IH]; intros x Hx; cbn [seq map filter].
      - destruct (Nat.leb_spec x d), (Nat.ltb_spec d (x + 0)); cbn; try reflexivity. lia.
      - rewrite Same by lia. specialize (IH (S x) ltac:(lia)).
        destruct (Nat.eqb_spec x d) as [E|Q]; cbn [map]; rewrite IH;
          destruct (Nat.leb_spec (S x) d), (Nat.leb_spec x d), (Nat.ltb_spec d (S x + m)), (Nat.ltb_spec d (x + S m)); try lia; cbn; congruence. }
    rewrite (G n 0) by lia. destruct (Nat.leb_spec 0 d), (Nat.ltb_spec d (0 + n)); try lia. reflexivity. }
  assert (E : fit_steps all = map (fun d => (cfg d, [d])) (seq 0 n)).
  { unfold fit_steps. assert (G : forall m x fitted, x + m <= n -> (forall d, x <= d -> ~ In d fitted) -> fit_loop all (map cfg (seq x m)) fitted = map (fun d => (cfg d, [d])) (seq x m)).
    { induction m as [|m IH]; intros x fitted Hx Hf; cbn [seq map fit_loop]; [reflexivity|]. change (f_dut (cfg x)) with x.
      assert (M : memb x fitted = false) by (apply not_true_iff_false; rewrite memb_in; apply Hf; lia). rewrite M, Fil by lia. f_equal. apply IH; [lia|].
      intros d Hd. rewrite in_app_iff. intros [Q|[Q|[]]]; [|lia]. apply (Hf d); [lia|exact Q]. }
    apply G; [lia|]. intros d _ []. }
  rewrite E. assert (C : forall l, (forall d, In d l -> d < n) -> check_steps (map (fun d => (cfg d, [d])) l) = inr tt).
  { induction l as [|d l IH]; intros Hl; cbn [map check_steps fst]; [reflexivity|]. unfold check_required. unfold min_hits. cbn [cfg f_min].
    unfold cfg at 1 2 3. cbn [f_min]. rewrite excluded_fit by (apply Hl; left; reflexivity).
    destruct (Nat.ltb_spec (n - 1) 2); [lia|]. rewrite Nat.ltb_irrefl. cbn [negb guard bind]. apply IH. intros e He. apply Hl. right. exact He. }
  rewrite C by (intros d Hd; apply in_seq in Hd; lia). reflexivity.
Qed.
Theorem C116_excluded_two : fit_arguments 2 (defaults true) = inl ValueErr /\ (forall b, fit_arguments 1 (defaults b) = inl ValueErr /\ fit_arguments 0 (defaults b) = inl ValueErr).
Proof. split; [reflexivity|]. intros []; split; reflexivity. Qed.

(** ** The list of the caller *)
(** None in a list is replaced in the list of the caller; a list without None is not changed. *)
Theorem C116_changed_list n_duts n s r after : check_fit_duts n_duts n s = inr (r, after) ->
  match s with
  | SIter t items => length after = length items /\ forall k i, nth_error items k = Some i ->
      nth_error after k = Some (match i with INone => Items (seq 0 n_duts) | _ => i end)
  | _ => True
  end.
Proof.
  destruct s as [|d|t items]; intros H; try exact Logic.I. unfold check_fit_duts in H. cbn [bind fst snd] in H. rewrite guard_bind, bind_inr in H. destruct H as (_ & [r' a'] & X & H).
  rewrite guard_bind in H. destruct H as [_ H]. injection H as -> ->. unfold expand in X. destruct (forallb is_leaf items) eqn:E.
  - injection X as _ <-. split; [reflexivity|]. intros k i Hi. rewrite Hi. rewrite forallb_forall in E. specialize (E i (nth_error_In _ _ Hi)). destruct i; [discriminate|reflexivity|reflexivity].
  - rewrite !guard_bind in X. destruct X as (_ & _ & _ & X). injection X as _ <-. split; [apply map_length|]. intros k i Hi. rewrite (map_nth_error _ _ _ Hi). destruct i; reflexivity.
Qed.
(** Used again, for a telescope with more DUTs, the list asks for other DUTs than at first. *)
Theorem C116_reused_list_refuted : exists items r after r', check_fit_duts 3 2 (SIter false items) = inr (r, after) /\
  check_fit_duts 4 2 (SIter false items) <> check_fit_duts 4 2 (SIter false after) /\ check_fit_duts 4 2 (SIter false after) = inr r'.
Proof. exists [INone; Items [0; 1]]. do 3 eexists. split; [reflexivity|]. split; [cbn; discriminate|reflexivity]. Qed.

Example C116_case :
  let a := Arguments (SIter true [Leaf 1; Leaf 2]) (SIter false [INone; Items [0; 1; 3]]) (SIter false [Leaf 0]) (inr [Some true; Some false]) (inl (Some 2)) in
  fit_arguments 4 a = inr [(FitConfig 1 [0; 1; 2; 3] [0] true (Some 2), [1]); (FitConfig 2 [0; 1; 3] [0] false (Some 2), [2])] /\
  (exists duts, selected 4 (a_select a) duts /\ no_repetition 4 a duts) /\ (exists duts, acceptable 4 a duts).
Proof.
  cbn zeta. split; [reflexivity|]. split.
  - exists [1; 2]. split; [right; right; exists true; reflexivity|]. intros k l Hk H. cbn [a_fit] in H.
    destruct k as [|[|k]]; [| |cbn in Hk; lia].
    + rewrite (asks_unique _ _ _ _ (seq 0 4) H); [apply seq_NoDup|]. eapply asks_none; reflexivity.
    + rewrite (asks_unique _ _ _ _ [0; 1; 3] H); [repeat constructor; simpl; intuition lia|]. eapply asks_item; reflexivity.
  - apply C116_accepted. eexists. reflexivity.
Qed.
Example C116_errors :
  check_select_duts 3 (SIter false [Leaf 1; Leaf 1]) = inl ValueErr /\
  check_fit_duts 3 1 (SNumber 1) = inl ValueErr /\ check_fit_duts 3 1 (SIter true []) = inl ValueErr /\
  check_fit_duts 3 2 (SIter true [INone; Items [0; 1]]) = inl TypeErr /\ check_fit_duts 3 2 (SIter false [Leaf 0; Items [0; 1]]) = inl ValueErr /\
  check_fit_duts 3 2 (SIter false [Items [0; 1]]) = inl ValueErr /\ check_fit_duts 3 2 (SIter false [Leaf 0]) = inl ValueErr /\
  check_exclude (inr []) 0 = inl ValueErr /\ check_exclude (inl None) 1 = inl ValueErr /\ check_min_hits (inr [None]) 2 = inl ValueErr /\
  fit_arguments 3 (Arguments SNone SNone SNone (inl (Some false)) (inl (Some 4))) = inl RuntimeErr /\
  fit_arguments 3 (Arguments SNone SNone SNone (inl (Some false)) (inl (Some 1))) = inl ValueErr.
Proof. repeat split; reflexivity. Qed.

Print Assumptions C116_select_duts.
Print Assumptions C116_as_asked.
Print Assumptions C116_accepted.
Print Assumptions C116_fits.
Print Assumptions C116_storable.
Print Assumptions C116_duplicates_refuted.
Print Assumptions C116_kalman_refuted.
Print Assumptions C116_defaults.
Print Assumptions C116_excluded.
Print Assumptions C116_excluded_two.
Print Assumptions C116_changed_list.
Print Assumptions C116_reused_list_refuted.
