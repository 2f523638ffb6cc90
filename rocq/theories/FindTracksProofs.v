(** Lemmas for the track finding. *)
From Coq Require Import Ascii String ZArith List Bool Arith Lia Permutation.
From Verif Require Import FindTracksModel.
Import ListNotations.
Local Open Scope nat_scope.

Lemma take_while_in {V} (p : V -> bool) l v : In v (take_while p l) -> In v l /\ p v = true.
Proof.
  induction l as [|x r IH]; simpl; [tauto|]. destruct (p x) eqn:E; [|simpl; tauto].
  intros [<-|H]; auto. destruct (IH H). auto.
Qed.
Lemma event_run_in n_rows events start r : In r (event_run n_rows events start) -> r < n_rows /\ start <= r /\ events r = events start.
Proof.
  unfold event_run. intros H. apply take_while_in in H. destruct H as [H1 H2].
  apply in_seq in H1. apply Z.eqb_eq in H2. lia.
Qed.

Section Find.
  Variable F : Type.
  Variable isnan : F -> bool.
  Variables fadd fsub fmul fdiv : F -> F -> F.
  Variables fneg fsqrt : F -> F.
  Variable nonneg : F -> bool.
  Variable flt : F -> F -> bool.
  Variable n_rows : nat.
  Variable events : nat -> Z.
  Variable zs : list nat.
  Variable extra : list nat.
  Variable translation normal : nat -> nat -> F.
  Hypothesis Hz : NoDup zs.

  Notation arr := (arrays F).
  Notation two_refs := (two_refs F isnan zs extra).
  Notation reference := (reference F isnan fadd fsub fmul fdiv fneg fsqrt zs extra translation normal).
  Notation hit_loop := (hit_loop F isnan fadd fsub fmul fdiv fneg fsqrt nonneg flt zs extra translation normal).
  Notation find_tracks_at := (find_tracks_at F isnan fadd fsub fmul fdiv fneg fsqrt nonneg flt n_rows events zs extra translation normal).
  Notation rows_loop := (rows_loop F isnan fadd fsub fmul fdiv fneg fsqrt nonneg flt n_rows events zs extra translation normal).
  Notation duts_loop := (duts_loop F isnan fadd fsub fmul fdiv fneg fsqrt nonneg flt n_rows events zs extra translation normal).
  Notation events_loop := (events_loop F isnan fadd fsub fmul fdiv fneg fsqrt nonneg flt n_rows events zs extra translation normal).
  Notation event_run := (event_run n_rows events).

  Lemma position_some d l i : position d l = Some i -> nth_error l i = Some d.
  Proof.
    revert i. induction l as [|v r IH]; intros i H; [discriminate|]. simpl in H.
    destruct (position d r) as [k|]; [injection H as <-; simpl; auto|].
    destruct (Nat.eqb_spec v d); [|discriminate]. injection H as <-. simpl. congruence.
  Qed.
  Lemma position_in d l : In d l -> exists i, position d l = Some i.
  Proof.
    induction l as [|v r IH]; intros H; [contradiction|]. simpl.
    destruct (position d r) as [k|] eqn:E; [eauto|]. destruct H as [->|H].
    - rewrite Nat.eqb_refl. eauto.
    - destruct (IH H) as (i & Hi). congruence.
  Qed.
  Lemma position_firstn d k i : In d (firstn k zs) -> position d zs = Some i -> i < k.
  Proof.
    intros Hin Hp. apply In_nth_error in Hin. destruct Hin as (j & Hj).
    assert (Hjk : j < k). { assert (j < length (firstn k zs)) by (apply nth_error_Some; congruence). rewrite firstn_length in H. lia. }
    assert (Hj' : nth_error zs j = Some d).
    { rewrite <- Hj. rewrite <- (firstn_skipn k zs) at 1. rewrite nth_error_app1; auto. apply nth_error_Some. congruence. }
    apply position_some in Hp.
    assert (i = j); [|lia]. apply (proj1 (NoDup_nth_error zs) Hz); [apply nth_error_Some; congruence|congruence].
  Qed.

  Lemma get_last_in a row l r : get_last_dut F isnan a row l = Some r -> In r l /\ isnan (ax a row r) = false.
  Proof. unfold get_last_dut. intros H. apply find_some in H. destruct H as [H1 H2]. rewrite <- in_rev in H1. apply negb_true_iff in H2. auto. Qed.
  Lemma get_first_in a row l r : get_first_dut F isnan a row l = Some r -> In r l /\ isnan (ax a row r) = false.
  Proof. unfold get_first_dut. intros H. apply find_some in H. destruct H as [H1 H2]. apply negb_true_iff in H2. auto. Qed.
  Lemma get_first_some a row d : In d zs -> isnan (ax a row d) = false -> exists r, get_first_dut F isnan a row zs = Some r.
  Proof.
    intros Hd Hn. unfold get_first_dut. destruct (find _ zs) eqn:E; [eauto|].
    pose proof (find_none _ _ E d Hd) as H. simpl in H. rewrite Hn in H. discriminate.
  Qed.
  Lemma firstn_In' {T} (x : T) k l : In x (firstn k l) -> In x l.
  Proof. intros H. rewrite <- (firstn_skipn k l). apply in_or_app. auto. Qed.

  Lemma two_refs_total a row : forall fuel curr k second, position curr zs = Some k -> k < fuel ->
    exists o, two_refs fuel a row curr second = Some o.
  Proof.
    induction fuel as [|f IH]; intros curr k second Hp Hk; [lia|].
    cbn [FindTracksModel.two_refs]. rewrite Hp. destruct k as [|k]; [eauto|].
    destruct (get_last_dut F isnan a row (upto zs (Some (S k)))) as [r|] eqn:E; [|eauto].
    apply get_last_in in E. destruct E as [E _]. cbn [upto] in E.
    destruct (position_in r zs (firstn_In' _ _ _ E)) as (i & Hi).
    pose proof (position_firstn r (S k) i E Hi).
    destruct (existsb (Nat.eqb r) extra); [destruct second; [eauto|]|]; apply (IH r i); auto; lia.
  Qed.

  Lemma reference_total a row dut fd : In dut zs -> exists p, reference a row dut fd = Some p.
  Proof.
    intros Hd. unfold FindTracksModel.reference. destruct (position_in dut zs Hd) as (k & Hk).
    assert (k < S (length zs)). { apply position_some in Hk. assert (k < length zs) by (apply nth_error_Some; congruence). lia. }
    destruct (two_refs_total a row (S (length zs)) dut k None Hk H) as (o & ->). destruct o as [[s f]|]; eauto.
  Qed.

  Lemma hit_loop_total a track dut rx ry : In dut zs -> forall hits best,
    exists r, hit_loop a track dut rx ry hits best = Some r /\
      (fst r = fst (fst best) \/ In (fst r) hits) /\ (snd r = true -> snd best = true \/ In (fst r) hits).
  Proof using Hz. clear n_rows events.
    intros Hd. induction hits as [|h r IH]; intros best.
    - simpl. eexists. split; [reflexivity|]. simpl. auto.
    - cbn [FindTracksModel.hit_loop].
      assert (K : forall b, exists x, hit_loop a track dut rx ry r b = Some x /\
        ((fst x = fst (fst b) \/ In (fst x) r) /\ (snd x = true -> snd b = true \/ In (fst x) r))) by (intros b; apply IH).
      assert (K1 : forall b, b = best -> exists x, hit_loop a track dut rx ry r b = Some x /\
        (fst x = fst (fst best) \/ In (fst x) (h :: r)) /\ (snd x = true -> snd best = true \/ In (fst x) (h :: r))).
      { intros b ->. destruct (K best) as (x & H1 & H2 & H3). exists x. split; auto. simpl. split; intuition. }
      assert (K2 : forall d, exists x, hit_loop a track dut rx ry r (h, Some d, true) = Some x /\
        (fst x = fst (fst best) \/ In (fst x) (h :: r)) /\ (snd x = true -> snd best = true \/ In (fst x) (h :: r))).
      { intros d. destruct (K (h, Some d, true)) as (x & H1 & H2 & H3). exists x. split; auto. simpl in *. split; intuition. }
      destruct (track =? h); [auto|]. destruct (isnan (ax a h dut)) eqn:En; [auto|].
      destruct (match snd (fst best) with Some b => _ | None => false end); [auto|].
      destruct (get_first_some a h dut Hd En) as (fo & ->).
      destruct (fo =? dut); [auto|].
      destruct (reference_total a h dut fo Hd) as ([ox oy] & ->).
      destruct (flt _ _); auto.
  Qed.

  (** *** the hits are only permuted inside the events *)
  Variable a0 : arr.
  Record permuted (a : arr) : Prop := {
    p_pos : forall r d, r < n_rows -> ax a r d = ax a0 (ai a r d) d /\ ay a r d = ay a0 (ai a r d) d /\ az a r d = az a0 (ai a r d) d;
    p_event : forall r d, r < n_rows -> ai a r d < n_rows /\ events (ai a r d) = events r;
    p_inj : forall r r' d, r < n_rows -> r' < n_rows -> ai a r d = ai a r' d -> r = r';
    p_first : forall r d, r < n_rows -> ~ In d (tl zs) -> ai a r d = r
  }.

  Lemma swap_permuted a i j dut : permuted a -> i < n_rows -> j < n_rows -> events i = events j -> In dut (tl zs) ->
    permuted (swap_hits F a i j dut).
  Proof.
    intros P Hi Hj He Hd.
    set (t := fun r => if r =? i then j else if r =? j then i else r).
    assert (Ht : forall r, r < n_rows -> t r < n_rows /\ events (t r) = events r).
    { intros r Hr. unfold t. destruct (Nat.eqb_spec r i); [subst; auto|]. destruct (Nat.eqb_spec r j); [subst; auto|auto]. }
    assert (Tinj : forall r r', t r = t r' -> r = r').
    { intros r r'. unfold t. repeat match goal with |- context [?u =? ?v] => destruct (Nat.eqb_spec u v) end; congruence. }
    assert (S1 : forall V (m : nat -> nat -> V) r d, swap_in m i j dut r d = m (if d =? dut then t r else r) d).
    { intros V m r d. unfold swap_in, t. destruct (Nat.eqb_spec d dut) as [->|]; auto.
      destruct (r =? i); auto. destruct (r =? j); auto. }
    constructor; unfold swap_hits; cbn [ax ay az ai].
    - intros r d Hr. rewrite !S1. apply P. destruct (d =? dut); auto. apply Ht; auto.
    - intros r d Hr. rewrite !S1. destruct (d =? dut).
      + destruct (Ht r Hr) as [H1 H2]. destruct (p_event _ P (t r) d H1) as [H3 H4]. split; congruence.
      + apply (p_event _ P). auto.
    - intros r r' d Hr Hr'. rewrite !S1. destruct (d =? dut).
      + intros E. apply Tinj. apply (p_inj _ P) with (d := d); auto; apply Ht; auto.
      + apply (p_inj _ P); auto.
    - intros r d Hr Hnd. rewrite S1. destruct (Nat.eqb_spec d dut) as [->|]; [contradiction|]. apply (p_first _ P); auto.
  Qed.

  Lemma find_at_permuted start dut : In dut (tl zs) -> In dut zs -> forall fuel track a,
    permuted a -> track < fuel -> track < n_rows -> events track = events start ->
    exists a', find_tracks_at fuel start track dut a = Some a' /\ permuted a'.
  Proof.
    intros Hd Hd'. induction fuel as [|f IH]; intros track a P Hf Ht He; [lia|].
    cbn [FindTracksModel.find_tracks_at].
    destruct (get_first_dut F isnan a track zs) as [fr|]; [|eauto].
    destruct (match position fr zs with Some _ => _ | None => _ end); [eauto|].
    destruct (reference_total a track dut fr Hd') as ([rx ry] & ->).
    destruct (hit_loop_total a track dut rx ry Hd' (event_run start)
      (track, if isnan (ax a track dut) then None else Some (distance F fadd fsub fmul fsqrt (ax a track dut) (ay a track dut) rx ry), false))
      as ([best sw] & -> & H1 & H2).
    destruct sw; [|eauto]. simpl in H2. destruct (H2 eq_refl) as [|Hin]; [discriminate|].
    apply event_run_in in Hin. destruct Hin as (B1 & B2 & B3).
    assert (P' : permuted (swap_hits F a track best dut)) by (apply swap_permuted; auto; congruence).
    destruct ((best <? track) && _) eqn:Eb; [|eauto]. apply andb_true_iff in Eb. destruct Eb as [Eb _].
    apply Nat.ltb_lt in Eb. apply IH; auto; lia.
  Qed.

  Lemma tl_in {T} (x : T) l : In x (tl l) -> In x l.
  Proof. destruct l; simpl; auto. Qed.

  Lemma rows_loop_permuted start dut : In dut (tl zs) -> forall rows a, permuted a ->
    (forall r, In r rows -> r < n_rows /\ events r = events start) ->
    exists a', rows_loop start dut rows a = Some a' /\ permuted a'.
  Proof.
    intros Hd. induction rows as [|r rest IH]; intros a P Hr; [simpl; eauto|].
    cbn [FindTracksModel.rows_loop]. destruct (Hr r (or_introl eq_refl)) as [H1 H2].
    destruct (find_at_permuted start dut Hd (tl_in _ _ Hd) (S r) r a P ltac:(lia) H1 H2) as (a1 & -> & P1).
    apply IH; auto. intros; apply Hr; right; auto.
  Qed.
  Lemma duts_loop_permuted start : forall duts a, permuted a -> incl duts (tl zs) ->
    exists a', duts_loop start duts a = Some a' /\ permuted a'.
  Proof.
    induction duts as [|d rest IH]; intros a P Hi; [simpl; eauto|].
    cbn [FindTracksModel.duts_loop].
    destruct (rows_loop_permuted start d (Hi d (or_introl eq_refl)) (event_run start) a P) as (a1 & -> & P1).
    { intros r Hr. apply event_run_in in Hr. tauto. }
    apply IH; auto. intros x Hx. apply Hi. right; auto.
  Qed.
  Lemma events_loop_permuted : forall rows z a, permuted a ->
    exists a', events_loop rows z a = Some a' /\ permuted a'.
  Proof.
    induction rows as [|r rest IH]; intros z a P; [simpl; eauto|].
    cbn [FindTracksModel.events_loop]. destruct (negb (events r =? z)%Z || (r =? 0)); [|auto].
    destruct (duts_loop_permuted r (tl zs) a P (incl_refl _)) as (a1 & -> & P1). auto.
  Qed.
End Find.

(** *** names of columns *)
Lemma is_prefix_app p s : is_prefix p s = true <-> exists t, s = p ++ t.
Proof.
  revert s. induction p as [|c p IH]; intros s; simpl.
  - split; [exists s; auto|auto].
  - destruct s as [|d s]; [split; [discriminate|intros (t & E); discriminate]|].
    rewrite andb_true_iff, IH. destruct (Ascii.eqb_spec c d) as [->|N].
    + split; [intros [_ (t & ->)]; exists t; auto|intros (t & E); injection E as ->; split; eauto].
    + split; [intros [E _]; discriminate|intros (t & E); injection E as E _; congruence].
Qed.
Lemma contains_spec p s : contains p s = true <-> exists u t, s = u ++ p ++ t.
Proof.
  induction s as [|c s IH]; cbn [contains]; rewrite orb_true_iff, is_prefix_app.
  - split.
    + intros [(t & E)|E]; [exists [], t; auto|discriminate].
    + intros (u & t & E). destruct u; [left; exists t; auto|discriminate].
  - rewrite IH. split.
    + intros [(t & E)|(u & t & ->)]; [exists [], t; auto|exists (c :: u), t; auto].
    + intros (u & t & E). destruct u as [|d u]; [left; exists t; auto|].
      injection E as -> E. right. eauto.
Qed.
