(** Properties of fit_tracks: C25 (isolation), C26 (grouping of DUTs), C52 (selection of tracks),
    C53 (parallel fit). *)
From Coq Require Import ZArith QArith Qabs List Bool Arith Lia Permutation.
From Verif Require Import SelectionModel BitsModel BitsProps SelectionProps FitTracksModel.
Import ListNotations.
Local Open Scope nat_scope.

(** *** C25 *)
(** Specification: two positions are near *)
Definition near (lim : limits) (p q : coord * coord) : Prop :=
  exists a b c d, fst p = Some a /\ fst q = Some b /\ snd p = Some c /\ snd q = Some d /\
    if use_ellipse lim
    then ((0 < max_x lim /\ 0 < max_y lim)%Q ->
           (((a - b) / max_x lim) ^ 2 + ((c - d) / max_y lim) ^ 2 <= 1)%Q) /\
         (~ (0 < max_x lim /\ 0 < max_y lim)%Q ->
           (Qabs (a - b) <= max_x lim /\ Qabs (c - d) <= max_y lim)%Q)
    else (Qabs (a - b) <= max_x lim /\ Qabs (c - d) <= max_y lim)%Q.

Lemma Qle_bool_false a b : Qle_bool a b = false <-> (b < a)%Q.
Proof.
  rewrite <- not_true_iff_false, Qle_bool_iff. split; [apply Qnot_le_lt|apply Qlt_not_le].
Qed.
Lemma too_close_spec lim x1 y1 x2 y2 : too_close lim x1 y1 x2 y2 = true <-> near lim (x1, y1) (x2, y2).
Proof.
  unfold too_close, near. cbn [fst snd].
  destruct x1 as [a|], x2 as [b|], y1 as [c|], y2 as [d|];
    try (split; [discriminate|intros (? & ? & ? & ? & ? & ? & ? & ? & ?); discriminate]).
  assert (K : Qle_bool (Qabs (a - b)) (max_x lim) && Qle_bool (Qabs (c - d)) (max_y lim) = true <->
              (Qabs (a - b) <= max_x lim /\ Qabs (c - d) <= max_y lim)%Q).
  { rewrite andb_true_iff, !Qle_bool_iff. reflexivity. }
  assert (E : forall u v w z, (0 < u /\ 0 < v)%Q ->
    ((w / u) ^ 2 + (z / v) ^ 2 == w * w / (u * u) + z * z / (v * v))%Q).
  { intros u v w z [Hu Hv]. field. split; intros H; [rewrite H in Hv|rewrite H in Hu]; eapply Qlt_irrefl; eauto. }
  destruct (use_ellipse lim); cbn [andb].
  - destruct (negb (Qle_bool (max_x lim) 0) && negb (Qle_bool (max_y lim) 0)) eqn:Em.
    + assert (P : (0 < max_x lim /\ 0 < max_y lim)%Q).
      { apply andb_true_iff in Em. rewrite !negb_true_iff, !Qle_bool_false in Em. exact Em. }
      rewrite Qle_bool_iff. rewrite <- E by auto. split.
      * intros H. exists a, b, c, d. repeat split; auto; intros; contradiction.
      * intros (a' & b' & c' & d' & Ea & Eb & Ec & Ed & H & _). injection Ea as <-. injection Eb as <-. injection Ec as <-. injection Ed as <-. auto.
    + assert (P : ~ (0 < max_x lim /\ 0 < max_y lim)%Q).
      { rewrite <- !Qle_bool_false, <- !negb_true_iff, <- andb_true_iff. congruence. }
      rewrite K. split.
      * intros H. exists a, b, c, d. repeat split; auto; try contradiction; intros; apply H.
      * intros (a' & b' & c' & d' & Ea & Eb & Ec & Ed & _ & H). injection Ea as <-. injection Eb as <-. injection Ec as <-. injection Ed as <-. auto.
  - rewrite K. split.
    + intros H. exists a, b, c, d. auto.
    + intros (a' & b' & c' & d' & Ea & Eb & Ec & Ed & H). injection Ea as <-. injection Eb as <-. injection Ec as <-. injection Ed as <-. auto.
Qed.

Lemma near_sym lim p q : near lim p q -> near lim q p.
Proof.
  intros (a & b & c & d & Ea & Eb & Ec & Ed & H). exists b, a, d, c. repeat (split; [auto|]).
  assert (A : forall u v, (Qabs (u - v) == Qabs (v - u))%Q) by (intros; rewrite Qabs_Qminus; reflexivity).
  assert (S : forall u v w, ((u - v) / w == - ((v - u) / w))%Q).
  { intros u v w. unfold Qdiv. ring. }
  assert (T : forall u, ((- u) ^ 2 == u ^ 2)%Q) by (intros; simpl; ring).
  destruct (use_ellipse lim); rewrite ?(A b a), ?(A d c), ?(S b a), ?(S d c), ?T; exact H.
Qed.

Section C25.
  Variable n : nat.
  Variable events : nat -> Z.
  Variable x y : nat -> coord.
  Variable lim : limits.
  Hypothesis Hev : forall r s, r <= s -> s < n -> (events r <= events s)%Z.
  Notation close i j := (too_close lim (x i) (y i) (x j) (y j)).

  Lemma others_spec i : forall m p f, i < p -> p + m = n -> (forall r, i < r -> r < p -> events r = events i) -> forall k,
    others_loop events x y lim i (seq p m) (events i) f k = true <->
    f k = true \/ exists j, p <= j < n /\ events j = events i /\ close i j = true /\ (k = i \/ k = j).
  Proof.
    induction m as [|m IH]; intros p f Hp Hn Hb k; cbn [seq others_loop].
    - split; [auto|]. intros [H|(j & Hj & _)]; [auto|lia].
    - destruct (Z.eqb_spec (events p) (events i)) as [E|N].
      + rewrite IH; [|lia|lia|intros r H1 H2; destruct (Nat.eq_dec r p); [congruence|apply Hb; lia]].
        destruct (close i p) eqn:Ec.
        * unfold set_flag. split.
          -- intros [H|(j & Hj & H)].
             ++ destruct (Nat.eqb_spec k p) as [->|]; [right; exists p; repeat split; auto; lia|].
                destruct (Nat.eqb_spec k i) as [->|]; [right; exists p; repeat split; auto; lia|auto].
             ++ right. exists j. split; [lia|auto].
          -- intros [H|(j & Hj & He & Hc & Hk)].
             ++ left. destruct (k =? p); auto. destruct (k =? i); auto.
             ++ destruct (Nat.eq_dec j p) as [->|]; [|right; exists j; split; [lia|auto]].
                left. destruct Hk as [-> | ->]; [|rewrite Nat.eqb_refl; auto]. rewrite Nat.eqb_refl. destruct (i =? p); auto.
        * split; (intros [H|(j & Hj & He & Hc & Hk)]; [auto|]).
          -- right. exists j. split; [lia|auto].
          -- destruct (Nat.eq_dec j p) as [->|]; [congruence|]. right. exists j. split; [lia|auto].
      + split; [auto|]. intros [H|(j & Hj & He & _)]; [auto|]. exfalso.
        assert (events p <= events j)%Z by (apply Hev; lia). assert (events i <= events p)%Z by (apply Hev; lia). lia.
  Qed.

  Lemma rows_spec : forall m p cur f, p + m = n -> forall k,
    rows_visit n events x y lim (seq p m) cur f k = true <->
    f k = true \/ exists i j, p <= i /\ i < j < n /\ events j = events i /\ close i j = true /\ (k = i \/ k = j).
  Proof.
    induction m as [|m IH]; intros p cur f Hn k; cbn [seq rows_visit].
    - split; [auto|]. intros [H|(i & j & H1 & H2 & _)]; [auto|lia].
    - assert (Ec : match cur with Some c => if (events p =? c)%Z then c else events p | None => events p end = events p).
      { destruct cur as [c|]; auto. destruct (Z.eqb_spec (events p) c); auto. }
      rewrite Ec. rewrite IH by lia.
      assert (O : forall k, others_loop events x y lim p (seq (S p) (n - S p)) (events p) f k = true <->
        f k = true \/ exists j, S p <= j < n /\ events j = events p /\ close p j = true /\ (k = p \/ k = j)).
      { intros k'. apply others_spec; [lia|lia|intros; lia]. }
      rewrite O. split.
      + intros [[H|(j & Hj & H)]|(i & j & Hi & H)]; [auto| |].
        * right. exists p, j. split; [lia|]. split; [lia|auto].
        * right. exists i, j. split; [lia|auto].
      + intros [H|(i & j & Hi & Hj & H)]; [auto|]. destruct (Nat.eq_dec i p) as [->|].
        * left. right. exists j. split; [lia|auto].
        * right. exists i, j. split; [lia|auto].
  Qed.

  (** A row is isolated iff no other row of its event has a position within the limits. *)
  Theorem C25_isolation : forall k, k < n ->
    (isolated n events x y lim k = true <->
     forall j, j < n -> j <> k -> events j = events k -> ~ near lim (x k, y k) (x j, y j)).
  Proof.
    intros k Hk. unfold isolated, find_small_distance. rewrite negb_true_iff, <- not_true_iff_false.
    rewrite rows_spec by lia. split.
    - intros H j Hj Hn He Hc. apply H. right. destruct (Nat.lt_trichotomy j k) as [L|[L|L]]; [|lia|].
      + exists j, k. repeat split; auto; try lia. apply too_close_spec, near_sym, Hc.
      + exists k, j. repeat split; auto; try lia. apply too_close_spec, Hc.
    - intros H [D|(i & j & _ & Hij & He & Hc & Hk')]; [discriminate|]. apply too_close_spec in Hc.
      destruct Hk' as [-> | ->].
      + apply (H j); auto; lia.
      + apply (H i); auto; try lia. apply near_sym, Hc.
  Qed.

  (** Flags set before are kept, and the flags are set in pairs. *)
  Theorem C25_symmetric : forall f k, find_small_distance n events x y lim f k = true -> f k = false ->
    exists j, j <> k /\ j < n /\ events j = events k /\ near lim (x k, y k) (x j, y j) /\
      find_small_distance n events x y lim f j = true.
  Proof.
    unfold find_small_distance. intros f k H Hf. pose proof H as H'. apply rows_spec in H; [|lia].
    destruct H as [H|(i & j & H1 & H2 & He & Hc & Hk)]; [congruence|].
    destruct Hk as [-> | ->].
    - exists j. repeat split; auto; try lia; [apply too_close_spec, Hc|]. apply rows_spec; [lia|]. right. exists i, j. repeat split; auto; lia.
    - exists i. repeat split; auto; try lia; [apply near_sym, too_close_spec, Hc|]. apply rows_spec; [lia|]. right. exists i, j. repeat split; auto; lia.
  Qed.
End C25.

Example C25_case :
  let events := fun r => if r <=? 2 then 5%Z else 6%Z in
  let x := fun r => match r with 0 => Some 0%Q | 1 => Some 1%Q | 2 => None | _ => Some 1%Q end in
  let y := fun r => match r with 0 => Some 0%Q | 1 => Some 1%Q | _ => Some 0%Q end in
  map (isolated 4 events x y (Limits 1 1 false)) [0; 1; 2; 3] = [false; false; true; true] /\
  map (isolated 4 events x y (Limits 1 1 true)) [0; 1; 2; 3] = [true; true; true; true] /\
  (forall r s, r <= s -> s < 4 -> (events r <= events s)%Z).
Proof.
  split; [vm_compute; reflexivity|]. split; [vm_compute; reflexivity|].
  intros r s H1 H2. destruct (Nat.leb_spec r 2), (Nat.leb_spec s 2); lia.
Qed.

(** *** C26 *)
Definition same_set (a b : list nat) : Prop := forall d, In d a <-> In d b.
(** the DUTs a user requests for the fit of a configuration *)
Definition requested_fit (c : fit_config) (d : nat) : Prop := In d (f_fit c) /\ (f_exclude c = true -> d <> f_dut c).

Lemma memb_in d l : memb d l = true <-> In d l.
Proof.
  unfold memb. rewrite existsb_exists. split.
  - intros (v & Hv & E). apply Nat.eqb_eq in E. congruence.
  - intros H. exists d. rewrite Nat.eqb_refl. auto.
Qed.
Lemma set_eqb_spec a b : set_eqb a b = true <-> same_set a b.
Proof.
  unfold set_eqb, same_set. rewrite andb_true_iff, !forallb_forall. split.
  - intros [H1 H2] d. specialize (H1 d). specialize (H2 d). rewrite memb_in in H1, H2. tauto.
  - intros H. split; intros d Hd; apply memb_in, H, Hd.
Qed.
Lemma set_minus_in d a e : In d (set_minus a e) <-> In d a /\ d <> e.
Proof. unfold set_minus. rewrite filter_In, negb_true_iff, Nat.eqb_neq. reflexivity. Qed.
Lemma option_eqb_spec a b : option_eqb a b = true <-> a = b.
Proof.
  destruct a, b; simpl; try (split; [discriminate|congruence]); [|tauto].
  rewrite Nat.eqb_eq. split; congruence.
Qed.
Lemma fit_duts_in c d : In d (fit_duts c) <-> requested_fit c d.
Proof.
  unfold fit_duts, requested_fit. destruct (f_exclude c).
  - rewrite nodup_In, set_minus_in. intuition.
  - intuition discriminate.
Qed.

(** what makes two configurations give the same tracks *)
Definition equivalent (l c : fit_config) : Prop :=
  (forall d, requested_fit c d <-> requested_fit l d) /\ same_set (f_hit c) (f_hit l) /\ f_min c = f_min l.

Lemma same_tracks_spec l c : f_dut c <> f_dut l -> (same_tracks l c = true <-> equivalent l c).
Proof.
  intros N. unfold same_tracks. rewrite (proj2 (Nat.eqb_neq _ _) N). cbn [orb].
  rewrite !andb_true_iff, set_eqb_spec, option_eqb_spec.
  assert (K : (negb (f_exclude c) && negb (f_exclude l) && set_eqb (f_fit c) (f_fit l)
     || negb (f_exclude c) && f_exclude l && set_eqb (f_fit c) (set_minus (f_fit l) (f_dut l))
     || f_exclude c && negb (f_exclude l) && set_eqb (set_minus (f_fit c) (f_dut c)) (f_fit l)
     || f_exclude c && f_exclude l && set_eqb (set_minus (f_fit c) (f_dut c)) (set_minus (f_fit l) (f_dut l))) = true
     <-> forall d, requested_fit c d <-> requested_fit l d).
  { unfold requested_fit. destruct (f_exclude c), (f_exclude l); cbn [negb andb orb]; rewrite ?orb_false_r, set_eqb_spec; unfold same_set;
      split; intros H d; specialize (H d); rewrite ?set_minus_in in *; intuition (try discriminate; auto). }
  rewrite K. unfold equivalent. tauto.
Qed.

Lemma equivalent_refl c : equivalent c c.
Proof. split; [intros; reflexivity|]. split; [intros d; reflexivity|reflexivity]. Qed.
Lemma equivalent_sym a b : equivalent a b -> equivalent b a.
Proof. intros (H1 & H2 & H3). split; [intros d; symmetry; apply H1|]. split; [intros d; symmetry; apply H2|auto]. Qed.
Lemma equivalent_trans a b c : equivalent a b -> equivalent b c -> equivalent a c.
Proof.
  intros (H1 & H2 & H3) (G1 & G2 & G3). split; [|split; [|congruence]].
  - intros d. rewrite G1. apply H1.
  - intros d. specialize (G2 d). specialize (H2 d). tauto.
Qed.

Lemma NoDup_join {T} (l m : list T) : NoDup l -> NoDup m -> (forall v, In v l -> In v m -> False) -> NoDup (l ++ m).
Proof.
  induction l as [|v l IH]; intros H1 H2 H3; simpl; auto. inversion H1; subst. constructor.
  - intros H. apply in_app_or in H. destruct H as [H|H]; [auto|]. apply (H3 v); simpl; auto.
  - apply IH; auto. intros u Hu. apply H3. simpl. auto.
Qed.
Lemma NoDup_map_filter {T U} (f : T -> U) (p : T -> bool) l : NoDup (map f l) -> NoDup (map f (filter p l)).
Proof.
  induction l as [|v l IH]; simpl; intros H; [constructor|]. inversion H; subst. destruct (p v); auto. simpl. constructor; auto.
  intros Hin. apply H2. apply in_map_iff in Hin. destruct Hin as (u & <- & Hu). apply filter_In in Hu. apply in_map. tauto.
Qed.

Section C26.
  Variable all : list fit_config.
  Hypothesis Hnd : NoDup (map f_dut all).

  Lemma dut_inj a b : In a all -> In b all -> f_dut a = f_dut b -> a = b.
  Proof.
    clear -Hnd. induction all as [|c l IH]; intros Ha Hb E; [contradiction|]. simpl in Hnd. inversion Hnd; subst.
    destruct Ha as [->|Ha], Hb as [->|Hb]; auto.
    - exfalso. apply H1. rewrite E. apply in_map. auto.
    - exfalso. apply H1. rewrite <- E. apply in_map. auto.
  Qed.
  Lemma same_tracks_all l c : In l all -> In c all -> (same_tracks l c = true <-> equivalent l c).
  Proof.
    intros Hl Hc. destruct (Nat.eq_dec (f_dut c) (f_dut l)) as [E|N]; [|apply same_tracks_spec; auto].
    rewrite (dut_inj c l) by auto. unfold same_tracks. rewrite Nat.eqb_refl. simpl. split; auto using equivalent_refl.
  Qed.
  Lemma group_in l c : In l all -> In c all -> (In (f_dut c) (map f_dut (filter (same_tracks l) all)) <-> equivalent l c).
  Proof.
    intros Hl Hc. rewrite in_map_iff. split.
    - intros (c' & E & H). apply filter_In in H. destruct H as [H1 H2]. rewrite <- (dut_inj c' c) by auto.
      apply same_tracks_all; auto.
    - intros H. exists c. split; auto. apply filter_In. split; auto. apply same_tracks_all; auto.
  Qed.

  Lemma fit_loop_spec : forall todo done fitted, done ++ todo = all ->
    (forall c, In c all -> (In (f_dut c) fitted <-> exists l, In l done /\ equivalent l c)) ->
    let steps := fit_loop all todo fitted in
    (forall c, In c all -> In (f_dut c) (concat (map snd steps)) <-> ~ (exists l, In l done /\ equivalent l c)) /\
    NoDup (concat (map snd steps)) /\
    (forall l duts, In (l, duts) steps -> In l all /\ duts = map f_dut (filter (same_tracks l) all)).
  Proof.
    induction todo as [|l r IH]; intros done fitted E Hf; cbn [fit_loop].
    - simpl. rewrite app_nil_r in E. subst done. split; [|split; [constructor|contradiction]].
      intros c Hc. split; [contradiction|]. intros H. exfalso. apply H. exists c. split; auto using equivalent_refl.
    - assert (Hl : In l all) by (rewrite <- E; apply in_or_app; simpl; auto).
      assert (E' : (done ++ [l]) ++ r = all) by (rewrite <- app_assoc; auto).
      destruct (memb (f_dut l) fitted) eqn:Em.
      + apply memb_in in Em. rewrite (Hf l Hl) in Em. destruct Em as (l0 & Hl0 & El).
        assert (Q : forall c, (exists l1, In l1 (done ++ [l]) /\ equivalent l1 c) <-> (exists l1, In l1 done /\ equivalent l1 c)).
        { intros c. split; intros (l1 & H1 & H2).
          - apply in_app_or in H1. destruct H1 as [H1|[<-|[]]]; [eauto|]. exists l0. split; auto. eapply equivalent_trans; eauto.
          - exists l1. split; auto. apply in_or_app; auto. }
        destruct (IH (done ++ [l]) fitted E') as (I1 & I2 & I3).
        { intros c Hc. rewrite Q. apply Hf. auto. }
        split; [|auto]. intros c Hc. rewrite <- Q. apply I1. auto.
      + apply not_true_iff_false in Em. rewrite memb_in, (Hf l Hl) in Em.
        set (duts := map f_dut (filter (same_tracks l) all)).
        assert (Q : forall c, (exists l1, In l1 (done ++ [l]) /\ equivalent l1 c) <-> (exists l1, In l1 done /\ equivalent l1 c) \/ equivalent l c).
        { intros c. split.
          - intros (l1 & H1 & H2). apply in_app_or in H1. destruct H1 as [H1|[<-|[]]]; eauto.
          - intros [(l1 & H1 & H2)|H]; [exists l1|exists l]; split; auto; apply in_or_app; simpl; auto. }
        destruct (IH (done ++ [l]) (fitted ++ duts) E') as (I1 & I2 & I3).
        { intros c Hc. rewrite Q, in_app_iff, (Hf c Hc). unfold duts. rewrite group_in by auto. reflexivity. }
        cbn zeta in *. cbn [map snd concat]. split; [|split].
        * intros c Hc. rewrite in_app_iff, (I1 c Hc), Q. unfold duts. rewrite group_in by auto. split.
          -- intros [H|H]; [|tauto]. intros (l1 & H1 & H2). apply Em. exists l1. split; auto.
             eapply equivalent_trans; eauto using equivalent_sym.
          -- intros H. destruct (same_tracks l c) eqn:Es.
             ++ left. apply same_tracks_all; auto.
             ++ right. intros [H1|H1]; [auto|]. apply same_tracks_all in H1; auto. congruence.
        * apply NoDup_join; auto.
          -- unfold duts. apply (NoDup_map_filter); auto.
          -- intros d H1 H2. unfold duts in H1. apply in_map_iff in H1. destruct H1 as (c & <- & Hc). apply filter_In in Hc.
             destruct Hc as [Hc1 Hc2]. rewrite (I1 c Hc1), Q in H2. apply H2. right. apply same_tracks_all; auto.
        * intros l1 duts1 [H|H]; [injection H as <- <-; auto|]. apply I3. auto.
  Qed.

  Lemma steps_spec :
    (forall c, In c all -> In (f_dut c) (concat (map snd (fit_steps all)))) /\ NoDup (concat (map snd (fit_steps all))) /\
    (forall l duts, In (l, duts) (fit_steps all) -> In l all /\ duts = map f_dut (filter (same_tracks l) all)).
  Proof.
    destruct (fit_loop_spec all [] [] eq_refl) as (H1 & H2 & H3).
    - intros c _. split; [contradiction|intros (l & [] & _)].
    - split; [|auto]. intros c Hc. apply H1; auto. intros (l & [] & _).
  Qed.

  (** The fits partition the selected DUTs. *)
  Theorem C26_each_dut_once : Permutation (concat (map snd (fit_steps all))) (map f_dut all).
  Proof.
    destruct steps_spec as (H1 & H2 & H3). apply NoDup_Permutation; auto.
    intros d. split.
    - intros H. apply in_concat in H. destruct H as (duts & Hd & Hin). apply in_map_iff in Hd. destruct Hd as ((l & ds) & <- & Hs).
      destruct (H3 _ _ Hs) as [_ ->]. simpl in Hin. apply in_map_iff in Hin. destruct Hin as (c & <- & Hc). apply filter_In in Hc. apply in_map. tauto.
    - intros H. apply in_map_iff in H. destruct H as (c & <- & Hc). auto.
  Qed.

  (** The fit that provides the tracks of a DUT (leading configuration l) uses the fit DUTs, hit DUTs and
      minimum number of hits requested for this DUT. *)
  Theorem C26_own_configuration : (forall c, In c all -> NoDup (f_fit c)) ->
    forall l duts c, In (l, duts) (fit_steps all) -> In c all -> In (f_dut c) duts ->
    (forall d, In d (fit_duts l) <-> requested_fit c d) /\ same_set (f_hit l) (f_hit c) /\
    min_hits l = match f_min c with Some m => m | None => length (fit_duts c) end.
  Proof.
    intros Hfit l duts c Hs Hc Hd. destruct steps_spec as (_ & _ & H3). destruct (H3 _ _ Hs) as [Hl ->].
    apply group_in in Hd; auto. destruct Hd as (E1 & E2 & E3). split; [|split].
    - intros d. rewrite fit_duts_in. symmetry. apply E1.
    - intros d. symmetry. apply E2.
    - unfold min_hits. rewrite E3. destruct (f_min l); auto.
      assert (K : forall c', In c' all -> NoDup (fit_duts c')).
      { intros c' Hc'. unfold fit_duts. destruct (f_exclude c'); [apply NoDup_nodup|auto]. }
      apply Permutation_length, NoDup_Permutation; auto. intros d. rewrite !fit_duts_in. symmetry. apply E1.
  Qed.
End C26.

(** Without the requirement that the fit DUTs of a configuration are different, the required number of hits
    of another DUT is used: DUT 1 asks for hits in DUTs 0 and 2 but gets no tracks with two hits. *)
Theorem C26_repeated_fit_duts_refuted : exists all l duts c,
  NoDup (map f_dut all) /\ In (l, duts) (fit_steps all) /\ In c all /\ In (f_dut c) duts /\
  min_hits l <> min_hits c /\ select_store false l 5 <> select_store false c 5.
Proof.
  set (l := FitConfig 0 [0; 2; 2] [] false None). set (c := FitConfig 1 [0; 2] [] false None).
  exists [l; c], l, [0; 1], c. split; [repeat constructor; simpl; intuition lia|].
  vm_compute. intuition discriminate.
Qed.

Example C26_case :
  let cs := [FitConfig 0 [0; 1; 2] [0] true None; FitConfig 1 [1; 2] [0] false None;
             FitConfig 2 [0; 1; 2] [] true (Some 2); FitConfig 3 [2; 1; 3] [0] true None] in
  map snd (fit_steps cs) = [[0; 1; 3]; [2]] /\ NoDup (map f_dut cs) /\ (forall c, In c cs -> NoDup (f_fit c)).
Proof.
  split; [vm_compute; reflexivity|]. split; [repeat constructor; simpl; intuition lia|].
  intros c [<-|[<-|[<-|[<-|[]]]]]; repeat constructor; simpl; intuition lia.
Qed.

(** *** C52 *)
(** number of the DUTs of a list that have a hit *)
Definition hits_in (hit_flag : Z) (duts : list nat) : nat := length (filter (fun d => Z.testbit hit_flag (Z.of_nat d)) duts).

Lemma mask_small duts : (forall d, In d duts -> d < 32) -> (0 <= mask_of duts < 2 ^ 32)%Z.
Proof.
  intros H. assert (N : (0 <= mask_of duts)%Z).
  { unfold mask_of. assert (K : forall l m, (0 <= m)%Z -> (0 <= fold_left (fun m d => Z.lor m (Z.shiftl 1 (Z.of_nat d))) l m)%Z).
    { induction l as [|d l IH]; intros m Hm; simpl; auto. apply IH. apply Z.lor_nonneg. split; auto. apply Z.shiftl_nonneg. lia. }
    apply K. lia. }
  split; auto. destruct (Z.eq_dec (mask_of duts) 0) as [->|]; [lia|]. apply Z.log2_lt_pow2; [lia|].
  apply Z.nle_gt. intros Hl.
  assert (B : Z.testbit (mask_of duts) (Z.log2 (mask_of duts)) = true) by (apply Z.bit_log2; lia).
  apply mask_bits in B; [|lia]. specialize (H _ B). lia.
Qed.

Lemma popcount_mask hit_flag duts : (0 <= hit_flag)%Z -> NoDup duts -> (forall d, In d duts -> d < 32) ->
  number_of_set_bits (Z.land hit_flag (mask_of duts)) = Z.of_nat (hits_in hit_flag duts).
Proof.
  intros Hf Hn Hd. pose proof (mask_small duts Hd) as Hm.
  assert (L : (0 <= Z.land hit_flag (mask_of duts) < 2 ^ 32)%Z).
  { split; [apply Z.land_nonneg; lia|]. destruct (Z.eq_dec (Z.land hit_flag (mask_of duts)) 0) as [->|]; [lia|].
    apply Z.log2_lt_pow2. { assert (0 <= Z.land hit_flag (mask_of duts))%Z by (apply Z.land_nonneg; lia). lia. }
    eapply Z.le_lt_trans; [apply Z.log2_land; lia|].
    destruct (Z.eq_dec (mask_of duts) 0) as [E|]; [rewrite E, Z.land_0_r in *; lia|].
    eapply Z.le_lt_trans; [apply Z.le_min_r|]. apply Z.log2_lt_pow2; lia. }
  rewrite C12_popcount by auto. unfold bits_set, hits_in. f_equal. apply Permutation_length, NoDup_Permutation.
  - apply NoDup_filter, seq_NoDup.
  - apply NoDup_filter; auto.
  - intros d. rewrite !filter_In, Z.land_spec, andb_true_iff, mask_bits, Nat2Z.id, in_seq by lia. specialize (Hd d). split; intros; intuition.
Qed.

(** A track is stored iff all DUTs required to have a hit have one and enough of the fit DUTs have a hit:
    the requested minimum, but at least two (three for the Kalman filter). *)
Theorem C52_stored_tracks : forall kalman c hit_flag, (0 <= hit_flag)%Z ->
  NoDup (f_fit c) -> (forall d, In d (f_fit c) -> d < 32) ->
  (select_store kalman c hit_flag = true <->
   (forall d, In d (f_hit c) -> bit hit_flag d) /\
   Nat.max (if kalman then 3 else 2) (min_hits c) <= hits_in hit_flag (fit_duts c)).
Proof.
  intros kalman c hf Hf Hn Hd.
  assert (Hn' : NoDup (fit_duts c)). { unfold fit_duts. destruct (f_exclude c); [apply NoDup_nodup|auto]. }
  assert (Hd' : forall d, In d (fit_duts c) -> d < 32). { intros d H. apply fit_duts_in in H. destruct H. auto. }
  unfold select_store, select_fit. rewrite popcount_mask by auto.
  rewrite !andb_true_iff, Z.eqb_eq, sub_mask. destruct kalman; rewrite !Z.leb_le; intuition lia.
Qed.

(** Excluding a DUT from its own fit: its hit does not count. *)
Theorem C52_excluded_dut_does_not_count : forall c hit_flag, f_exclude c = true ->
  hits_in (Z.lor hit_flag (Z.shiftl 1 (Z.of_nat (f_dut c)))) (fit_duts c) = hits_in hit_flag (fit_duts c).
Proof.
  intros c hf He. unfold hits_in. f_equal. apply filter_ext_in. intros d Hd. apply fit_duts_in in Hd. destruct Hd as [_ Hd].
  specialize (Hd He). rewrite Z.lor_spec, Z.shiftl_spec by lia.
  destruct (Z.of_nat d - Z.of_nat (f_dut c))%Z eqn:E; try lia; simpl; rewrite ?orb_false_r; auto.
Qed.

Example C52_case :
  let c := FitConfig 1 [0; 1; 2; 3] [1] true (Some 2) in
  map (select_store false c) [7; 5; 15; 11; 3]%Z = [true; false; true; true; false] /\
  map (select_store true c) [7; 5; 15; 11; 3]%Z = [false; false; true; false; false] /\
  NoDup (f_fit c) /\ (forall d, In d (f_fit c) -> d < 32).
Proof.
  split; [vm_compute; reflexivity|]. split; [vm_compute; reflexivity|].
  split; [repeat constructor; simpl; intuition lia|]. simpl. intuition lia.
Qed.

(** *** C53 *)
Lemma split_sizes_concat {T} : forall sizes (l : list T), list_sum sizes = length l -> concat (split_sizes sizes l) = l.
Proof.
  induction sizes as [|k r IH]; intros l H; simpl in *.
  - symmetry in H. apply length_zero_iff_nil in H. auto.
  - rewrite IH; [apply firstn_skipn|]. rewrite skipn_length. lia.
Qed.
Lemma list_sum_repeat k m : list_sum (repeat k m) = m * k.
Proof. induction m; simpl; lia. Qed.
Lemma split_lengths {T} : forall sizes (l : list T), list_sum sizes = length l -> map (@length T) (split_sizes sizes l) = sizes.
Proof.
  induction sizes as [|k r IH]; intros l H; simpl in *; [reflexivity|]. rewrite IH by (rewrite skipn_length; lia).
  rewrite firstn_length_le by lia. reflexivity.
Qed.
Lemma split_sum {T} (l : list T) n : 0 < n ->
  list_sum (repeat (S (length l / n)) (length l mod n) ++ repeat (length l / n) (n - length l mod n)) = length l.
Proof.
  intros Hn. rewrite list_sum_app, !list_sum_repeat.
  pose proof (Nat.div_mod (length l) n ltac:(lia)). pose proof (Nat.mod_upper_bound (length l) n ltac:(lia)).
  set (q := length l / n) in *. set (m := length l mod n) in *.
  assert (n * q = m * q + (n - m) * q) by (rewrite <- Nat.mul_add_distr_r; f_equal; lia). lia.
Qed.

(** Fitting the slices on several cores and joining the results gives the results of the tracks in order,
    for every number of cores and every fit that treats the tracks one by one. *)
Theorem C53_parallel_fit : forall T R (fit : T -> R) n (tracks : list T), 0 < n ->
  parallel_fit (map fit) n tracks = map fit tracks.
Proof.
  intros T R fit n tracks Hn. unfold parallel_fit. rewrite <- concat_map. f_equal. unfold array_split.
  apply split_sizes_concat, split_sum. auto.
Qed.
(** The work is shared evenly. *)
Theorem C53_even_slices : forall T n (tracks : list T), 0 < n ->
  length (array_split tracks n) = n /\
  forall s, In s (array_split tracks n) -> length tracks / n <= length s <= S (length tracks / n).
Proof.
  intros T n tracks Hn. pose proof (split_lengths _ tracks (split_sum tracks n Hn)) as E. fold (array_split tracks n) in E. split.
  - rewrite <- (map_length (@length T)), E, app_length, !repeat_length.
    pose proof (Nat.mod_upper_bound (length tracks) n). lia.
  - intros s Hs. apply (in_map (@length T)) in Hs. rewrite E in Hs. apply in_app_or in Hs.
    destruct Hs as [Hs|Hs]; apply repeat_spec in Hs; lia.
Qed.

Example C53_case : array_split [1; 2; 3; 4; 5; 6; 7; 8] 3 = [[1; 2; 3]; [4; 5; 6]; [7; 8]] /\
  array_split [1; 2] 3 = [[1]; [2]; []].
Proof. split; vm_compute; reflexivity. Qed.

Print Assumptions C25_isolation.
Print Assumptions C25_symmetric.
Print Assumptions C26_each_dut_once.
Print Assumptions C26_own_configuration.
Print Assumptions C26_repeated_fit_duts_refuted.
Print Assumptions C52_stored_tracks.
Print Assumptions C52_excluded_dut_does_not_count.
Print Assumptions C53_parallel_fit.
Print Assumptions C53_even_slices.
