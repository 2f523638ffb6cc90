(** C23: the track finding restores well separated tracks from shuffled hits. *)
From Coq Require Import ZArith QArith List Bool Arith Lia.
From Verif Require Import FindTracksModel FindTracksProofs FindTracksProps.
Import ListNotations.
Local Open Scope nat_scope.

Section Ideal.
  Variable F : Type.
  Variable isnan : F -> bool.
  Variables fadd fsub fmul fdiv : F -> F -> F.
  Variables fneg fsqrt : F -> F.
  Variable nonneg : F -> bool.
  Variable flt : F -> F -> bool.
  Variable n_rows : nat.
  Variable events : nat -> Z.
  Variable z0 : nat.                    (* the first DUT along the beam *)
  Variable zr : list nat.               (* the other DUTs, along the beam *)
  Variable extra : list nat.
  Variable translation normal : nat -> nat -> F.
  Notation zs := (z0 :: zr).

  Notation arr := (arrays F).
  Notation two_refs := (two_refs F isnan zs extra).
  Notation reference := (reference F isnan fadd fsub fmul fdiv fneg fsqrt zs extra translation normal).
  Notation hit_loop := (hit_loop F isnan fadd fsub fmul fdiv fneg fsqrt nonneg flt zs extra translation normal).
  Notation find_tracks_at := (find_tracks_at F isnan fadd fsub fmul fdiv fneg fsqrt nonneg flt n_rows events zs extra translation normal).
  Notation rows_loop := (rows_loop F isnan fadd fsub fmul fdiv fneg fsqrt nonneg flt n_rows events zs extra translation normal).
  Notation duts_loop := (duts_loop F isnan fadd fsub fmul fdiv fneg fsqrt nonneg flt n_rows events zs extra translation normal).
  Notation events_loop := (events_loop F isnan fadd fsub fmul fdiv fneg fsqrt nonneg flt n_rows events zs extra translation normal).
  Notation loop := (find_tracks_loop F isnan fadd fsub fmul fdiv fneg fsqrt nonneg flt n_rows events zs extra translation normal).
  Notation event_run := (event_run n_rows events).
  Notation dist := (distance F fadd fsub fmul fsqrt).

  (** The true tracks: row r holds the hits of track r in all DUTs. *)
  Variable t : arr.
  (** prediction for track r in DUT d, from its hits in the DUTs before *)
  Definition prediction (r d : nat) : option (F * F) := reference t r d z0.
  (** distance of the hit of track s in DUT d to the prediction for track r *)
  Definition miss (d s r : nat) (m : F) : Prop :=
    exists px py, prediction r d = Some (px, py) /\ m = dist (ax t s d) (ay t s d) px py.

  (** every track has a hit in every DUT *)
  Definition complete : Prop := forall r d, r < n_rows -> In d zs -> isnan (ax t r d) = false.
  (** a hit is closer to the prediction for its own track than to that of another track, and the
      prediction for a track is closer to its own hit than to that of another track *)
  Definition well_separated : Prop := forall d r s m m1 m2, In d zr -> r < n_rows -> s < n_rows -> r <> s ->
    events r = events s -> miss d r r m -> miss d r s m1 -> miss d s r m2 ->
    flt m m1 = true /\ flt m m2 = true.
  (** [tau d r]: the track whose hit is in row r of DUT d; the tracks are shuffled within their event *)
  Record shuffled (tau : nat -> nat -> nat) : Prop := {
    sh_event : forall d r, r < n_rows -> tau d r < n_rows /\ events (tau d r) = events r;
    sh_inj : forall d r s, r < n_rows -> s < n_rows -> tau d r = tau d s -> r = s;
    sh_surj : forall d r, r < n_rows -> exists s, s < n_rows /\ tau d s = r
  }.
  Definition described (tau : nat -> nat -> nat) (a : arr) : Prop := forall r d, r < n_rows -> In d zs ->
    ax a r d = ax t (tau d r) d /\ ay a r d = ay t (tau d r) d /\ az a r d = az t (tau d r) d.

  Hypothesis Hz : NoDup zs.
  Hypothesis order_trans : forall u v w, flt v u = false -> flt w v = false -> flt w u = false.
  Hypothesis order_total : forall u v, flt u v = true -> flt v u = false.
  Hypothesis dist_nonneg : forall a b c d, nonneg (dist a b c d) = true.
  Hypothesis Hcomplete : complete.
  Hypothesis Hsep : well_separated.
  Hypothesis Hevents : forall r s, r <= s -> s < n_rows -> (events r <= events s)%Z.

  (** *** the prediction depends only on the hits in front *)
  Section Ext.
    Variables a b : arr.
    Variable row k : nat.
    Hypothesis Hsame : forall d, In d (firstn k zs) -> ax a row d = ax b row d /\ ay a row d = ay b row d /\ az a row d = az b row d.

    Lemma find_ext {T} (p q : T -> bool) l : (forall v, In v l -> p v = q v) -> find p l = find q l.
    Proof.
      induction l as [|v l IH]; intros H; [reflexivity|]. simpl. rewrite (H v) by (simpl; auto). destruct (q v); auto.
      apply IH. intros; apply H; simpl; auto.
    Qed.
    Lemma firstn_firstn_in (d j : nat) (l : list nat) : j <= k -> In d (firstn j l) -> In d (firstn k l).
    Proof. intros H Hi. replace j with (Nat.min j k) in Hi by lia. rewrite <- firstn_firstn in Hi. apply firstn_In' in Hi; auto. Qed.

    Lemma two_refs_ext : forall fuel curr j second, position curr zs = Some j -> j <= k ->
      (forall s, second = Some s -> In s (firstn k zs)) ->
      two_refs fuel a row curr second = two_refs fuel b row curr second /\
      (forall s f, two_refs fuel a row curr second = Some (Some (s, f)) -> In s (firstn k zs) /\ In f (firstn k zs)).
    Proof.
      induction fuel as [|fuel IH]; intros curr j second Hp Hj Hs; [split; [reflexivity|discriminate]|].
      cbn [FindTracksModel.two_refs]. rewrite Hp. destruct j as [|j]; [split; [reflexivity|discriminate]|].
      assert (E : get_last_dut F isnan a row (upto zs (Some (S j))) = get_last_dut F isnan b row (upto zs (Some (S j)))).
      { unfold get_last_dut. apply find_ext. intros d Hd. apply in_rev in Hd. cbn [upto] in Hd.
        rewrite (proj1 (Hsame d (firstn_firstn_in d (S j) zs Hj Hd))). reflexivity. }
      rewrite <- E. clear E.
      destruct (get_last_dut F isnan a row (upto zs (Some (S j)))) as [r|] eqn:El; [|split; [reflexivity|discriminate]].
      apply get_last_in in El. destruct El as [El _]. cbn [upto] in El.
      destruct (position_in r zs (firstn_In' _ _ _ El)) as (i & Hi).
      pose proof (position_firstn zs Hz r (S j) i El Hi) as Hlt.
      pose proof (firstn_firstn_in r (S j) zs Hj El) as Hr.
      destruct (existsb (Nat.eqb r) extra).
      - destruct second as [s|].
        + split; [reflexivity|]. intros s' f' E. injection E as <- <-. split; auto.
        + apply (IH r i); auto; [lia|]. intros s E. injection E as <-. auto.
      - apply (IH r i); auto. lia.
    Qed.

    Lemma reference_ext d : position d zs = Some k -> 0 < k -> reference a row d z0 = reference b row d z0.
    Proof.
      intros Hp Hk. unfold FindTracksModel.reference.
      destruct (two_refs_ext (S (length zs)) d k None Hp (le_n k)) as [E H]; [discriminate|].
      rewrite <- E. destruct (two_refs (S (length zs)) a row d None) as [[[s f]|]|]; auto.
      - destruct (H s f eq_refl) as [Hs Hf]. unfold predict.
        destruct (Hsame s Hs) as (-> & -> & ->). destruct (Hsame f Hf) as (-> & -> & ->). reflexivity.
      - assert (H0 : In z0 (firstn k zs)) by (destruct k; [lia|simpl; auto]).
        destruct (Hsame z0 H0) as (-> & -> & _). reflexivity.
    Qed.
  End Ext.

  Lemma event_run_seq : forall start, start < n_rows -> exists m, event_run start = seq start m /\ 0 < m /\ start + m <= n_rows /\
    (forall r, start <= r -> r < n_rows -> events r = events start -> r < start + m).
  Proof.
    intros start Hs. unfold FindTracksModel.event_run.
    assert (K : forall len p, start <= p -> p + len = n_rows ->
      exists m, take_while (fun i => (events i =? events start)%Z) (seq p len) = seq p m /\ m <= len /\
        (forall r, p <= r -> r < n_rows -> events r = events start -> r < p + m) /\ (p = start -> 0 < len -> 0 < m)).
    { induction len as [|len IH]; intros p Hp Hl; simpl.
      - exists 0. repeat split; auto; intros; lia.
      - destruct (Z.eqb_spec (events p) (events start)) as [E|N].
        + destruct (IH (S p)) as (m & E1 & E2 & E3 & _); [lia|lia|]. exists (S m). simpl. rewrite E1. repeat split; auto; [lia| |lia].
          intros r H1 H2 H3. destruct (Nat.eq_dec r p); [lia|]. specialize (E3 r). lia.
        + exists 0. repeat split; auto; [lia| |intros ->; congruence].
          intros r H1 H2 H3. exfalso. assert (events p <= events r)%Z by (apply Hevents; auto).
          assert (events start <= events p)%Z by (apply Hevents; lia). lia. }
    destruct (K (n_rows - start) start) as (m & E1 & E2 & E3 & E4); [lia|lia|].
    exists m. repeat split; auto; [apply E4; auto; lia|lia].
  Qed.

  Lemma find_first_z0 a tau row : shuffled tau -> described tau a -> row < n_rows -> get_first_dut F isnan a row zs = Some z0.
  Proof.
    intros S D Hr. unfold get_first_dut. simpl. destruct (D row z0 Hr (or_introl eq_refl)) as (-> & _).
    rewrite Hcomplete; [reflexivity| |simpl; auto]. apply S; auto.
  Qed.

  (** *** one search *)
  Section Step.
    Variable a : arr.
    Variable tau : nat -> nat -> nat.
    Variables start dut k : nat.
    Hypothesis S : shuffled tau.
    Hypothesis D : described tau a.
    Hypothesis Hpos : position dut zs = Some k.
    Hypothesis Hk : 0 < k.
    Hypothesis Hstart : start < n_rows.
    (** the DUTs in front are in order *)
    Hypothesis Hfront : forall r d, r < n_rows -> events r = events start -> In d (firstn k zs) -> tau d r = r.

    Lemma dut_in : In dut zr.
    Proof.
      destruct k as [|j]; [lia|]. apply position_some in Hpos. simpl in Hpos. eapply nth_error_In; eauto.
    Qed.
    Lemma ref_true row : row < n_rows -> events row = events start -> reference a row dut z0 = prediction row dut.
    Proof.
      intros Hr He. unfold prediction. apply (reference_ext a t row k); auto.
      intros d Hd. destruct (D row d Hr (firstn_In' _ _ _ Hd)) as (-> & -> & ->). rewrite (Hfront row d); auto.
    Qed.
    Lemma prediction_some row : exists p, prediction row dut = Some p.
    Proof. apply reference_total; auto. right. apply dut_in. Qed.

    (** the row that holds the hit of the track is found; nothing is exchanged if it is the row itself *)
    Lemma search_correct track px py : track < n_rows -> events track = events start -> prediction track dut = Some (px, py) ->
      start <= track -> (forall r, start <= r -> r < track -> events r = events start -> tau dut r = r) ->
      (forall r, r < n_rows -> events r = events start -> start <= r) ->
      exists chosen swap, hit_loop a track dut px py (event_run start)
          (track, if isnan (ax a track dut) then None else Some (dist (ax a track dut) (ay a track dut) px py), false) = Some (chosen, swap) /\
        chosen < n_rows /\ events chosen = events start /\ track <= chosen /\
        tau dut chosen = track /\ (swap = false -> chosen = track) /\ (swap = true -> chosen <> track).
    Proof.
      intros Ht He Hp Hst Hdone Hmin.
      destruct (hit_loop_total F isnan fadd fsub fmul fdiv fneg fsqrt nonneg flt zs extra translation normal Hz a track dut px py
        (or_intror dut_in) (event_run start)
        (track, if isnan (ax a track dut) then None else Some (dist (ax a track dut) (ay a track dut) px py), false)) as ([c sw] & E & _).
      exists c, sw. split; [exact E|].
      destruct (C23_closest_hit F isnan fadd fsub fmul fdiv fneg fsqrt nonneg flt zs extra translation normal a track dut px py
        order_trans order_total (fun h => dist_nonneg _ _ _ _) (or_intror dut_in) _ _ _ E) as (H1 & H2 & H3).
      assert (Hc : c < n_rows /\ events c = events start).
      { destruct sw; [|subst c; auto]. destruct H1 as [_ H1]. apply event_run_in in H1. tauto. }
      destruct Hc as [Hc1 Hc2].
      assert (Val : forall h, h < n_rows -> ax a h dut = ax t (tau dut h) dut /\ ay a h dut = ay t (tau dut h) dut).
      { intros h Hh. destruct (D h dut Hh (or_intror dut_in)) as (-> & -> & _). auto. }
      (* the row with the hit of the track *)
      destruct (sh_surj _ S dut track Ht) as (h & Hh & Eh).
      assert (Heh : events h = events start). { destruct (sh_event _ S dut h Hh) as [_ Q]. congruence. }
      assert (Best : flt (dist (ax a h dut) (ay a h dut) px py) (dist (ax a c dut) (ay a c dut) px py) = false).
      { destruct (Nat.eq_dec h track) as [->|Nh].
        - apply H3. destruct (Val track Ht) as [-> _]. apply Hcomplete; [apply S; auto|right; apply dut_in].
        - apply H2.
          + destruct (event_run_seq start Hstart) as (m & -> & _ & _ & Hm). apply in_seq. split; auto.
          + split; [auto|]. split; [destruct (Val h Hh) as [-> _]; apply Hcomplete; [apply S; auto|right; apply dut_in]|].
            right. destruct (prediction_some h) as ([qx qy] & Hq). exists z0, qx, qy.
            split; [apply (find_first_z0 a tau); auto|]. rewrite ref_true by auto. split; [exact Hq|].
            destruct (Val h Hh) as [-> ->]. rewrite Eh. apply order_total.
            apply (Hsep dut track h _ _ (dist (ax t h dut) (ay t h dut) px py)); auto; try congruence.
            * apply dut_in.
            * exists px, py; auto.
            * exists qx, qy; auto.
            * exists px, py; auto. }
      assert (Ec : tau dut c = track).
      { destruct (Nat.eq_dec (tau dut c) track) as [|N]; auto. exfalso.
        destruct (Val h Hh) as [V1 V2]. rewrite V1, V2, Eh in Best. destruct (Val c Hc1) as [-> ->] in Best.
        destruct (prediction_some (tau dut c)) as ([qx qy] & Hq).
        destruct (sh_event _ S dut c Hc1) as [Q1 Q2].
        destruct (Hsep dut track (tau dut c) (dist (ax t track dut) (ay t track dut) px py)
          (dist (ax t track dut) (ay t track dut) qx qy) (dist (ax t (tau dut c) dut) (ay t (tau dut c) dut) px py)) as [_ B]; auto; try congruence.
        - apply dut_in.
        - exists px, py; auto.
        - exists qx, qy; auto.
        - exists px, py; auto. }
      repeat split; auto.
      - destruct (le_lt_dec track c); auto. assert (tau dut c = c) by (apply Hdone; auto). lia.
      - intros ->. exact H1.
      - intros ->. destruct H1 as [[H1 _] _]. auto.
    Qed.

    Definition swapped (i j : nat) : nat -> nat -> nat := swap_in tau i j dut.
    Definition swapped_tau (i j : nat) : nat -> nat -> nat :=
      fun d r => if d =? dut then (if r =? i then tau dut j else if r =? j then tau dut i else tau d r) else tau d r.

    Lemma swapped_shuffled i j : i < n_rows -> j < n_rows -> events i = events j -> shuffled (swapped_tau i j).
    Proof.
      intros Hi Hj He. set (w := fun r => if r =? i then j else if r =? j then i else r).
      assert (Hw : forall r, r < n_rows -> w r < n_rows /\ events (w r) = events r).
      { intros r Hr. unfold w. destruct (Nat.eqb_spec r i); [subst; auto|]. destruct (Nat.eqb_spec r j); subst; auto. }
      assert (Ww : forall r, w (w r) = r).
      { intros r. unfold w. destruct (Nat.eqb_spec r i) as [->|N1]; [|destruct (Nat.eqb_spec r j) as [->|N2]].
        - destruct (Nat.eqb_spec j i); [congruence|]. rewrite Nat.eqb_refl. reflexivity.
        - rewrite Nat.eqb_refl. reflexivity.
        - apply Nat.eqb_neq in N1, N2. rewrite N1, N2. reflexivity. }
      assert (E : forall d r, swapped_tau i j d r = tau d (if d =? dut then w r else r)).
      { intros d r. unfold swapped_tau, w. destruct (Nat.eqb_spec d dut) as [->|]; auto. destruct (r =? i); auto. destruct (r =? j); auto. }
      constructor.
      - intros d r Hr. rewrite E. destruct (d =? dut); [|apply S; auto]. destruct (Hw r Hr) as [W1 W2].
        destruct (sh_event _ S d (w r) W1). split; congruence.
      - intros d r s Hr Hs. rewrite !E. destruct (d =? dut).
        + intros Q. apply (sh_inj _ S) in Q; try (apply Hw; auto). rewrite <- (Ww r), <- (Ww s). congruence.
        + apply S; auto.
      - intros d r Hr. destruct (sh_surj _ S d r Hr) as (s & Hs & Es). destruct (d =? dut) eqn:Ed.
        + exists (w s). split; [apply Hw; auto|]. rewrite E, Ed, Ww. auto.
        + exists s. split; auto. rewrite E, Ed. auto.
    Qed.
    Lemma swapped_described i j : i < n_rows -> j < n_rows -> described (swapped_tau i j) (swap_hits F a i j dut).
    Proof.
      intros Hi Hj r d Hr Hd. unfold swap_hits, swapped_tau, swap_in. cbn [ax ay az].
      destruct (Nat.eqb_spec d dut) as [->|]; [|apply D; auto].
      destruct (r =? i); [apply D; auto|]. destruct (r =? j); apply D; auto.
    Qed.
  End Step.

  (** the index column follows the hits *)
  Definition tracked (tau0 tau : nat -> nat -> nat) (a : arr) : Prop := forall r d, r < n_rows -> In d zs -> tau d r = tau0 d (ai a r d).
  Definition first_row (start : nat) : Prop := forall r, r < n_rows -> events r = events start -> start <= r.

  Variable tau0 : nat -> nat -> nat.
  Record state (tau : nat -> nat -> nat) (a : arr) : Prop := {
    st_sh : shuffled tau; st_de : described tau a; st_tr : tracked tau0 tau a }.

  Lemma find_at_correct start dut k track a tau fuel : state tau a -> position dut zs = Some k -> 0 < k ->
    start < n_rows -> first_row start ->
    (forall r d, r < n_rows -> events r = events start -> In d (firstn k zs) -> tau d r = r) ->
    track < n_rows -> events track = events start -> 0 < fuel ->
    (forall r, start <= r -> r < track -> events r = events start -> tau dut r = r) ->
    exists a' tau', find_tracks_at fuel start track dut a = Some a' /\ state tau' a' /\
      (forall r d, d <> dut -> tau' d r = tau d r) /\ (forall r, events r <> events start -> tau' dut r = tau dut r) /\
      (forall r, start <= r -> r <= track -> events r = events start -> tau' dut r = r).
  Proof.
    intros [Sh De Tr] Hp Hk Hs Hfirst Hfront Ht He Hf Hdone. destruct fuel as [|fuel]; [lia|].
    assert (Hst : start <= track) by (apply Hfirst; auto).
    cbn [FindTracksModel.find_tracks_at]. rewrite (find_first_z0 a tau) by auto.
    assert (P0 : position z0 zs = Some 0).
    { destruct (position_in z0 zs (or_introl eq_refl)) as (i & Ei). pose proof (position_firstn zs Hz z0 1 i (or_introl eq_refl) Ei). rewrite Ei. f_equal. lia. }
    rewrite P0, Hp. destruct (Nat.leb_spec k 0) as [|_]; [lia|].
    rewrite (ref_true a tau start dut k) by auto.
    assert (Hex : exists p, prediction track dut = Some p) by (apply reference_total; auto; eapply nth_error_In, position_some; eauto).
    destruct Hex as ([px py] & Hpp). rewrite Hpp.
    edestruct (search_correct a tau start dut k) with (px := px) (py := py) (track := track)
      as (c & sw & Es & C1 & C2 & C3 & C4 & C5 & C6); eauto. rewrite Es. clear Es.
    destruct sw.
    - specialize (C6 eq_refl). destruct (Nat.ltb_spec c track) as [|_]; [lia|]. simpl.
      exists (swap_hits F a track c dut), (swapped_tau tau dut track c). split; [reflexivity|]. split; [constructor|].
      + apply swapped_shuffled; auto. congruence.
      + apply (swapped_described a tau dut De); auto.
      + intros r d Hr Hd. unfold swapped_tau, swap_hits, swap_in. cbn [ai].
        destruct (Nat.eqb_spec d dut) as [->|]; [|auto]. destruct (r =? track); [auto|]. destruct (r =? c); auto.
      + split; [|split].
        * intros r d Hd. unfold swapped_tau. destruct (Nat.eqb_spec d dut); congruence.
        * intros r Hr. unfold swapped_tau. rewrite Nat.eqb_refl. destruct (Nat.eqb_spec r track); [congruence|]. destruct (Nat.eqb_spec r c); [congruence|auto].
        * intros r R1 R2 R3. unfold swapped_tau. rewrite Nat.eqb_refl. destruct (Nat.eqb_spec r track); [congruence|].
          destruct (Nat.eqb_spec r c); [lia|]. apply Hdone; auto. lia.
    - specialize (C5 eq_refl). subst c. exists a, tau. split; [reflexivity|]. split; [constructor; auto|].
      split; [auto|]. split; [auto|]. intros r R1 R2 R3. destruct (Nat.eq_dec r track); [congruence|]. apply Hdone; auto. lia.
  Qed.

  Lemma rows_correct start dut k : position dut zs = Some k -> 0 < k -> start < n_rows -> first_row start ->
    forall m p a tau, state tau a ->
    (forall r d, r < n_rows -> events r = events start -> In d (firstn k zs) -> tau d r = r) ->
    start <= p -> p + m <= n_rows -> (forall r, p <= r -> r < p + m -> events r = events start) ->
    (forall r, start <= r -> r < p -> events r = events start -> tau dut r = r) ->
    exists a' tau', rows_loop start dut (seq p m) a = Some a' /\ state tau' a' /\
      (forall r d, d <> dut -> tau' d r = tau d r) /\ (forall r, events r <> events start -> tau' dut r = tau dut r) /\
      (forall r, start <= r -> r < p + m -> events r = events start -> tau' dut r = r).
  Proof.
    intros Hp Hk Hs Hfirst.
    assert (Hnf : ~ In dut (firstn k zs)). { intros H. pose proof (position_firstn zs Hz dut k k H Hp). lia. }
    induction m as [|m IH]; intros p a tau St Hfront Hsp Hpm Hev Hdone.
    - exists a, tau. split; [reflexivity|]. split; [auto|]. split; [auto|]. split; [auto|]. intros; apply Hdone; auto; lia.
    - cbn [seq FindTracksModel.rows_loop].
      destruct (find_at_correct start dut k p a tau (Datatypes.S p)) as (a1 & tau1 & -> & St1 & B1 & B2 & B3); auto; try lia.
      { apply Hev; lia. }
      destruct (IH (Datatypes.S p) a1 tau1) as (a2 & tau2 & -> & St2 & D1 & D2 & D3); auto; try lia.
      { intros r d Hr He Hd. rewrite B1; [apply Hfront; auto|]. intros ->. contradiction. }
      { intros r R1 R2. apply Hev; lia. }
      { intros r R1 R2 R3. apply B3; auto; lia. }
      exists a2, tau2. split; [reflexivity|]. split; [auto|]. split; [|split].
      + intros r d Hd. rewrite D1, B1; auto.
      + intros r Hr. rewrite D2, B2; auto.
      + intros r R1 R2 R3. apply D3; auto. lia.
  Qed.

  Lemma firstn_snoc_in (d dut k : nat) : nth_error zs k = Some dut -> In d (firstn (Datatypes.S k) zs) -> In d (firstn k zs) \/ d = dut.
  Proof.
    generalize zs. intros l. revert k. induction l as [|v l IH]; intros k E H; [destruct k; discriminate|].
    destruct k as [|k]; simpl in *.
    - injection E as ->. destruct H as [H|[]]; auto.
    - destruct H as [H|H]; [auto|]. destruct (IH k E H); auto.
  Qed.
  Lemma position_nth k d : nth_error zs k = Some d -> position d zs = Some k.
  Proof.
    intros E. destruct (position_in d zs (nth_error_In _ _ E)) as (i & Ei). rewrite Ei. f_equal.
    apply position_some in Ei. apply (proj1 (NoDup_nth_error zs) Hz); [apply nth_error_Some; congruence|congruence].
  Qed.

  Lemma duts_correct start : start < n_rows -> first_row start ->
    forall duts k a tau, state tau a -> 0 < k -> skipn k zs = duts ->
    (forall r d, r < n_rows -> events r = events start -> In d (firstn k zs) -> tau d r = r) ->
    exists a' tau', duts_loop start duts a = Some a' /\ state tau' a' /\
      (forall r d, events r <> events start -> tau' d r = tau d r) /\
      (forall r d, r < n_rows -> events r = events start -> In d zs -> tau' d r = r).
  Proof.
    intros Hs Hfirst. induction duts as [|dut duts IH]; intros k a tau St Hk Ek Hfront.
    - exists a, tau. split; [reflexivity|]. split; [auto|]. split; [auto|].
      intros r d Hr He Hd. apply Hfront; auto. rewrite <- (firstn_skipn k zs), Ek, app_nil_r in Hd. auto.
    - cbn [FindTracksModel.duts_loop].
      assert (En : nth_error zs k = Some dut).
      { rewrite <- (firstn_skipn k zs), Ek. assert (k <= length zs).
        { destruct (le_lt_dec k (length zs)); auto. rewrite skipn_all2 in Ek by lia. discriminate. }
        rewrite nth_error_app2; rewrite firstn_length_le by auto; [rewrite Nat.sub_diag; reflexivity|lia]. }
      pose proof (position_nth k dut En) as Hp.
      destruct (event_run_seq start Hs) as (m & Er & Hm & Hmn & Hall). rewrite Er.
      destruct (rows_correct start dut k Hp Hk Hs Hfirst m start a tau) as (a1 & tau1 & -> & St1 & B1 & B2 & B3); auto.
      { intros r R1 R2. assert (R : In r (event_run start)) by (rewrite Er; apply in_seq; lia). apply event_run_in in R. tauto. }
      { intros; lia. }
      destruct (IH (Datatypes.S k) a1 tau1) as (a2 & tau2 & -> & St2 & D1 & D2); auto.
      { replace (Datatypes.S k) with (1 + k) by lia. clear -Ek. revert k Ek. generalize zs. intros l. induction l as [|v l IHl]; intros k Ek.
        - destruct k; discriminate.
        - destruct k as [|k]; [simpl in Ek; injection Ek as -> ->; reflexivity|]. simpl in *. apply IHl. auto. }
      { intros r d Hr He Hd. destruct (Nat.eq_dec d dut) as [->|Nd].
        - apply B3; auto.
        - rewrite B1 by auto. apply Hfront; auto. destruct (firstn_snoc_in d dut k En Hd); [auto|contradiction]. }
      exists a2, tau2. split; [reflexivity|]. split; [auto|]. split; [|auto].
      intros r d Hr. rewrite D1 by auto. destruct (Nat.eq_dec d dut) as [->|]; [apply B2; auto|apply B1; auto].
  Qed.

  Lemma events_correct : (forall r, r < n_rows -> tau0 z0 r = r) ->
    forall len p z a tau, state tau a -> p + len = n_rows ->
    (forall r, r < n_rows -> tau z0 r = r) ->
    (forall r d, r < p -> In d zs -> tau d r = r) ->
    (p <> 0 -> z = events (p - 1) /\ forall r d, r < n_rows -> events r = z -> In d zs -> tau d r = r) ->
    exists a' tau', events_loop (seq p len) z a = Some a' /\ state tau' a' /\
      (forall r d, r < n_rows -> In d zs -> tau' d r = r).
  Proof.
    intros H0. induction len as [|len IH]; intros p z a tau St Hn Hz0 Hdone Hcur.
    - exists a, tau. split; [reflexivity|]. split; [auto|]. intros; apply Hdone; auto; lia.
    - cbn [seq FindTracksModel.events_loop].
      destruct (negb (events p =? z)%Z || (p =? 0)) eqn:Eb.
      + assert (Hfirst : first_row p).
        { intros r Hr He. destruct (le_lt_dec p r); auto. exfalso.
          apply orb_true_iff in Eb. destruct Eb as [Eb|Eb]; [|apply Nat.eqb_eq in Eb; lia].
          apply negb_true_iff, Z.eqb_neq in Eb. destruct Hcur as [-> _]; [lia|].
          assert (events r <= events (p - 1))%Z by (apply Hevents; lia).
          assert (events (p - 1) <= events p)%Z by (apply Hevents; lia). lia. }
        destruct (duts_correct p ltac:(lia) Hfirst zr 1 a tau St ltac:(lia) eq_refl) as (a1 & tau1 & E1 & St1 & B1 & B2).
        { intros r d Hr He [<-|[]]. auto. }
        cbn [tl]. rewrite E1.
        destruct (IH (Datatypes.S p) (events p) a1 tau1) as (a2 & tau2 & -> & St2 & D); auto; try lia.
        { intros r Hr. destruct (Z.eq_dec (events r) (events p)); [apply B2; simpl; auto|rewrite B1; auto]. }
        { intros r d Hr Hd. destruct (Z.eq_dec (events r) (events p)); [apply B2; auto; lia|].
          rewrite B1 by auto. destruct (Nat.eq_dec r p); [congruence|]. apply Hdone; auto. lia. }
        { intros _. replace (Datatypes.S p - 1) with p by lia. split; [reflexivity|]. intros; apply B2; auto. }
        exists a2, tau2. auto.
      + apply orb_false_iff in Eb. destruct Eb as [Eb1 Eb2]. apply Nat.eqb_neq in Eb2. apply negb_false_iff, Z.eqb_eq in Eb1.
        destruct (Hcur Eb2) as [Q1 Q2].
        apply (IH (Datatypes.S p) z a tau); auto; try lia.
        * intros r d Hr Hd. destruct (Nat.eq_dec r p); [subst r; apply Q2; auto; lia|]. apply Hdone; auto; lia.
        * intros _. replace (Datatypes.S p - 1) with p by lia. split; auto.
  Qed.

  (** Complete, well separated tracks: the finding restores the tracks, whatever the order of the hits within
      the events in all but the first DUT; the index column tells where the hits came from. *)
  Theorem C23_ideal_tracks : shuffled tau0 -> (forall r, r < n_rows -> tau0 z0 r = r) ->
    forall a0, described tau0 a0 -> (forall r d, ai a0 r d = r) ->
    exists a, loop a0 = Some a /\ forall r d, r < n_rows -> In d zs ->
      ax a r d = ax t r d /\ ay a r d = ay t r d /\ az a r d = az t r d /\ tau0 d (ai a r d) = r.
  Proof.
    intros Sh H0 a0 De Hai.
    destruct (events_correct H0 n_rows 0 (-1)%Z a0 tau0) as (a & tau & E & St & K); auto.
    - constructor; auto. intros r d _ _. rewrite Hai. reflexivity.
    - intros; lia.
    - lia.
    - exists a. split; [exact E|]. intros r d Hr Hd. destruct (st_de _ _ St r d Hr Hd) as (-> & -> & ->).
      rewrite <- (st_tr _ _ St r d Hr Hd). rewrite K by auto. auto.
  Qed.
End Ideal.

(** Two tracks in event 5 with slopes and exchanged hits in DUTs 1 and 2, one track in event 7; rational
    coordinates, distances are compared by their squares. *)
Definition it_x (r d : nat) : Q :=
  match r, d with
  | 0, _ => inject_Z (Z.of_nat d)
  | 1, _ => inject_Z 10
  | _, _ => inject_Z 3
  end.
Definition it : arrays Q := Arrays it_x (fun r _ => inject_Z (Z.of_nat r)) (fun _ d => inject_Z (Z.of_nat d)) (fun r _ => r).
Definition it_events (r : nat) : Z := if r <=? 1 then 5%Z else 7%Z.
Definition it_tau (d r : nat) : nat := if d =? 0 then r else match r with 0 => 1 | 1 => 0 | _ => r end.
Definition it_nan (q : Q) : bool := false.
Definition it_nonneg (q : Q) : bool := Qle_bool 0 q.
Definition it_lt (p q : Q) : bool := negb (Qle_bool q p).
Definition it_trans (d i : nat) : Q := if i =? 2 then inject_Z (Z.of_nat d) else 0%Q.
Definition it_normal (_ i : nat) : Q := if i =? 2 then 1%Q else 0%Q.
Definition it_start : arrays Q :=
  Arrays (fun r d => ax it (it_tau d r) d) (fun r d => ay it (it_tau d r) d) (fun r d => az it (it_tau d r) d) (fun r _ => r).

Example C23_ideal_case :
  exists a, find_tracks_loop Q it_nan Qplus Qminus Qmult Qdiv Qopp (fun q => q) it_nonneg it_lt 3 it_events [0; 1; 2] [0; 1; 2]
      it_trans it_normal it_start = Some a /\
    map (fun d => map (fun r => ai a r d) [0; 1; 2]) [0; 1; 2] = [[0; 1; 2]; [1; 0; 2]; [1; 0; 2]] /\
    forall r d, r < 3 -> In d [0; 1; 2] -> ax a r d = ax it r d /\ ay a r d = ay it r d /\ az a r d = az it r d /\ it_tau d (ai a r d) = r.
Proof.
  destruct (C23_ideal_tracks Q it_nan Qplus Qminus Qmult Qdiv Qopp (fun q => q) it_nonneg it_lt 3 it_events 0 [1; 2] [0; 1; 2]
    it_trans it_normal it) with (tau0 := it_tau) (a0 := it_start) as (a & E & H).
  - repeat constructor; simpl; intuition lia.
  - unfold it_lt. intros u v w H1 H2. apply negb_false_iff in H1, H2. apply negb_false_iff.
    apply Qle_bool_iff in H1, H2. apply Qle_bool_iff. apply Qle_trans with v; auto.
  - unfold it_lt. intros u v H. apply negb_true_iff in H. apply negb_false_iff. apply Qle_bool_iff.
    apply not_true_iff_false in H. rewrite Qle_bool_iff in H. apply Qlt_le_weak, Qnot_le_lt. auto.
  - intros a b c d. unfold it_nonneg, distance. apply Qle_bool_iff.
    assert (K : forall q, (0 <= q * q)%Q).
    { intros [n m]. unfold Qle, Qmult. simpl. nia. }
    apply Qle_trans with ((a - c) * (a - c) + 0)%Q; [rewrite Qplus_0_r; apply K|apply Qplus_le_r, K].
  - intros r d _ _. reflexivity.
  - intros d r s m m1 m2 Hd Hr Hs N He (p1 & q1 & E1 & ->) (p2 & q2 & E2 & ->) (p3 & q3 & E3 & ->).
    assert (Hd' : d = 1 \/ d = 2) by (simpl in Hd; intuition).
    destruct r as [|[|[|r]]]; [| | |lia]; (destruct s as [|[|[|s]]]; [| | |lia]); try congruence; try (vm_compute in He; discriminate);
      destruct Hd' as [-> | ->]; vm_compute in E1, E2, E3; injection E1 as <- <-; injection E2 as <- <-; injection E3 as <- <-;
      vm_compute; split; reflexivity.
  - intros r s H1 H2. unfold it_events. destruct (Nat.leb_spec r 1), (Nat.leb_spec s 1); lia.
  - constructor.
    + intros d r Hr. unfold it_tau. destruct (d =? 0); [auto|]. destruct r as [|[|[|r]]]; [| | |lia]; split; try reflexivity; lia.
    + intros d r s Hr Hs. unfold it_tau. destruct (d =? 0); [auto|].
      destruct r as [|[|[|r]]]; [| | |lia]; (destruct s as [|[|[|s]]]; [| | |lia]); congruence.
    + intros d r Hr. unfold it_tau. destruct (d =? 0); [eauto|]. destruct r as [|[|[|r]]]; [exists 1|exists 0|exists 2|lia]; split; auto; lia.
  - intros r _. reflexivity.
  - intros r d _ _. repeat split; reflexivity.
  - reflexivity.
  - exists a. split; [exact E|]. split; [|exact H].
    vm_compute in E. injection E as <-. vm_compute. reflexivity.
Qed.

Print Assumptions C23_ideal_tracks.

(** *** The hits used for the prediction *)
Section References.
  Variable F : Type.
  Variable isnan : F -> bool.
  Variable zs extra : list nat.
  Variable a : arrays F.
  Variable row : nat.
  Hypothesis Hz : NoDup zs.
  (** extrapolation DUTs with a hit among a list of DUTs *)
  Definition usable (duts : list nat) : list nat :=
    filter (fun d => existsb (Nat.eqb d) extra && negb (isnan (ax a row d))) duts.

  Lemma find_rev_split {T} (p : T -> bool) l r : find p (rev l) = Some r ->
    exists l1 l2, l = l1 ++ r :: l2 /\ p r = true /\ forall v, In v l2 -> p v = false.
  Proof.
    clear. induction l as [|v l IH] using rev_ind; intros H; [discriminate|]. rewrite rev_app_distr in H. simpl in H.
    destruct (p v) eqn:E.
    - injection H as <-. exists l, []. repeat split; auto. contradiction.
    - destruct (IH H) as (l1 & l2 & -> & H1 & H2). exists l1, (l2 ++ [v]). rewrite <- app_assoc. repeat split; auto.
      intros u Hu. apply in_app_or in Hu. destruct Hu as [Hu|[<-|[]]]; auto.
  Qed.
  Lemma position_split l1 r l2 : zs = l1 ++ r :: l2 -> position r zs = Some (length l1).
  Proof.
    intros E. destruct (position_in r zs) as (i & Hi); [rewrite E; apply in_or_app; simpl; auto|]. rewrite Hi. f_equal.
    apply position_some in Hi.
    assert (Hl : nth_error zs (length l1) = Some r) by (rewrite E, nth_error_app2, Nat.sub_diag by lia; reflexivity).
    apply (proj1 (NoDup_nth_error zs) Hz); [apply nth_error_Some; congruence|congruence].
  Qed.

  Definition last_two (second : option nat) (l : list nat) : option (nat * nat) :=
    match second, rev l with
    | Some s, f :: _ => Some (s, f)
    | None, s :: f :: _ => Some (s, f)
    | _, _ => None
    end.

  Lemma two_refs_spec : forall fuel curr k second, position curr zs = Some k -> k < fuel ->
    two_refs F isnan zs extra fuel a row curr second = Some (last_two second (usable (firstn k zs))).
  Proof.
    induction fuel as [|fuel IH]; intros curr k second Hp Hk; [lia|].
    cbn [two_refs]. rewrite Hp. destruct k as [|k]; [destruct second; reflexivity|].
    cbn [upto]. destruct (get_last_dut F isnan a row (firstn (S k) zs)) as [r|] eqn:E.
    - unfold get_last_dut in E. apply find_rev_split in E. destruct E as (l1 & l2 & E & Hr & Hn).
      assert (Hl : length l1 <= k).
      { assert (length (firstn (S k) zs) <= S k) by (rewrite firstn_length; lia). rewrite E, app_length in H. simpl in H. lia. }
      assert (Ez : zs = l1 ++ r :: (l2 ++ skipn (S k) zs)).
      { rewrite <- (firstn_skipn (S k) zs) at 1. rewrite E, <- app_assoc. reflexivity. }
      pose proof (position_split _ _ _ Ez) as Hpr.
      assert (El : l1 = firstn (length l1) zs) by (rewrite Ez, firstn_app, Nat.sub_diag, firstn_all, app_nil_r; reflexivity).
      assert (U : usable (firstn (S k) zs) = usable (firstn (length l1) zs) ++ (if existsb (Nat.eqb r) extra then [r] else [])).
      { rewrite E, <- El. unfold usable. rewrite filter_app. f_equal. simpl. rewrite Hr, andb_true_r.
        replace (filter (fun d => existsb (Nat.eqb d) extra && negb (isnan (ax a row d))) l2) with (@nil nat).
        - destruct (existsb (Nat.eqb r) extra); reflexivity.
        - clear -Hn. induction l2 as [|v l2 IH]; [reflexivity|]. simpl. rewrite (Hn v), andb_false_r by (simpl; auto).
          apply IH. intros; apply Hn; simpl; auto. }
      rewrite U. destruct (existsb (Nat.eqb r) extra).
      + destruct second as [s|].
        * unfold last_two. rewrite rev_app_distr. reflexivity.
        * rewrite (IH r (length l1)) by (auto; lia). unfold last_two. rewrite rev_app_distr. simpl.
          destruct (rev (usable (firstn (length l1) zs))); reflexivity.
      + rewrite (IH r (length l1)) by (auto; lia). rewrite app_nil_r. reflexivity.
    - assert (U : usable (firstn (S k) zs) = []).
      { unfold get_last_dut in E. unfold usable. destruct (filter _ _) as [|d l] eqn:Ef; [reflexivity|exfalso].
        assert (Hd : In d (filter (fun d => existsb (Nat.eqb d) extra && negb (isnan (ax a row d))) (firstn (S k) zs))) by (rewrite Ef; simpl; auto).
        apply filter_In in Hd. destruct Hd as [Hd1 Hd2]. apply andb_true_iff in Hd2. destruct Hd2 as [_ Hd2].
        apply in_rev in Hd1. pose proof (find_none _ _ E d Hd1) as H. simpl in H. congruence. }
      rewrite U. destruct second; reflexivity.
  Qed.
End References.

(** The position of a track in the plane of a DUT is predicted from its hits in the last two extrapolation
    DUTs in front of the DUT, or else is the position of its first hit. *)
Theorem C23_prediction : forall F isnan fadd fsub fmul fdiv fneg fsqrt zs extra translation normal (a : arrays F) row dut k first,
  NoDup zs -> nth_error zs k = Some dut ->
  reference F isnan fadd fsub fmul fdiv fneg fsqrt zs extra translation normal a row dut first =
  Some match rev (filter (fun d => existsb (Nat.eqb d) extra && negb (isnan (ax a row d))) (firstn k zs)) with
       | second :: first' :: _ => predict F fadd fsub fmul fdiv fneg fsqrt translation normal a row dut second first'
       | _ => (ax a row first, ay a row first)
       end.
Proof.
  intros F isnan fadd fsub fmul fdiv fneg fsqrt zs extra translation normal a row dut k first Hz Hk.
  assert (Hp : position dut zs = Some k).
  { destruct (position_in dut zs (nth_error_In _ _ Hk)) as (i & Ei). rewrite Ei. f_equal.
    apply position_some in Ei. apply (proj1 (NoDup_nth_error zs) Hz); [apply nth_error_Some; congruence|congruence]. }
  assert (Hlt : k < S (length zs)) by (assert (k < length zs) by (apply nth_error_Some; congruence); lia).
  unfold reference. rewrite (two_refs_spec F isnan zs extra a row Hz _ dut k None Hp Hlt). unfold last_two, usable.
  destruct (rev _) as [|s [|f l]]; reflexivity.
Qed.
Print Assumptions C23_prediction.
