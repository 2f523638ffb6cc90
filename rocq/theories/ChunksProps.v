(** C07, C08: chunked reading of event tables. *)
From Coq Require Import ZArith List Bool Lia Sorting.Sorted Arith.
From Verif Require Import EventArraysProofs ChunksModel ChunksProofs.
Import ListNotations.
Open Scope Z_scope.

Section Props.
  Context {A : Type}.
  Variable ev : A -> Z.

  (** *** Specification: which rows a call has to deliver. *)

  (** rows start..stop-1 of the table *)
  Definition rows_between (table : list A) (start stop : nat) : list A :=
    firstn (stop - start) (skipn start table).

  Definition start_of (p : params) : nat := match p_start_index p with Some i => i | None => 0%nat end.
  Definition stop_of (table : list A) (p : params) : nat :=
    match p_stop_index p with Some i => i | None => length table end.

  Definition event_of_first (l : list A) (v : Z) : Prop := exists a r, l = a :: r /\ ev a = v.
  Definition event_of_last (l : list A) (v : Z) : Prop := exists a r, l = r ++ [a] /\ ev a = v.

  (** A row is requested if it is in the index range, its event is in [start_event, stop_event),
      it is not part of a possibly incomplete first event (only when reading starts inside the
      table at an index not declared event-aligned), and not part of a possibly incomplete last
      event (only when reading stops inside the table). *)
  Definition is_requested (table : list A) (p : params) (a : A) : Prop :=
    let slice := rows_between table (start_of p) (stop_of table p) in
    (forall s, p_start_event p = Some s -> s <= ev a) /\
    (forall s, p_stop_event p = Some s -> ev a < s) /\
    (stop_of table p <> length table -> forall v, event_of_last slice v -> ev a <> v) /\
    (p_first_aligned p = false -> start_of p <> 0%nat ->
       forall v, event_of_first slice v ->
         (forall s, p_start_event p = Some s -> s = v) -> ev a <> v).

  (** [out] is exactly the sublist of the requested rows, in table order. *)
  Inductive selects (P : A -> Prop) : list A -> list A -> Prop :=
  | sel_nil : selects P [] []
  | sel_keep a l out : P a -> selects P l out -> selects P (a :: l) (a :: out)
  | sel_drop a l out : ~ P a -> selects P l out -> selects P (a :: l) out.

  Lemma selects_filter P (f : A -> bool) l : (forall a, In a l -> (f a = true <-> P a)) ->
    selects P l (filter f l).
  Proof.
    induction l as [|x l IH]; intros H; simpl; [constructor|].
    specialize (IH (fun a Ha => H a (or_intror Ha))). specialize (H x (or_introl eq_refl)).
    destruct (f x) eqn:E.
    - apply sel_keep; auto. tauto.
    - apply sel_drop; auto. rewrite <- H. discriminate.
  Qed.

  Lemma selects_fun P l o1 o2 : selects P l o1 -> selects P l o2 -> o1 = o2.
  Proof.
    intros H. revert o2. induction H; intros o2 H2; inversion H2; subst; try tauto.
    - f_equal; auto.
    - auto.
  Qed.

  Lemma selects_all (P : A -> Prop) l : (forall a, In a l -> P a) -> selects P l l.
  Proof.
    induction l as [|x l IH]; intros H; constructor.
    - apply H; left; auto.
    - apply IH. intros; apply H; right; auto.
  Qed.

  (** The number of rows of an event. *)
  Definition event_rows (e : Z) (l : list A) : nat := length (filter (fun a => ev a =? e) l).

  Definition valid_call (table : list A) (p : params) : Prop :=
    (1 <= p_chunk_size p)%nat /\ (start_of p <= stop_of table p)%nat /\
    (stop_of table p <= length table)%nat /\
    (forall s t, p_start_event p = Some s -> p_stop_event p = Some t -> s <= t) /\
    p_indexed p = false.

  Lemma first_event_spec l v : first_event ev l = Some v <-> event_of_first l v.
  Proof.
    unfold event_of_first. destruct l as [|a l]; simpl; split.
    - discriminate.
    - intros (x & r & E & _). discriminate.
    - intros H. injection H as <-. eauto.
    - intros (x & r & E & <-). injection E as -> ->. reflexivity.
  Qed.

  Lemma last_event_spec' l v : last_event ev l = Some v <-> event_of_last l v.
  Proof.
    unfold event_of_last. split.
    - intros H. destruct (last_event_spec ev l v H) as (l' & a & -> & E). eauto.
    - intros (a & r & -> & <-). apply last_event_app.
  Qed.

  (** C07: every way a call can go. The yielded chunks, concatenated, are a prefix of the
      requested rows in table order; all of them if the generator finishes normally. No chunk is
      empty or longer than chunk_size; no event is split between two chunks, nor between a chunk
      and the undelivered rest; the index yielded with a chunk is the table index right
      behind the chunk. The only failure is ValueError, which requires a missing start event
      (if asked to fail on it) or an event of at least chunk_size rows. *)
  Theorem C07_aligned_chunks : forall table p,
    StronglySorted (fun a b => ev a <= ev b) table ->
    valid_call table p ->
    let slice := rows_between table (start_of p) (stop_of table p) in
    let (ys, e) := data_aligned_at_events ev table p in
    exists rest,
      selects (is_requested table p) slice (concat (map fst ys) ++ rest) /\
      (e = GenDone -> rest = []) /\
      (e = GenDone \/ (e = GenValueError /\
         ((p_start_event p <> None /\ p_fail_missing p = true) \/
          exists v, (p_chunk_size p <= event_rows v slice)%nat))) /\
      (forall c n, In (c, n) ys -> c <> [] /\ (length c <= p_chunk_size p)%nat /\
          (length c <= n)%nat /\ rows_between table (n - length c) n = c) /\
      (forall pre c post, map fst ys = pre ++ c :: post ->
          forall a b, In a c -> In b (concat post ++ rest) -> ev a < ev b).
  Proof.
    intros table p Hs (Hcs & Hss & Hst & Hev & Hidx).
    set (start := start_of p) in *. set (stop := stop_of table p) in *. intros slice.
    assert (Hslice : sorted_by ev slice).
    { unfold slice, rows_between. apply sorted_firstn, sorted_skipn. exact Hs. }
    assert (Hle : exists le, slice <> [] -> last_event ev slice = Some le).
    { destruct (last_event ev slice) as [le|] eqn:E; [exists le; auto|]. exists 0. intros Hne.
      destruct (last_event_some ev slice Hne) as (v & Hv). congruence. }
    destruct Hle as (le & Hle).
    pose proof (read_in_chunks_spec ev table p start stop Hcs Hss Hst Hslice le Hle) as H.
    assert (Hrun : data_aligned_at_events ev table p = read_in_chunks ev table p start stop).
    { unfold data_aligned_at_events. rewrite Hidx.
      fold (start_of p) (stop_of table p). fold start stop.
      destruct (Nat.ltb_spec stop start); [lia|].
      destruct (p_start_event p) as [s|]; destruct (p_stop_event p) as [t|]; try reflexivity.
      destruct (Z.ltb_spec t s); [|reflexivity]. specialize (Hev s t eq_refl eq_refl). lia. }
    rewrite Hrun. clear Hrun.
    destruct (read_in_chunks ev table p start stop) as [ys e].
    change (read table start stop) with slice in H.
    destruct H as [He (i & Hi & Hread & (tail & Ht & Hd & Hsep & HF & Hix))].
    exists tail. split; [|split; [exact Hd|split; [|split]]].
    - (* the rows *)
      rewrite <- Ht. set (lo := low_event ev p start slice) in *.
      assert (Hff : forall (f g : A -> bool) l, filter f (filter g l) = filter (fun a => g a && f a) l).
      { clear. intros f g l. induction l as [|x l IH]; simpl; auto.
        destruct (g x) eqn:Eg; simpl; rewrite IH; reflexivity. }
      rewrite Hff. apply selects_filter. intros a Ha.
      assert (Hne : slice <> []) by (intros E; rewrite E in Ha; contradiction).
      specialize (Hle Hne).
      assert (exists fe, first_event ev slice = Some fe) as (fe & Hfe)
        by (destruct slice; [congruence|simpl; eauto]).
      pose proof (first_event_min ev slice fe Hslice Hfe a Ha) as Hmin.
      pose proof (last_event_max ev slice le Hslice Hle a Ha) as Hmax.
      rewrite andb_true_iff. unfold wanted. rewrite andb_true_iff.
      unfold is_requested. fold start stop slice.
      assert (Hlow : low_ok ev lo a = true <->
        (forall s, p_start_event p = Some s -> s <= ev a) /\
        (p_first_aligned p = false -> start <> 0%nat -> forall v, event_of_first slice v ->
         (forall s, p_start_event p = Some s -> s = v) -> ev a <> v)).
      { unfold lo, low_event, low_bound. rewrite Hfe.
        assert (Hfrom : forall v, from ev v a = true <-> v <= ev a).
        { intros v. unfold from. rewrite negb_true_iff, Z.ltb_ge. lia. }
        destruct (p_start_event p) as [s|].
        - destruct (p_first_aligned p); simpl.
          + rewrite Hfrom. split.
            * intros H. split; [intros ? E; injection E as <-; auto|discriminate].
            * intros [H _]. auto.
          + destruct (Nat.eqb_spec start 0) as [E0|E0]; simpl.
            * rewrite Hfrom. split.
              -- intros H. split; [intros ? E; injection E as <-; auto|tauto].
              -- intros [H _]. auto.
            * destruct (Z.eqb_spec fe s) as [->|En]; rewrite Hfrom.
              -- split.
                 ++ intros H. split; [intros ? E; injection E as <-; lia|].
                    intros _ _ v Hv _. apply first_event_spec in Hv. rewrite Hfe in Hv.
                    injection Hv as <-. lia.
                 ++ intros [H1 H2]. specialize (H1 s eq_refl).
                    assert (ev a <> s); [|lia]. apply H2; auto.
                    ** apply first_event_spec; auto.
                    ** intros ? E. injection E as <-. reflexivity.
              -- split.
                 ++ intros H. split; [intros ? E; injection E as <-; lia|].
                    intros _ _ v Hv Hsv. apply first_event_spec in Hv. rewrite Hfe in Hv.
                    injection Hv as <-. specialize (Hsv s eq_refl). congruence.
                 ++ intros [H1 _]. auto.
        - destruct (p_first_aligned p); simpl; [split; [split; discriminate|auto]|].
          destruct (Nat.eqb_spec start 0) as [E0|E0]; simpl; [split; [split; [discriminate|tauto]|auto]|].
          rewrite Hfrom. split.
          + intros H. split; [discriminate|]. intros _ _ v Hv _.
            apply first_event_spec in Hv. rewrite Hfe in Hv. injection Hv as <-. lia.
          + intros [_ H]. assert (ev a <> fe); [|lia]. apply H; auto.
            * apply first_event_spec; auto.
            * discriminate. }
      assert (Hup : (Nat.eqb stop (length table) || (ev a <? le)) = true <->
        (stop <> length table -> forall v, event_of_last slice v -> ev a <> v)).
      { rewrite orb_true_iff, Nat.eqb_eq, Z.ltb_lt. split.
        - intros [H|H] Hn v Hv; [contradiction|]. apply last_event_spec' in Hv.
          rewrite Hle in Hv. injection Hv as <-. lia.
        - intros H. destruct (Nat.eq_dec stop (length table)) as [|Hn]; auto. right.
          assert (ev a <> le); [|lia]. apply H; auto. apply last_event_spec'; auto. }
      assert (Hse : match p_stop_event p with Some s => ev a <? s | None => true end = true <->
         (forall s, p_stop_event p = Some s -> ev a < s)).
      { destruct (p_stop_event p) as [s|].
        - rewrite Z.ltb_lt. split; [intros H ? E; injection E as <-; auto|auto].
        - split; [discriminate|auto]. }
      rewrite Hlow, Hup, Hse. tauto.
    - destruct He as [He|[He Hor]]; auto.
    - (* chunks *)
      intros c n Hin. rewrite Forall_forall in HF. destruct (HF _ Hin) as [H1 H2]. simpl in H1, H2.
      split; auto. split; auto.
      destruct (in_split _ _ Hin) as (pre & post & Eys).
      pose proof (indices_split i ys Hix pre c n post Eys) as Hn.
      split; [lia|].
      assert (Hsi : sorted_by ev (read table i stop)) by (apply sorted_firstn, sorted_skipn; exact Hs).
      rewrite <- Hread in Ht.
      rewrite (filter_prefix ev _ _ Hsi (wanted_down ev _ le (p_stop_event p))) in Ht.
      match type of Ht with firstn ?k _ = _ => set (m := k) in * end.
      rewrite Eys, map_app, concat_app in Ht. cbn [map fst concat] in Ht.
      set (pl := concat (map fst pre)) in *.
      assert (Hc : firstn (length c) (skipn (length pl) (firstn m (read table i stop))) = c).
      { rewrite Ht, <- !app_assoc, skipn_app, skipn_all, Nat.sub_diag. simpl.
        rewrite firstn_app, firstn_all, Nat.sub_diag. simpl. apply app_nil_r. }
      assert (Hml : (length pl + length c <= Nat.min m (length (read table i stop)))%nat).
      { rewrite <- firstn_length, Ht, !app_length. lia. }
      rewrite skipn_firstn', firstn_firstn in Hc.
      rewrite Nat.min_l in Hc by lia.
      rewrite <- read_skip in Hc. unfold read in Hc. rewrite firstn_firstn in Hc.
      rewrite read_length in Hml by auto.
      rewrite Nat.min_l in Hc by lia.
      unfold rows_between. rewrite Hn.
      replace (i + length pl + length c - length c)%nat with (i + length pl)%nat by lia.
      replace (i + length pl + length c - (i + length pl))%nat with (length c) by lia. exact Hc.
    - apply separated_split. exact Hsep.
  Qed.

  Definition default_call (chunk_size : nat) : params :=
    Params None None None None chunk_size false true true.

  Lemma default_valid table cs : (1 <= cs)%nat -> valid_call table (default_call cs).
  Proof. intros H. unfold valid_call, start_of, stop_of. simpl. repeat split; auto; try lia. discriminate. Qed.

  Lemma default_requested table cs a : is_requested table (default_call cs) a.
  Proof. unfold is_requested, stop_of. simpl. repeat split; try discriminate. intros; tauto. Qed.

  (** Default call (whole table): if every event has fewer rows than chunk_size, the chunks
      concatenate to the table; if it finishes at all, the same holds and every event fits
      into one chunk (so an event of more than chunk_size rows always raises ValueError). *)
  Theorem C07_whole_table : forall table cs,
    StronglySorted (fun a b => ev a <= ev b) table -> (1 <= cs)%nat ->
    let (ys, e) := data_aligned_at_events ev table (default_call cs) in
    ((forall v, (event_rows v table < cs)%nat) -> e = GenDone) /\
    (e = GenDone -> concat (map fst ys) = table /\ forall v, (event_rows v table <= cs)%nat) /\
    (e <> GenDone -> e = GenValueError).
  Proof.
    intros table cs Hs Hcs.
    pose proof (C07_aligned_chunks table (default_call cs) Hs (default_valid table cs Hcs)) as H.
    destruct (data_aligned_at_events ev table (default_call cs)) as [ys e].
    assert (Hsl : rows_between table (start_of (default_call cs)) (stop_of table (default_call cs)) = table).
    { unfold rows_between, start_of, stop_of. simpl. rewrite Nat.sub_0_r. apply firstn_all. }
    rewrite Hsl in H. destruct H as (rest & Hsel & Hd & He & Hc & Hsep).
    assert (Hall : concat (map fst ys) ++ rest = table).
    { eapply selects_fun; [exact Hsel|]. apply selects_all. intros. apply default_requested. }
    split; [|split].
    - intros Hsmall. destruct He as [|[_ [[Hn _]|[v Hv]]]]; auto.
      + simpl in Hn. congruence.
      + specialize (Hsmall v). simpl in Hv. lia.
    - intros E. specialize (Hd E). subst rest. rewrite app_nil_r in Hall. split; auto.
      intros v.
      (* all rows of v lie in one chunk *)
      rewrite <- Hall. clear - Hc Hsep.
      assert (Hc' : forall c, In c (map fst ys) -> (length c <= cs)%nat).
      { intros c Hin. apply in_map_iff in Hin. destruct Hin as ([c' n] & <- & Hin).
        apply (Hc _ _ Hin). }
      revert Hc' Hsep. generalize (map fst ys) as l. clear.
      induction l as [|c l IH]; intros Hc Hsep; simpl; [unfold event_rows; simpl; lia|].
      unfold event_rows in *. rewrite filter_app, app_length.
      destruct (filter (fun a => ev a =? v) c) as [|x r] eqn:E.
      + simpl. apply IH; [intros; apply Hc; right; auto|].
        intros pre c' post ->. apply (Hsep (c :: pre) c' post eq_refl).
      + rewrite (filter_none _ (concat l)).
        * rewrite <- E. simpl. rewrite Nat.add_0_r.
          eapply Nat.le_trans; [|apply (Hc c); left; auto].
          clear. induction c as [|y c IH]; simpl; [lia|]. destruct (ev y =? v); simpl; lia.
        * intros b Hb. apply Z.eqb_neq.
          assert (Hx : In x (filter (fun a => ev a =? v) c)) by (rewrite E; left; auto).
          apply filter_In in Hx. destruct Hx as [Hx Exv]. apply Z.eqb_eq in Exv.
          specialize (Hsep [] c l eq_refl x b Hx). rewrite app_nil_r in Hsep. specialize (Hsep Hb). lia.
    - intros Hn. destruct He as [|[He _]]; [congruence|auto].
  Qed.

  (** Reading can be resumed at any yielded index: a second call starting there (declared event
      aligned, no start event) delivers exactly the table behind the chunk. *)
  Theorem C07_resume : forall table cs1 cs2 ys1 ys2 pre c n post,
    StronglySorted (fun a b => ev a <= ev b) table -> (1 <= cs1)%nat -> (1 <= cs2)%nat ->
    data_aligned_at_events ev table (default_call cs1) = (ys1, GenDone) ->
    ys1 = pre ++ (c, n) :: post ->
    data_aligned_at_events ev table (Params None None (Some n) None cs2 false true false) = (ys2, GenDone) ->
    concat (map fst pre) ++ c ++ concat (map fst ys2) = table.
  Proof.
    intros table cs1 cs2 ys1 ys2 pre c n post Hs H1 H2 E1 Ey E2.
    pose proof (C07_whole_table table cs1 Hs H1) as Hw. rewrite E1 in Hw.
    destruct Hw as (_ & Hw & _). destruct (Hw eq_refl) as [Hw1 _].
    pose proof (C07_aligned_chunks table (default_call cs1) Hs (default_valid table cs1 H1)) as Ha.
    rewrite E1 in Ha. destruct Ha as (r1 & _ & _ & _ & Hc & _).
    destruct (Hc c n) as (_ & _ & Hcn & Hrow); [rewrite Ey; apply in_or_app; right; left; auto|].
    pose proof (C07_aligned_chunks table (Params None None (Some n) None cs2 false true false) Hs) as Hb.
    assert (Hnt : n = (length (concat (map fst pre)) + length c)%nat /\ (n <= length table)%nat).
    { (* index of the chunk in the concatenation *)
      pose proof (read_in_chunks_spec ev table (default_call cs1) 0 (length table)) as Hr. simpl in Hr.
      assert (Hrt : read table 0 (length table) = table) by (unfold read; rewrite Nat.sub_0_r; apply firstn_all).
      rewrite Hrt in Hr.
      assert (exists le, table <> [] -> last_event ev table = Some le) as (le & Hle).
      { destruct (last_event ev table) as [v|] eqn:E; [eauto|]. exists 0. intros Hne.
        destruct (last_event_some ev table Hne); congruence. }
      specialize (Hr H1 ltac:(lia) ltac:(lia) Hs le Hle).
      assert (Hrun : read_in_chunks ev table (default_call cs1) 0 (length table) = (ys1, GenDone)) by exact E1.
      rewrite Hrun in Hr. destruct Hr as [_ (i & _ & Hi & (tl & Ht & Hd & _ & _ & Hix))].
      assert (Hf : filter (low_ok ev (low_event ev (default_call cs1) 0 table)) table = table)
        by (apply filter_all; reflexivity).
      rewrite Hf in Hi. 
      assert (Hi0 : i = 0%nat \/ table = []).
      { destruct table as [|x t]; auto. left. apply (f_equal (@length A)) in Hi.
        rewrite read_length in Hi by auto. simpl length in Hi. lia. }
      destruct Hi0 as [-> | ->].
      - pose proof (indices_split 0 ys1 Hix pre c n post Ey) as Hn.
        assert (Hlen : (length (concat (map fst pre)) + length c <= length table)%nat).
        { rewrite <- Hw1, Ey, map_app, concat_app, !app_length. cbn [map fst concat].
          rewrite app_length. lia. }
        simpl in Hn. lia.
      - exfalso. rewrite Ey in Hw1. 
        destruct (Hc c n) as (Hcne & _); [rewrite Ey; apply in_or_app; right; left; auto|].
        rewrite map_app, concat_app in Hw1. apply app_eq_nil in Hw1. destruct Hw1 as [_ Hw1].
        cbn [map fst concat] in Hw1. apply app_eq_nil in Hw1. tauto. }
    destruct Hnt as [Hn Hnle].
    assert (Hv : valid_call table (Params None None (Some n) None cs2 false true false)).
    { unfold valid_call, start_of, stop_of. simpl. repeat split; auto; discriminate. }
    specialize (Hb Hv). rewrite E2 in Hb. destruct Hb as (r2 & Hsel & Hd & _).
    rewrite (Hd eq_refl), app_nil_r in Hsel.
    assert (Hskip : concat (map fst ys2) = skipn n table).
    { assert (Hsl : rows_between table (start_of (Params None None (Some n) None cs2 false true false))
        (stop_of table (Params None None (Some n) None cs2 false true false)) = skipn n table).
      { unfold rows_between, start_of, stop_of. simpl. apply firstn_all2. rewrite skipn_length. lia. }
      rewrite Hsl in Hsel. eapply selects_fun; [exact Hsel|]. apply selects_all.
      intros a _. unfold is_requested, stop_of. simpl. repeat split; try discriminate; intros; tauto. }
    rewrite Hskip. rewrite <- Hw1 at 2. rewrite Ey, map_app, concat_app. cbn [map fst concat].
    f_equal. f_equal.
    rewrite <- Hw1, Ey, map_app, concat_app. cbn [map fst concat].
    rewrite app_assoc, Hn, <- app_length, skipn_app, skipn_all, Nat.sub_diag. reflexivity.
  Qed.

  (** fail_on_missing_events: a missing start event is reported if an event behind it is within
      the first chunk_size rows (the full claim, without the last condition, is refuted below; C07_missing_start_unreported is the converse). *)
  Theorem C07_missing_start_reported_partial : forall table p s,
    StronglySorted (fun a b => ev a <= ev b) table -> valid_call table p ->
    p_fail_missing p = true -> p_start_event p = Some s ->
    let slice := rows_between table (start_of p) (stop_of table p) in
    (forall a, In a slice -> ev a <> s) ->
    (exists a, In a (firstn (p_chunk_size p) slice) /\ s < ev a) ->
    data_aligned_at_events ev table p = ([], GenValueError).
  Proof.
    intros table p s Hs (Hcs & Hss & Hst & Hev & Hidx) Hfail Hse slice Hmiss (a & Ha & Hsa).
    unfold data_aligned_at_events. rewrite Hidx.
    fold (start_of p) (stop_of table p). set (start := start_of p) in *. set (stop := stop_of table p) in *.
    destruct (Nat.ltb_spec stop start); [reflexivity|].
    rewrite Hse. 
    destruct (match p_stop_event p with Some b => b <? s | None => false end); [reflexivity|].
    assert (Hlen : length slice = (stop - start)%nat).
    { unfold slice. apply read_length. auto. }
    assert (Hne : slice <> []).
    { intros E. rewrite E, firstn_nil in Ha. contradiction. }
    assert (Hlt : (start < stop)%nat) by (destruct slice; [congruence|simpl in Hlen; lia]).
    assert (Hslice : sorted_by ev slice).
    { unfold slice, rows_between. apply sorted_firstn, sorted_skipn. exact Hs. }
    unfold read_in_chunks. rewrite Hse. cbn [seek_start].
    destruct (Nat.ltb_spec start stop); [|lia]. cbn [negb].
    rewrite read_chunk. change (read table start stop) with slice.
    set (chunk := firstn (p_chunk_size p) slice) in *.
    assert (Hcne : chunk <> []) by (intros E; rewrite E in Ha; contradiction).
    destruct (last_event_some ev chunk Hcne) as (lc & Hlc).
    assert (exists fe, first_event ev chunk = Some fe) as (fe & Hfe)
      by (destruct chunk; [congruence|simpl; eauto]).
    rewrite Hfe, Hlc, Hfail.
    assert (Hsc : sorted_by ev chunk) by (apply sorted_firstn; auto).
    pose proof (last_event_max ev chunk lc Hsc Hlc a Ha).
    destruct (Z.ltb_spec lc s); [lia|].
    destruct (Nat.eqb (length chunk) (p_chunk_size p) && (fe =? lc)); [reflexivity|].
    assert (Hfs : fe <> s).
    { destruct (first_event_in ev chunk fe Hfe) as (x & Hx & <-). apply Hmiss.
      unfold chunk in Hx. eapply firstn_In; eauto. }
    destruct (Z.eqb_spec fe s); [contradiction|]. rewrite !andb_false_r. cbn [andb].
    destruct (Z.ltb_spec s fe) as [Hl|Hl]; cbn [andb].
    { rewrite Nat.eqb_refl. reflexivity. }
    destruct (nth_error chunk (searchsorted ev chunk s)) as [x|] eqn:En.
    - assert (Hx : In x chunk) by (eapply nth_error_In; eauto).
      assert (ev x <> s) by (apply Hmiss; unfold chunk in Hx; eapply firstn_In; eauto).
      destruct (Z.eqb_spec (ev x) s); [contradiction|]. rewrite Nat.eqb_refl. reflexivity.
    - exfalso. apply nth_error_None in En. unfold searchsorted in En.
      assert (Hin : In a (filter (fun a => ev a <? s) chunk)).
      { assert (Hall : filter (fun a => ev a <? s) chunk = chunk).
        { revert En. clear. induction chunk as [|y c IH]; simpl; auto.
          destruct (ev y <? s); simpl; intros H.
          - f_equal. apply IH. lia.
          - assert (length (filter (fun a => (ev a <? s)%Z) c) <= length c)%nat; [|lia].
            clear. induction c as [|y c IH]; simpl; auto. destruct (ev y <? s); simpl; lia. }
        rewrite Hall. exact Ha. }
      apply filter_In in Hin. destruct Hin as [_ Hin]. apply Z.ltb_lt in Hin. lia.
  Qed.
End Props.

(** C08: results do not depend on the chunk size. [f] is any per-chunk analysis whose results
    are combined with an associative operation ([op], unit [z]; concatenation of output rows,
    addition of histograms, ...) and that treats events independently, i.e. on two inputs
    without common event (first before second) gives the combination of the single results. *)
Section ChunkSize.
  Context {A M : Type}.
  Variable ev : A -> Z.

  Definition combine_chunks (op : M -> M -> M) (z : M) (f : list A -> M) (ys : list (list A * nat)) : M :=
    fold_left (fun acc y => op acc (f (fst y))) ys z.

  Theorem C08_chunk_size_independent : forall (op : M -> M -> M) (z : M) (f : list A -> M),
    (forall x y w, op (op x y) w = op x (op y w)) -> (forall x, op z x = x) -> (forall x, op x z = x) ->
    f [] = z ->
    (forall l1 l2, (forall a b, In a l1 -> In b l2 -> ev a < ev b) -> f (l1 ++ l2) = op (f l1) (f l2)) ->
    forall table p1 p2 ys1 ys2,
    StronglySorted (fun a b => ev a <= ev b) table ->
    valid_call table p1 -> valid_call table p2 ->
    (* the two calls differ in the chunk size only *)
    p_start_event p1 = p_start_event p2 -> p_stop_event p1 = p_stop_event p2 ->
    p_start_index p1 = p_start_index p2 -> p_stop_index p1 = p_stop_index p2 ->
    p_first_aligned p1 = p_first_aligned p2 ->
    data_aligned_at_events ev table p1 = (ys1, GenDone) ->
    data_aligned_at_events ev table p2 = (ys2, GenDone) ->
    combine_chunks op z f ys1 = combine_chunks op z f ys2.
  Proof.
    intros op z f Hassoc Hz1 Hz2 Hf0 Hf table p1 p2 ys1 ys2 Hs Hv1 Hv2 E1 E2 E3 E4 E5 R1 R2.
    assert (Hmain : forall ys rest,
       (forall pre c post, map fst ys = pre ++ c :: post ->
          forall a b, In a c -> In b (concat post ++ rest) -> ev a < ev b) ->
       rest = [] -> combine_chunks op z f ys = f (concat (map fst ys))).
    { intros ys rest Hsep ->. unfold combine_chunks.
      assert (Hg : forall acc, fold_left (fun acc y => op acc (f (fst y))) ys acc = op acc (f (concat (map fst ys)))).
      { induction ys as [|[c n] ys IH]; intros acc; simpl; [rewrite Hf0, Hz2; reflexivity|].
        rewrite IH.
        - rewrite Hassoc. f_equal. symmetry. apply Hf. intros a b Ha Hb.
          apply (Hsep [] c (map fst ys) eq_refl a b); auto. rewrite app_nil_r. auto.
        - intros pre c' post E. apply (Hsep (c :: pre) c' post). simpl. rewrite E. reflexivity. }
      rewrite Hg. apply Hz1. }
    pose proof (C07_aligned_chunks ev table p1 Hs Hv1) as H1. rewrite R1 in H1.
    destruct H1 as (r1 & Hsel1 & Hd1 & _ & _ & Hsep1).
    pose proof (C07_aligned_chunks ev table p2 Hs Hv2) as H2. rewrite R2 in H2.
    destruct H2 as (r2 & Hsel2 & Hd2 & _ & _ & Hsep2).
    rewrite (Hmain ys1 r1), (Hmain ys2 r2); auto.
    f_equal. rewrite (Hd1 eq_refl), app_nil_r in Hsel1. rewrite (Hd2 eq_refl), app_nil_r in Hsel2.
    unfold is_requested, start_of, stop_of in *. rewrite E1, E2, E3, E4, E5 in Hsel1.
    eapply selects_fun; eauto.
  Qed.
End ChunkSize.

(** *** Concrete cases *)
Definition id_ev (z : Z) : Z := z.

(** 3 events of 2, 3 and 1 rows, chunk size 4. *)
Example C07_ex : data_aligned_at_events id_ev [1;1;2;2;2;5] (default_call 4)
  = ([([1;1], 2%nat); ([2;2;2;5], 6%nat)], GenDone).
Proof. vm_compute. reflexivity. Qed.
Example C07_ex_sorted : StronglySorted (fun a b => id_ev a <= id_ev b) [1;1;2;2;2;5].
Proof. unfold id_ev. repeat (constructor; [|repeat constructor; lia]). constructor. Qed.
Example C07_ex_small : forall v, (event_rows id_ev v [1;1;2;2;2;5]%Z < 4)%nat.
Proof.
  intros v. unfold event_rows, id_ev. cbn [filter].
  destruct (Z.eqb_spec 1 v); destruct (Z.eqb_spec 2 v); destruct (Z.eqb_spec 5 v); subst; simpl; try lia; discriminate.
Qed.
(** start and stop event, unaligned start index *)
Example C07_ex_range :
  data_aligned_at_events id_ev [1;1;2;2;2;5;6;7] (Params (Some 2) (Some 6) (Some 1%nat) None 4 false false false)
  = ([([2;2;2], 5%nat); ([5], 6%nat)], GenDone) /\
  valid_call [1;1;2;2;2;5;6;7] (Params (Some 2) (Some 6) (Some 1%nat) None 4 false false false).
Proof.
  split; [vm_compute; reflexivity|]. unfold valid_call, start_of, stop_of; simpl. repeat split; try lia.
  intros s t E1 E2. injection E1 as <-. injection E2 as <-. lia.
Qed.
Example C07_ex_error : data_aligned_at_events id_ev [1;1;2;2;2;5] (default_call 2) = ([], GenValueError).
Proof. vm_compute. reflexivity. Qed.
Example C08_ex :
  (* two chunk sizes, histogram of values: number of rows per event summed up *)
  combine_chunks Z.add 0 (fun c => Z.of_nat (length c)) (fst (data_aligned_at_events id_ev [1;1;2;2;2;5] (default_call 4)))
  = combine_chunks Z.add 0 (fun c => Z.of_nat (length c)) (fst (data_aligned_at_events id_ev [1;1;2;2;2;5] (default_call 10))).
Proof. vm_compute. reflexivity. Qed.

(** *** Deviations (see DESIGN.md, findings) *)

(** The full claim "a request whose rows all fit in chunks is delivered without error" is false:
    the event behind the requested range can raise ValueError although all requested rows were
    delivered. *)
Theorem C07_error_after_range_refuted :
  exists (table : list Z) (p : params),
    StronglySorted (fun a b => id_ev a <= id_ev b) table /\ valid_call table p /\
    (forall v, v < 1 -> (event_rows id_ev v table < p_chunk_size p)%nat) /\ p_stop_event p = Some 1 /\
    data_aligned_at_events id_ev table p = ([([0], 1%nat)], GenValueError).
Proof.
  exists [0;1;1;1], (Params None (Some 1) None None 2 false true false).
  split; [repeat (constructor; [|repeat constructor; unfold id_ev; lia]); constructor|].
  split; [unfold valid_call, start_of, stop_of; simpl; repeat split; try lia; discriminate|].
  split; [|split; [reflexivity|vm_compute; reflexivity]].
  intros v Hv. unfold event_rows, id_ev. cbn [filter].
  destruct (Z.eqb_spec 0 v); destruct (Z.eqb_spec 1 v); simpl; lia.
Qed.

(** With a column index on event_number (try_speedup) the last event before stop_event is lost:
    the stop event is turned into a stop index, in front of which the last event is taken to be
    incomplete. *)
Theorem C07_indexed_refuted :
  exists (table : list Z) (p : params) ys,
    StronglySorted (fun a b => id_ev a <= id_ev b) table /\ p_indexed p = true /\
    p_stop_event p = Some 3 /\ p_start_event p = None /\ p_start_index p = None /\ p_stop_index p = None /\
    data_aligned_at_events id_ev table p = (ys, GenDone) /\
    In 2 table /\ ~ In 2 (concat (map fst ys)).
Proof.
  exists [0;1;2;3], (Params None (Some 3) None None 10 true true false), [([0;1], 2%nat)].
  split; [repeat (constructor; [|repeat constructor; unfold id_ev; lia]); constructor|].
  repeat split; try reflexivity; simpl; auto. lia.
Qed.

(** fail_on_missing_events does not report a missing start event that is not before the end of the
    first chunk, nor a missing stop event. *)
Theorem C07_missing_event_refuted :
  (exists (table : list Z) p ys, StronglySorted (fun a b => id_ev a <= id_ev b) table /\
     valid_call table p /\ p_fail_missing p = true /\ p_start_event p = Some 3 /\ ~ In 3 table /\
     data_aligned_at_events id_ev table p = (ys, GenDone)) /\
  (exists (table : list Z) p ys, StronglySorted (fun a b => id_ev a <= id_ev b) table /\
     valid_call table p /\ p_fail_missing p = true /\ p_stop_event p = Some 3 /\ ~ In 3 table /\
     data_aligned_at_events id_ev table p = (ys, GenDone)).
Proof.
  split.
  - exists [0;1;2;4;5], (Params (Some 3) None None None 3 false true true), [([4;5], 5%nat)].
    split; [repeat (constructor; [|repeat constructor; unfold id_ev; lia]); constructor|].
    split; [unfold valid_call, start_of, stop_of; simpl; repeat split; try lia; discriminate|].
    repeat split; simpl; try lia.
  - exists [0;1;2;4;5], (Params None (Some 3) None None 10 false true true), [([0;1;2], 3%nat)].
    split; [repeat (constructor; [|repeat constructor; unfold id_ev; lia]); constructor|].
    split; [unfold valid_call, start_of, stop_of; simpl; repeat split; try lia; discriminate|].
    repeat split; simpl; try lia.
Qed.

Example C07_missing_ex :
  data_aligned_at_events id_ev [0;1;2;4;5] (Params (Some 3) None None None 4 false true true) = ([], GenValueError).
Proof. vm_compute. reflexivity. Qed.

Print Assumptions C07_missing_start_reported_partial.
Print Assumptions C07_missing_event_refuted.
Print Assumptions C07_aligned_chunks.
Print Assumptions C07_whole_table.
Print Assumptions C07_resume.
Print Assumptions C08_chunk_size_independent.
Print Assumptions C07_error_after_range_refuted.
Print Assumptions C07_indexed_refuted.
