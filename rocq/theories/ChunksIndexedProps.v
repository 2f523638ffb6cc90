(** C07: chunked reading of event tables with an index on the column event_number. *)
From Coq Require Import ZArith List Bool Lia Sorting.Sorted Arith.
From Verif Require Import EventArraysProofs ChunksModel ChunksProofs ChunksProps.
Import ListNotations.
Open Scope Z_scope.

Section Indexed.
  Context {A : Type}.
  Variable ev : A -> Z.

  Lemma first_index_of_spec v rows : sorted_by ev rows -> (exists a, In a rows /\ ev a = v) ->
    forall i, first_index_of ev v rows i = Some (i + length (filter (below ev v) rows))%nat.
  Proof using.
    intros Hs (a & Ha & Ea). induction rows as [|x rows IH]; [contradiction|]. intros i.
    apply sorted_by_inv in Hs. destruct Hs as [Hs Hx]. simpl. unfold below at 1.
    destruct (Z.eqb_spec (ev x) v) as [E|N].
    - rewrite filter_none; [destruct (Z.ltb_spec (ev x) v); [lia|]; simpl; f_equal; lia|].
      intros b Hb. unfold below. destruct (Z.ltb_spec (ev b) v); [|reflexivity].
      specialize (Hx b Hb). lia.
    - destruct Ha as [->|Ha]; [congruence|]. rewrite IH by auto.
      specialize (Hx a Ha). destruct (Z.ltb_spec (ev x) v); [simpl; f_equal; lia|lia].
  Qed.

  (** the call with the same rows given by indices instead of the column index *)
  Definition with_indices (p : params) (a b : nat) : params :=
    Params (p_start_event p) (p_stop_event p) (Some a) (Some b) (p_chunk_size p) false
           (p_first_aligned p) (p_fail_missing p).

  Lemma seek_start_with table p a b start stop s : forall fuel cur,
    seek_start ev fuel table (with_indices p a b) start stop s cur = seek_start ev fuel table p start stop s cur.
  Proof using.
    induction fuel as [|f IH]; intros cur; simpl; [reflexivity|].
    destruct (negb (Nat.ltb cur stop)); [reflexivity|].
    rewrite IH. reflexivity.
  Qed.

  Lemma read_in_chunks_with table p a b start stop :
    read_in_chunks ev table (with_indices p a b) start stop = read_in_chunks ev table p start stop.
  Proof using.
    unfold read_in_chunks. change (p_start_event (with_indices p a b)) with (p_start_event p).
    destruct (p_start_event p) as [s|]; [rewrite seek_start_with|]; reflexivity.
  Qed.

  Lemma data_with table p a b s t : p_start_event p = Some s -> p_stop_event p = Some t ->
    (a <= b)%nat -> s <= t ->
    data_aligned_at_events ev table (with_indices p a b) = read_in_chunks ev table p a b.
  Proof using.
    intros Es Et Hab Hst. rewrite <- (read_in_chunks_with table p a b).
    unfold data_aligned_at_events.
    change (p_start_event (with_indices p a b)) with (p_start_event p).
    change (p_stop_event (with_indices p a b)) with (p_stop_event p).
    change (p_start_index (with_indices p a b)) with (Some a).
    change (p_stop_index (with_indices p a b)) with (Some b).
    change (p_indexed (with_indices p a b)) with false.
    rewrite Es, Et. destruct (Nat.ltb_spec b a); [lia|]. destruct (Z.ltb_spec t s); [lia|]. reflexivity.
  Qed.

  Lemma selects_ext (P Q : A -> Prop) l out : (forall a, In a l -> (P a <-> Q a)) ->
    selects P l out -> selects Q l out.
  Proof using.
    intros H Hp. induction Hp as [|x l out Hx Hp IH|x l out Hx Hp IH]; [constructor|apply sel_keep|apply sel_drop].
    - apply H; [left; reflexivity|exact Hx].
    - apply IH. intros a Ha. apply H. right. exact Ha.
    - intros Hq. apply Hx. apply H; [left; reflexivity|exact Hq].
    - apply IH. intros a Ha. apply H. right. exact Ha.
  Qed.

  (** the rows of the events from [s] to before [t] *)
  Definition events_between (s t : Z) (l : list A) : list A :=
    filter (fun a => (s <=? ev a) && (ev a <? t)) l.

  (** C07: with a column index on event_number (try_speedup), if both the start event [s] and the
      stop event [t] are in the index range: the rows of the events from [s] to before [t] are
      read at once if they are at most chunk_size rows, and the index behind them is yielded,
      whatever the other options are. Otherwise the rows are delivered as for a call with start
      and stop indices: in whole events and in order, but always without the last event before
      [t], and without event [s] itself if the first event is not declared aligned (although
      that option is documented as not used with try_speedup). *)
  Theorem C07_indexed : forall table p s t,
    StronglySorted (fun a b => ev a <= ev b) table ->
    (1 <= p_chunk_size p)%nat -> (start_of p <= stop_of table p)%nat ->
    (stop_of table p <= length table)%nat -> p_indexed p = true ->
    p_start_event p = Some s -> p_stop_event p = Some t -> s <= t ->
    let slice := rows_between table (start_of p) (stop_of table p) in
    (exists a, In a slice /\ ev a = s) -> (exists a, In a slice /\ ev a = t) ->
    let rows := events_between s t slice in
    let (ys, e) := data_aligned_at_events ev table p in
    exists n, rows_between table n (n + length rows) = rows /\ (start_of p <= n)%nat /\
    if Nat.leb (length rows) (p_chunk_size p)
    then ys = [(rows, (n + length rows)%nat)] /\ e = GenDone
    else (ys, e) = data_aligned_at_events ev table (with_indices p n (n + length rows)) /\
      exists rest,
        selects (fun a => ~ event_of_last ev rows (ev a) /\
                          (p_first_aligned p = false -> n <> 0%nat -> ev a <> s))
                rows (concat (map fst ys) ++ rest) /\
        (e = GenDone -> rest = []) /\
        (forall c k, In (c, k) ys -> c <> [] /\ (length c <= p_chunk_size p)%nat) /\
        (forall pre c post, map fst ys = pre ++ c :: post ->
          forall a b, In a c -> In b (concat post ++ rest) -> ev a < ev b).
  Proof using.
    intros table p s t Hs Hcs Hss Hst Hidx Es Et Hle slice Hins Hint rows.
    assert (Hslice : sorted_by ev slice).
    { unfold slice, rows_between. apply sorted_firstn, sorted_skipn. exact Hs. }
    set (n := (start_of p + length (filter (below ev s) slice))%nat).
    assert (Hfrom : read table n (stop_of table p) = filter (from ev s) slice).
    { unfold n. rewrite read_skip. apply skipn_below. exact Hslice. }
    assert (Hsf : sorted_by ev (filter (from ev s) slice)) by (apply sorted_from_filter; exact Hslice).
    assert (Hrows : filter (below ev t) (filter (from ev s) slice) = rows).
    { unfold rows, events_between. clear. induction slice as [|x l IH]; [reflexivity|]. simpl.
      unfold from at 1. rewrite (Z.leb_antisym (ev x) s).
      destruct (ev x <? s); simpl; [exact IH|]. unfold below at 1.
      destruct (ev x <? t); [f_equal|]; exact IH. }
    assert (Hf1 : first_index_of ev s (read table (start_of p) (stop_of table p)) (start_of p) = Some n)
      by (apply first_index_of_spec; assumption).
    assert (Hint2 : exists a, In a (filter (from ev s) slice) /\ ev a = t).
    { destruct Hint as (a & Ha & Ea). exists a. split; [|exact Ea]. apply filter_In. split; [exact Ha|].
      unfold from. destruct (Z.ltb_spec (ev a) s); [lia|reflexivity]. }
    assert (Hf2 : first_index_of ev t (read table n (stop_of table p)) n = Some (n + length rows)%nat).
    { rewrite Hfrom, (first_index_of_spec t _ Hsf Hint2), Hrows. reflexivity. }
    assert (Hlt : (n + length rows < stop_of table p)%nat).
    { assert (Hl : length (filter (from ev s) slice) = (stop_of table p - n)%nat)
        by (rewrite <- Hfrom; apply read_length; exact Hst).
      pose proof (sorted_split ev t _ Hsf) as Hsp. apply (f_equal (@length A)) in Hsp.
      rewrite app_length, Hrows, Hl in Hsp.
      destruct Hint2 as (a & Ha & Ea).
      assert (Hin : In a (filter (from ev t) (filter (from ev s) slice))).
      { apply filter_In. split; [exact Ha|]. unfold from. destruct (Z.ltb_spec (ev a) t); [lia|reflexivity]. }
      destruct (filter (from ev t) (filter (from ev s) slice)); [contradiction|]. simpl in Hsp. lia. }
    assert (Hread : read table n (n + length rows) = rows).
    { replace (n + length rows)%nat with (Nat.min (n + length rows) (stop_of table p)) by lia.
      rewrite read_chunk, Hfrom, <- Hrows. apply firstn_below. exact Hsf. }
    assert (Hrun : data_aligned_at_events ev table p =
      if Nat.leb (length rows) (p_chunk_size p) then ([(rows, (n + length rows)%nat)], GenDone)
      else data_aligned_at_events ev table (with_indices p n (n + length rows))).
    { unfold data_aligned_at_events at 1. rewrite Hidx, Es, Et.
      fold (start_of p) (stop_of table p). rewrite Hf1.
      destruct (Nat.ltb_spec (stop_of table p) (start_of p)); [lia|].
      destruct (Z.ltb_spec t s); [lia|].
      rewrite Hf2, Hread.
      replace (Nat.leb (n + length rows) (n + p_chunk_size p)) with (Nat.leb (length rows) (p_chunk_size p))
        by (destruct (Nat.leb_spec (length rows) (p_chunk_size p)),
                     (Nat.leb_spec (n + length rows) (n + p_chunk_size p)); lia).
      destruct (Nat.leb (length rows) (p_chunk_size p)); [reflexivity|].
      symmetry. apply data_with with (s := s) (t := t); auto. lia. }
    rewrite Hrun. destruct (Nat.leb_spec (length rows) (p_chunk_size p)) as [Hfit|Hbig].
    - exists n. split; [exact Hread|]. split; [unfold n; lia|].
      destruct (Nat.leb_spec (length rows) (p_chunk_size p)); [|lia]. auto.
    - assert (Hv : valid_call table (with_indices p n (n + length rows))).
      { unfold valid_call, start_of, stop_of, with_indices. simpl.
        repeat split; try lia. rewrite Es, Et. intros ? ? E1 E2. injection E1 as <-. injection E2 as <-. exact Hle. }
      pose proof (C07_aligned_chunks ev table _ Hs Hv) as H. cbv zeta in H.
      destruct (data_aligned_at_events ev table (with_indices p n (n + length rows))) as [ys e] eqn:Erun.
      exists n. split; [exact Hread|]. split; [unfold n; lia|].
      destruct (Nat.leb_spec (length rows) (p_chunk_size p)); [lia|].
      split; [symmetry; exact Erun|].
      destruct H as (rest & H1 & H2 & _ & H4 & H5).
      change (start_of (with_indices p n (n + length rows))) with n in H1.
      change (stop_of table (with_indices p n (n + length rows))) with (n + length rows)%nat in H1.
      change (rows_between table n (n + length rows)) with (read table n (n + length rows)) in H1.
      rewrite Hread in H1.
      exists rest. split; [|split; [exact H2|split]].
      + revert H1. generalize (concat (map fst ys) ++ rest) as out. clear H2 H4 H5. intros out H1.
        assert (Hreq : forall a, In a rows -> (is_requested ev table (with_indices p n (n + length rows)) a <->
          (~ event_of_last ev rows (ev a) /\ (p_first_aligned p = false -> n <> 0%nat -> ev a <> s)))).
        { intros a Ha. unfold is_requested.
          change (start_of (with_indices p n (n + length rows))) with n.
          change (stop_of table (with_indices p n (n + length rows))) with (n + length rows)%nat.
          change (rows_between table n (n + length rows)) with (read table n (n + length rows)).
          rewrite Hread. cbn [with_indices p_start_event p_stop_event p_first_aligned]. rewrite Es, Et.
          assert (Hb : s <= ev a < t).
          { unfold rows, events_between in Ha. apply filter_In in Ha. destruct Ha as [_ Ha].
            apply andb_true_iff in Ha. destruct Ha as [X Y]. apply Z.leb_le in X. apply Z.ltb_lt in Y. lia. }
          assert (Hfirst : event_of_first ev rows s).
          { apply first_event_spec. destruct Hins as (b & Hb1 & Hb2).
            assert (Hbin : In b rows).
            { unfold rows, events_between. apply filter_In. split; [exact Hb1|].
              apply andb_true_iff. split; [apply Z.leb_le|apply Z.ltb_lt]; lia. }
            assert (Hs0 : sorted_by ev rows).
            { rewrite <- Hread. apply sorted_firstn, sorted_skipn. exact Hs. }
            assert (Hge : forall x, In x rows -> s <= ev x).
            { intros x Hx. unfold rows, events_between in Hx. apply filter_In in Hx. destruct Hx as [_ Hx].
              apply andb_true_iff in Hx. destruct Hx as [X _]. apply Z.leb_le in X. exact X. }
            clear - Hbin Hs0 Hge Hb2. clearbody rows. destruct rows as [|r0 rr]; [contradiction|].
            pose proof (first_event_min ev (r0 :: rr) (ev r0) Hs0 eq_refl b Hbin).
            specialize (Hge r0 (or_introl eq_refl)). simpl. f_equal. lia. }
          assert (Hne : (n + length rows)%nat <> length table) by lia.
          split.
          - intros (_ & _ & H3 & H4). split.
            + intros Hl. exact (H3 Hne (ev a) Hl eq_refl).
            + intros Hfa Hn0. apply (H4 Hfa Hn0 s Hfirst). intros s0 E. injection E as <-. reflexivity.
          - intros (H3 & H4). split; [intros s0 E; injection E as <-; lia|].
            split; [intros t0 E; injection E as <-; lia|]. split.
            + intros _ v Hv0 E. apply H3. rewrite E. exact Hv0.
            + intros Hfa Hn0 v Hv0 Hsv E. specialize (Hsv s eq_refl). subst v. exact (H4 Hfa Hn0 E). }
        exact (selects_ext _ _ _ _ Hreq H1).
      + intros c k Hin. destruct (H4 c k Hin) as (X & Y & _). auto.
      + exact H5.
  Qed.

  (** the call with the other value of fail_on_missing_events *)
  Definition with_fail (p : params) (b : bool) : params :=
    Params (p_start_event p) (p_stop_event p) (p_start_index p) (p_stop_index p) (p_chunk_size p)
           (p_indexed p) (p_first_aligned p) b.

  Lemma seek_start_fail table p b start stop s : (1 <= p_chunk_size p)%nat -> forall fuel cur, (start < cur)%nat ->
    seek_start ev fuel table (with_fail p b) start stop s cur = seek_start ev fuel table p start stop s cur.
  Proof using.
    intros Hcs. induction fuel as [|f IH]; intros cur Hc; [reflexivity|]. cbn [seek_start].
    destruct (negb (Nat.ltb cur stop)); [reflexivity|].
    change (p_chunk_size (with_fail p b)) with (p_chunk_size p).
    change (p_first_aligned (with_fail p b)) with (p_first_aligned p).
    set (chunk := read table cur (Nat.min (cur + p_chunk_size p) stop)).
    destruct (first_event ev chunk) as [fe|]; [|reflexivity].
    destruct (last_event ev chunk) as [le|]; [|reflexivity].
    rewrite IH by lia.
    destruct (Nat.eqb_spec start cur) as [E|N]; [lia|].
    rewrite !andb_false_r.
    destruct (nth_error chunk (searchsorted ev chunk s)) as [a|]; [rewrite !andb_false_r|]; reflexivity.
  Qed.

  (** C07: the converse of C07_missing_start_reported_partial. If the first chunk_size rows are all before the start event, fail_on_missing_events has
      no effect: whether the start event is in the table or not, the call delivers the same chunks as without this option. *)
  Theorem C07_missing_start_unreported : forall table p s b,
    (1 <= p_chunk_size p)%nat -> p_indexed p = false -> p_start_event p = Some s ->
    (start_of p < stop_of table p)%nat -> (stop_of table p <= length table)%nat ->
    (forall a, In a (firstn (p_chunk_size p) (rows_between table (start_of p) (stop_of table p))) -> ev a < s) ->
    data_aligned_at_events ev table (with_fail p b) = data_aligned_at_events ev table p.
  Proof using.
    intros table p s b Hcs Hi Hs Hlt Hst Hb. unfold data_aligned_at_events.
    change (p_start_event (with_fail p b)) with (p_start_event p).
    change (p_stop_event (with_fail p b)) with (p_stop_event p).
    change (p_start_index (with_fail p b)) with (p_start_index p).
    change (p_stop_index (with_fail p b)) with (p_stop_index p).
    change (p_chunk_size (with_fail p b)) with (p_chunk_size p).
    change (p_indexed (with_fail p b)) with (p_indexed p).
    rewrite Hi. fold (start_of p) (stop_of table p). cbn [andb].
    assert (H : read_in_chunks ev table (with_fail p b) (start_of p) (stop_of table p) = read_in_chunks ev table p (start_of p) (stop_of table p)).
    { unfold read_in_chunks.
      change (p_start_event (with_fail p b)) with (p_start_event p). rewrite Hs.
      assert (H2 : forall fuel, seek_start ev (S fuel) table (with_fail p b) (start_of p) (stop_of table p) s (start_of p) =
                                seek_start ev (S fuel) table p (start_of p) (stop_of table p) s (start_of p)).
      { intros fuel. cbn [seek_start]. destruct (negb (Nat.ltb (start_of p) (stop_of table p))); [reflexivity|].
        change (p_chunk_size (with_fail p b)) with (p_chunk_size p).
        rewrite !read_chunk. change (read table (start_of p) (stop_of table p)) with (rows_between table (start_of p) (stop_of table p)).
        set (chunk := firstn (p_chunk_size p) (rows_between table (start_of p) (stop_of table p))) in *.
        destruct (first_event ev chunk) as [fe|]; [|reflexivity].
        destruct (last_event ev chunk) as [le|] eqn:El; [|reflexivity].
        destruct (last_event_in ev chunk le El) as (a & Ha & Ea). specialize (Hb a Ha).
        destruct (Z.ltb_spec le s); [|lia]. apply seek_start_fail; lia. }
      rewrite H2. reflexivity. }
    rewrite H. reflexivity.
  Qed.
End Indexed.

Example C07_indexed_ex :
  let p := Params (Some 2) (Some 5) None None 4 true false true in
  data_aligned_at_events (fun x : Z => x) [1;1;2;3;3;5;6] p = ([([2;3;3], 5%nat)], GenDone) /\
  (let p := Params (Some 2) (Some 6) None None 4 true true true in
   data_aligned_at_events (fun x : Z => x) [1;1;2;3;3;4;5;6] p = ([([2;3;3], 5%nat); ([4], 6%nat)], GenDone)) /\
  (* first event not declared aligned: the start event is said to be missing *)
  (let p := Params (Some 2) (Some 6) None None 4 true false true in
   data_aligned_at_events (fun x : Z => x) [1;1;2;3;3;4;5;6] p = ([], GenValueError)).
Proof. vm_compute. repeat split. Qed.

Example C07_missing_start_unreported_ex :
  data_aligned_at_events (fun x : Z => x) [0;1;2;4;5] (Params (Some 3) None None None 3 false true true) = ([([4;5], 5%nat)], GenDone).
Proof. vm_compute. reflexivity. Qed.

Print Assumptions C07_indexed.
Print Assumptions C07_missing_start_unreported.
