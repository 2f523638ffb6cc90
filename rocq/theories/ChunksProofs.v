(** Proofs about ChunksModel. *)
From Coq Require Import ZArith List Bool Lia Sorting.Sorted Arith.
From Verif Require Import EventArraysProofs ChunksModel.
Import ListNotations.
Open Scope Z_scope.

Section Chunks.
  Context {A : Type}.
  Variable ev : A -> Z.
  Notation sorted := (sorted_by ev).

  Definition below (v : Z) (a : A) : bool := ev a <? v.
  Definition from (v : Z) (a : A) : bool := negb (ev a <? v).

  Lemma sorted_app_inv l1 l2 : sorted (l1 ++ l2) ->
    sorted l1 /\ sorted l2 /\ forall a b, In a l1 -> In b l2 -> ev a <= ev b.
  Proof.
    induction l1 as [|x l1 IH]; simpl; intros H.
    - repeat split; auto; [constructor|contradiction].
    - apply sorted_by_inv in H. destruct H as [H Hx]. destruct (IH H) as (H1 & H2 & H3).
      repeat split; auto.
      + constructor; auto. apply Forall_forall. intros y Hy. apply Hx, in_or_app; auto.
      + intros a b [<-|Ha] Hb; [apply Hx, in_or_app; auto|auto].
  Qed.

  Lemma filter_all (f : A -> bool) l : (forall x, In x l -> f x = true) -> filter f l = l.
  Proof.
    induction l as [|x l IH]; intros H; simpl; auto.
    rewrite (H x (or_introl eq_refl)). f_equal. apply IH. intros; apply H; right; auto.
  Qed.

  Lemma filter_ext_in' (f g : A -> bool) l :
    (forall x, In x l -> f x = g x) -> filter f l = filter g l.
  Proof.
    induction l as [|x l IH]; intros H; simpl; auto.
    rewrite (H x (or_introl eq_refl)). rewrite IH; auto. intros; apply H; right; auto.
  Qed.

  Lemma sorted_split v l : sorted l -> l = filter (below v) l ++ filter (from v) l.
  Proof.
    induction l as [|x l IH]; intros H; [reflexivity|]. simpl.
    apply sorted_by_inv in H. destruct H as [H Hx].
    unfold from at 1. unfold below at 1. destruct (Z.ltb_spec (ev x) v) as [Hl|Hg]; simpl.
    - f_equal. auto.
    - rewrite (filter_none (below v)).
      + simpl. f_equal. rewrite (filter_all (from v)); auto.
        intros y Hy. unfold from. specialize (Hx y Hy).
        destruct (Z.ltb_spec (ev y) v); [lia|reflexivity].
      + intros y Hy. unfold below. specialize (Hx y Hy). apply Z.ltb_ge. lia.
  Qed.

  Lemma firstn_below v l : sorted l -> firstn (length (filter (below v) l)) l = filter (below v) l.
  Proof.
    intros H. rewrite (sorted_split v l H) at 2. rewrite firstn_app, Nat.sub_diag.
    rewrite firstn_all. simpl. apply app_nil_r.
  Qed.

  Lemma skipn_below v l : sorted l -> skipn (length (filter (below v) l)) l = filter (from v) l.
  Proof.
    intros H. rewrite (sorted_split v l H) at 2. rewrite skipn_app, Nat.sub_diag.
    rewrite skipn_all. reflexivity.
  Qed.

  Lemma sorted_skipn n l : sorted l -> sorted (skipn n l).
  Proof. intros H. rewrite <- (firstn_skipn n l) in H. apply sorted_app_inv in H. tauto. Qed.

  Lemma sorted_firstn n l : sorted l -> sorted (firstn n l).
  Proof. intros H. rewrite <- (firstn_skipn n l) in H. apply sorted_app_inv in H. tauto. Qed.

  (** last event *)
  Lemma last_event_app l a : last_event ev (l ++ [a]) = Some (ev a).
  Proof. unfold last_event. rewrite rev_app_distr. reflexivity. Qed.

  Lemma last_event_spec l v : last_event ev l = Some v -> exists l' a, l = l' ++ [a] /\ ev a = v.
  Proof.
    intros H. destruct (rev l) as [|a r] eqn:E; unfold last_event in H; rewrite E in H; [discriminate|].
    injection H as <-. exists (rev r), a. split; auto.
    rewrite <- (rev_involutive l), E. reflexivity.
  Qed.

  Lemma last_event_some l : l <> [] -> exists v, last_event ev l = Some v.
  Proof.
    intros H. destruct (exists_last H) as (l' & a & ->). rewrite last_event_app. eauto.
  Qed.

  Lemma last_event_max l v : sorted l -> last_event ev l = Some v -> forall a, In a l -> ev a <= v.
  Proof.
    intros Hs H a Ha. destruct (last_event_spec _ _ H) as (l' & b & -> & <-).
    apply sorted_app_inv in Hs. destruct Hs as (_ & _ & Hs).
    apply in_app_or in Ha. destruct Ha as [Ha|[->|[]]]; [|lia]. apply Hs; auto. left; auto.
  Qed.

  Lemma last_event_in l v : last_event ev l = Some v -> exists a, In a l /\ ev a = v.
  Proof.
    intros H. destruct (last_event_spec _ _ H) as (l' & b & -> & <-).
    exists b. split; auto. apply in_or_app; right; left; auto.
  Qed.

  Lemma last_event_suffix l1 l2 : l2 <> [] -> last_event ev (l1 ++ l2) = last_event ev l2.
  Proof.
    intros H. destruct (exists_last H) as (l' & a & ->).
    rewrite app_assoc, !last_event_app. reflexivity.
  Qed.

  Lemma first_event_min l v : sorted l -> first_event ev l = Some v -> forall a, In a l -> v <= ev a.
  Proof.
    intros Hs H a Ha. destruct l as [|x l]; [discriminate|]. injection H as <-.
    destruct Ha as [->|Ha]; [lia|]. apply sorted_by_inv in Hs. apply Hs; auto.
  Qed.

  Lemma first_event_in l v : first_event ev l = Some v -> exists a, In a l /\ ev a = v.
  Proof. destruct l as [|x l]; [discriminate|]. intros H. injection H as <-. exists x; simpl; auto. Qed.

  (** rows of the first [n] that are below [v], if the last of them is not *)
  Lemma below_firstn cs rest v lc : sorted rest ->
    last_event ev (firstn cs rest) = Some lc -> v <= lc ->
    filter (below v) (firstn cs rest) = filter (below v) rest.
  Proof.
    intros Hs Hl Hv. rewrite <- (firstn_skipn cs rest) at 2. rewrite filter_app.
    rewrite (filter_none (below v) (skipn cs rest)); [rewrite app_nil_r; reflexivity|].
    intros b Hb. unfold below. apply Z.ltb_ge.
    destruct (last_event_in _ _ Hl) as (a & Ha & <-).
    rewrite <- (firstn_skipn cs rest) in Hs. apply sorted_app_inv in Hs.
    destruct Hs as (_ & _ & Hs). specialize (Hs a b Ha Hb). lia.
  Qed.

  (** read *)
  Lemma read_length (table : list A) s e : (e <= length table)%nat -> length (read table s e) = (e - s)%nat.
  Proof. intros. unfold read. rewrite firstn_length, skipn_length. lia. Qed.

  Lemma read_chunk (table : list A) cur cs stop :
    read table cur (Nat.min (cur + cs) stop) = firstn cs (read table cur stop).
  Proof. unfold read. rewrite firstn_firstn. f_equal. lia. Qed.

  Lemma skipn_skipn' {T} n m (l : list T) : skipn n (skipn m l) = skipn (m + n) l.
  Proof.
    revert l; induction m as [|m IH]; intros l; simpl; auto.
    destruct l as [|x l]; [apply skipn_nil|]. apply IH.
  Qed.

  Lemma skipn_firstn' {T} n m (l : list T) : skipn n (firstn m l) = firstn (m - n) (skipn n l).
  Proof.
    revert m l; induction n as [|n IH]; intros m l; simpl; [rewrite Nat.sub_0_r; auto|].
    destruct l as [|x l]; [destruct m; simpl; rewrite ?firstn_nil; auto|].
    destruct m; simpl; [reflexivity|]. apply IH.
  Qed.

  Lemma read_skip (table : list A) cur n stop :
    read table (cur + n) stop = skipn n (read table cur stop).
  Proof.
    unfold read. rewrite skipn_firstn', skipn_skipn'. f_equal. lia.
  Qed.

  Lemma firstn_In {T} (a : T) n l : In a (firstn n l) -> In a l.
  Proof. intros H. rewrite <- (firstn_skipn n l). apply in_or_app; auto. Qed.

  (** *** data loop *)
  Definition wanted (full : bool) (le : Z) (stop_event : option Z) (a : A) : bool :=
    match stop_event with None => true | Some s => ev a <? s end && (full || (ev a <? le)).

  (** all rows of earlier chunks have smaller event numbers than all rows of later ones *)
  Fixpoint separated (cs : list (list A)) (tail : list A) : Prop :=
    match cs with
    | [] => True
    | c :: r => (forall a b, In a c -> In b (concat r ++ tail) -> ev a < ev b) /\ separated r tail
    end.

  Fixpoint indices_ok (cur : nat) (ys : list (list A * nat)) : Prop :=
    match ys with
    | [] => True
    | (c, n) :: r => n = (cur + length c)%nat /\ indices_ok n r
    end.

  Definition yields_ok (cs cur : nat) (ys : list (list A * nat)) (expected : list A) (e : gen_end) :=
    exists tail, expected = concat (map fst ys) ++ tail /\
      (e = GenDone -> tail = []) /\
      separated (map fst ys) tail /\
      Forall (fun y => fst y <> [] /\ (length (fst y) <= cs)%nat) ys /\
      indices_ok cur ys.

  Lemma all_same_event l fe le : sorted l -> first_event ev l = Some fe -> last_event ev l = Some le ->
    fe = le -> forall a, In a l -> ev a = fe.
  Proof.
    intros Hs Hf Hl <- a Ha. pose proof (first_event_min _ _ Hs Hf a Ha).
    pose proof (last_event_max _ _ Hs Hl a Ha). lia.
  Qed.

  Definition big_event (cs : nat) (rows : list A) : Prop :=
    exists e, (cs <= length (filter (fun a => (ev a =? e)%Z) rows))%nat.

  Lemma big_event_chunk cs rest fe le : sorted rest ->
    first_event ev (firstn cs rest) = Some fe -> last_event ev (firstn cs rest) = Some le ->
    fe = le -> length (firstn cs rest) = cs -> big_event cs rest.
  Proof.
    intros Hs Hf Hl E Hn. exists fe.
    rewrite <- (firstn_skipn cs rest), filter_app, app_length.
    rewrite (filter_all _ (firstn cs rest)); [lia|].
    intros a Ha. apply Z.eqb_eq.
    apply (all_same_event (firstn cs rest) fe le); auto using sorted_firstn.
  Qed.

  Lemma big_event_app cs l1 l2 : big_event cs l2 -> big_event cs (l1 ++ l2).
  Proof. intros [e He]. exists e. rewrite filter_app, app_length. lia. Qed.

  Lemma big_event_skipn cs n l : big_event cs (skipn n l) -> big_event cs l.
  Proof. intros H. rewrite <- (firstn_skipn n l). apply big_event_app; auto. Qed.

  Lemma data_loop_spec table cs stop se : (1 <= cs)%nat -> (stop <= length table)%nat ->
    forall le fuel cur,
    sorted (read table cur stop) ->
    (read table cur stop <> [] -> last_event ev (read table cur stop) = Some le) ->
    (stop - cur < fuel)%nat ->
    let (ys, e) := data_loop ev fuel table cs stop se cur in
    (e = GenDone \/ (e = GenValueError /\ big_event cs (read table cur stop))) /\
    yields_ok cs cur ys
      (filter (wanted (Nat.eqb stop (length table)) le se) (read table cur stop)) e.
  Proof.
    intros Hcs Hstop le. induction fuel as [|fuel IH]; intros cur Hs Hlast Hfuel; [lia|].
    set (rest := read table cur stop) in *.
    assert (Hlen : length rest = (stop - cur)%nat) by (apply read_length; auto).
    cbn [data_loop].
    destruct (Nat.ltb_spec cur stop) as [Hcur|Hcur]; cbn [negb].
    2: { assert (rest = []) by (destruct rest; [auto|simpl in Hlen; lia]).
         rewrite H. split; [auto|]. exists []. simpl. repeat split; auto. }
    rewrite read_chunk. fold rest. set (chunk := firstn cs rest).
    assert (Hne : rest <> []) by (intros E; rewrite E in Hlen; simpl in Hlen; lia).
    assert (Hcne : chunk <> []).
    { unfold chunk. destruct rest; [congruence|]. destruct cs; [lia|]. discriminate. }
    specialize (Hlast Hne).
    assert (Hsc : sorted chunk) by (apply sorted_firstn; auto).
    destruct (last_event_some chunk Hcne) as (lc & Hlc).
    assert (exists fe, first_event ev chunk = Some fe) as (fe & Hfe)
      by (destruct chunk; [congruence|simpl; eauto]).
    rewrite Hfe, Hlc.
    assert (Hlcle : lc <= le).
    { destruct (last_event_in _ _ Hlc) as (a & Ha & <-).
      apply (last_event_max rest); auto. unfold chunk in Ha. eapply firstn_In; eauto. }
    assert (Hfinal : Nat.min (cur + cs) stop = stop -> chunk = rest).
    { intros. apply firstn_all2. lia. }
    assert (Hclen : length chunk = Nat.min cs (stop - cur)).
    { unfold chunk. rewrite firstn_length. lia. }
    set (full := Nat.eqb stop (length table)) in *.
    (* a threshold step *)
    assert (Hthr : forall v, v <= lc -> (match se with None => True | Some s => v <= s end) ->
      ((v = lc /\ (full = false \/ Nat.min (cur + cs) stop <> stop)) \/ se = Some v) ->
      let n := searchsorted ev chunk v in
      let '(ys, e) := if Nat.eqb n 0 then
          if Nat.eqb (length chunk) cs && (fe =? lc) then ([], GenValueError) else ([], GenDone)
        else let (ys, e) := data_loop ev fuel table cs stop se (cur + n) in
             ((firstn n chunk, (cur + n)%nat) :: ys, e) in
      (e = GenDone \/ (e = GenValueError /\ big_event cs rest)) /\
      yields_ok cs cur ys (filter (wanted full le se) rest) e).
    { intros v Hv Hse Hcase n.
      assert (Hbelow : filter (below v) chunk = filter (below v) rest)
        by (eapply below_firstn; eauto).
      assert (Hn : n = length (filter (below v) rest)).
      { unfold n, searchsorted. change (fun a => ev a <? v) with (below v). rewrite Hbelow. reflexivity. }
      destruct (Nat.eqb_spec n 0) as [Hn0|Hn0].
      - assert (Hnil : filter (below v) rest = [])
          by (destruct (filter (below v) rest); [auto|simpl in Hn; lia]).
        assert (Hge : forall a, In a rest -> v <= ev a).
        { intros a Ha. destruct (Z_lt_le_dec (ev a) v); [|auto]. exfalso.
          assert (In a (filter (below v) rest)).
          { apply filter_In. split; auto. unfold below. apply Z.ltb_lt; auto. }
          rewrite Hnil in H. contradiction. }
        destruct (Nat.eqb_spec (length chunk) cs) as [El|El]; cbn [andb].
        + destruct (Z.eqb_spec fe lc) as [Ef|Ef].
          * split; [right; split; auto; eapply big_event_chunk; eauto|].
            exists (filter (wanted full le se) rest). simpl. repeat split; auto. discriminate.
          * (* v = lc impossible: first = lc *)
            assert (Hsv : se = Some v).
            { destruct Hcase as [[-> _]|]; auto. exfalso. apply Ef.
              destruct (first_event_in _ _ Hfe) as (a & Ha & <-).
              pose proof (last_event_max _ _ Hsc Hlc a Ha).
              assert (lc <= ev a) by (apply Hge; unfold chunk in Ha; eapply firstn_In; eauto). lia. }
            split; auto. exists []. simpl. rewrite app_nil_r || idtac.
            repeat split; auto. apply filter_none. intros a Ha. unfold wanted. rewrite Hsv.
            specialize (Hge a Ha). destruct (Z.ltb_spec (ev a) v); [lia|reflexivity].
        + (* short chunk: final *)
          split; auto. exists []. repeat split; simpl; auto.
          assert (Hfin : Nat.min (cur + cs) stop = stop) by lia.
          apply filter_none. intros a Ha. unfold wanted. specialize (Hge a Ha).
          destruct Hcase as [[-> Hnf]|Hsv].
          * destruct Hnf as [Hf|Hf]; [|congruence]. rewrite Hf.
            rewrite (Hfinal Hfin) in Hlc. rewrite Hlc in Hlast. injection Hlast as ->.
            destruct (Z.ltb_spec (ev a) le); [lia|]. apply andb_false_r.
          * rewrite Hsv. destruct (Z.ltb_spec (ev a) v); [lia|]. reflexivity.
      - assert (Hfirst : firstn n chunk = filter (below v) rest).
        { rewrite <- Hbelow. unfold n, searchsorted. change (fun a => ev a <? v) with (below v).
          apply firstn_below; auto. }
        assert (Hskip : read table (cur + n) stop = filter (from v) rest).
        { rewrite read_skip. fold rest. rewrite Hn. apply skipn_below; auto. }
        assert (Hs' : sorted (read table (cur + n) stop)).
        { rewrite read_skip. fold rest. apply sorted_skipn; auto. }
        assert (Hlast' : read table (cur + n) stop <> [] ->
                  last_event ev (read table (cur + n) stop) = Some le).
        { intros Hne'. rewrite read_skip in *. fold rest in Hne' |- *.
          rewrite <- Hlast. rewrite <- (firstn_skipn n rest) at 2.
          rewrite last_event_suffix; auto. }
        specialize (IH (cur + n)%nat Hs' Hlast' ltac:(lia)).
        destruct (data_loop ev fuel table cs stop se (cur + n)) as [ys e].
        destruct IH as [He (tail & Ht & Hd & Hsep & HF & Hi)].
        split.
        + destruct He as [He|[He Hb]]; [auto|]. right. split; auto.
          rewrite read_skip in Hb. fold rest in Hb. eapply big_event_skipn; eauto.
        + exists tail. cbn [map fst concat].
          assert (Hexp : filter (wanted full le se) rest =
                    filter (below v) rest ++ filter (wanted full le se) (filter (from v) rest)).
          { rewrite (sorted_split v rest Hs) at 1. rewrite filter_app. f_equal.
            apply filter_all. intros a Ha. apply filter_In in Ha. destruct Ha as [Ha Hb].
            unfold below in Hb. apply Z.ltb_lt in Hb. unfold wanted.
            assert (ev a <? le = true) as -> by (apply Z.ltb_lt; lia).
            rewrite orb_true_r, andb_true_r. destruct se as [s|]; auto. apply Z.ltb_lt; lia. }
          split.
          { rewrite Hexp, Hfirst, <- Hskip, Ht, app_assoc. reflexivity. }
          split; [exact Hd|]. split.
          { split; [|exact Hsep]. intros a b Ha Hb. rewrite <- Ht in Hb.
            rewrite Hfirst in Ha. apply filter_In in Ha. destruct Ha as [_ Ha].
            apply filter_In in Hb. destruct Hb as [Hb _]. rewrite Hskip in Hb.
            apply filter_In in Hb. destruct Hb as [_ Hb].
            unfold below in Ha. unfold from in Hb. apply Z.ltb_lt in Ha.
            apply negb_true_iff, Z.ltb_ge in Hb. lia. }
          split.
          { constructor; auto. simpl. split.
            - rewrite Hfirst. intros E. rewrite E in Hn. simpl in Hn. lia.
            - rewrite firstn_length. unfold chunk. rewrite firstn_length. lia. }
          simpl. split; auto. rewrite firstn_length.
          assert (n <= length chunk)%nat.
          { unfold n, searchsorted. clear. induction chunk as [|x l IHl]; simpl; auto.
            destruct (ev x <? v); simpl; lia. }
          lia. }
    (* a step yielding everything *)
    assert (Hall : full = true -> Nat.min (cur + cs) stop = stop ->
       (match se with None => True | Some s => lc < s end) ->
      let n := length chunk in
      let '(ys, e) := if Nat.eqb n 0 then
          if Nat.eqb (length chunk) cs && (fe =? lc) then ([], GenValueError) else ([], GenDone)
        else let (ys, e) := data_loop ev fuel table cs stop se (cur + n) in
             ((firstn n chunk, (cur + n)%nat) :: ys, e) in
      (e = GenDone \/ (e = GenValueError /\ big_event cs rest)) /\
      yields_ok cs cur ys (filter (wanted full le se) rest) e).
    { intros Hfull Hfin Hse n.
      destruct (Nat.eqb_spec n 0) as [Hn0|Hn0].
      { unfold n in Hn0. destruct chunk; [congruence|discriminate]. }
      assert (Hcr : chunk = rest) by auto.
      assert (Hend : (cur + n = stop)%nat) by (unfold n; rewrite Hcr; lia).
      rewrite Hend.
      assert (Hdl : data_loop ev fuel table cs stop se stop = ([], GenDone)).
      { destruct fuel; simpl; rewrite Nat.ltb_irrefl; reflexivity. }
      rewrite Hdl. split; auto. exists [].
      assert (Hexp : filter (wanted full le se) rest = rest).
      { apply filter_all. intros a Ha. unfold wanted. rewrite Hfull. simpl.
        rewrite andb_true_r. destruct se as [s|]; auto.
        rewrite Hcr in Hlc. pose proof (last_event_max _ _ Hs Hlc a Ha). apply Z.ltb_lt; lia. }
      rewrite Hexp. cbn [map fst concat separated]. unfold n. rewrite firstn_all, Hcr.
      rewrite !app_nil_r. repeat split; auto; try contradiction.
      - constructor; auto. simpl. split; auto. lia.
      - simpl. lia. }
    destruct se as [s|].
    - destruct (Z.leb_spec s lc) as [Hs1|Hs1].
      + apply (Hthr s); auto; lia.
      + destruct (Nat.eqb_spec (Nat.min (cur + cs) stop) (length table)) as [E|E].
        * assert (stop = length table) by lia. apply Hall; auto; [|lia].
          unfold full. apply Nat.eqb_eq; auto.
        * apply (Hthr lc); auto; [lia|lia|]. left. split; auto.
          destruct (Nat.eq_dec (Nat.min (cur + cs) stop) stop) as [Hfin|]; auto.
          left. unfold full. apply Nat.eqb_neq. lia.
    - destruct (Nat.eqb_spec (Nat.min (cur + cs) stop) (length table)) as [E|E].
      + assert (stop = length table) by lia. apply Hall; auto; [|lia].
        unfold full. apply Nat.eqb_eq; auto.
      + apply (Hthr lc); auto; [lia|]. left. split; auto.
        destruct (Nat.eq_dec (Nat.min (cur + cs) stop) stop) as [Hfin|]; auto.
        left. unfold full. apply Nat.eqb_neq. lia.
  Qed.

  (** *** search for the begin *)
  Lemma searchsorted_below chunk v : searchsorted ev chunk v = length (filter (below v) chunk).
  Proof. reflexivity. Qed.

  Lemma from_all v l : (forall a, In a l -> v <= ev a) -> filter (from v) l = l.
  Proof.
    intros H. apply filter_all. intros a Ha. unfold from. specialize (H a Ha).
    destruct (Z.ltb_spec (ev a) v); [lia|reflexivity].
  Qed.

  Lemma from_none v l : (forall a, In a l -> ev a < v) -> filter (from v) l = [].
  Proof.
    intros H. apply filter_none. intros a Ha. unfold from. specialize (H a Ha).
    destruct (Z.ltb_spec (ev a) v); [reflexivity|lia].
  Qed.

  (** first wanted event of a search for [s] *)
  Definition low_bound (p : params) (start : nat) (slice : list A) (s : Z) : Z :=
    if negb (p_first_aligned p) && negb (Nat.eqb start 0) &&
       match first_event ev slice with Some fe => fe =? s | None => false end
    then s + 1 else s.

  Lemma seek_start_spec table p start stop s :
    (1 <= p_chunk_size p)%nat -> (start <= stop)%nat -> (stop <= length table)%nat ->
    let slice := read table start stop in
    sorted slice ->
    forall fuel cur, (start <= cur)%nat -> (stop - cur < fuel)%nat ->
    (forall a, In a (firstn (cur - start) slice) -> ev a < s) ->
    match seek_start ev fuel table p start stop s cur with
    | SeekAt i => (start <= i)%nat /\
        read table i stop = filter (from (low_bound p start slice s)) slice
    | SeekEnd e => e = GenValueError /\ (p_fail_missing p = true \/ big_event (p_chunk_size p) slice)
    end.
  Proof.
    intros Hcs Hss Hstop slice Hs. set (cs := p_chunk_size p) in *.
    assert (Hlen : length slice = (stop - start)%nat) by (apply read_length; auto).
    induction fuel as [|fuel IH]; intros cur Hcur Hfuel Hpre; [lia|].
    assert (Hrest : read table cur stop = skipn (cur - start) slice).
    { unfold slice. rewrite <- read_skip. f_equal. lia. }
    set (rest := read table cur stop) in *.
    assert (Hsplit : slice = firstn (cur - start) slice ++ rest)
      by (rewrite Hrest; symmetry; apply firstn_skipn).
    assert (Hsr : sorted rest) by (rewrite Hrest; apply sorted_skipn; auto).
    assert (Hrl : length rest = (stop - cur)%nat) by (apply read_length; auto).
    assert (Hprefrom : filter (from s) slice = filter (from s) rest).
    { rewrite Hsplit at 1. rewrite filter_app, from_none; auto. }
    (* the first event is not s once some rows have been skipped *)
    assert (Hlow : low_bound p start slice s = s \/
       (cur = start /\ p_first_aligned p = false /\ start <> 0%nat /\
        first_event ev slice = Some s /\ low_bound p start slice s = s + 1)).
    { unfold low_bound. destruct (p_first_aligned p); simpl; auto.
      destruct (Nat.eqb_spec start 0); simpl; auto.
      destruct (first_event ev slice) as [fe|] eqn:E; auto.
      destruct (Z.eqb_spec fe s) as [->|]; auto. right. repeat split; auto.
      destruct (Nat.eq_dec cur start); auto. exfalso.
      destruct slice as [|x sl] eqn:Esl; [discriminate|]. injection E as E.
      assert (ev x < s); [|lia]. apply Hpre.
      destruct (cur - start)%nat eqn:Ecs; [lia|]. left; auto. }
    cbn [seek_start].
    destruct (Nat.ltb_spec cur stop) as [Hlt|Hge]; cbn [negb].
    2: { split; auto. fold rest. assert (Hnil : rest = []) by (destruct rest; [auto|simpl in Hrl; lia]).
         rewrite Hnil. destruct Hlow as [->|(-> & _ & _ & Hf & ->)].
         - rewrite Hprefrom, Hnil. reflexivity.
         - assert (stop = start) by lia. unfold slice in Hf. subst stop. unfold read in Hf.
           rewrite Nat.sub_diag in Hf. discriminate. }
    rewrite read_chunk. fold rest cs. set (chunk := firstn cs rest).
    assert (Hne : rest <> []) by (intros E; rewrite E in Hrl; simpl in Hrl; lia).
    assert (Hcne : chunk <> []).
    { unfold chunk. destruct rest; [congruence|]. destruct cs; [lia|]. discriminate. }
    assert (Hsc : sorted chunk) by (apply sorted_firstn; auto).
    assert (Hcl : length chunk = Nat.min cs (stop - cur)) by (unfold chunk; rewrite firstn_length; lia).
    destruct (last_event_some chunk Hcne) as (lc & Hlc).
    assert (exists fe, first_event ev chunk = Some fe) as (fe & Hfe)
      by (destruct chunk; [congruence|simpl; eauto]).
    rewrite Hfe, Hlc.
    assert (Hferest : first_event ev rest = Some fe).
    { unfold chunk in Hfe. destruct rest; [congruence|]. destruct cs; [lia|]. exact Hfe. }
    assert (Hfromcs : forall v, v <= lc -> read table (cur + searchsorted ev chunk v) stop = filter (from v) rest).
    { intros v Hv. rewrite read_skip. fold rest. rewrite searchsorted_below.
      unfold chunk. rewrite (below_firstn cs rest v lc Hsr Hlc Hv). apply skipn_below; auto. }
    destruct (Z.ltb_spec lc s) as [Hlcs|Hlcs].
    - apply IH; [lia|lia|]. intros a Ha.
      replace (cur + cs - start)%nat with ((cur - start) + cs)%nat in Ha by lia.
      rewrite Hsplit in Ha.
      assert (Hpl : length (firstn (cur - start) slice) = (cur - start)%nat) by (rewrite firstn_length; lia).
      rewrite firstn_app in Ha. rewrite Hpl in Ha.
      replace (cur - start + cs - (cur - start))%nat with cs in Ha by lia.
      apply in_app_or in Ha. destruct Ha as [Ha|Ha].
      + apply firstn_In in Ha. auto.
      + fold chunk in Ha. pose proof (last_event_max _ _ Hsc Hlc a Ha). lia.
    - destruct (Nat.eqb_spec (length chunk) cs) as [El|El];
        destruct (Z.eqb_spec fe lc) as [Ef|Ef]; cbn [andb].
      1: { split; auto. right. rewrite Hsplit. apply big_event_app.
           eapply big_event_chunk; eauto. }
      all: assert (Hgoal1 : (length chunk <> cs \/ fe <> lc)) by auto; clear El Ef.
      all: destruct (negb (p_first_aligned p) && (fe =? s) && negb (Nat.eqb start 0) && Nat.eqb start cur) eqn:Econd.
      1,3,5: destruct (p_fail_missing p); [auto|];
         apply andb_true_iff in Econd; destruct Econd as [Econd E4];
         apply andb_true_iff in Econd; destruct Econd as [Econd E3];
         apply andb_true_iff in Econd; destruct Econd as [E1 E2];
         apply negb_true_iff in E1, E3; apply Z.eqb_eq in E2; apply Nat.eqb_eq in E4; apply Nat.eqb_neq in E3;
         subst cur fe; split; [lia|];
         assert (Hsl : rest = slice) by reflexivity;
         (assert (Hlb : low_bound p start slice s = s + 1) by
           (unfold low_bound; rewrite E1, <- Hsl, Hferest, Z.eqb_refl;
            apply Nat.eqb_neq in E3; rewrite E3; reflexivity));
         rewrite Hlb; destruct (Z_le_gt_dec (s + 1) lc) as [Hl1|Hl1];
         [rewrite Hfromcs by auto; rewrite Hsl; reflexivity|];
         (assert (lc = s) by lia); subst lc; destruct Hgoal1 as [Hg|Hg]; [|congruence];
         (assert (Hcr : chunk = rest) by (apply firstn_all2; lia));
         rewrite searchsorted_below, (filter_all (below (s + 1)) chunk) by
           (intros a Ha; pose proof (last_event_max _ _ Hsc Hlc a Ha); unfold below; apply Z.ltb_lt; lia);
         rewrite <- Hsl, from_none by
           (intros a Ha; rewrite <- Hcr in Ha; pose proof (last_event_max _ _ Hsc Hlc a Ha); lia);
         rewrite read_skip; fold rest; rewrite Hcr; apply skipn_all.
      all: assert (Hlb : low_bound p start slice s = s);
        [destruct Hlow as [|(-> & HH1 & HH2 & HH3 & _)]; auto; exfalso;
         change (first_event ev rest = Some s) in HH3; rewrite HH3 in Hferest; injection Hferest as <-;
         rewrite HH1, Z.eqb_refl, Nat.eqb_refl in Econd; apply Nat.eqb_neq in HH2; rewrite HH2 in Econd; discriminate|];
        rewrite Hlb, Hprefrom; clear Econd Hlow.
      all: destruct (p_fail_missing p) eqn:Efail; cbn [andb].
      all: destruct (Nat.eqb start cur); rewrite ?andb_true_r, ?andb_false_r.
      all: try (destruct (s <? fe); [solve [auto]|]).
      all: try (destruct (p_first_aligned p && (fe =? s)) eqn:Ec;
        [ apply andb_true_iff in Ec; destruct Ec as [_ Ec];
          apply Z.eqb_eq in Ec; subst fe; split; [lia|]; rewrite Nat.add_0_r; fold rest; symmetry; apply from_all;
          apply first_event_min; solve [auto]
        | clear Ec]).
      all: destruct (nth_error chunk (searchsorted ev chunk s)) as [a|] eqn:En;
        [|exfalso; apply nth_error_None in En; rewrite searchsorted_below in En;
          destruct (last_event_spec _ _ Hlc) as (l' & z & Ez & Hz); rewrite Ez, filter_app, !app_length in En;
          simpl in En; unfold below at 2 in En; rewrite Hz in En; destruct (Z.ltb_spec lc s); [lia|];
          simpl in En; assert (Hff : forall l : list A, (length (filter (below s) l) <= length l)%nat) by
            (clear; induction l as [|y l IHl]; simpl; [lia|]; destruct (below s y); simpl; lia);
          specialize (Hff l'); lia].
      all: rewrite ?andb_true_r, ?andb_false_r.
      all: try (destruct (negb (ev a =? s)); [solve [auto]|]).
      all: split; [lia|apply Hfromcs; lia].
  Qed.

  Lemma seek_next_spec table cs start stop :
    (1 <= cs)%nat -> (start <= stop)%nat -> (stop <= length table)%nat ->
    let slice := read table start stop in
    sorted slice ->
    forall fuel, (stop - start < fuel)%nat ->
    match seek_next_event ev fuel table cs stop start with
    | SeekAt i => (start <= i)%nat /\
        read table i stop =
          match first_event ev slice with
          | None => []
          | Some fe => filter (from (fe + 1)) slice
          end
    | SeekEnd e => e = GenValueError /\ big_event cs slice
    end.
  Proof.
    intros Hcs Hss Hstop slice Hs fuel Hfuel.
    assert (Hlen : length slice = (stop - start)%nat) by (apply read_length; auto).
    assert (Hat : forall f c, (stop <= c)%nat -> seek_next_event ev f table cs stop c = SeekAt c).
    { intros f c Hc. destruct f; cbn [seek_next_event];
        destruct (Nat.ltb_spec c stop); try lia; reflexivity. }
    destruct fuel as [|fuel]; [lia|]. cbn [seek_next_event].
    destruct (Nat.ltb_spec start stop) as [Hlt|Hge]; cbn [negb].
    2: { split; auto. fold slice. assert (slice = []) as -> by (destruct slice; [auto|simpl in Hlen; lia]).
         reflexivity. }
    rewrite read_chunk. fold slice. set (chunk := firstn cs slice).
    assert (Hne : slice <> []) by (intros E; rewrite E in Hlen; simpl in Hlen; lia).
    assert (Hcne : chunk <> []).
    { unfold chunk. destruct slice; [congruence|]. destruct cs; [lia|]. discriminate. }
    assert (Hsc : sorted chunk) by (apply sorted_firstn; auto).
    assert (Hcl : length chunk = Nat.min cs (stop - start)) by (unfold chunk; rewrite firstn_length; lia).
    destruct (last_event_some chunk Hcne) as (lc & Hlc).
    assert (exists fe, first_event ev chunk = Some fe) as (fe & Hfe)
      by (destruct chunk; [congruence|simpl; eauto]).
    rewrite Hfe, Hlc.
    assert (Hferest : first_event ev slice = Some fe).
    { unfold chunk in Hfe. destruct slice; [congruence|]. destruct cs; [lia|]. exact Hfe. }
    rewrite Hferest.
    assert (Hfl : fe <= lc).
    { destruct (first_event_in _ _ Hfe) as (a & Ha & <-). eapply last_event_max; eauto. }
    destruct (Nat.eqb_spec (length chunk) cs) as [El|El];
        destruct (Z.eqb_spec fe lc) as [Ef|Ef]; cbn [andb negb].
    - split; auto. eapply big_event_chunk; eauto.
    - split; [lia|]. rewrite read_skip. fold slice. rewrite searchsorted_below. unfold chunk.
      rewrite (below_firstn cs slice (fe + 1) lc) by (auto; lia). apply skipn_below; auto.
    - subst lc. assert (Hcr : chunk = slice) by (apply firstn_all2; lia).
      assert (Hn : searchsorted ev chunk (fe + 1) = (stop - start)%nat).
      { rewrite searchsorted_below, filter_all; [rewrite Hcr; auto|].
        intros a Ha. pose proof (last_event_max _ _ Hsc Hlc a Ha). unfold below. apply Z.ltb_lt; lia. }
      rewrite Hn, Hat by lia. split; [lia|].
      rewrite read_skip. fold slice. rewrite <- Hlen, skipn_all. symmetry. apply from_none.
      intros a Ha. rewrite <- Hcr in Ha. pose proof (last_event_max _ _ Hsc Hlc a Ha). lia.
    - split; [lia|]. rewrite read_skip. fold slice. rewrite searchsorted_below. unfold chunk.
      rewrite (below_firstn cs slice (fe + 1) lc) by (auto; lia). apply skipn_below; auto.
  Qed.
End Chunks.

(** *** whole generator, described with helpers *)
Section Whole.
  Context {A : Type}.
  Variable ev : A -> Z.
  Notation sorted := (sorted_by ev).

  Lemma sorted_from_filter v l : sorted l -> sorted (filter (from ev v) l).
  Proof. intros H. rewrite <- skipn_below by auto. apply sorted_skipn; auto. Qed.

  Definition low_event (p : params) (start : nat) (slice : list A) : option Z :=
    match p_start_event p with
    | Some s => Some (low_bound ev p start slice s)
    | None => if negb (p_first_aligned p) && negb (Nat.eqb start 0)
              then option_map (fun fe => fe + 1) (first_event ev slice) else None
    end.

  Definition low_ok (lo : option Z) (a : A) : bool :=
    match lo with None => true | Some v => from ev v a end.

  Lemma read_in_chunks_spec table p start stop :
    (1 <= p_chunk_size p)%nat -> (start <= stop)%nat -> (stop <= length table)%nat ->
    let slice := read table start stop in
    sorted slice ->
    forall le, (slice <> [] -> last_event ev slice = Some le) ->
    let (ys, e) := read_in_chunks ev table p start stop in
    (e = GenDone \/ (e = GenValueError /\
        ((p_start_event p <> None /\ p_fail_missing p = true) \/ big_event ev (p_chunk_size p) slice))) /\
    exists i, (start <= i)%nat /\
      read table i stop = filter (low_ok (low_event p start slice)) slice /\
      yields_ok ev (p_chunk_size p) i ys
      (filter (wanted ev (Nat.eqb stop (length table)) le (p_stop_event p))
        (filter (low_ok (low_event p start slice)) slice)) e.
  Proof.
    intros Hcs Hss Hst slice Hs le Hle. set (cs := p_chunk_size p) in *.
    assert (Hlen : length slice = (stop - start)%nat) by (apply read_length; auto).
    (* the data loop from an index *)
    assert (Hdl : forall i, (start <= i)%nat ->
       read table i stop = filter (low_ok (low_event p start slice)) slice ->
       let (ys, e) := data_loop ev (S stop) table cs stop (p_stop_event p) i in
       (e = GenDone \/ (e = GenValueError /\
        ((p_start_event p <> None /\ p_fail_missing p = true) \/ big_event ev cs slice))) /\
       exists i, (start <= i)%nat /\ read table i stop = filter (low_ok (low_event p start slice)) slice /\
         yields_ok ev cs i ys
        (filter (wanted ev (Nat.eqb stop (length table)) le (p_stop_event p))
        (filter (low_ok (low_event p start slice)) slice)) e).
    { intros i Hi Hread.
      assert (Hskip : read table i stop = skipn (i - start) slice).
      { unfold slice. rewrite <- read_skip. f_equal. lia. }
      pose proof (data_loop_spec ev table cs stop (p_stop_event p) Hcs Hst le (S stop) i) as H.
      assert (Hs' : sorted (read table i stop)) by (rewrite Hskip; apply sorted_skipn; auto).
      assert (Hl' : read table i stop <> [] -> last_event ev (read table i stop) = Some le).
      { intros Hne. rewrite <- Hle.
        - rewrite <- (firstn_skipn (i - start) slice), <- Hskip. symmetry.
          apply last_event_suffix; auto.
        - intros E. apply Hne. rewrite Hskip, E. apply skipn_nil. }
      specialize (H Hs' Hl' ltac:(lia)).
      destruct (data_loop ev (S stop) table cs stop (p_stop_event p) i) as [ys e].
      destruct H as [He Hy]. split.
      - destruct He as [|[He Hb]]; auto. right. split; auto. right.
        rewrite Hskip in Hb. eapply big_event_skipn; eauto.
      - exists i. rewrite <- Hread. auto. }
    assert (Hnone : forall P : Prop, P -> (forall e, e = GenValueError /\ P -> 
       (e = GenDone \/ (e = GenValueError /\ P)) /\
       exists i, (start <= i)%nat /\ read table i stop = filter (low_ok (low_event p start slice)) slice /\
         yields_ok ev cs i []
        (filter (wanted ev (Nat.eqb stop (length table)) le (p_stop_event p))
        (filter (low_ok (low_event p start slice)) slice)) e)).
    { intros P HP e [-> _]. split; auto.
      assert (exists i, (start <= i)%nat /\ read table i stop = filter (low_ok (low_event p start slice)) slice)
        as (i & Hi & Hread).
      { destruct (low_event p start slice) as [v|] eqn:El.
        - exists (start + length (filter (below ev v) slice))%nat. split; [lia|].
          rewrite read_skip. fold slice. apply skipn_below; auto.
        - exists start. split; auto. fold slice. symmetry. apply filter_all. auto. }
      exists i. repeat split; auto. eexists. simpl. repeat split; eauto. discriminate. }
    unfold read_in_chunks. fold cs.
    destruct (p_start_event p) as [s|] eqn:Es.
    - pose proof (seek_start_spec ev table p start stop s Hcs Hss Hst Hs (S stop) start (le_n _) ltac:(lia)) as H.
      fold slice in H. rewrite Nat.sub_diag in H. specialize (H ltac:(simpl; tauto)).
      destruct (seek_start ev (S stop) table p start stop s start) as [i|e].
      + apply Hdl; try tauto. destruct H as [_ H]. rewrite H. unfold low_event. rewrite Es. reflexivity.
      + destruct H as [-> Hor]. apply Hnone; [|split; auto].
        all: destruct Hor; [left; split; auto; discriminate|right; auto].
    - destruct (negb (p_first_aligned p) && negb (Nat.eqb start 0)) eqn:Ec.
      + pose proof (seek_next_spec ev table cs start stop Hcs Hss Hst Hs (S stop) ltac:(lia)) as H.
        fold slice in H.
        destruct (seek_next_event ev (S stop) table cs stop start) as [i|e].
        * destruct H as [Hi H]. apply Hdl; auto. rewrite H. unfold low_event. rewrite Es, Ec.
          destruct slice as [|x sl]; reflexivity.
        * destruct H as [-> Hb]. apply Hnone; [auto|split; auto].
      + apply Hdl; auto. fold slice. unfold low_event. rewrite Es, Ec. symmetry. apply filter_all. auto.
  Qed.

  (** rows selected by an upper event bound are a prefix *)
  Lemma filter_prefix (f : A -> bool) l : sorted l ->
    (forall a b, ev a <= ev b -> f b = true -> f a = true) ->
    filter f l = firstn (length (filter f l)) l.
  Proof.
    intros Hs Hf. induction l as [|x l IH]; [reflexivity|].
    apply sorted_by_inv in Hs. destruct Hs as [Hs Hx]. simpl.
    destruct (f x) eqn:E; simpl.
    - f_equal. auto.
    - rewrite filter_none; [reflexivity|]. intros y Hy.
      destruct (f y) eqn:Ey; auto. rewrite (Hf x y) in E; auto.
  Qed.

  Lemma wanted_down full le se a b : ev a <= ev b -> wanted ev full le se b = true ->
    wanted ev full le se a = true.
  Proof.
    intros Hab. unfold wanted. rewrite !andb_true_iff, !orb_true_iff. intros [H1 H2]. split.
    - destruct se; auto. apply Z.ltb_lt in H1. apply Z.ltb_lt. lia.
    - destruct H2 as [|H2]; auto. right. apply Z.ltb_lt in H2. apply Z.ltb_lt. lia.
  Qed.

  Lemma separated_split cs tail : separated ev cs tail <->
    forall pre c post, cs = pre ++ c :: post ->
      forall a b, In a c -> In b (concat post ++ tail) -> ev a < ev b.
  Proof.
    induction cs as [|c cs IH]; simpl; split; auto.
    - intros _ pre c post E. destruct pre; discriminate.
    - intros [H1 H2] pre c' post E. destruct pre as [|x pre]; injection E as -> ->; auto.
      apply IH with (pre := pre); auto.
    - intros H. split; [apply (H [] c cs); auto|]. apply IH. intros pre c' post -> .
      apply (H (c :: pre) c' post). reflexivity.
  Qed.

  Lemma indices_split cur (ys : list (list A * nat)) : indices_ok cur ys ->
    forall pre c n post, ys = pre ++ (c, n) :: post ->
      n = (cur + length (concat (map fst pre)) + length c)%nat.
  Proof.
    revert cur. induction ys as [|[c0 n0] ys IH]; intros cur H pre c n post E.
    - destruct pre; discriminate.
    - destruct H as [H1 H2]. destruct pre as [|x pre].
      + injection E as -> -> ->. simpl. lia.
      + injection E as <- ->. simpl. rewrite app_length. rewrite (IH _ H2 pre c n post eq_refl). simpl in *. lia.
  Qed.
End Whole.
