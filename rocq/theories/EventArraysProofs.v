(** Proofs about EventArraysModel. *)
From Coq Require Import ZArith List Bool Lia Sorting.Sorted Arith.
From Verif Require Import EventArraysModel.
Import ListNotations.
Open Scope Z_scope.

Notation sortedZ := (StronglySorted Z.le).

Lemma sortedZ_inv x l : sortedZ (x :: l) -> sortedZ l /\ forall y, In y l -> x <= y.
Proof.
  intros H. apply StronglySorted_inv in H. destruct H as [H1 H2]. split; [exact H1|].
  intros y Hy. rewrite Forall_forall in H2. auto.
Qed.

Lemma sortedZ_cons x l : sortedZ l -> (forall y, In y l -> x <= y) -> sortedZ (x :: l).
Proof. intros; constructor; [assumption|apply Forall_forall; assumption]. Qed.

(** *** cursor *)
Lemma scan_ge_some ev l c :
  scan_ge ev l = Some c -> exists p y r, c = y :: r /\ l = p ++ c /\ ev <= y /\ Forall (fun z => z < ev) p.
Proof.
  revert c; induction l as [|x l IH]; simpl; intros c H; [discriminate|].
  destruct (Z.leb_spec ev x).
  - injection H as <-. exists [], x, l. repeat split; auto.
  - destruct (IH _ H) as (p & y & r & -> & -> & Hle & Hp).
    exists (x :: p), y, r. repeat split; auto.
Qed.

Lemma scan_ge_none ev l : scan_ge ev l = None -> Forall (fun z => z < ev) l.
Proof.
  induction l as [|x l IH]; simpl; intros H; [constructor|].
  destruct (Z.leb_spec ev x); [discriminate|]. constructor; auto.
Qed.

Lemma sortedZ_app_r p l : sortedZ (p ++ l) -> sortedZ l.
Proof. induction p; simpl; auto. intros H; apply sortedZ_inv in H; tauto. Qed.

Lemma move_cursor_spec ev cur :
  cur <> [] -> sortedZ cur ->
  exists y r, move_cursor ev cur = y :: r /\ sortedZ (y :: r) /\
    (forall e, ev <= e -> (In e (y :: r) <-> In e cur)) /\
    (y = ev <-> In ev cur).
Proof.
  intros Hne Hs. unfold move_cursor.
  destruct (scan_ge ev cur) as [c|] eqn:E.
  - destruct (scan_ge_some _ _ _ E) as (p & y & r & -> & -> & Hle & Hp).
    exists y, r. repeat split; auto.
    + eapply sortedZ_app_r; eauto.
    + intros; apply in_or_app; auto.
    + intros Hin. apply in_app_or in Hin. destruct Hin as [Hin|Hin]; auto.
      rewrite Forall_forall in Hp. apply Hp in Hin. lia.
    + intros ->. apply in_or_app; right; left; reflexivity.
    + intros Hin. apply in_app_or in Hin. destruct Hin as [Hin|Hin].
      * rewrite Forall_forall in Hp. apply Hp in Hin. lia.
      * apply sortedZ_app_r in Hs. destruct Hin as [->|Hin]; auto.
        apply sortedZ_inv in Hs. apply Hs in Hin. lia.
  - apply scan_ge_none in E. destruct cur as [|y r]; [congruence|].
    exists y, r. repeat split; auto.
    + intros ->. left; reflexivity.
    + intros Hin. rewrite Forall_forall in E. apply E in Hin. lia.
Qed.

(** *** C01 *)
Lemma events_in_both_loop_spec arr1 : forall actual cur,
  cur <> [] -> sortedZ cur -> sortedZ arr1 -> (forall x, In x arr1 -> actual <= x) ->
  exists r, events_in_both_loop actual cur arr1 = Ok r /\
    StronglySorted Z.lt r /\ (forall e, In e r <-> (In e arr1 /\ In e cur /\ actual < e)) /\
    (length r <= length arr1)%nat.
Proof.
  induction arr1 as [|ev rest IH]; intros actual cur Hne Hs1 Hs2 Hlow; simpl.
  - exists []. split; [reflexivity|]. split; [constructor|]. split; [simpl; tauto|simpl; lia].
  - apply sortedZ_inv in Hs2. destruct Hs2 as [Hs2 Hle].
    destruct (Z.eqb_spec ev actual) as [->|Hneq].
    + destruct (IH actual cur Hne Hs1 Hs2) as (r & Hr & Hss & Hin & Hlen).
      { intros; apply Hle; auto. }
      exists r. repeat split; auto.
      * right. apply Hin; auto.
      * apply Hin; auto.
      * apply Hin in H; tauto.
      * intros [[->|H] [H2 H3]]; [lia|]. apply Hin; auto.
    + assert (Hlt : actual < ev) by (specialize (Hlow ev (or_introl eq_refl)); lia).
      destruct (move_cursor_spec ev cur Hne Hs1) as (y & c & Hm & Hsc & Hinc & Hy).
      rewrite Hm.
      destruct (IH ev (y :: c)) as (r & Hr & Hss & Hin & Hlen); auto; [discriminate|].
      rewrite Hr.
      assert (Hev : forall e, ev < e -> (In e r <-> In e rest /\ In e cur)).
      { intros e He. rewrite Hin. rewrite Hinc by lia. tauto. }
      destruct (Z.eqb_spec y ev) as [->|Hny].
      * exists (ev :: r). split; [reflexivity|]. split.
        { constructor; auto. apply Forall_forall. intros e He. apply Hin in He. lia. }
        split; [|simpl; lia].
        intros e. split.
        -- intros [<-|He].
           ++ split; [left; auto|]. split; [apply Hy; auto|auto].
           ++ pose proof (proj1 (Hin e) He) as (H1 & H2 & H3).
              apply Hev in He; [|auto]. split; [right; tauto|]. split; [tauto|lia].
        -- intros ([<-|H1] & H2 & H3); [left; auto|].
           destruct (Z.eq_dec ev e) as [->|]; [left; auto|].
           right. apply Hev; auto. specialize (Hle e H1). lia.
      * exists r. split; [reflexivity|]. split; [auto|]. split; [|simpl; lia].
        intros e. split.
        -- intros He. pose proof (proj1 (Hin e) He) as (H1 & H2 & H3).
           apply Hev in He; [|auto]. split; [right; tauto|]. split; [tauto|lia].
        -- intros ([<-|H1] & H2 & H3); [exfalso; apply Hny, Hy; auto|].
           destruct (Z.eq_dec ev e) as [->|]; [exfalso; apply Hny, Hy; auto|].
           apply Hev; auto. specialize (Hle e H1). lia.
Qed.

(** *** C03 *)
Lemma in1d_loop_spec arr1 : forall cur,
  cur <> [] -> sortedZ cur -> sortedZ arr1 ->
  exists r, in1d_loop cur arr1 = Ok r /\ Forall2 (fun e b => b = true <-> In e cur) arr1 r.
Proof.
  induction arr1 as [|ev rest IH]; intros cur Hne Hs1 Hs2; simpl.
  - exists []. split; constructor.
  - apply sortedZ_inv in Hs2. destruct Hs2 as [Hs2 Hle].
    destruct (move_cursor_spec ev cur Hne Hs1) as (y & c & Hm & Hsc & Hinc & Hy).
    rewrite Hm. destruct (IH (y :: c)) as (r & Hr & HF); auto; [discriminate|].
    rewrite Hr. eexists; split; [reflexivity|]. constructor.
    + rewrite Z.eqb_eq. exact Hy.
    + clear - HF Hle Hinc. induction HF as [|e b l l' Heb HF IHF]; constructor.
      * rewrite Heb. apply Hinc, Hle; left; auto.
      * apply IHF. intros; apply Hle; right; auto.
Qed.

(** *** C02 *)
Lemma count_run_spec v cur : sortedZ cur -> (forall y, In y cur -> v <= y) ->
  exists c, count_run v cur = (count_occ Z.eq_dec cur v, c) /\ sortedZ c /\
    cur = repeat v (count_occ Z.eq_dec cur v) ++ c /\ (forall y, In y c -> v < y).
Proof.
  induction cur as [|x r IH]; intros Hs Hv; simpl.
  - exists []. simpl. repeat split; auto. contradiction.
  - apply sortedZ_inv in Hs. destruct Hs as [Hs Hle].
    destruct (Z.eqb_spec x v) as [->|Hne].
    + destruct IH as (c & Hc & Hsc & Happ & Hlt); auto.
      rewrite Hc. destruct (Z.eq_dec v v) as [_|]; [|congruence].
      exists c. repeat split; auto. simpl. rewrite <- Happ. reflexivity.
    + destruct (Z.eq_dec x v) as [|_]; [congruence|].
      assert (Hvx : v < x) by (specialize (Hv x (or_introl eq_refl)); lia).
      assert (H0 : count_occ Z.eq_dec r v = O).
      { apply count_occ_not_In. intros Hin. specialize (Hle v Hin). lia. }
      rewrite H0. exists (x :: r). repeat split; auto.
      * apply sortedZ_cons; auto.
      * intros y [<-|Hy]; auto. specialize (Hle y Hy); lia.
Qed.

Lemma count_occ_repeat_eq v n : count_occ Z.eq_dec (repeat v n) v = n.
Proof.
  induction n; simpl; auto. destruct (Z.eq_dec v v); [|congruence]. auto.
Qed.

Lemma count_occ_repeat_neq v w n : v <> w -> count_occ Z.eq_dec (repeat v n) w = O.
Proof.
  intros H. induction n; simpl; auto. destruct (Z.eq_dec v w); [congruence|]. auto.
Qed.

Lemma push_n_spec size n v res :
  (length res + n <= size)%nat -> push_n size n v res = Some (repeat v n ++ res).
Proof.
  revert res; induction n as [|n IH]; intros res H; simpl; [reflexivity|].
  destruct (Nat.ltb_spec (length res) size) as [H'|H']; [|lia].
  rewrite IH; [|simpl; lia]. f_equal.
  change (v :: repeat v n ++ res) with ((v :: repeat v n) ++ res).
  rewrite repeat_cons, <- app_assoc. reflexivity.
Qed.

(** Merge specification used internally: remaining merged sequence. *)
Definition merged_to (c1 c2 out : list Z) : Prop :=
  sortedZ out /\ forall v, count_occ Z.eq_dec out v =
                     Nat.max (count_occ Z.eq_dec c1 v) (count_occ Z.eq_dec c2 v).

Lemma last_cons_cons {A} (x y : A) l d : last (x :: y :: l) d = last (y :: l) d.
Proof. reflexivity. Qed.

Lemma last_app_nonempty {A} (p l : list A) d : l <> [] -> last (p ++ l) d = last l d.
Proof.
  intros H. induction p as [|x p IH]; simpl; auto.
  destruct (p ++ l) eqn:E; [destruct p; simpl in E; congruence|]. auto.
Qed.

Lemma last_In (l : list Z) d : l <> [] -> In (last l d) l.
Proof.
  induction l as [|x l IH]; [congruence|]. intros _. destruct l as [|y l].
  - left; reflexivity.
  - right. apply IH. discriminate.
Qed.

(** Consistency of one side of the loop state: either not finished, the cursor is
    non-empty, starts with the current event and ends with the last event, or
    finished, the cursor is empty. *)
Definition side_ok (fin : bool) (cur : list Z) (ev lst : Z) : Prop :=
  sortedZ cur /\
  if fin then cur = []
  else exists r, cur = ev :: r /\ last cur 0 = lst.

Lemma sorted_le_last x l : sortedZ (x :: l) -> forall y, In y (x :: l) -> y <= last (x :: l) 0.
Proof.
  revert x; induction l as [|z l IH]; intros x Hs y Hy.
  - destruct Hy as [->|[]]; simpl; lia.
  - apply sortedZ_inv in Hs. destruct Hs as [Hs Hle]. rewrite last_cons_cons.
    destruct Hy as [<-|Hy]; [|apply IH; auto].
    assert (x <= z) by (apply Hle; left; auto).
    specialize (IH z Hs z (or_introl eq_refl)). lia.
Qed.

(** Consuming the run at the head. *)
Lemma side_step cur ev lst r :
  sortedZ cur -> cur = ev :: r -> last cur 0 = lst ->
  exists c n, count_run ev cur = (n, c) /\ (1 <= n)%nat /\ n = count_occ Z.eq_dec cur ev /\
    cur = repeat ev n ++ c /\ (forall y, In y c -> ev < y) /\
    let ev' := match c with x :: _ => x | [] => ev end in
    side_ok (if ev =? lst then true else false) c ev' lst.
Proof.
  intros Hs Hc Hl.
  destruct (count_run_spec ev cur Hs) as (c & H1 & H2 & H3 & H4).
  { subst cur. apply sortedZ_inv in Hs. intros y [<-|Hy]; [lia|]. apply Hs; auto. }
  exists c, (count_occ Z.eq_dec cur ev). repeat split; auto.
  - subst cur. simpl. destruct (Z.eq_dec ev ev); [lia|congruence].
  - destruct (Z.eqb_spec ev lst) as [->|Hne].
    + destruct c as [|x c]; [reflexivity|]. exfalso.
      assert (Hx : lst < x) by (apply H4; left; auto).
      assert (Hin : In x cur) by (rewrite H3; apply in_or_app; right; left; auto).
      subst cur. pose proof (sorted_le_last _ _ Hs x Hin). lia.
    + destruct c as [|x c].
      * exfalso. rewrite app_nil_r in H3.
        assert (In lst cur) by (rewrite <- Hl; apply last_In; subst cur; discriminate).
        rewrite H3 in H. apply repeat_spec in H. congruence.
      * exists c. split; [reflexivity|]. rewrite H3 in Hl.
        rewrite last_app_nonempty in Hl; [exact Hl|discriminate].
Qed.

Lemma merged_to_head n v c1 c2 out k1 k2 :
  merged_to c1 c2 out -> (forall y, In y c1 -> v < y) -> (forall y, In y c2 -> v < y) ->
  n = Nat.max k1 k2 ->
  merged_to (repeat v k1 ++ c1) (repeat v k2 ++ c2) (repeat v n ++ out).
Proof.
  intros [Hs Hc] H1 H2 Hn. split.
  - clear Hn. induction n; simpl; auto. apply sortedZ_cons; auto.
    intros y Hy. apply in_app_or in Hy. destruct Hy as [Hy|Hy].
    + apply repeat_spec in Hy. lia.
    + assert (count_occ Z.eq_dec out y > 0)%nat by (apply count_occ_In; auto).
      rewrite Hc in H.
      destruct (count_occ Z.eq_dec c1 y) eqn:E1.
      * assert (In y c2) by (apply (count_occ_In Z.eq_dec); lia). specialize (H2 y H0); lia.
      * assert (In y c1) by (apply (count_occ_In Z.eq_dec); lia). specialize (H1 y H0); lia.
  - intros w. rewrite !count_occ_app, Hc.
    destruct (Z.eq_dec v w) as [<-|Hne].
    + rewrite !count_occ_repeat_eq.
      assert (E1 : count_occ Z.eq_dec c1 v = O)
        by (apply count_occ_not_In; intros Hi; specialize (H1 _ Hi); lia).
      assert (E2 : count_occ Z.eq_dec c2 v = O)
        by (apply count_occ_not_In; intros Hi; specialize (H2 _ Hi); lia).
      lia.
    + rewrite !count_occ_repeat_neq by auto. lia.
Qed.

Lemma max_loop_spec last1 last2 size : forall fuel s,
  (length (mx_cur1 s) + length (mx_cur2 s) <= fuel)%nat ->
  side_ok (mx_fin1 s) (mx_cur1 s) (mx_ev1 s) last1 ->
  side_ok (mx_fin2 s) (mx_cur2 s) (mx_ev2 s) last2 ->
  (mx_fin1 s = true -> mx_fin2 s = false -> mx_ev1 s < mx_ev2 s) ->
  (mx_fin2 s = true -> mx_fin1 s = false -> mx_ev2 s < mx_ev1 s) ->
  (length (mx_res s) + length (mx_cur1 s) + length (mx_cur2 s) <= size)%nat ->
  exists out, max_loop fuel last1 last2 size s = Ok (rev (mx_res s) ++ out) /\
              merged_to (mx_cur1 s) (mx_cur2 s) out.
Proof.
  induction fuel as [|fuel IH]; intros s Hfuel Hok1 Hok2 Ho1 Ho2 Hsize.
  - assert (E1 : mx_cur1 s = []) by (destruct (mx_cur1 s); [auto|simpl in Hfuel; lia]).
    assert (E2 : mx_cur2 s = []) by (destruct (mx_cur2 s); [auto|simpl in Hfuel; lia]).
    assert (F1 : mx_fin1 s = true).
    { destruct Hok1 as [_ H]. destruct (mx_fin1 s); auto. destruct H as (r & H & _). congruence. }
    assert (F2 : mx_fin2 s = true).
    { destruct Hok2 as [_ H]. destruct (mx_fin2 s); auto. destruct H as (r & H & _). congruence. }
    simpl. rewrite F1, F2. simpl. exists []. rewrite app_nil_r, E1, E2.
    split; auto. split; [constructor|reflexivity].
  - simpl.
    destruct (mx_fin1 s && mx_fin2 s) eqn:Efin.
    { apply andb_true_iff in Efin. destruct Efin as [F1 F2].
      destruct Hok1 as [_ H1], Hok2 as [_ H2]. rewrite F1 in H1. rewrite F2 in H2.
      exists []. rewrite app_nil_r, H1, H2. split; auto. split; [constructor|reflexivity]. }
    destruct s as [cur1 cur2 ev1 ev2 fin1 fin2 res]; simpl in *.
    unfold max_step; simpl.
    destruct Hok1 as [Hs1 Hok1], Hok2 as [Hs2 Hok2].
    destruct fin1, fin2; try discriminate.
    + (* first finished *)
      subst cur1. destruct Hok2 as (r2 & Hc2 & Hl2). specialize (Ho1 eq_refl eq_refl).
      destruct (side_step cur2 ev2 last2 r2 Hs2 Hc2 Hl2) as (c2 & n2 & Hrun2 & Hn2 & _ & Hcur2 & Hgt2 & Hside2).
      destruct (Z.leb_spec ev1 ev2); [|lia]. simpl.
      rewrite orb_true_r. rewrite Hrun2.
      destruct (Z.eqb_spec ev1 ev2); [lia|].
      destruct (Z.ltb_spec ev2 ev1); [lia|]. simpl.
      assert (Hlen : length cur2 = (n2 + length c2)%nat)
        by (rewrite Hcur2 at 1; rewrite app_length, repeat_length; lia).
      rewrite push_n_spec by lia.
      edestruct (IH (MaxState [] c2 ev1 match c2 with x :: _ => x | [] => ev2 end true
                    (if ev2 =? last2 then true else false) (repeat ev2 n2 ++ res)))
        as (out & Hout & Hm); simpl.
      * lia.
      * split; [constructor|reflexivity].
      * exact Hside2.
      * intros _ Hf. destruct c2 as [|x c2]; [lia|].
        assert (ev2 < x) by (apply Hgt2; left; auto). lia.
      * discriminate.
      * rewrite app_length, repeat_length. lia.
      * simpl in Hout, Hm. exists (repeat ev2 n2 ++ out). split.
        { rewrite Hout. rewrite rev_app_distr. 
          rewrite <- app_assoc. f_equal. f_equal. f_equal.
          clear. induction n2; simpl; auto. rewrite IHn2. symmetry. apply repeat_cons. }
        { rewrite Hcur2. apply (merged_to_head n2 ev2 [] c2 out 0 n2); auto. simpl; tauto. }
    + (* second finished *)
      subst cur2. destruct Hok1 as (r1 & Hc1 & Hl1). specialize (Ho2 eq_refl eq_refl).
      destruct (side_step cur1 ev1 last1 r1 Hs1 Hc1 Hl1) as (c1 & n1 & Hrun1 & Hn1 & _ & Hcur1 & Hgt1 & Hside1).
      rewrite orb_true_r. rewrite Hrun1.
      destruct (Z.leb_spec ev2 ev1); [|lia]. simpl.
      destruct (Z.eqb_spec ev1 ev2); [lia|].
      rewrite orb_true_r. simpl.
      assert (Hlen : length cur1 = (n1 + length c1)%nat)
        by (rewrite Hcur1 at 1; rewrite app_length, repeat_length; lia).
      rewrite push_n_spec by lia.
      edestruct (IH (MaxState c1 [] match c1 with x :: _ => x | [] => ev1 end ev2
                    (if ev1 =? last1 then true else false) true (repeat ev1 n1 ++ res)))
        as (out & Hout & Hm); simpl.
      * lia.
      * exact Hside1.
      * split; [constructor|reflexivity].
      * discriminate.
      * intros _ Hf. destruct c1 as [|x c1]; [lia|].
        assert (ev1 < x) by (apply Hgt1; left; auto). lia.
      * rewrite app_length, repeat_length. lia.
      * simpl in Hout, Hm. exists (repeat ev1 n1 ++ out). split.
        { rewrite Hout. rewrite rev_app_distr. 
          rewrite <- app_assoc. f_equal. f_equal. f_equal.
          clear. induction n1; simpl; auto. rewrite IHn1. symmetry. apply repeat_cons. }
        { rewrite Hcur1. apply (merged_to_head n1 ev1 c1 [] out n1 0); auto; [simpl; tauto|lia]. }
    + (* both running *)
      destruct Hok1 as (r1 & Hc1 & Hl1). destruct Hok2 as (r2 & Hc2 & Hl2).
      destruct (side_step cur1 ev1 last1 r1 Hs1 Hc1 Hl1) as (c1 & n1 & Hrun1 & Hn1 & _ & Hcur1 & Hgt1 & Hside1).
      destruct (side_step cur2 ev2 last2 r2 Hs2 Hc2 Hl2) as (c2 & n2 & Hrun2 & Hn2 & _ & Hcur2 & Hgt2 & Hside2).
      assert (Hlen1 : length cur1 = (n1 + length c1)%nat)
        by (rewrite Hcur1 at 1; rewrite app_length, repeat_length; lia).
      assert (Hlen2 : length cur2 = (n2 + length c2)%nat)
        by (rewrite Hcur2 at 1; rewrite app_length, repeat_length; lia).
      assert (Hrevrep : forall n (v : Z), rev (repeat v n) = repeat v n).
      { clear. induction n; intros; simpl; auto. rewrite IHn. symmetry. apply repeat_cons. }
      rewrite !orb_false_r.
      destruct (Z.eqb_spec ev1 ev2) as [<-|Hne].
      * rewrite Z.leb_refl, Hrun1, Hrun2.
        rewrite push_n_spec by lia.
        edestruct (IH (MaxState c1 c2 match c1 with x :: _ => x | [] => ev1 end
                    match c2 with x :: _ => x | [] => ev1 end
                    (if ev1 =? last1 then true else false) (if ev1 =? last2 then true else false)
                    (repeat ev1 (Nat.max n1 n2) ++ res)))
          as (out & Hout & Hm); simpl.
        -- lia.
        -- exact Hside1.
        -- exact Hside2.
        -- intros F1 F2. rewrite F1 in Hside1. rewrite F2 in Hside2.
           destruct Hside1 as [_ ->]. destruct Hside2 as [_ (r & Hr & _)].
           destruct c2 as [|x c2]; [discriminate|]. apply Hgt2; left; auto.
        -- intros F2 F1. rewrite F1 in Hside1. rewrite F2 in Hside2.
           destruct Hside2 as [_ ->]. destruct Hside1 as [_ (r & Hr & _)].
           destruct c1 as [|x c1]; [discriminate|]. apply Hgt1; left; auto.
        -- rewrite app_length, repeat_length. lia.
        -- simpl in Hout, Hm. exists (repeat ev1 (Nat.max n1 n2) ++ out). split.
           ++ rewrite Hout, rev_app_distr, <- app_assoc, Hrevrep. reflexivity.
           ++ rewrite Hcur1, Hcur2. apply merged_to_head; auto.
      * destruct (Z.ltb_spec ev1 ev2) as [Hlt|Hge]; simpl.
        -- destruct (Z.leb_spec ev1 ev2); [|lia]. rewrite Hrun1.
           destruct (Z.leb_spec ev2 ev1); [lia|].
           rewrite push_n_spec by lia.
           assert (Hev2 : match cur2 with [] => ev2 | x :: _ => x end = ev2) by (rewrite Hc2; auto).
           rewrite Hev2.
           edestruct (IH (MaxState c1 cur2 match c1 with x :: _ => x | [] => ev1 end ev2
                    (if ev1 =? last1 then true else false) false
                    (repeat ev1 n1 ++ res)))
             as (out & Hout & Hm); simpl.
           ++ lia.
           ++ exact Hside1.
           ++ split; auto. exists r2; auto.
           ++ intros F1 _. rewrite F1 in Hside1. destruct Hside1 as [_ ->]. lia.
           ++ discriminate.
           ++ rewrite app_length, repeat_length. lia.
           ++ simpl in Hout, Hm. exists (repeat ev1 n1 ++ out). split.
              ** rewrite Hout, rev_app_distr, <- app_assoc, Hrevrep. reflexivity.
              ** rewrite Hcur1. apply (merged_to_head n1 ev1 c1 cur2 out n1 0); auto; [|lia].
                 rewrite Hc2 in *. apply sortedZ_inv in Hs2. intros y [<-|Hy]; [lia|].
                 destruct Hs2 as [_ Hs2]. specialize (Hs2 y Hy). lia.
        -- assert (Hgt : ev2 < ev1) by lia.
           destruct (Z.leb_spec ev1 ev2); [lia|].
           destruct (Z.leb_spec ev2 ev1); [|lia]. rewrite Hrun2.
           destruct (Z.ltb_spec ev2 ev1); [|lia]. simpl.
           rewrite push_n_spec by lia.
           assert (Hev1 : match cur1 with [] => ev1 | x :: _ => x end = ev1) by (rewrite Hc1; auto).
           rewrite Hev1.
           edestruct (IH (MaxState cur1 c2 ev1 match c2 with x :: _ => x | [] => ev2 end
                    false (if ev2 =? last2 then true else false)
                    (repeat ev2 n2 ++ res)))
             as (out & Hout & Hm); simpl.
           ++ lia.
           ++ split; auto. exists r1; auto.
           ++ exact Hside2.
           ++ discriminate.
           ++ intros F2 _. rewrite F2 in Hside2. destruct Hside2 as [_ ->]. lia.
           ++ rewrite app_length, repeat_length. lia.
           ++ simpl in Hout, Hm. exists (repeat ev2 n2 ++ out). split.
              ** rewrite Hout, rev_app_distr, <- app_assoc, Hrevrep. reflexivity.
              ** rewrite Hcur2. apply (merged_to_head n2 ev2 cur1 c2 out 0 n2); auto.
                 rewrite Hc1 in *. apply sortedZ_inv in Hs1. intros y [<-|Hy]; [lia|].
                 destruct Hs1 as [_ Hs1]. specialize (Hs1 y Hy). lia.
Qed.

Lemma get_max_events_spec arr1 arr2 :
  arr1 <> [] -> arr2 <> [] -> sortedZ arr1 -> sortedZ arr2 ->
  exists r, get_max_events_in_both_arrays arr1 arr2 = Ok r /\ merged_to arr1 arr2 r.
Proof.
  intros N1 N2 S1 S2. unfold get_max_events_in_both_arrays.
  destruct arr1 as [|e1 a1]; [congruence|]. destruct arr2 as [|e2 a2]; [congruence|].
  edestruct (max_loop_spec (last (e1 :: a1) 0) (last (e2 :: a2) 0)
      (length (e1 :: a1) + length (e2 :: a2)) (length (e1 :: a1) + length (e2 :: a2))
      (MaxState (e1 :: a1) (e2 :: a2) e1 e2 false false [])) as (out & Hout & Hm);
    cbn [mx_cur1 mx_cur2 mx_ev1 mx_ev2 mx_fin1 mx_fin2 mx_res] in *; auto.
  - split; auto. exists a1; auto.
  - split; auto. exists a2; auto.
  - discriminate.
  - discriminate.
  - simpl in Hout. exists out. auto.
Qed.

(** *** C05 / C06 *)
Section Rows.
  Context {A B : Type}.
  Variable evA : A -> Z.
  Variable evB : B -> Z.

  Definition sorted_by {T} (f : T -> Z) (l : list T) := StronglySorted (fun a b => f a <= f b) l.

  Lemma sorted_by_inv {T} (f : T -> Z) x l :
    sorted_by f (x :: l) -> sorted_by f l /\ forall y, In y l -> f x <= f y.
  Proof.
    intros H. apply StronglySorted_inv in H. destruct H as [H1 H2]. split; [exact H1|].
    intros y Hy. rewrite Forall_forall in H2. auto.
  Qed.

  Lemma drop_lt_sorted e l : sorted_by evB l ->
    exists p, l = p ++ drop_lt evB e l /\ Forall (fun b => evB b < e) p /\
              (forall b, In b (drop_lt evB e l) -> e <= evB b).
  Proof.
    induction l as [|b r IH]; intros Hs; simpl.
    - exists []. repeat split; auto. contradiction.
    - apply sorted_by_inv in Hs. destruct Hs as [Hs Hle].
      destruct (Z.ltb_spec (evB b) e).
      + destruct (IH Hs) as (p & H1 & H2 & H3). exists (b :: p). repeat split; auto.
        simpl. congruence.
      + exists []. repeat split; auto. intros b' [<-|Hb]; [lia|]. specialize (Hle b' Hb). lia.
  Qed.

  Lemma take_eq_filter e l : sorted_by evB l -> (forall b, In b l -> e <= evB b) ->
    take_eq evB e l = filter (fun b => evB b =? e) l.
  Proof.
    induction l as [|b r IH]; intros Hs Hle; simpl; [reflexivity|].
    apply sorted_by_inv in Hs. destruct Hs as [Hs Hb].
    rewrite (Z.eqb_sym (evB b) e).
    destruct (Z.eqb_spec e (evB b)) as [->|Hne].
    - f_equal. apply IH; auto.
    - symmetry. assert (H : forall x, In x r -> (evB x =? e) = false).
      { intros x Hx. apply Z.eqb_neq. specialize (Hb x Hx).
        specialize (Hle b (or_introl eq_refl)). lia. }
      clear - H. induction r as [|x r IH]; simpl; auto.
      rewrite (H x (or_introl eq_refl)). apply IH. intros; apply H; right; auto.
  Qed.

  Lemma filter_none {T} (f : T -> bool) l : (forall x, In x l -> f x = false) -> filter f l = [].
  Proof.
    induction l as [|x l IH]; intros H; simpl; auto.
    rewrite (H x (or_introl eq_refl)). apply IH. intros; apply H; right; auto.
  Qed.

  Lemma filter_drop_lt e e' l : sorted_by evB l -> e <= e' ->
    filter (fun b => evB b =? e') (drop_lt evB e l) = filter (fun b => evB b =? e') l.
  Proof.
    intros Hs He. destruct (drop_lt_sorted e l Hs) as (p & H1 & H2 & _).
    rewrite H1 at 2. rewrite filter_app.
    rewrite (filter_none _ p); auto.
    intros x Hx. rewrite Forall_forall in H2. specialize (H2 x Hx). apply Z.eqb_neq; lia.
  Qed.

  Lemma drop_lt_sorted_by e l : sorted_by evB l -> sorted_by evB (drop_lt evB e l).
  Proof.
    induction l as [|b r IH]; intros Hs; simpl; auto.
    destruct (evB b <? e); auto. apply sorted_by_inv in Hs. apply IH; tauto.
  Qed.

  Definition pairs_spec (d1 : list A) (d2 : list B) : list (A * B) :=
    flat_map (fun a => map (fun b => (a, b)) (filter (fun b => evB b =? evA a) d2)) d1.

  Lemma pairs_spec_drop e d1 d2 : sorted_by evB d2 -> (forall a, In a d1 -> e <= evA a) ->
    pairs_spec d1 (drop_lt evB e d2) = pairs_spec d1 d2.
  Proof.
    intros Hs. induction d1 as [|a r IH]; intros H; simpl; auto.
    rewrite filter_drop_lt; auto; [|apply H; left; auto].
    f_equal. apply IH. intros; apply H; right; auto.
  Qed.

  Lemma merge_fill_spec d1 : forall d2, sorted_by evA d1 -> sorted_by evB d2 ->
    merge_fill evA evB d1 d2 = pairs_spec d1 d2.
  Proof.
    induction d1 as [|a r IH]; intros d2 H1 H2; simpl; auto.
    apply sorted_by_inv in H1. destruct H1 as [H1 Hle].
    destruct (drop_lt_sorted (evA a) d2 H2) as (p & _ & _ & Hge).
    rewrite take_eq_filter; auto using drop_lt_sorted_by.
    rewrite filter_drop_lt; auto; [|lia].
    f_equal. rewrite IH; auto using drop_lt_sorted_by. apply pairs_spec_drop; auto.
  Qed.

  Lemma merge_size_fill d1 : forall cur, merge_size evA evB d1 cur = length (merge_fill evA evB d1 cur).
  Proof.
    induction d1 as [|a r IH]; intros cur; simpl; auto.
    rewrite app_length, map_length, IH. reflexivity.
  Qed.

  Lemma merge_on_event_number_spec zA zB d1 d2 :
    sorted_by evA d1 -> sorted_by evB d2 ->
    merge_on_event_number evA evB zA zB d1 d2 =
    Ok (map fst (pairs_spec d1 d2), map snd (pairs_spec d1 d2)).
  Proof.
    intros H1 H2. unfold merge_on_event_number.
    rewrite merge_size_fill, Nat.leb_refl, Nat.sub_diag, merge_fill_spec by auto.
    simpl. rewrite !app_nil_r. reflexivity.
  Qed.

  (** map_cluster *)
  Lemma map_cluster_length events : forall cur mapped,
    length events = length mapped -> length (map_cluster evB events cur mapped) = length mapped.
  Proof.
    induction events as [|e es IH]; intros cur mapped Hl; simpl; auto.
    destruct mapped as [|m ms]; auto.
    destruct (drop_lt evB e cur) as [|b r]; auto.
    destruct (evB b =? e); simpl; rewrite IH; auto.
  Qed.

  Lemma filter_first_eq e b r l : sorted_by evB l -> drop_lt evB e l = b :: r -> evB b = e ->
    filter (fun c => evB c =? e) l = b :: filter (fun c => evB c =? e) r.
  Proof.
    intros Hs Hd Hb. rewrite <- (filter_drop_lt e e l Hs) by lia. rewrite Hd. simpl.
    apply Z.eqb_eq in Hb. rewrite Hb. reflexivity.
  Qed.

  (** [k0 e] is the number of clusters of event [e] that have been used so far. *)
  Lemma map_cluster_spec events : forall cur mapped,
    sorted_by evB cur -> sortedZ events -> length events = length mapped ->
    forall i m, nth_error mapped i = Some m ->
    nth_error (map_cluster evB events cur mapped) i =
    let e := nth i events 0 in
    Some (nth (count_occ Z.eq_dec (firstn i events) e)
              (filter (fun c => evB c =? e) cur) m).
  Proof.
    induction events as [|e es IH]; intros cur mapped Hs He Hl i m Hm.
    - destruct mapped; [|discriminate]. destruct i; discriminate.
    - destruct mapped as [|m0 ms]; [discriminate|]. simpl in Hl.
      apply sortedZ_inv in He. destruct He as [He Hle].
      simpl map_cluster.
      destruct (drop_lt evB e cur) as [|b r] eqn:Hd.
      + (* exhausted *)
        rewrite Hm. cbv zeta. f_equal.
        assert (Hnil : filter (fun c => evB c =? nth i (e :: es) 0) cur = []).
        { apply filter_none. intros x Hx. apply Z.eqb_neq.
          destruct (drop_lt_sorted e cur Hs) as (p & Hp & Hlt & _).
          rewrite Hd, app_nil_r in Hp. subst p. rewrite Forall_forall in Hlt.
          specialize (Hlt x Hx).
          assert (i < length (e :: es))%nat.
          { simpl. rewrite Hl. assert (i < length (m0 :: ms))%nat; [|simpl in *; lia].
            apply nth_error_Some. congruence. }
          assert (In (nth i (e :: es) 0) (e :: es)) by (apply nth_In; auto).
          destruct H0 as [<-|H0]; [lia|]. specialize (Hle _ H0). lia. }
        rewrite Hnil. destruct (count_occ _ _ _); reflexivity.
      + pose proof (drop_lt_sorted_by e cur Hs) as Hs'. rewrite Hd in Hs'.
        destruct (drop_lt_sorted e cur Hs) as (p & Hp & Hlt & Hge). rewrite Hd in Hge, Hp.
        destruct (Z.eqb_spec (evB b) e) as [Hb|Hb].
        * destruct i as [|i]; simpl in *.
          { rewrite (filter_first_eq e b r cur); auto. }
          { rewrite IH with (m := m); auto; [|apply sorted_by_inv in Hs'; tauto].
            cbv zeta. f_equal.
            set (e' := nth i es 0).
            destruct (Z.eq_dec e e') as [<-|Hne].
            - rewrite (filter_first_eq e b r cur); auto.
            - f_equal. rewrite <- (filter_drop_lt e e' cur Hs).
              + rewrite Hd. simpl. destruct (Z.eqb_spec (evB b) e'); [congruence|reflexivity].
              + assert (i < length es)%nat.
                { injection Hl as Hl. rewrite Hl. apply nth_error_Some. congruence. }
                apply Hle. apply nth_In; auto. }
        * assert (Hbe : e < evB b) by (specialize (Hge b (or_introl eq_refl)); lia).
          destruct i as [|i]; simpl in *.
          { injection Hm as ->. f_equal. destruct (Z.eq_dec e e); [|congruence].
            rewrite <- (filter_drop_lt e e cur Hs) by lia. rewrite Hd.
            rewrite filter_none; [reflexivity|].
            intros x Hx. apply sorted_by_inv in Hs'. destruct Hs' as [_ Hs'].
            apply Z.eqb_neq. destruct Hx as [<-|Hx]; [auto|]. specialize (Hs' x Hx). lia. }
          { rewrite IH with (m := m); auto. cbv zeta. f_equal.
            set (e' := nth i es 0).
            assert (Hlt2 : (i < length es)%nat).
            { injection Hl as Hl. rewrite Hl. apply nth_error_Some. congruence. }
            assert (Hee : e <= e') by (apply Hle; apply nth_In; auto).
            rewrite <- (filter_drop_lt e e' cur Hs) by lia. rewrite Hd.
            destruct (Z.eq_dec e e') as [<-|Hne]; [|reflexivity].
            rewrite (filter_none _ (b :: r)).
            - destruct (count_occ _ _ _); reflexivity.
            - intros x Hx. apply sorted_by_inv in Hs'. destruct Hs' as [_ Hs'].
              apply Z.eqb_neq. destruct Hx as [<-|Hx]; [auto|]. specialize (Hs' x Hx). lia. }
  Qed.
End Rows.

(** Entries of [l] at the positions where the axis [events] has the value [e]. *)
Definition select {T} (e : Z) (events : list Z) (l : list T) : list T :=
  map snd (filter (fun p => fst p =? e) (combine events l)).

Lemma select_cons {T} e x events (y : T) l :
  select e (x :: events) (y :: l) = if x =? e then y :: select e events l else select e events l.
Proof. unfold select. simpl. destruct (x =? e); reflexivity. Qed.

Lemma select_notin {T} e events : forall (l : list T),
  ~ In e events -> select e events l = [].
Proof.
  induction events as [|x es IH]; intros l H; [reflexivity|].
  destruct l as [|y l]; [reflexivity|]. rewrite select_cons.
  destruct (Z.eqb_spec x e) as [->|]; [exfalso; apply H; left; auto|].
  apply IH. intros Hin; apply H; right; auto.
Qed.

Lemma select_length {T} e events : forall (l : list T), length events = length l ->
  length (select e events l) = count_occ Z.eq_dec events e.
Proof.
  induction events as [|x es IH]; intros l H; [reflexivity|].
  destruct l as [|y l]; [discriminate|]. rewrite select_cons. simpl.
  destruct (Z.eq_dec x e) as [->|Hne].
  - rewrite Z.eqb_refl. simpl. f_equal. apply IH; auto.
  - destruct (Z.eqb_spec x e); [congruence|]. apply IH; auto.
Qed.

Lemma map_cluster_select {B} (evB : B -> Z) events : forall cur mapped,
  sorted_by evB cur -> sortedZ events -> length events = length mapped ->
  forall e, let C := filter (fun c => evB c =? e) cur in
  select e events (map_cluster evB events cur mapped) =
  firstn (count_occ Z.eq_dec events e) C ++ skipn (length C) (select e events mapped).
Proof.
  induction events as [|e0 es IH]; intros cur mapped Hs He Hl e C.
  - unfold select; simpl. rewrite skipn_nil. reflexivity.
  - destruct mapped as [|m0 ms]; [discriminate|]. injection Hl as Hl.
    apply sortedZ_inv in He. destruct He as [He Hle].
    destruct (Z_lt_le_dec e e0) as [Hlt|Hge0].
    { assert (Hni : ~ In e (e0 :: es)).
      { intros [->|Hin]; [lia|]. specialize (Hle e Hin). lia. }
      rewrite !select_notin by auto. rewrite skipn_nil, app_nil_r.
      rewrite (proj1 (count_occ_not_In Z.eq_dec _ _) Hni). reflexivity. }
    simpl map_cluster.
    assert (HC : C = filter (fun c => evB c =? e) (drop_lt evB e0 cur))
      by (symmetry; apply filter_drop_lt; auto).
    destruct (drop_lt evB e0 cur) as [|b r] eqn:Hd.
    { simpl in HC. rewrite HC. simpl. rewrite firstn_nil. reflexivity. }
    pose proof (drop_lt_sorted_by evB e0 cur Hs) as Hs'. rewrite Hd in Hs'.
    destruct (drop_lt_sorted evB e0 cur Hs) as (p & _ & _ & Hge). rewrite Hd in Hge.
    destruct (sorted_by_inv _ _ _ Hs') as [Hsr Hbr].
    destruct (Z.eqb_spec (evB b) e0) as [Hb|Hb].
    + rewrite !select_cons. simpl count_occ.
      destruct (Z.eqb_spec e0 e) as [->|Hne].
      * destruct (Z.eq_dec e e); [|congruence].
        rewrite HC. simpl. rewrite Hb, Z.eqb_refl. simpl.
        f_equal. apply IH; auto.
      * destruct (Z.eq_dec e0 e); [congruence|].
        rewrite HC. simpl. destruct (Z.eqb_spec (evB b) e); [congruence|].
        apply IH; auto.
    + assert (Hlt : e0 < evB b) by (specialize (Hge b (or_introl eq_refl)); lia).
      rewrite !select_cons. simpl count_occ.
      destruct (Z.eqb_spec e0 e) as [->|Hne].
      * destruct (Z.eq_dec e e); [|congruence].
        assert (HN : filter (fun c => evB c =? e) (b :: r) = []).
        { apply filter_none. intros x [<-|Hx]; apply Z.eqb_neq; [lia|].
          specialize (Hbr x Hx). lia. }
        rewrite HC, HN. simpl. f_equal. rewrite IH by auto. cbv zeta. rewrite HN.
        rewrite firstn_nil. reflexivity.
      * destruct (Z.eq_dec e0 e); [congruence|].
        rewrite HC. apply IH; auto.
Qed.
