(** C87: pairing of DUTs with their files and parameters. *)
From Coq Require Import String List Bool Arith Lia Sorted Permutation.
From Verif Require Import WrapperModel.
Import ListNotations.

(** Specification: the entry k of the selection, of the files and of the parameter belong together *)
Definition own {A B} (select : list nat) (files : list A) (values : list B) (call : nat * A * B) : Prop :=
  exists k, nth_error select k = Some (fst (fst call)) /\ nth_error files k = Some (snd (fst call)) /\ nth_error values k = Some (snd call).
Definition value_of {B} (s : setting B) (k : nat) : option B := match s with PerDut l => nth_error l k | ForAll v => Some v end.

Lemma existsb_eqb i l : existsb (Nat.eqb i) l = true <-> In i l.
Proof. rewrite existsb_exists. split; [intros (x & H & E); apply Nat.eqb_eq in E; congruence|intros H; exists i; rewrite Nat.eqb_refl; auto]. Qed.
Lemma selected_In n l d : In d (selected_telescope_duts n l) <-> In d l /\ d < n.
Proof. unfold selected_telescope_duts. rewrite filter_In, in_seq, existsb_eqb. intuition lia. Qed.
Lemma selected_sorted n l : StronglySorted lt (selected_telescope_duts n l).
Proof.
  unfold selected_telescope_duts. generalize 0 at 1. induction n as [|n IH]; intros s; cbn [seq filter]; [constructor|]. destruct (existsb _ _); auto. constructor; auto.
  rewrite Forall_forall. intros x H. apply filter_In in H. destruct H as [H _]. apply in_seq in H. lia.
Qed.
Lemma sorted_unique : forall l m, StronglySorted lt l -> StronglySorted lt m -> (forall x, In x l <-> In x m) -> l = m.
Proof.
  induction l as [|a l IH]; intros [|b m] Sl Sm H; auto.
  - destruct (proj2 (H b) (or_introl eq_refl)).
  - destruct (proj1 (H a) (or_introl eq_refl)).
  - inversion Sl as [|? ? Sl' Fl]; subst. inversion Sm as [|? ? Sm' Fm]; subst. rewrite Forall_forall in Fl, Fm.
    assert (a = b). { destruct (proj1 (H a) (or_introl eq_refl)) as [|Ha]; auto. destruct (proj2 (H b) (or_introl eq_refl)) as [|Hb]; auto. apply Fm in Ha. apply Fl in Hb. lia. }
    subst b. f_equal. apply IH; auto. intros x. specialize (H x). simpl in H. split; intros Hx.
    + destruct (proj1 H (or_intror Hx)) as [<-|]; auto. apply Fl in Hx. lia.
    + destruct (proj2 H (or_intror Hx)) as [<-|]; auto. apply Fm in Hx. lia.
Qed.
Lemma sorted_NoDup l : StronglySorted lt l -> NoDup l.
Proof. induction 1 as [|a l _ IH F]; constructor; auto. rewrite Forall_forall in F. intros H. apply F in H. lia. Qed.
Lemma selected_length n l : length (selected_telescope_duts n l) <= length l.
Proof. apply NoDup_incl_length; [apply sorted_NoDup, selected_sorted|]. intros x H. apply selected_In in H. tauto. Qed.
Lemma calls_spec {A B} (files : list A) (values : list B) duts : forall i, i + length duts <= length files -> i + length duts <= length values ->
  exists l, calls_from i duts files values = Some l /\ length l = length duts /\
  forall k c, nth_error l k = Some c <-> nth_error duts k = Some (fst (fst c)) /\ nth_error files (i + k) = Some (snd (fst c)) /\ nth_error values (i + k) = Some (snd c).
Proof.
  induction duts as [|d duts IH]; intros i Hf Hv; cbn [calls_from].
  - exists []. split; auto. split; auto. intros [|k] c; split; try discriminate; intros [? _]; discriminate.
  - simpl in *. destruct (nth_error files i) as [f|] eqn:Ef; [|apply nth_error_None in Ef; lia]. destruct (nth_error values i) as [v|] eqn:Ev; [|apply nth_error_None in Ev; lia].
    destruct (IH (S i)) as (l & -> & L & H); try lia. exists ((d, f, v) :: l). split; auto. split; [simpl; lia|]. intros [|k] c.
    + rewrite Nat.add_0_r, Ef, Ev. cbn [nth_error]. destruct c as [[d' f'] v']. cbn [fst snd]. split; [intros E; injection E as <- <- <-; auto|intros (E1 & E2 & E3); congruence].
    + cbn [nth_error]. rewrite H, Nat.add_succ_r. reflexivity.
Qed.
Lemma expand_spec {B} n (s : setting B) values : expand n s = Some values -> length values = n /\ forall k, k < n -> nth_error values k = value_of s k.
Proof.
  destruct s as [l|v]; cbn [expand value_of].
  - destruct (Nat.eqb_spec (length l) n); [|discriminate]. intros E. injection E as <-. auto.
  - intros E. injection E as <-. rewrite repeat_length. split; auto. intros k Hk. clear -Hk. revert k Hk. induction n as [|n IH]; intros [|k] Hk; simpl; try lia; auto. apply IH. lia.
Qed.
Lemma list_max_bound n l : negb (n <? list_max l) = true <-> forall x, In x l -> x <= n.
Proof. rewrite negb_true_iff, Nat.ltb_ge, list_max_le, Forall_forall. reflexivity. Qed.

Lemma nth_error_ext_ {A} (l m : list A) : (forall k, nth_error l k = nth_error m k) -> l = m.
Proof.
  revert m. induction l as [|a l IH]; intros [|b m] H; auto; pose proof (H 0) as H0; try discriminate. injection H0 as <-. f_equal. apply IH. intros k. apply (H (S k)).
Qed.

Section Wrapper.
  Context {A B : Type}.
  Variables (n : nat) (select : list nat) (files : list A) (s : setting B) (calls : list (nat * A * B)).
  Hypothesis W : wrapper n (Some select) files s = inr calls.

  Lemma wrapper_inv : exists values, expand (length select) s = Some values /\ length values = length select /\ length files = length select /\ length calls = length (selected_telescope_duts n select) /\
    forall k c, nth_error calls k = Some c <-> nth_error (selected_telescope_duts n select) k = Some (fst (fst c)) /\ nth_error files k = Some (snd (fst c)) /\ nth_error values k = Some (snd c).
  Proof.
    revert W. unfold wrapper. destruct (check_selection n select); [|discriminate]. cbn [negb]. destruct (Nat.eqb_spec (length select) (length files)) as [L|]; [|discriminate]. cbn [negb]. destruct (expand _ _) as [values|] eqn:E; [|discriminate].
    destruct (expand_spec _ _ _ E) as [Lv _]. pose proof (selected_length n select) as Ls.
    destruct (calls_spec files values (selected_telescope_duts n select) 0) as (l & -> & Ll & H); try lia. intros X. injection X as <-. exists values. repeat (split; auto).
  Qed.
  (** Each selected DUT of the telescope is processed once, in the order of the telescope. *)
  Theorem C87_duts : map (fun c => fst (fst c)) calls = selected_telescope_duts n select /\
    (forall d, In d (map (fun c => fst (fst c)) calls) <-> In d select /\ d < n) /\ StronglySorted lt (map (fun c => fst (fst c)) calls).
  Proof.
    destruct wrapper_inv as (values & _ & _ & _ & L & H). assert (E : map (fun c => fst (fst c)) calls = selected_telescope_duts n select).
    { apply nth_error_ext_. intros k. rewrite nth_error_map. destruct (nth_error calls k) as [c|] eqn:Ec; cbn [option_map].
      - apply H in Ec. symmetry. tauto.
      - apply nth_error_None in Ec. symmetry. apply nth_error_None. lia. }
    rewrite E. split; auto. split; [apply selected_In|apply selected_sorted].
  Qed.
  (** Every DUT gets its own file and parameters, if the selection is in the order of the telescope ... *)
  Theorem C87_paired : StronglySorted lt select -> (forall d, In d select -> d < n) ->
    length calls = length select /\ forall k d, nth_error select k = Some d -> exists f v, nth_error calls k = Some (d, f, v) /\ nth_error files k = Some f /\ value_of s k = Some v.
  Proof.
    intros So Lt. destruct wrapper_inv as (values & E & Lv & Lf & L & H).
    assert (Es : selected_telescope_duts n select = select). { apply sorted_unique; [apply selected_sorted|auto|]. intros x. rewrite selected_In. split; [tauto|auto]. }
    rewrite Es in *. split; auto. intros k d Hk. assert (k < length select) by (apply nth_error_Some; congruence).
    destruct (nth_error files k) as [f|] eqn:Ef; [|apply nth_error_None in Ef; lia]. destruct (expand_spec _ _ _ E) as [_ Ev]. rewrite <- Ev by auto.
    destruct (nth_error values k) as [v|] eqn:Ek; [|apply nth_error_None in Ek; lia]. exists f, v. split; auto. apply H. auto.
  Qed.
  (** ... and only then: for any other selection of different DUTs, a DUT is processed with the file of another one. *)
  Theorem C87_only_sorted : NoDup select -> (forall d, In d select -> d < n) -> ~ StronglySorted lt select ->
    exists k d d', nth_error select k = Some d /\ (exists f v, nth_error calls k = Some (d', f, v) /\ nth_error files k = Some f) /\ d <> d'.
  Proof.
    intros ND Lt NS. destruct wrapper_inv as (values & E & Lv & Lf & L & H).
    assert (P : Permutation (selected_telescope_duts n select) select). { apply NoDup_Permutation; auto; [apply sorted_NoDup, selected_sorted|]. intros x. rewrite selected_In. split; [tauto|auto]. }
    pose proof (Permutation_length P) as Lp.
    assert (D : exists k, k < length select /\ nth_error select k <> nth_error (selected_telescope_duts n select) k).
    { assert (Q : select <> selected_telescope_duts n select) by (intros Q; apply NS; rewrite Q; apply selected_sorted). clear -Q Lp. revert Q Lp. generalize (selected_telescope_duts n select) as m. induction select as [|a l IH]; intros [|b m] Q Lp; try discriminate; [contradiction|].
      destruct (Nat.eq_dec a b) as [<-|N]; [|exists 0; simpl; split; [lia|congruence]]. destruct (IH m) as (k & Hk & Nk); [congruence|simpl in Lp; lia|]. exists (S k). simpl. split; [lia|auto]. }
    destruct D as (k & Hk & Nk). destruct (nth_error select k) as [d|] eqn:Ed; [|apply nth_error_None in Ed; lia]. destruct (nth_error (selected_telescope_duts n select) k) as [d'|] eqn:Ed'; [|apply nth_error_None in Ed'; lia].
    destruct (nth_error files k) as [f|] eqn:Ef; [|apply nth_error_None in Ef; lia]. destruct (nth_error values k) as [v|] eqn:Ev; [|apply nth_error_None in Ev; lia].
    exists k, d, d'. split; auto. split; [|congruence]. exists f, v. split; auto. apply H. auto.
  Qed.
End Wrapper.
(** The call succeeds iff the lengths fit and the indices do not exceed the number of DUTs; the number of DUTs itself is accepted. *)
Theorem C87_succeeds {A B} n select (files : list A) (s : setting B) : (exists calls, wrapper n (Some select) files s = inr calls) <->
  select <> [] /\ (forall d, In d select -> d <= n) /\ length files = length select /\ (forall l, s = PerDut l -> length l = length select).
Proof.
  unfold wrapper, check_selection. destruct select as [|a l]; [split; [intros (? & ?); discriminate|intros ([] & _); auto]|]. rewrite <- list_max_bound. destruct (negb (n <? list_max (a :: l))) eqn:M; cbn [negb].
  - destruct (Nat.eqb_spec (length (a :: l)) (length files)) as [L|L]; cbn [negb]; [|split; [intros (? & ?); discriminate|intros (_ & _ & ? & _); congruence]].
    destruct (expand (length (a :: l)) s) as [values|] eqn:E.
    + destruct (expand_spec _ _ _ E) as [Lv _]. pose proof (selected_length n (a :: l)) as Ls. destruct (calls_spec files values (selected_telescope_duts n (a :: l)) 0) as (c & -> & _); try lia.
      split; [intros _|eauto]. split; [discriminate|]. split; auto. split; auto. intros m ->. cbn [expand] in E. destruct (Nat.eqb_spec (length m) (length (a :: l))); [auto|discriminate].
    + split; [intros (? & ?); discriminate|]. intros (_ & _ & _ & H). destruct s as [m|v]; [|discriminate]. cbn [expand] in E. rewrite (H m eq_refl), Nat.eqb_refl in E. discriminate.
  - split; [intros (? & ?); discriminate|intros (_ & ? & _); discriminate].
Qed.
(** A selection that contains the number of DUTs, or a DUT twice: files are ignored or used for another DUT. *)
Theorem C87_range_refuted : wrapper 2 (Some [2; 1]) ["file of 2"; "file of 1"]%string (ForAll tt) = inr [(1, "file of 2"%string, tt)] /\
  wrapper 3 (Some [0; 0; 2]) ["a"; "b"; "c"]%string (PerDut [7; 8; 9]) = inr [(0, "a"%string, 7); (2, "b"%string, 8)].
Proof. split; reflexivity. Qed.
Theorem C87_order_refuted : wrapper 3 (Some [2; 0]) ["file of 2"; "file of 0"]%string (PerDut [20; 0]) = inr [(0, "file of 2"%string, 20); (2, "file of 0"%string, 0)].
Proof. reflexivity. Qed.
Example C87_example : StronglySorted lt [0; 2] /\ wrapper 3 (Some [0; 2]) ["a"; "c"]%string (ForAll 5) = inr [(0, "a"%string, 5); (2, "c"%string, 5)].
Proof. split; [repeat constructor|reflexivity]. Qed.

Print Assumptions C87_duts.
Print Assumptions C87_paired.
Print Assumptions C87_only_sorted.
Print Assumptions C87_succeeds.
Print Assumptions C87_range_refuted.
Print Assumptions C87_order_refuted.
