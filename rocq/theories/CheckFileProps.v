(** Property C121: the checks and the event numbers of check_file. *)
From Coq Require Import ZArith Reals Lra String List Arith Bool Lia Sorted.
From Verif Require Import GeometryModel GeometryProofs GeometryProps SensorProps CorrelateModel CorrelateBinsProps CheckFileModel.
Import ListNotations.
Local Open Scope list_scope.
Local Open Scope Z_scope.

(** ** Specification *)
(** event numbers that do not decrease, the first one not below [last] *)
Definition ordered (last : Z) (events : list Z) : Prop := StronglySorted Z.le (last :: events).
(** chunks are not empty, and an event is in one chunk *)
Definition aligned (chunks : list (list krow)) : Prop :=
  (forall c, In c chunks -> c <> []) /\
  forall a c b d f e, chunks = a ++ c :: b -> In d b -> In e c -> In f d -> k_event e < k_event f.
Definition in_pixels (s : sensor) (r : krow) : Prop := 1 <= k_column r <= Z.of_nat (n_columns s) /\ 1 <= k_row r <= Z.of_nat (n_rows s).
Definition in_area (s : sensor) (r : krow) : Prop := (fst (x_extent s) <= k_x r <= snd (x_extent s) /\ fst (y_extent s) <= k_y r <= snd (y_extent s))%R.

Lemma last_some (l : list Z) d d' : l <> [] -> List.last l d = List.last l d'.
Proof. intros N. induction l as [|a l IH]; [congruence|]. destruct l as [|b l]; [reflexivity|]. change (List.last (b :: l) d = List.last (b :: l) d'). apply IH. discriminate. Qed.
Lemma nondecreasing_spec : forall events last, nondecreasing last events = true <-> ordered last events.
Proof.
  unfold ordered. induction events as [|e events IH]; intros last; cbn [nondecreasing].
  - split; [intros _; repeat constructor|reflexivity].
  - rewrite andb_true_iff, IH, Z.leb_le. split.
    + intros [H1 H2]. constructor; [exact H2|]. inversion H2 as [|? ? S1 S2]; subst. constructor; [lia|]. eapply Forall_impl; [|exact S2]. cbn. intros; lia.
    + intros H. inversion H as [|? ? S1 S2]; subst. split; [inversion S2; subst; lia|exact S1].
Qed.
Lemma ordered_app last a b : ordered last (a ++ b) <-> ordered last a /\ ordered (List.last a last) b /\ (forall x y, In x (last :: a) -> In y b -> x <= y).
Proof.
  unfold ordered. revert last. induction a as [|e a IH]; intros last.
  - cbn [app List.last]. split; [intros H; split; [repeat constructor|]|tauto]. split; [exact H|]. intros x y [<-|[]] Hy. inversion H as [|? ? S1 S2]; subst. rewrite Forall_forall in S2. auto.
  - change ((e :: a) ++ b) with (e :: (a ++ b)). assert (L : List.last (e :: a) last = List.last a e). { destruct a as [|f a]; [reflexivity|]. change (List.last (f :: a) last = List.last (f :: a) e). apply last_some. discriminate. }
    rewrite L. split.
    + intros H. inversion H as [|? ? S1 S2]; subst. apply IH in S1. destruct S1 as (A1 & A2 & A3). rewrite Forall_forall in S2. split; [constructor; [exact A1|]|].
      * apply Forall_forall. intros x Hx. apply S2. destruct Hx as [<-|Hx]; [left; reflexivity|]. right. apply in_or_app. left. exact Hx.
      * split; [exact A2|]. intros x y [<-|Hx] Hy; [apply S2; right; apply in_or_app; right; exact Hy|auto].
    + intros (A1 & A2 & A3). inversion A1 as [|? ? S1 S2]; subst. constructor; [apply IH; split; [exact S1|]; split; [exact A2|]; intros x y Hx Hy; apply A3; [right; exact Hx|exact Hy]|].
      rewrite Forall_forall in *. intros x [<-|Hx]; [apply S2; left; reflexivity|]. apply in_app_or in Hx. destruct Hx as [Hx|Hx]; [apply S2; right; exact Hx|apply A3; [left; reflexivity|exact Hx]].
Qed.
Lemma unique_last : forall events d, List.last (unique_events events) d = List.last events d.
Proof.
  induction events as [|e events IH]; intros d; [reflexivity|]. cbn [unique_events]. destruct events as [|f events]; [reflexivity|]. destruct (e =? f); [exact (IH d)|].
  assert (N : unique_events (f :: events) <> []). { clear. revert f. induction events as [|g events IH]; intros f; [discriminate|]. cbn [unique_events]. destruct (f =? g); [apply IH|discriminate]. }
  specialize (IH d). destruct (unique_events (f :: events)) as [|u l]; [congruence|]. exact IH.
Qed.
Lemma unique_in : forall events e, In e (unique_events events) <-> In e events.
Proof.
  induction events as [|a events IH]; intros e; [reflexivity|]. cbn [unique_events]. destruct events as [|f events]; [reflexivity|]. destruct (Z.eqb_spec a f) as [E|E].
  - rewrite IH. subst f. cbn [In]. tauto.
  - cbn [In] in *. rewrite IH. tauto.
Qed.
Lemma unique_sorted : forall events last, ordered last events -> StronglySorted Z.lt (unique_events events).
Proof.
  induction events as [|a events IH]; intros last H; [constructor|]. cbn [unique_events]. inversion H as [|? ? S1 S2]; subst. destruct events as [|f events]; [repeat constructor|].
  assert (O : ordered a (f :: events)) by exact S1. destruct (Z.eqb_spec a f) as [E|E]; [exact (IH a O)|]. constructor; [exact (IH a O)|]. apply Forall_forall. intros x Hx. rewrite unique_in in Hx.
  inversion S1 as [|? ? T1 T2]; subst. rewrite Forall_forall in T2. assert (a <= f) by (apply T2; left; reflexivity). inversion T1 as [|? ? U1 U2]; subst. rewrite Forall_forall in U2. destruct Hx as [<-|Hx]; [lia|]. specialize (U2 x Hx). lia.
Qed.

(** what is accepted for each row *)
Definition row_accepted (s : sensor) (names : list string) (r : krow) : Prop := if positions_used names then in_area s r else in_pixels s r.
Definition has_columns (names : list string) : Prop :=
  if positions_used names then named "x" names = true /\ named "y" names = true else named "column" names = true /\ named "row" names = true.
Lemma check_chunk_ok s names last rows : check_chunk s names last rows = inr tt <-> has_columns names /\ ordered last (map k_event rows) /\ forall r, In r rows -> row_accepted s names r.
Proof.
  unfold check_chunk, has_columns, row_accepted. rewrite <- nondecreasing_spec. destruct (nondecreasing last (map k_event rows)); cbn [negb]; [|split; [discriminate|intros (_ & X & _); discriminate]].
  assert (EX : forall f : krow -> bool, existsb f rows = false <-> forall r, In r rows -> f r = false).
  { intros f. rewrite <- not_true_iff_false, existsb_exists. split; intros H r.
    - intros Hr. apply not_true_iff_false. intros X. apply H. exists r. auto.
    - destruct r as (r & Hr & X). rewrite (H r Hr) in X. discriminate. }
  destruct (positions_used names).
  - destruct (named "x" names); [|cbn; split; [discriminate|intros ((X & _) & _); discriminate]]. destruct (named "y" names); [|cbn; split; [discriminate|intros ((_ & X) & _); discriminate]]. cbn [andb].
    destruct (existsb _ rows) eqn:E1.
    + split; [discriminate|]. intros (_ & _ & H). apply existsb_exists in E1. destruct E1 as (r & Hr & X). specialize (H r Hr). unfold in_area in H. apply orb_prop in X. destruct X as [X|X]; apply Rltb_true in X; lra.
    + destruct (existsb (fun r => Rltb (k_y r) _ || _) rows) eqn:E2.
      * split; [discriminate|]. intros (_ & _ & H). apply existsb_exists in E2. destruct E2 as (r & Hr & X). specialize (H r Hr). unfold in_area in H. apply orb_prop in X. destruct X as [X|X]; apply Rltb_true in X; lra.
      * split; [|reflexivity]. intros _. split; [auto|]. split; [reflexivity|]. rewrite EX in E1, E2. intros r Hr. specialize (E1 r Hr). specialize (E2 r Hr). apply orb_false_elim in E1, E2. destruct E1 as [A1 A2], E2 as [B1 B2].
        apply Rltb_false in A1, A2, B1, B2. unfold in_area. lra.
  - destruct (named "column" names); [|cbn; split; [discriminate|intros ((X & _) & _); discriminate]]. destruct (named "row" names); [|cbn; split; [discriminate|intros ((_ & X) & _); discriminate]]. cbn [andb].
    destruct (existsb _ rows) eqn:E1.
    + split; [discriminate|]. intros (_ & _ & H). apply existsb_exists in E1. destruct E1 as (r & Hr & X). specialize (H r Hr). unfold in_pixels in H. apply orb_prop in X. destruct X as [X|X]; apply Z.ltb_lt in X; lia.
    + destruct (existsb (fun r => (Z.of_nat _ <? k_column r) || _) rows) eqn:E2.
      * split; [discriminate|]. intros (_ & _ & H). apply existsb_exists in E2. destruct E2 as (r & Hr & X). specialize (H r Hr). unfold in_pixels in H. apply orb_prop in X. destruct X as [X|X]; apply Z.ltb_lt in X; lia.
      * split; [|reflexivity]. intros _. split; [auto|]. split; [reflexivity|]. rewrite EX in E1, E2. intros r Hr. specialize (E1 r Hr). specialize (E2 r Hr). apply orb_false_elim in E1, E2. destruct E1 as [A1 A2], E2 as [B1 B2].
        apply Z.ltb_ge in A1, A2, B1, B2. unfold in_pixels. lia.
Qed.
Lemma check_chunks_ok s names : forall chunks last le, (forall c, In c chunks -> c <> []) -> has_columns names ->
  ((exists r, check_chunks s names last le chunks = inr r) <-> ordered last (map k_event (concat chunks)) /\ forall r, In r (concat chunks) -> row_accepted s names r).
Proof.
  induction chunks as [|c chunks IH]; intros last le N HC.
  - cbn. split; [intros _; split; [repeat constructor|intros r []]|eauto].
  - cbn [check_chunks concat]. rewrite map_app, ordered_app. assert (Nc : c <> []) by (apply N; left; reflexivity).
    destruct (chunk_events le (map k_event c)) as [delta numbers] eqn:CE. assert (Nu : numbers = unique_events (map k_event c)) by (unfold chunk_events in CE; congruence).
    assert (L : List.last numbers 0 = List.last (map k_event c) last) by (rewrite Nu, unique_last; apply last_some; destruct c; [congruence|discriminate]). rewrite L. clear CE Nu L.
    specialize (IH (List.last (map k_event c) last) (Some (List.last (map k_event c) last)) (fun d Hd => N d (or_intror Hd)) HC).
    destruct (check_chunk s names last c) as [e|[]] eqn:E.
    + split; [intros (r & X); discriminate|]. intros ((A1 & A2 & A3) & A4). exfalso. assert (X : check_chunk s names last c = inr tt) by (apply check_chunk_ok; split; [exact HC|]; split; [exact A1|]; intros r Hr; apply A4, in_or_app; auto). congruence.
    + apply check_chunk_ok in E. destruct E as (_ & E1 & E2). split.
      * intros (r & X). destruct (check_chunks s names _ _ chunks) as [e|[d n]] eqn:Y; [discriminate|]. destruct (proj1 IH (ex_intro _ (d, n) eq_refl)) as [B1 B2]. split.
        -- split; [exact E1|]. split; [exact B1|]. intros x y Hx Hy. unfold ordered in E1, B1. inversion B1 as [|? ? S1 S2]; subst. rewrite Forall_forall in S2. specialize (S2 y Hy).
           assert (x <= List.last (map k_event c) last); [|lia]. clear -E1 Hx. revert last E1 x Hx. generalize (map k_event c). intros l. induction l as [|a l IH]; intros last E1 x Hx.
           ++ destruct Hx as [<-|[]]. cbn. lia.
           ++ assert (La : List.last (a :: l) last = List.last l a). { clear. revert a. induction l as [|b l IH]; intros a; [reflexivity|]. change (List.last (b :: l) last = List.last (b :: l) a). apply last_some. discriminate. }
              rewrite La. inversion E1 as [|? ? S1 S2]; subst. destruct Hx as [<-|Hx]; [|exact (IH a S1 x Hx)]. rewrite Forall_forall in S2. specialize (IH a S1 a (or_introl eq_refl)). specialize (S2 a (or_introl eq_refl)). lia.
        -- intros q Hq. apply in_app_or in Hq. destruct Hq; auto.
      * intros ((A1 & A2 & A3) & A4). destruct (proj2 IH) as (r & Y); [split; [exact A2|intros q Hq; apply A4, in_or_app; auto]|]. rewrite Y. destruct r as [d n]. eauto.
Qed.

(** A table of hits is accepted exactly if its event numbers are not negative and do not decrease and if all hits are on the sensor: columns and rows from 1 to their
    number, or positions inside of the sensor, borders included.  The result does not depend on the chunks. *)
Theorem C121_accepted : forall s names chunks, (forall c, In c chunks -> c <> []) -> has_columns names ->
  ((exists r, check_file s names chunks = inr r) <-> ordered 0 (map k_event (concat chunks)) /\ forall r, In r (concat chunks) -> row_accepted s names r).
Proof. intros. apply check_chunks_ok; assumption. Qed.

Lemma unique_app : forall a b, (forall x y, In x a -> In y b -> x < y) -> unique_events (a ++ b) = unique_events a ++ unique_events b.
Proof.
  induction a as [|e a IH]; intros b H; [reflexivity|]. cbn [app unique_events]. assert (IH' := IH b (fun x y Hx Hy => H x y (or_intror Hx) Hy)). destruct a as [|f a].
  - cbn [app] in *. destruct b as [|g b]; [reflexivity|]. specialize (H e g (or_introl eq_refl) (or_introl eq_refl)). destruct (Z.eqb_spec e g); [lia|]. reflexivity.
  - cbn [app] in *. rewrite IH'. destruct (e =? f); reflexivity.
Qed.
Lemma diff_app : forall a b, a <> [] -> b <> [] -> diff (a ++ b) = diff a ++ (hd 0 b - List.last a 0) :: diff b.
Proof.
  induction a as [|x a IH]; intros b Na Nb; [congruence|]. destruct a as [|y a].
  - cbn [app List.last]. destruct b as [|z b]; [congruence|]. reflexivity.
  - change (diff ((x :: y :: a) ++ b)) with ((y - x) :: diff ((y :: a) ++ b)). rewrite IH by (try discriminate; exact Nb). reflexivity.
Qed.
Lemma unique_nonempty events : events <> [] -> unique_events events <> [].
Proof. intros N X. destruct events as [|e l]; [congruence|]. assert (I : In e (unique_events (e :: l))) by (apply unique_in; left; reflexivity). rewrite X in I. destruct I. Qed.
Lemma events_spec s names : forall chunks last le d n, aligned chunks -> check_chunks s names last le chunks = inr (d, n) ->
  (forall c, In c (removelast chunks) -> List.last (map k_event c) 0 <> 0) -> le <> Some 0 ->
  n = unique_events (map k_event (concat chunks)) /\ d = match le, n with Some l, f :: _ => (f - l) :: diff n | _, _ => diff n end.
Proof.
  induction chunks as [|c chunks IH]; intros last le d n A H NZ L0.
  - cbn in H. injection H as <- <-. destruct le; split; reflexivity.
  - cbn [check_chunks] in H. destruct (check_chunk s names last c) as [e|[]]; [discriminate|]. unfold chunk_events in H.
    set (numbers := unique_events (map k_event c)) in *. assert (Nc : map k_event c <> []) by (destruct A as [A _]; specialize (A c (or_introl eq_refl)); destruct c; [congruence|discriminate]).
    assert (Nn : numbers <> []) by (apply unique_nonempty; exact Nc).
    destruct (check_chunks s names _ _ chunks) as [e|[d' n']] eqn:Y; [discriminate|]. injection H as <- <-.
    assert (A' : aligned chunks). { destruct A as [A1 A2]. split; [intros q Hq; apply A1; right; exact Hq|]. intros a q b dd f e Eq. apply (A2 (c :: a) q b dd f e). cbn. rewrite Eq. reflexivity. }
    cbn [concat]. rewrite map_app, unique_app; cycle 1.
    { intros x y Hx Hy. apply in_map_iff in Hx, Hy. destruct Hx as (e & <- & He), Hy as (f & <- & Hf). apply in_concat in Hf. destruct Hf as (q & Hq & Hf). destruct A as [_ A2]. apply (A2 [] c chunks q f e eq_refl Hq He Hf). }
    fold numbers. destruct chunks as [|c2 chunks].
    + cbn in Y. injection Y as <- <-. cbn [concat map unique_events]. rewrite !app_nil_r. split; [reflexivity|]. destruct le as [l|]; [|reflexivity]. destruct (Z.eqb_spec l 0); [congruence|]. destruct numbers; [congruence|reflexivity].
    + assert (La : List.last numbers 0 <> 0). { unfold numbers. rewrite unique_last. apply NZ. left. reflexivity. }
      destruct (IH _ _ _ _ A' Y) as [I1 I2]; [intros q Hq; apply NZ; right; exact Hq|congruence|]. split; [rewrite I1; reflexivity|].
      assert (Nn' : n' <> []). { rewrite I1. apply unique_nonempty. destruct A' as [A1 _]. specialize (A1 c2 (or_introl eq_refl)). destruct c2; [congruence|discriminate]. }
      rewrite I2. destruct n' as [|f n']; [congruence|]. destruct le as [l|].
      * destruct (Z.eqb_spec l 0); [congruence|]. clearbody numbers. destruct numbers as [|g nums]; [congruence|]. cbn [app hd]. f_equal. change (g :: nums ++ f :: n') with ((g :: nums) ++ f :: n'). rewrite diff_app by discriminate. reflexivity.
      * rewrite diff_app by (assumption || discriminate). clearbody numbers. destruct numbers; [congruence|reflexivity].
Qed.

(** The event numbers written are the numbers of the events with hits, each once and increasing, and the differences are those of consecutive ones: for all chunks, if no chunk but the
    last one ends with event 0. *)
Theorem C121_events : forall s names chunks d n, aligned chunks -> check_file s names chunks = inr (d, n) -> (forall c, In c (removelast chunks) -> List.last (map k_event c) 0 <> 0) ->
  StronglySorted Z.lt n /\ (forall e, In e n <-> exists r, In r (concat chunks) /\ k_event r = e) /\
  length d = (length n - 1)%nat /\ forall k a b, nth_error n k = Some a -> nth_error n (S k) = Some b -> nth_error d k = Some (b - a).
Proof.
  intros s names chunks d n A H NZ. destruct (events_spec s names chunks 0 None d n A H NZ ltac:(discriminate)) as [E1 E2]. subst d.
  assert (HO : ordered 0 (map k_event (concat chunks))).
  { destruct chunks as [|c chunks]; [repeat constructor|]. assert (HC : has_columns names). { unfold check_file in H. cbn [check_chunks] in H. destruct (check_chunk s names 0 c) as [e|[]] eqn:X; [discriminate|]. apply check_chunk_ok in X. tauto. }
    apply (proj1 (C121_accepted s names (c :: chunks) (proj1 A) HC) (ex_intro _ _ H)). }
  split; [rewrite E1; apply (unique_sorted _ _ HO)|]. split; [|split].
  - intros e. rewrite E1, unique_in, in_map_iff. split; intros (r & X & Y); eauto.
  - clear. induction n as [|a n IH]; [reflexivity|]. destruct n as [|b n]; [reflexivity|]. cbn in *. rewrite IH. lia.
  - clear. induction n as [|a n IH]; intros [|k] x y Hx Hy; cbn in Hx; try discriminate.
    + injection Hx as ->. destruct n as [|b n]; [discriminate|]. cbn in Hy. injection Hy as ->. reflexivity.
    + destruct n as [|b n]; [destruct k; discriminate|]. change (nth_error (diff (b :: n)) k = Some (y - x)). apply IH; [exact Hx|exact Hy].
Qed.
(** If the first chunk holds event 0 only, the difference between the first two events is missing. *)
Theorem C121_zero_refuted : exists s names chunks d n, aligned chunks /\ check_file s names chunks = inr (d, n) /\ n = [0; 5; 7] /\ d = [2].
Proof.
  set (s := Sensor 1 1 2 2 (Placement 0 0 0 0 0 0)). set (r := fun e => KRow e 1 2 0 0). exists s, ["column"; "row"]%string, [[r 0; r 0]; [r 5; r 7]], [2], [0; 5; 7]. split; [|repeat split; reflexivity]. split.
  - intros c [<-|[<-|[]]]; discriminate.
  - intros a c b d f e E Hd He Hf. destruct a as [|x [|y a]]; cbn in E.
    + injection E as <- <-. destruct Hd as [<-|[]]. destruct He as [<-|[<-|[]]], Hf as [<-|[<-|[]]]; cbn; lia.
    + injection E as <- <- <-. destruct Hd.
    + injection E as _ _ E. destruct a; discriminate.
Qed.
(** A table of clusters, as cluster_hits writes it, cannot be checked: the columns that are checked are those of hits. *)
Theorem C121_clusters_refuted : forall s positions hits c chunks, c <> [] ->
  choose_table (Some (cluster_names positions)) hits = Some (cluster_names positions, true) /\
  forall r, check_file s (cluster_names positions) (c :: chunks) <> inr r.
Proof.
  intros s positions hits c chunks N. assert (G : forall r, check_file s (cluster_names positions) (c :: chunks) <> inr r).
  { intros r X. unfold check_file in X. cbn [check_chunks] in X. destruct (check_chunk s (cluster_names positions) 0 c) as [e|[]] eqn:Y; [discriminate|]. apply check_chunk_ok in Y. destruct Y as (Y & _). destruct positions; destruct Y as [Y _]; discriminate. }
  split; [reflexivity|exact G].
Qed.
(** A table with mean positions but without hit positions is refused even if it has the indices of hits: the error is that of the missing column. *)
Theorem C121_mean_positions : forall s names c chunks, ordered 0 (map k_event c) -> In "mean_x"%string names -> ~ In "x"%string names -> check_file s names (c :: chunks) = inl FieldErr.
Proof.
  intros s names c chunks Ho Hm Hx. unfold check_file. cbn [check_chunks]. replace (check_chunk s names 0 c) with (@inl check_error unit FieldErr); [reflexivity|]. unfold check_chunk.
  replace (nondecreasing 0 (map k_event c)) with true by (symmetry; apply nondecreasing_spec; exact Ho). cbn [negb].
  assert (M : named "mean_x" names = true) by (apply existsb_exists; exists "mean_x"%string; split; [exact Hm|apply String.eqb_refl]).
  assert (X : named "x" names = false) by (destruct (named "x" names) eqn:E; [|reflexivity]; apply existsb_exists in E as (n & I & E); apply String.eqb_eq in E; subst n; contradiction).
  unfold positions_used. rewrite M, X. reflexivity.
Qed.
Example C121_case_mean : ordered 0 (map k_event [KRow 1 1 1 0 0]) /\ In "mean_x"%string ["column"; "row"; "mean_x"]%string /\ ~ In "x"%string ["column"; "row"; "mean_x"]%string.
Proof. split; [apply nondecreasing_spec; reflexivity|]. split; [cbn; tauto|]. cbn. intuition discriminate. Qed.
(** A position outside of the sensor is found, but the message of the error cannot be made: the error is a TypeError. *)
Theorem C121_message_refuted : forall s c chunks r, ordered 0 (map k_event c) -> In r c -> ~ in_area s r -> check_file s ["event_number"; "x"; "y"]%string (c :: chunks) = inl MessageErr.
Proof.
  intros s c chunks r Ho Hr Na. unfold check_file. cbn [check_chunks]. replace (check_chunk s ["event_number"; "x"; "y"]%string 0 c) with (@inl check_error unit MessageErr); [reflexivity|]. unfold check_chunk.
  rewrite (proj2 (nondecreasing_spec _ _) Ho). cbn [negb positions_used named existsb String.eqb orb andb]. cbn. destruct (existsb _ c) eqn:E1; [reflexivity|]. destruct (existsb (fun r => Rltb (k_y r) _ || _) c) eqn:E2; [reflexivity|]. exfalso.
  apply not_true_iff_false in E1, E2. apply Na. unfold in_area.
  assert (B1 : Rltb (k_x r) (fst (x_extent s)) || Rltb (snd (x_extent s)) (k_x r) = false) by (apply not_true_iff_false; intros X; apply E1, existsb_exists; eauto).
  assert (B2 : Rltb (k_y r) (fst (y_extent s)) || Rltb (snd (y_extent s)) (k_y r) = false) by (apply not_true_iff_false; intros X; apply E2, existsb_exists; eauto).
  apply orb_false_elim in B1, B2. destruct B1 as [X1 X2], B2 as [Y1 Y2]. apply Rltb_false in X1, X2, Y1, Y2. lra.
Qed.

Local Open Scope R_scope.
Definition inside (s : sensor) (resolution : R * R) (p : R * R) : Prop :=
  (0 <= fst (indices_of s resolution p) < fst (shape_of s resolution))%Z /\ (0 <= snd (indices_of s resolution p) < snd (shape_of s resolution))%Z.
Lemma inside_area s resolution x y : pitches_positive s -> 0 < fst resolution -> 0 < snd resolution ->
  fst (x_extent s) <= x < snd (x_extent s) -> fst (y_extent s) <= y < snd (y_extent s) -> inside s resolution (x, y).
Proof.
  intros P R1 R2 X Y. destruct (C31_extent s P) as [E1 E2]. unfold inside, indices_of, shape_of. rewrite E1, E2 in *. cbn [fst snd] in *.
  set (w := INR (n_columns s) * column_size s / 2) in *. set (h := INR (n_rows s) * row_size s / 2) in *.
  destruct (bin_in_range 0 w (fst resolution) x R1 ltac:(lra)) as [B1 _]. destruct (bin_in_range 0 h (snd resolution) y R2 ltac:(lra)) as [B2 _].
  cbn zeta in B1, B2. rewrite !Rminus_0_l, !Rplus_0_l in B1, B2. split; assumption.
Qed.
(** The hits that pass the checks have bins in the histograms: all hits given by column and row; those given by position unless they are exactly at the upper border. *)
Theorem C121_bins : forall s names resolution r p, pitches_positive s -> 0 < fst resolution -> 0 < snd resolution -> row_accepted s names r -> position_of s names r = Some p ->
  (positions_used names = true -> k_x r <> snd (x_extent s) /\ k_y r <> snd (y_extent s)) -> inside s resolution p.
Proof.
  intros s names resolution r p P R1 R2 A H E. unfold row_accepted, position_of in *. destruct (positions_used names).
  - injection H as <-. destruct (E eq_refl). unfold in_area in A. apply inside_area; auto; lra.
  - unfold index_to_local in H. destruct (_ && _); [|discriminate]. injection H as <-. unfold in_pixels in A. destruct (C31_extent s P) as [E1 E2]. destruct P as [P1 P2]. destruct A as [[A1 A2] [B1 B2]].
    apply IZR_le in A1, A2, B1, B2. rewrite <- INR_IZR_INZ in A2, B2. unfold vx, vy. cbn [fst snd]. apply inside_area; auto; [split; assumption| |]; [rewrite E1|rewrite E2]; cbn [fst snd]; split; nra.
Qed.
(** A position exactly at the upper border passes the checks, but its bin is outside of the histogram if the size of the sensor is a multiple of the resolution. *)
Theorem C121_border_refuted : forall s resolution k r, pitches_positive s -> 0 < fst resolution -> (0 <= k)%Z -> snd (x_extent s) - fst (x_extent s) = IZR k * fst resolution ->
  k_x r = snd (x_extent s) -> fst (indices_of s resolution (k_x r, k_y r)) = fst (shape_of s resolution).
Proof.
  intros s resolution k r P R1 K E X. destruct (C31_extent s P) as [E1 _]. unfold indices_of, shape_of. cbn [fst]. rewrite X, E1 in *. cbn [fst snd] in *. set (w := INR (n_columns s) * column_size s / 2) in *.
  assert (N : n_bins (- w) w (fst resolution) = k).
  { unfold n_bins, ceil. replace ((w - - w) / fst resolution) with (IZR k) by (rewrite E; field; lra). rewrite <- opp_IZR. assert (F : Int_part (IZR (- k)) = (- k)%Z); [|lia].
    apply Z.le_antisymm; [|apply floor_ge; lra]. assert (Int_part (IZR (- k)) < - k + 1)%Z; [|lia]. apply floor_lt. rewrite plus_IZR. lra. }
  rewrite N. unfold bin_index, lower_edge. rewrite N. replace ((w - (0 - IZR k * fst resolution / 2)) / fst resolution) with (IZR k); [|replace w with (IZR k * fst resolution / 2) by lra; field; lra].
  apply Z.le_antisymm; [|apply floor_ge; lra]. assert (Int_part (IZR k) < k + 1)%Z; [|lia]. apply floor_lt. rewrite plus_IZR. lra.
Qed.

Local Open Scope Z_scope.
Example C121_case : let s := Sensor 1 1 5 5 (Placement 0 0 0 0 0 0) in let r := fun e c => KRow e c 2 0 0 in
  check_file s ["column"; "row"]%string [[r 1 2; r 1 5]; [r 4 1; r 9 2]] = inr ([3; 5], [1; 4; 9]) /\ check_file s ["column"; "row"]%string [[r 1 2; r 1 6]] = inl CheckErr /\
  check_file s ["column"; "row"]%string [[r 4 2]; [r 3 1]] = inl CheckErr /\ has_columns ["column"; "row"]%string.
Proof. repeat split; reflexivity. Qed.
Example C121_case_border : let s := Sensor 250 50 80 336 (Placement 0 0 0 0 0 0) in pitches_positive s /\ in_area s (KRow 1 0 0 10000 0) /\ fst (indices_of s (250, 50)%R (10000, 0)%R) = fst (shape_of s (250, 50)%R).
Proof.
  intros s. assert (P : pitches_positive s) by (split; cbn; lra). destruct (C31_extent s P) as [E1 E2]. assert (I80 : INR (n_columns s) = 80%R) by (cbn [n_columns s]; rewrite INR_IZR_INZ; reflexivity). assert (I336 : INR (n_rows s) = 336%R) by (cbn [n_rows s]; rewrite INR_IZR_INZ; reflexivity).
  rewrite I80 in E1. rewrite I336 in E2. cbn [column_size row_size s] in E1, E2. fold s in E1, E2. split; [exact P|]. split; [unfold in_area; rewrite E1, E2; cbn; lra|].
  apply (C121_border_refuted s (250, 50)%R 80 (KRow 1 0 0 10000 0) P); [cbn; lra|lia|rewrite E1; cbn; lra|rewrite E1; cbn; lra].
Qed.

Print Assumptions C121_accepted.
Print Assumptions C121_events.
Print Assumptions C121_zero_refuted.
Print Assumptions C121_clusters_refuted.
Print Assumptions C121_mean_positions.
Print Assumptions C121_message_refuted.
Print Assumptions C121_bins.
Print Assumptions C121_border_refuted.
