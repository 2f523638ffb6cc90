(** Properties of the steps of align_kalman: C103 (passes over the tracks, tables of the output file, arguments). *)
From Coq Require Import ZArith List Arith Bool Lia Permutation.
From Verif Require Import SelectionModel SelectionProps BitsModel BitsProps FitTracksModel FitTracksProps KalmanStepsModel.
From Verif Require AlignArgsModel AlignArgsProps.
Import ListNotations.
Local Open Scope nat_scope.

Section C103.
  Variables Track Tel State Fit Values Delta V Params : Type.
  Variable hit_flag : Track -> Z.
  Variable init : Tel -> list nat -> Params -> option State.
  Variable alignment : State -> option Tel.
  Variable values : State -> list Values.
  Variable fit : list nat -> State -> Track -> option (V * V * Fit).
  Variable gt : V -> V -> bool.
  Variable zero : V.
  Variable update : State -> Fit -> option (State * list Delta).
  Variable processed : State -> list nat.
  Notation chunk_loop := (chunk_loop Track Tel State Fit Values Delta V alignment values fit gt zero update processed).
  Notation alignment_loop := (alignment_loop Track Tel State Fit Values Delta V hit_flag alignment values fit gt zero update processed).
  Notation pass := (pass Track Tel State Fit Values Delta V Params hit_flag init alignment values fit gt zero update processed).
  Notation passes := (passes Track Tel State Fit Values Delta V Params hit_flag init alignment values fit gt zero update processed).
  Notation duts_alignment_kalman := (duts_alignment_kalman Track Tel State Fit Values Delta V Params hit_flag init alignment values fit gt zero update processed).
  Notation groups_loop := (groups_loop Track Tel State Fit Values Delta V Params hit_flag init alignment values fit gt zero update processed).
  Notation output := (output Tel Values Delta V).
  Notation row := (row Values Delta).
  Notation Output := (Output Tel Values Delta V).
  Notation tables := (tables Tel Values Delta V).
  Notation chi2s := (chi2s Tel Values Delta V).
  Notation p_values := (p_values Tel Values Delta V).
  Notation processed_attr := (processed_attr Tel Values Delta V).
  Notation saved := (saved Tel Values Delta V).
  Notation store := (store Tel Values Delta V).
  Notation table_of := (table_of Values Delta).
  Notation Progress := (Progress Tel State Values Delta V).
  Notation push := (push Tel State Values Delta V).
  Notation p_state := (p_state Tel State Values Delta V).
  Notation p_tel := (p_tel Tel State Values Delta V).
  Notation p_rows := (p_rows Tel State Values Delta V).
  Notation p_chis := (p_chis Tel State Values Delta V).
  Notation p_stop := (p_stop Tel State Values Delta V).
  Notation valid := (valid Track hit_flag).

  (** *** Chunks *)
  Lemma table_of_app d a b : table_of d (a ++ b) = table_of d a ++ table_of d b.
  Proof. apply flat_map_app. Qed.
  Lemma nth_map_seq {A} (f : nat -> A) n d x : d < n -> nth d (map f (seq 0 n)) x = f d.
  Proof. intros H. rewrite nth_indep with (d' := f 0) by (rewrite map_length, seq_length; exact H). rewrite map_nth, seq_nth by exact H. reflexivity. Qed.
  Lemma store_store n o t1 n1 r1 c1 t2 n2 r2 c2 : store n (store n o t1 n1 r1 c1) t2 n2 r2 c2 = store n o t2 n2 (r1 ++ r2) (c1 ++ c2).
  Proof.
    unfold KalmanStepsModel.store. cbn [KalmanStepsModel.tables KalmanStepsModel.chi2s KalmanStepsModel.p_values]. rewrite !map_app, !app_assoc. f_equal. f_equal.
    apply map_ext_in. intros d Hd. apply in_seq in Hd. rewrite nth_map_seq by lia. rewrite table_of_app, app_assoc. reflexivity.
  Qed.
  Lemma chunk_app fits cut mx a : forall b s tel, chunk_loop fits cut mx s tel (a ++ b) =
    match chunk_loop fits cut mx s tel a with
    | None => None
    | Some p => if p_stop p then Some p else option_map (fun q => Progress (p_state q) (p_tel q) (p_rows p ++ p_rows q) (p_chis p ++ p_chis q) (p_stop q)) (chunk_loop fits cut mx (p_state p) (p_tel p) b)
    end.
  Proof.
    induction a as [|t a IH]; intros b s tel; cbn [app KalmanStepsModel.chunk_loop].
    - cbn. destruct (chunk_loop fits cut mx s tel b) as [[]|]; reflexivity.
    - destruct (alignment s) as [tel'|]; [|reflexivity]. destruct (fit fits s t) as [[[c p] f]|].
      + destruct (gt c cut).
        * rewrite IH. destruct (chunk_loop fits cut mx s tel' a) as [[]|]; cbn; [|reflexivity]. destruct p_stop; [reflexivity|]. destruct (chunk_loop fits cut mx p_state p_tel b) as [[]|]; reflexivity.
        * destruct (update s f) as [[s' d]|]; [|reflexivity]. destruct (forallb (fun n => mx <? n) (processed s')); [reflexivity|]. rewrite IH.
          destruct (chunk_loop fits cut mx s' tel' a) as [[]|]; cbn; [|reflexivity]. destruct p_stop; [reflexivity|]. destruct (chunk_loop fits cut mx p_state p_tel b) as [[]|]; reflexivity.
      + rewrite IH. destruct (chunk_loop fits cut mx s tel' a) as [[]|]; cbn; [|reflexivity]. destruct p_stop; [reflexivity|]. destruct (chunk_loop fits cut mx p_state p_tel b) as [[]|]; reflexivity.
  Qed.
  Lemma loop_concat n fits hits cut mx chunks : forall s tel o, chunks <> [] ->
    match chunk_loop fits cut mx s tel (filter (valid hits) (concat chunks)) with
    | Some p => alignment_loop n fits hits cut mx s tel o chunks = (store n o (p_tel p) (processed (p_state p)) (p_rows p) (p_chis p), Some (p_tel p))
    | None => snd (alignment_loop n fits hits cut mx s tel o chunks) = None
    end.
  Proof.
    induction chunks as [|a l IH]; intros s tel o H; [congruence|]. cbn [concat KalmanStepsModel.alignment_loop]. rewrite filter_app, chunk_app.
    destruct (chunk_loop fits cut mx s tel (filter (valid hits) a)) as [p|]; [|reflexivity]. destruct (p_stop p) eqn:E; [reflexivity|].
    destruct l as [|b l].
    - cbn. rewrite !app_nil_r. reflexivity.
    - specialize (IH (p_state p) (p_tel p) (store n o (p_tel p) (processed (p_state p)) (p_rows p) (p_chis p)) ltac:(discriminate)).
      destruct (chunk_loop fits cut mx (p_state p) (p_tel p) (filter (valid hits) (concat (b :: l)))) as [q|]; cbn [option_map]; [|exact IH].
      rewrite IH, store_store. reflexivity.
  Qed.
  (** The chunks in which the tracks are read do not matter: neither for the result nor for success. *)
  Theorem C103_chunks n fits hits cut mx s tel o a b : a <> [] -> b <> [] -> concat a = concat b ->
    snd (alignment_loop n fits hits cut mx s tel o a) = snd (alignment_loop n fits hits cut mx s tel o b) /\
    (snd (alignment_loop n fits hits cut mx s tel o a) <> None -> fst (alignment_loop n fits hits cut mx s tel o a) = fst (alignment_loop n fits hits cut mx s tel o b)).
  Proof.
    intros Ha Hb E. assert (Ka := loop_concat n fits hits cut mx a s tel o Ha). assert (Kb := loop_concat n fits hits cut mx b s tel o Hb). rewrite <- E in Kb.
    destruct (chunk_loop fits cut mx s tel (filter (valid hits) (concat a))); [rewrite Ka, Kb; auto|]. rewrite Ka, Kb. split; [reflexivity|congruence].
  Qed.

  (** *** One pass *)
  (** What happens with one track *)
  Inductive track_step (fits : list nat) (cut : V) (s : State) (t : Track) : State -> list row -> V * V -> Prop :=
  | step_failed : fit fits s t = None -> track_step fits cut s t s (map (fun v => (v, None)) (values s)) (zero, zero)
  | step_rejected c p f : fit fits s t = Some (c, p, f) -> gt c cut = true -> track_step fits cut s t s (map (fun v => (v, None)) (values s)) (c, p)
  | step_used c p f s' d : fit fits s t = Some (c, p, f) -> gt c cut = false -> update s f = Some (s', d) ->
      track_step fits cut s t s' (map (fun vd => (fst vd, Some (snd vd))) (combine (values s) d)) (c, p).
  (** The states before the tracks, the state after the last one, the rows and the chi2s *)
  Inductive history (fits : list nat) (cut : V) : State -> list Track -> list State -> State -> list (list row) -> list (V * V) -> Prop :=
  | h_nil s : history fits cut s [] [] s [] []
  | h_cons s t s1 r c ts before s' rows chis : track_step fits cut s t s1 r c -> history fits cut s1 ts before s' rows chis ->
      history fits cut s (t :: ts) (s :: before) s' (r :: rows) (c :: chis).
  Definition enough (mx : nat) (s : State) : Prop := forall n, In n (processed s) -> mx < n.
  Lemma enough_spec mx s : forallb (fun n => mx <? n) (processed s) = true <-> enough mx s.
  Proof. rewrite forallb_forall. unfold enough. split; intros H n Hn; specialize (H n Hn); apply Nat.ltb_lt; exact H. Qed.
  Lemma last_cons_default {A} (l : list A) a b : l <> [] -> last l a = last l b.
  Proof. induction l as [|x l IH]; intros H; [congruence|]. destruct l; [reflexivity|]. cbn [last] in *. apply IH. discriminate. Qed.
  Lemma chunk_history fits cut mx ts : forall s tel p, ~ enough mx s -> chunk_loop fits cut mx s tel ts = Some p ->
    exists used rest before, ts = used ++ rest /\ history fits cut s used before (p_state p) (p_rows p) (p_chis p) /\ Forall (fun s => ~ enough mx s) before /\
      (if p_stop p then enough mx (p_state p) else rest = [] /\ ~ enough mx (p_state p)) /\
      match rev before with [] => p_tel p = tel | s1 :: _ => alignment s1 = Some (p_tel p) end.
  Proof.
    induction ts as [|t ts IH]; intros s tel p N H; cbn [KalmanStepsModel.chunk_loop] in H.
    - injection H as <-. exists [], [], []. repeat split; auto; constructor.
    - destruct (alignment s) as [tel'|] eqn:A; [|discriminate].
      assert (G : forall s1 r c q, track_step fits cut s t s1 r c -> ~ enough mx s1 -> chunk_loop fits cut mx s1 tel' ts = Some q -> p = push r c q ->
        exists used rest before, t :: ts = used ++ rest /\ history fits cut s used before (p_state p) (p_rows p) (p_chis p) /\ Forall (fun s => ~ enough mx s) before /\
          (if p_stop p then enough mx (p_state p) else rest = [] /\ ~ enough mx (p_state p)) /\
          match rev before with [] => p_tel p = tel | s1 :: _ => alignment s1 = Some (p_tel p) end).
      { intros s1 r c q T N1 Q ->. destruct (IH _ _ _ N1 Q) as (used & rest & before & E & Hh & Hf & Hs & Ht). exists (t :: used), rest, (s :: before).
        split; [cbn; congruence|]. split; [cbn; econstructor; eauto|]. split; [constructor; auto|]. split; [exact Hs|]. cbn [rev].
        destruct (rev before) as [|b l] eqn:Er; cbn [app]; [|exact Ht]. cbn [KalmanStepsModel.push KalmanStepsModel.p_tel]. rewrite Ht. exact A. }
      destruct (fit fits s t) as [[[c p0] f]|] eqn:Ef.
      + destruct (gt c cut) eqn:Eg.
        * destruct (chunk_loop fits cut mx s tel' ts) as [q|] eqn:Q; [|discriminate]. injection H as <-. apply (G s (rows_of State Values Delta values s None) (c, p0) q); auto. eapply step_rejected; eauto.
        * destruct (update s f) as [[s' d]|] eqn:Eu; [|discriminate]. destruct (forallb (fun n => mx <? n) (processed s')) eqn:Es.
          -- injection H as <-. exists [t], ts, [s]. split; [reflexivity|]. split; [econstructor; [|constructor]; eapply step_used; eauto|]. split; [constructor; auto|]. cbn. split; [apply enough_spec; exact Es|exact A].
          -- destruct (chunk_loop fits cut mx s' tel' ts) as [q|] eqn:Q; [|discriminate]. injection H as <-. apply (G s' (rows_of State Values Delta values s (Some d)) (c, p0) q); auto; [eapply step_used; eauto|].
             rewrite <- enough_spec, Es. discriminate.
      + destruct (chunk_loop fits cut mx s tel' ts) as [q|] eqn:Q; [|discriminate]. injection H as <-. apply (G s (rows_of State Values Delta values s None) (zero, zero) q); auto. apply step_failed; auto.
  Qed.
  (** The rows of a pass: those of the tracks with the required hits, in their order, until every DUT has more than max_tracks tracks; row i of a DUT is its
      alignment before track i.  The saved configuration is the one of the last row. *)
  Theorem C103_pass n fits hits cut mx s tel o chunks o' tel' : chunks <> [] -> ~ enough mx s -> alignment_loop n fits hits cut mx s tel o chunks = (o', Some tel') ->
    exists used rest before s' rows chis, filter (fun t => (Z.land (hit_flag t) (mask_of hits) =? mask_of hits)%Z) (concat chunks) = used ++ rest /\
      history fits cut s used before s' rows chis /\ Forall (fun s => ~ enough mx s) before /\ (enough mx s' \/ rest = []) /\
      (forall d, d < n -> match tables o' with None => False | Some ts => nth d ts [] = match tables o with None => [] | Some ts => nth d ts [] end ++ flat_map (fun r => match nth_error r d with Some v => [v] | None => [] end) rows end) /\
      chi2s o' = chi2s o ++ map fst chis /\ p_values o' = p_values o ++ map snd chis /\ processed_attr o' = processed s' /\ saved o' = tel' /\
      match rev before with [] => tel' = tel | s1 :: _ => alignment s1 = Some tel' end.
  Proof.
    intros Hc N H. assert (K := loop_concat n fits hits cut mx chunks s tel o Hc). rewrite H in K. fold (valid hits) in *.
    destruct (chunk_loop fits cut mx s tel (filter (valid hits) (concat chunks))) as [p|] eqn:P; [|discriminate]. injection K as -> ->.
    destruct (chunk_history _ _ _ _ _ _ _ N P) as (used & rest & before & E & Hh & Hf & Hs & Ht). exists used, rest, before, (p_state p), (p_rows p), (p_chis p).
    split; [exact E|]. split; [exact Hh|]. split; [exact Hf|]. split; [destruct (p_stop p); tauto|]. split.
    - intros d Hd. cbn. rewrite nth_map_seq by exact Hd. reflexivity.
    - cbn. auto.
  Qed.
  (** Tracks with too large a chi2 change nothing.  The documented "track_chi2 = 0: no cut" means that no track is used. *)
  Theorem C103_cut n fits hits cut mx s tel o chunks o' tel' : chunks <> [] -> ~ enough mx s -> alignment_loop n fits hits cut mx s tel o chunks = (o', Some tel') ->
    (forall t, In t (concat chunks) -> forall c p f, fit fits s t = Some (c, p, f) -> gt c cut = true) -> processed_attr o' = processed s /\ (alignment s = Some tel -> saved o' = tel).
  Proof.
    intros Hc N H A. destruct (C103_pass _ _ _ _ _ _ _ _ _ _ _ Hc N H) as (used & rest & before & s' & rows & chis & E & Hh & _ & _ & _ & _ & _ & Hp & Hs & Ht).
    assert (U : forall t, In t used -> In t (concat chunks)). { intros t Hi. assert (X : In t (used ++ rest)) by (apply in_or_app; auto). rewrite <- E in X. apply filter_In in X. tauto. }
    assert (K : s' = s /\ forall b, In b before -> b = s).
    { clear - Hh U A. induction Hh as [s|s t s1 r c ts before s' rows chis T Hh IH]; [split; [reflexivity|contradiction]|].
      assert (s1 = s). { inversion T as [| |c0 p f s2 d Ef Eg]; subst; auto. rewrite (A t (U t (or_introl eq_refl)) _ _ _ Ef) in Eg. discriminate. } subst s1.
      destruct IH as [-> IH]; [exact A|intros u Hu; apply U; right; exact Hu|]. split; [reflexivity|]. intros b [<-|Hb]; auto. }
    destruct K as [-> K]. split; [exact Hp|]. intros Al. rewrite Hs. destruct (rev before) as [|b l] eqn:Er; [exact Ht|].
    assert (b = s) by (apply K, in_rev; rewrite Er; left; reflexivity). subst b. congruence.
  Qed.

  (** *** Tables *)
  Section Tables.
    Variable n : nat.
    Hypothesis values_length : forall s, length (values s) = n.
    Hypothesis delta_length : forall s f s' d, update s f = Some (s', d) -> length d = n.
    Definition consistent (o : output) : Prop :=
      length (chi2s o) = length (p_values o) /\ match tables o with None => chi2s o = [] | Some ts => length ts = n /\ Forall (fun t => length t = length (chi2s o)) ts end.
    Lemma column_length d rows : d < n -> Forall (fun r : list row => length r = n) rows -> length (table_of d rows) = length rows.
    Proof.
      intros Hd. induction 1 as [|r rows Hr _ IH]; [reflexivity|]. unfold KalmanStepsModel.table_of in *. cbn [flat_map length]. rewrite app_length, IH.
      destruct (nth_error r d) eqn:E; [reflexivity|]. apply nth_error_None in E. lia.
    Qed.
    Lemma store_consistent o tel l rows chis : consistent o -> Forall (fun r => length r = n) rows -> length rows = length chis -> consistent (store n o tel l rows chis).
    Proof.
      intros [C1 C2] R L. split; cbn; [rewrite !app_length, !map_length; lia|]. rewrite map_length, seq_length. split; [reflexivity|]. apply Forall_forall. intros t Ht.
      apply in_map_iff in Ht. destruct Ht as (d & <- & Hd). apply in_seq in Hd. rewrite !app_length, map_length, column_length by (auto; lia).
      destruct (tables o) as [ts|]; [|rewrite C2; cbn; lia]. destruct C2 as [C2 C3]. rewrite Forall_forall in C3. rewrite (C3 (nth d ts [])) by (apply nth_In; lia). lia.
    Qed.
    Lemma chunk_rows fits cut mx ts : forall s tel p, chunk_loop fits cut mx s tel ts = Some p -> Forall (fun r => length r = n) (p_rows p) /\ length (p_rows p) = length (p_chis p).
    Proof.
      assert (R0 : forall s, length (rows_of State Values Delta values s None) = n) by (intros; cbn; rewrite map_length; auto).
      assert (R1 : forall s d, length d = n -> length (rows_of State Values Delta values s (Some d)) = n) by (intros s d E; cbn; rewrite map_length, combine_length, values_length, E; lia).
      induction ts as [|t ts IH]; intros s tel p H; cbn [KalmanStepsModel.chunk_loop] in H; [injection H as <-; split; [constructor|reflexivity]|].
      destruct (alignment s) as [tel'|]; [|discriminate]. destruct (fit fits s t) as [[[c q] f]|].
      - destruct (gt c cut).
        + destruct (chunk_loop fits cut mx s tel' ts) as [u|] eqn:U; [|discriminate]. injection H as <-. destruct (IH _ _ _ U) as [I1 I2]. split; [apply Forall_cons; [first [apply R0 | apply R1; assumption]|exact I1]|exact (f_equal S I2)].
        + destruct (update s f) as [[s' d]|] eqn:Eu; [|discriminate]. specialize (delta_length _ _ _ _ Eu). destruct (forallb (fun n => mx <? n) (processed s')).
          * injection H as <-. split; [constructor; [apply R1; assumption|constructor]|reflexivity].
          * destruct (chunk_loop fits cut mx s' tel' ts) as [u|] eqn:U; [|discriminate]. injection H as <-. destruct (IH _ _ _ U) as [I1 I2]. split; [apply Forall_cons; [first [apply R0 | apply R1; assumption]|exact I1]|exact (f_equal S I2)].
      - destruct (chunk_loop fits cut mx s tel' ts) as [u|] eqn:U; [|discriminate]. injection H as <-. destruct (IH _ _ _ U) as [I1 I2]. split; [apply Forall_cons; [first [apply R0 | apply R1; assumption]|exact I1]|exact (f_equal S I2)].
    Qed.
    Lemma loop_consistent fits hits cut mx chunks : forall s tel o, consistent o -> consistent (fst (alignment_loop n fits hits cut mx s tel o chunks)).
    Proof.
      induction chunks as [|a l IH]; intros s tel o C; cbn [KalmanStepsModel.alignment_loop]; [exact C|].
      destruct (chunk_loop fits cut mx s tel (filter (valid hits) a)) as [p|] eqn:P; [|exact C]. destruct (chunk_rows _ _ _ _ _ _ _ P) as [R1 R2].
      destruct (p_stop p); [|apply IH]; apply store_consistent; auto.
    Qed.
    Lemma passes_consistent sel params cut mx chunks leaders : forall tel o, consistent o -> consistent (fst (passes n sel params cut mx chunks leaders tel o)).
    Proof.
      induction leaders as [|c l IH]; intros tel o C; cbn [KalmanStepsModel.passes]; [exact C|].
      assert (P : consistent (fst (pass n sel params cut mx chunks c tel o))).
      { unfold KalmanStepsModel.pass. destruct (min_hits c <? 2); [exact C|]. destruct (length (fit_duts c) <? min_hits c); [exact C|]. destruct (init tel sel params) as [s|]; [|exact C].
        assert (L := loop_consistent (fit_duts c) (f_hit c) cut mx chunks s tel o C). destruct (alignment_loop n (fit_duts c) (f_hit c) cut mx s tel o chunks). exact L. }
      destruct (pass n sel params cut mx chunks c tel o) as [o1 [e|tel1]]; [exact P|]. apply IH. exact P.
    Qed.
    (** Whatever happens, also if an exception is raised, the tables of all DUTs and the arrays of chi2 and p-values have the same number of entries. *)
    Theorem C103_tables exclude mins cuts groups : forall index temp o temp' o' e, consistent o -> groups_loop n exclude mins cuts index groups temp o = (temp', o', e) -> consistent o'.
    Proof.
      induction groups as [|g l IH]; intros index temp o temp' o' e C H; cbn [KalmanStepsModel.groups_loop] in H; [congruence|].
      destruct cuts as [u|cs]; [congruence|]. destruct (nth_error cs index) as [cut|]; [|congruence].
      match goal with H : context [KalmanStepsModel.duts_alignment_kalman] |- _ => idtac end.
      set (r := duts_alignment_kalman n index (g_select Track Params g) (g_fits Track Params g) (g_hits Track Params g) (g_params Track Params g) exclude mins cut (g_max_tracks Track Params g) (g_chunks Track Params g) o) in H.
      assert (P : consistent (fst r)).
      { unfold r, KalmanStepsModel.duts_alignment_kalman. destruct (spread exclude _) as [ex|]; [|exact C]. destruct (spread mins _) as [ms|]; [|exact C]. cbv zeta.
        match goal with |- context [passes n ?a ?b ?c ?d ?e ?f ?t ?o1] => assert (Q := passes_consistent a b c d e f t o1); destruct (passes n a b c d e f t o1) end.
        apply Q. destruct (index =? 0); [split; reflexivity|exact C]. }
      destruct r as [o1 [e1|]]; [assert (o1 = o') by congruence; subst o1; exact P|]. eapply IH; [exact P|exact H].
    Qed.
  End Tables.

  (** *** All passes of a group *)
  (** Every pass starts with the result of the one before; its fit DUTs are the ones of its configuration, without the DUT itself if its hit is excluded. *)
  Inductive chain (n : nat) (select : list nat) (params : Params) (cut : V) (mx : nat) (chunks : list (list Track)) : list fit_config -> Tel -> output -> output -> Prop :=
  | chain_nil tel o : chain n select params cut mx chunks [] tel o o
  | chain_cons c leaders tel o s fits o1 tel1 o' : (forall d, In d fits <-> In d (f_fit c) /\ (f_exclude c = true -> d <> f_dut c)) ->
      2 <= match f_min c with Some m => m | None => length fits end <= length fits -> init tel select params = Some s ->
      alignment_loop n fits (f_hit c) cut mx s tel o chunks = (o1, Some tel1) -> chain n select params cut mx chunks leaders tel1 o1 o' ->
      chain n select params cut mx chunks (c :: leaders) tel o o'.
  Lemma passes_chain n select params cut mx chunks leaders : forall tel o o' tel', passes n select params cut mx chunks leaders tel o = (o', inr tel') -> chain n select params cut mx chunks leaders tel o o'.
  Proof.
    induction leaders as [|c l IH]; intros tel o o' tel' H; cbn [KalmanStepsModel.passes] in H; [assert (o = o') by congruence; subst; constructor|].
    unfold KalmanStepsModel.pass in H. destruct (min_hits c <? 2) eqn:E1; [congruence|]. destruct (length (fit_duts c) <? min_hits c) eqn:E2; [congruence|]. destruct (init tel select params) as [s|] eqn:E3; [|congruence].
    destruct (alignment_loop n (fit_duts c) (f_hit c) cut mx s tel o chunks) as [o1 [tel1|]] eqn:E4; [|congruence]. apply Nat.ltb_ge in E1, E2.
    eapply chain_cons; [intros d; apply fit_duts_in|split; [exact E1|exact E2]|exact E3|exact E4|]. eapply IH. exact H.
  Qed.
  (** A group which is aligned without an exception: the lists have one item for each DUT; the output of earlier calls is removed with the first group only. *)
  Theorem C103_group n index select fits hits params exclude mins cut mx chunks o o' :
    duts_alignment_kalman n index select fits hits params exclude mins cut mx chunks o = (o', None) ->
    exists ex ms, match exclude with inl b => ex = map (fun _ => b) select | inr l => ex = l /\ length l = length select end /\
      match mins with inl m => ms = map (fun _ => m) select | inr l => ms = l /\ length l = length select end /\
      chain n select params cut mx chunks (map fst (fit_steps (map (fun x => FitConfig (fst x) fits hits (fst (snd x)) (snd (snd x))) (combine select (combine ex ms))))) (saved o)
        (match index with 0 => Output None [] [] (processed_attr o) (saved o) | S _ => o end) o'.
  Proof.
    unfold KalmanStepsModel.duts_alignment_kalman. destruct (spread exclude (length select)) as [ex|] eqn:E1; [|congruence]. destruct (spread mins (length select)) as [ms|] eqn:E2; [|congruence].
    intros H. exists ex, ms. split; [|split].
    - destruct exclude as [b|l]; cbn in E1; [injection E1 as <-; apply AlignArgsProps.repeat_map|]. destruct (Nat.eqb_spec (length l) (length select)); [split; congruence|discriminate].
    - destruct mins as [b|l]; cbn in E2; [injection E2 as <-; apply AlignArgsProps.repeat_map|]. destruct (Nat.eqb_spec (length l) (length select)); [split; congruence|discriminate].
    - assert (S0 : saved (if index =? 0 then Output None [] [] (processed_attr o) (saved o) else o) = saved o) by (destruct (index =? 0); reflexivity). cbv zeta in H. rewrite S0 in H.
      match type of H with context [passes ?a ?b ?c ?d ?e ?f ?g ?t ?u] => destruct (passes a b c d e f g t u) as [o1 [err|tel1]] eqn:P end; [congruence|].
      assert (o1 = o') by congruence. subst o1. apply passes_chain in P. destruct index; exact P.
  Qed.

  (** *** Arguments *)
  (** align_kalman succeeds only if track_chi2 is a list with an item for each group, and if a list given as exclude_dut_hit has one item for each DUT of every
      group: such a list is passed on for all groups.  Then no temporary file is left. *)
  Theorem C103_success n exclude mins cuts groups : forall index temp o temp' o', groups_loop n exclude mins cuts index groups temp o = (temp', o', None) ->
    (groups <> [] -> exists l, cuts = inr l /\ index + length groups <= length l) /\
    (forall l g, exclude = inr l -> In g groups -> length (g_select Track Params g) = length l) /\
    (forall l g, mins = inr l -> In g groups -> length (g_select Track Params g) = length l) /\
    (forall f, In f temp' -> In f temp /\ ~ (index <= f < index + length groups)).
  Proof.
    induction groups as [|g l IH]; intros index temp o temp' o' H; cbn [KalmanStepsModel.groups_loop] in H.
    - injection H as -> ->. split; [congruence|]. split; [contradiction|]. split; [contradiction|]. intros f Hf. split; [exact Hf|cbn; lia].
    - destruct cuts as [u|cs]; [discriminate|]. destruct (nth_error cs index) as [cut|] eqn:En; [|discriminate].
      match type of H with context [duts_alignment_kalman ?a ?b ?c ?d ?e ?f ?g ?h ?i ?j ?k ?m] => destruct (duts_alignment_kalman a b c d e f g h i j k m) as [o1 [e1|]] eqn:D end; [discriminate|].
      destruct (IH _ _ _ _ _ H) as (I1 & I2 & I3 & I4). unfold KalmanStepsModel.duts_alignment_kalman in D.
      destruct (spread exclude (length (g_select Track Params g))) as [ex|] eqn:E1; [|discriminate]. destruct (spread mins (length (g_select Track Params g))) as [ms|] eqn:E2; [|discriminate].
      split; [|split; [|split]].
      + intros _. exists cs. split; [reflexivity|]. destruct l as [|g1 l]; [|destruct I1 as (l' & El & Hl); [discriminate|]; injection El as <-; cbn [length] in *; lia].
        assert (index < length cs) by (apply nth_error_Some; congruence). cbn. lia.
      + intros lx g0 -> [<-|Hg]; [|eapply I2; eauto]. cbn in E1. destruct (Nat.eqb_spec (length lx) (length (g_select Track Params g))); [auto|discriminate].
      + intros lx g0 -> [<-|Hg]; [|eapply I3; eauto]. cbn in E2. destruct (Nat.eqb_spec (length lx) (length (g_select Track Params g))); [auto|discriminate].
      + intros f Hf. destruct (I4 f Hf) as [J1 J2]. apply in_remove in J1. destruct J1 as [J1 J3]. cbn in J1. destruct J1 as [J1|J1]; [congruence|]. apply in_remove in J1. split; [tauto|]. cbn [length] in *. lia.
  Qed.
  (** The documented form of track_chi2, a number, which is also the default: TypeError after the search for tracks, and the temporary file stays. *)
  Theorem C103_track_chi2_refuted n exclude mins groups temp o : groups <> [] -> exists temp', groups_loop n exclude mins (inl tt) 0 groups temp o = (temp', o, Some TypeErr) /\ In 0 temp'.
  Proof. intros H. destruct groups as [|g l]; [congruence|]. cbn. eexists. split; [reflexivity|left; reflexivity]. Qed.
  (** Lists for the DUTs of groups with different numbers of DUTs never work. *)
  Theorem C103_exclude_refuted n l mins cuts groups temp o g1 g2 : In g1 groups -> In g2 groups -> length (g_select Track Params g1) <> length (g_select Track Params g2) ->
    forall temp' o', groups_loop n (inr l) mins cuts 0 groups temp o <> (temp', o', None).
  Proof. intros H1 H2 N temp' o' H. destruct (C103_success _ _ _ _ _ _ _ _ _ _ H) as (_ & K & _). rewrite (K l g1), (K l g2) in N by auto. congruence. Qed.
End C103.

(** *** Hits of the tracks which are used *)
(** min_track_hits is only compared with the numbers of DUTs.  But as the fit DUTs are among the hit DUTs (C103_arguments), every track which is used has a hit in
    each fit DUT, and so at least min_track_hits hits. *)
Theorem C103_min_hits Track hit_flag (c : fit_config) (t : Track) : (forall d, In d (f_fit c) -> In d (f_hit c)) -> valid Track hit_flag (f_hit c) t = true ->
  min_hits c <= length (fit_duts c) -> (forall d, In d (fit_duts c) -> bit (hit_flag t) d) /\ exists l, incl l (fit_duts c) /\ length l = min_hits c /\ forall d, In d l -> bit (hit_flag t) d.
Proof.
  intros H Hv Hm. unfold valid in Hv. apply Z.eqb_eq in Hv. assert (Hv2 := proj1 (sub_mask _ _) Hv). clear Hv. rename Hv2 into Hv.
  assert (K : forall d, In d (fit_duts c) -> bit (hit_flag t) d) by (intros d Hd; apply Hv, H; apply fit_duts_in in Hd; apply Hd).
  split; [exact K|]. exists (firstn (min_hits c) (fit_duts c)).
  assert (Hi : incl (firstn (min_hits c) (fit_duts c)) (fit_duts c)) by (intros d Hd; rewrite <- (firstn_skipn (min_hits c)); apply in_or_app; auto).
  split; [exact Hi|]. split; [rewrite firstn_length; lia|]. intros d Hd. apply K, Hi, Hd.
Qed.
Lemma Forall2_len {A B} {P : A -> B -> Prop} {l m} : Forall2 P l m -> length l = length m.
Proof. induction 1; cbn; congruence. Qed.
Lemma Forall2_hits (fits hits : list (list nat)) : Forall (fun l => 2 <= length l) hits -> Forall2 (fun fit hit : list nat => 2 <= length fit /\ incl fit hit) fits hits ->
  Forall2 (fun fd hd : list nat => 2 <= length fd /\ 2 <= length hd /\ incl fd hd) fits hits.
Proof. intros H K. induction K as [|f h fits hits [K1 K2] K IH]; constructor; inversion H; subst; auto. Qed.
(** Selections which are accepted: the fit DUTs of each group are among its hit DUTs, at least two of each. *)
Theorem C103_arguments s h f groups hits fits : kalman_selections s h f = inr (groups, hits, fits) ->
  groups <> [] /\ length hits = length groups /\ length fits = length groups /\ Forall (fun g => g <> []) groups /\
  Forall2 (fun fd hd => 2 <= length fd /\ 2 <= length hd /\ incl fd hd) fits hits.
Proof.
  unfold kalman_selections. rewrite AlignArgsProps.bind_inr. intros (g & Hg & H). apply AlignArgsProps.bind_inr in H. destruct H as (h1 & Hh & H). apply AlignArgsProps.bind_inr in H.
  destruct H as (f1 & Hf & H). assert (g = groups) by congruence. assert (h1 = hits) by congruence. assert (f1 = fits) by congruence. subst. clear H.
  destruct (proj1 (AlignArgsProps.C93_select_duts _ _) Hg) as [(l & Nl & _ & ->)|(N & _ & F)].
  - assert (N : [l] <> []) by discriminate. apply (AlignArgsProps.C93_hit_duts _ _ _ N) in Hh. destruct Hh as [Hh1 Hh2].
    assert (L : length hits = length [l]) by (destruct Hh2 as [[_ ->]|[(l' & _ & _ & ->)|[_ E]]]; [|rewrite map_length|]; auto).
    destruct (AlignArgsProps.C93_fit_duts _ _ _ _ L Hf) as [K _]. split; [exact N|]. split; [exact L|]. split; [rewrite <- L; exact (Forall2_len K)|]. split; [constructor; auto|]. apply (Forall2_hits _ _ Hh1 K).
  - apply (AlignArgsProps.C93_hit_duts _ _ _ N) in Hh. destruct Hh as [Hh1 Hh2].
    assert (L : length hits = length groups) by (destruct Hh2 as [[_ ->]|[(l' & _ & _ & ->)|[_ E]]]; [|rewrite map_length|]; auto).
    destruct (AlignArgsProps.C93_fit_duts _ _ _ _ L Hf) as [K _]. split; [exact N|]. split; [exact L|]. split; [rewrite <- L; exact (Forall2_len K)|]. split; [exact F|]. apply (Forall2_hits _ _ Hh1 K).
Qed.

(** *** Number of passes *)
Definition uniform_configs (select fits hits : list nat) (exclude : bool) (m : option nat) : list fit_config := configs select fits hits (repeat exclude (length select)) (repeat m (length select)).
Lemma uniform_map select fits hits exclude m : uniform_configs select fits hits exclude m = map (fun d => FitConfig d fits hits exclude m) select.
Proof. unfold uniform_configs, configs. induction select as [|d l IH]; cbn; [reflexivity|]. rewrite IH. reflexivity. Qed.
Lemma uniform_same fits hits exclude m d e : same_tracks (FitConfig d fits hits exclude m) (FitConfig e fits hits exclude m) = true <-> d = e \/ exclude = false \/ (~ In d fits /\ ~ In e fits).
Proof.
  destruct (Nat.eq_dec e d) as [->|Ne]; [unfold same_tracks; cbn; rewrite Nat.eqb_refl; cbn; tauto|].
  rewrite same_tracks_spec by exact Ne. unfold equivalent, requested_fit. cbn. split.
  - intros (H & _). right. destruct exclude; [right|left; reflexivity]. split; intros Hi.
    + destruct (proj1 (H d)) as [_ X]; [split; [exact Hi|congruence]|]. apply X; reflexivity.
    + destruct (proj2 (H e)) as [_ X]; [split; [exact Hi|congruence]|]. apply X; reflexivity.
  - intros [H|[->|[H1 H2]]]; [congruence| |]; (split; [|split; [intros x; reflexivity|reflexivity]]); intros x; split; intros [H X]; split; auto; try discriminate; intros _ ->; auto.
Qed.
(** Without exclude_dut_hit there is one pass. *)
Theorem C103_one_pass d select fits hits m : map fst (fit_steps (uniform_configs (d :: select) fits hits false m)) = [FitConfig d fits hits false m].
Proof.
  rewrite uniform_map. unfold fit_steps. cbn [map fit_loop memb existsb f_dut].
  set (all := map (fun d0 => FitConfig d0 fits hits false m) (d :: select)). change (FitConfig d fits hits false m :: map (fun d0 => FitConfig d0 fits hits false m) select) with all.
  assert (F : map f_dut (filter (same_tracks (FitConfig d fits hits false m)) all) = d :: select).
  { assert (forall l, map f_dut (filter (same_tracks (FitConfig d fits hits false m)) (map (fun d0 => FitConfig d0 fits hits false m) l)) = l); [|apply H].
    induction l as [|e l IH]; [reflexivity|]. cbn [map filter]. rewrite (proj2 (uniform_same fits hits false m d e)) by auto. cbn. rewrite IH. reflexivity. }
  rewrite F. cbn [app map fst]. f_equal.
  assert (K : forall l, incl l (d :: select) -> fit_loop all (map (fun d0 => FitConfig d0 fits hits false m) l) (d :: select) = []); [|rewrite K; [reflexivity|intros x; right; auto]].
  induction l as [|e l IH]; intros Hi; [reflexivity|]. cbn [map fit_loop f_dut]. rewrite (proj2 (memb_in e (d :: select))) by (apply Hi; left; reflexivity). apply IH. intros x Hx. apply Hi. right. exact Hx.
Qed.
(** With exclude_dut_hit=True there is one pass for every DUT which is a fit DUT, and one for the others; every pass aligns all DUTs of the group again, starting with
    the result of the pass before. *)
Theorem C103_passes select fits hits m : NoDup select ->
  let leaders := map f_dut (map fst (fit_steps (uniform_configs select fits hits true m))) in
  NoDup leaders /\ incl leaders select /\ (forall d, In d select -> In d fits -> In d leaders) /\
  length (filter (fun d => negb (memb d fits)) leaders) = (if existsb (fun d => negb (memb d fits)) select then 1 else 0).
Proof.
  intros N. cbv zeta. rewrite uniform_map. set (all := map (fun d => FitConfig d fits hits true m) select). unfold fit_steps.
  assert (G : forall e, map f_dut (filter (same_tracks (FitConfig e fits hits true m)) all) = filter (fun d => (d =? e) || negb (memb e fits) && negb (memb d fits)) select).
  { intros e. unfold all. clear. induction select as [|d l IH]; [reflexivity|]. cbn [map filter].
    assert (S : same_tracks (FitConfig e fits hits true m) (FitConfig d fits hits true m) = (d =? e) || negb (memb e fits) && negb (memb d fits)).
    { apply eq_true_iff_eq. rewrite uniform_same, orb_true_iff, andb_true_iff, !negb_true_iff, <- !not_true_iff_false, !memb_in, Nat.eqb_eq. intuition (try discriminate; auto). }
    rewrite S. destruct ((d =? e) || negb (memb e fits) && negb (memb d fits)); cbn [map f_dut]; rewrite IH; reflexivity. }
  assert (K : forall todo done fitted, done ++ todo = select -> (forall d, In d select -> (In d fitted <-> In d done \/ (~ In d fits /\ exists e, In e done /\ ~ In e fits))) -> incl fitted select ->
    let leaders := map f_dut (map fst (fit_loop all (map (fun d => FitConfig d fits hits true m) todo) fitted)) in
    NoDup leaders /\ incl leaders todo /\ (forall d, In d todo -> In d fits -> In d leaders) /\
    length (filter (fun d => negb (memb d fits)) leaders) = (if existsb (fun d => negb (memb d fits)) done then 0 else if existsb (fun d => negb (memb d fits)) todo then 1 else 0)).
  { induction todo as [|e todo IH]; intros done fitted E Hf Hi; cbn [map fit_loop f_dut].
    - cbn. split; [constructor|]. split; [intros x []|]. split; [intros d []|]. destruct (existsb (fun d => negb (memb d fits)) done); reflexivity.
    - assert (E' : (done ++ [e]) ++ todo = select) by (rewrite <- app_assoc; exact E).
      assert (He : In e select) by (rewrite <- E; apply in_or_app; right; left; reflexivity).
      assert (Nd : ~ In e done). { intros X. rewrite <- E in N. apply NoDup_remove_2 in N. apply N, in_or_app. auto. }
      assert (Nt : ~ In e todo). { intros X. rewrite <- E in N. apply NoDup_remove_2 in N. apply N, in_or_app. auto. }
      assert (Ex : existsb (fun d => negb (memb d fits)) (done ++ [e]) = existsb (fun d => negb (memb d fits)) done || negb (memb e fits)) by (rewrite existsb_app; cbn; rewrite orb_false_r; reflexivity).
      assert (Sp : forall l, existsb (fun d => negb (memb d fits)) l = true <-> exists d, In d l /\ ~ In d fits).
      { intros l. rewrite existsb_exists. split; intros (d & H1 & H2); exists d; split; auto; [rewrite <- memb_in; apply not_true_iff_false, negb_true_iff; exact H2|apply negb_true_iff, not_true_iff_false; rewrite memb_in; exact H2]. }
      destruct (memb e fitted) eqn:M.
      + apply memb_in, (Hf e He) in M. destruct M as [M|[M1 M2]]; [contradiction|].
        destruct (IH (done ++ [e]) fitted E') as (I1 & I2 & I3 & I4); auto.
        * intros d Hd. rewrite (Hf d Hd). setoid_rewrite in_app_iff. cbn [In]. split.
          -- intros [H|[H1 (x & H2 & H3)]]; [auto|right; split; [exact H1|exists x; auto]].
          -- intros [[H|[<-|[]]]|[H1 (x & [H2|[<-|[]]] & H3)]]; [auto|right; split; [exact M1|exact M2]|right; split; [exact H1|exists x; auto]|right; split; auto].
        * split; [exact I1|]. split; [intros x Hx; right; apply I2, Hx|]. split; [intros d [<-|Hd] Hx; [contradiction|auto]|]. rewrite I4, Ex.
          rewrite (proj2 (Sp done) M2). reflexivity.
      + rewrite <- not_true_iff_false, memb_in, (Hf e He) in M. rewrite G. set (group := filter (fun d => (d =? e) || negb (memb e fits) && negb (memb d fits)) select).
        assert (Gs : forall d, In d group <-> In d select /\ (d = e \/ (~ In e fits /\ ~ In d fits))).
        { intros d. unfold group. rewrite filter_In, orb_true_iff, andb_true_iff, !negb_true_iff, <- !not_true_iff_false, !memb_in, Nat.eqb_eq. tauto. }
        destruct (IH (done ++ [e]) (fitted ++ group) E') as (I1 & I2 & I3 & I4).
        * intros d Hd. rewrite !in_app_iff, (Hf d Hd), Gs. setoid_rewrite in_app_iff. cbn [In]. split.
          -- intros [[H|[H1 (x & H2 & H3)]]|[_ [->|[H1 H2]]]]; [auto|right; split; [exact H1|exists x; auto]|auto|right; split; [exact H2|exists e; auto]].
          -- intros [[H|[<-|[]]]|[H1 (x & [H2|[<-|[]]] & H3)]]; [auto|auto|left; right; split; [exact H1|exists x; auto]|right; split; [exact Hd|right; auto]].
        * intros x Hx. apply in_app_or in Hx. destruct Hx as [Hx|Hx]; [auto|apply Gs in Hx; tauto].
        * cbn [map fst f_dut]. set (ls := map f_dut (map fst (fit_loop all (map (fun d => FitConfig d fits hits true m) todo) (fitted ++ group)))) in *.
          split; [constructor; [intros X; apply Nt, I2, X|exact I1]|]. split; [intros x [<-|Hx]; [left; reflexivity|right; apply I2, Hx]|].
          split; [intros d [<-|Hd] Hx; [left; reflexivity|right; auto]|]. cbn [filter existsb]. rewrite Ex in I4. destruct (memb e fits) eqn:Me; cbn [negb orb] in *.
          -- rewrite orb_false_r in I4. exact I4.
          -- cbn [length]. rewrite orb_true_r in I4. rewrite I4. destruct (existsb (fun d => negb (memb d fits)) done) eqn:Ed; [|reflexivity].
             exfalso. apply M. right. split; [rewrite <- memb_in, Me; discriminate|apply Sp, Ed]. }
  destruct (K select [] [] eq_refl) as (K1 & K2 & K3 & K4); [|intros x []|auto].
  intros d Hd. split; [contradiction|intros [[]|[_ (x & [] & _)]]].
Qed.

(** *** Example: the state is the number of tracks which were used; a track is (hit flag, chi2), the fit fails for chi2 = 99; two DUTs *)
Definition ex_fit (_ : list nat) (_ : nat) (t : Z * nat) : option (nat * nat * unit) := if snd t =? 99 then None else Some (snd t, 1, tt).
Definition ex_loop := alignment_loop (Z * nat) nat nat unit nat unit nat fst (fun s => Some s) (fun s => [s; s]) ex_fit (fun c x => x <? c) 0 (fun s _ => Some (S s, [tt; tt])) (fun s => [s; s]).
Definition ex_groups := groups_loop (Z * nat) nat nat unit nat unit nat unit fst (fun tel _ _ => Some 0) (fun s => Some s) (fun s => [s; s]) ex_fit (fun c x => x <? c) 0 (fun s _ => Some (S s, [tt; tt])) (fun s => [s; s]).
(** the second track misses a hit, the third has a bad chi2, the fit of the fourth fails; the loop ends with the third track which is used *)
Example C103_pass_case : let chunks := [[(3%Z, 1); (1%Z, 2)]; [(3%Z, 20)]; [(3%Z, 99); (7%Z, 3); (3%Z, 4); (3%Z, 5)]] in
  ~ enough nat (fun s => [s; s]) 2 0 /\
  ex_loop 2 [0; 1] [0; 1] 10 2 0 0 (Output nat nat unit nat None [] [] [] 0) chunks =
    (Output nat nat unit nat (Some [[(0, Some tt); (1, None); (1, None); (1, Some tt); (2, Some tt)]; [(0, Some tt); (1, None); (1, None); (1, Some tt); (2, Some tt)]])
       [1; 20; 0; 3; 4] [1; 1; 0; 1; 1] [3; 3] 2, Some 2) /\
  ex_loop 2 [0; 1] [0; 1] 10 2 0 0 (Output nat nat unit nat None [] [] [] 0) chunks = ex_loop 2 [0; 1] [0; 1] 10 2 0 0 (Output nat nat unit nat None [] [] [] 0) [concat chunks].
Proof. split; [intros H; specialize (H 0 (or_introl eq_refl)); lia|]. split; vm_compute; reflexivity. Qed.
(** with exclude_dut_hit=True the two tracks are used twice: there are two passes *)
Example C103_groups_case : let g := Group (Z * nat) unit [0; 1] [0; 1; 2] [0; 1; 2] tt 10 [[(7%Z, 1); (7%Z, 2)]] in
  consistent nat nat unit nat 2 (Output nat nat unit nat None [] [] [] 0) /\
  ex_groups 2 (inl true) (inl None) (inr [10]) 0 [g] [5] (Output nat nat unit nat None [] [] [] 0) =
    ([5], Output nat nat unit nat (Some [[(0, Some tt); (1, Some tt); (0, Some tt); (1, Some tt)]; [(0, Some tt); (1, Some tt); (0, Some tt); (1, Some tt)]]) [1; 2; 1; 2] [1; 1; 1; 1] [2; 2] 1, None) /\
  ex_groups 2 (inl true) (inl None) (inl tt) 0 [g] [5] (Output nat nat unit nat None [] [] [] 0) = ([0; 5], Output nat nat unit nat None [] [] [] 0, Some TypeErr) /\
  ex_groups 2 (inr [true; false]) (inl None) (inr [10; 10]) 0 [g; Group (Z * nat) unit [2] [0; 1; 2] [0; 1; 2] tt 10 [[(7%Z, 1)]]] [] (Output nat nat unit nat None [] [] [] 0) =
    ([1], Output nat nat unit nat (Some [[(0, Some tt); (1, Some tt); (0, Some tt); (1, Some tt)]; [(0, Some tt); (1, Some tt); (0, Some tt); (1, Some tt)]]) [1; 2; 1; 2] [1; 1; 1; 1] [2; 2] 1, Some ValueErr).
Proof. split; [split; reflexivity|]. repeat split; vm_compute; reflexivity. Qed.
Example C103_arguments_case : kalman_selections (AlignArgsModel.SIter [AlignArgsModel.Items [0; 1; 2]; AlignArgsModel.Items [3]]) (AlignArgsModel.SIter (map AlignArgsModel.Leaf [0; 1; 2; 3])) (AlignArgsModel.SIter (map AlignArgsModel.Leaf [0; 2])) =
  inr ([[0; 1; 2]; [3]], [[0; 1; 2; 3]; [0; 1; 2; 3]], [[0; 2]; [0; 2]]).
Proof. reflexivity. Qed.
Example C103_passes_case : map f_dut (map fst (fit_steps (uniform_configs [3; 0; 4; 1] [0; 1; 2] [0; 1; 2] true None))) = [3; 0; 1] /\
  valid Z id [0; 1; 2] 15%Z = true /\ min_hits (FitConfig 0 [0; 1; 2] [0; 1; 2] true (Some 2)) <= length (fit_duts (FitConfig 0 [0; 1; 2] [0; 1; 2] true (Some 2))).
Proof. vm_compute. repeat split; lia. Qed.

Print Assumptions C103_chunks.
Print Assumptions C103_pass.
Print Assumptions C103_cut.
Print Assumptions C103_tables.
Print Assumptions C103_group.
Print Assumptions C103_success.
Print Assumptions C103_track_chi2_refuted.
Print Assumptions C103_exclude_refuted.
Print Assumptions C103_min_hits.
Print Assumptions C103_arguments.
Print Assumptions C103_one_pass.
Print Assumptions C103_passes.
