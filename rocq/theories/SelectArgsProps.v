(** Property C118: the arguments of select_tracks. *)
From Coq Require Import ZArith String List Arith Bool Lia.
From Verif Require Import ChunksModel ChunksProps SelectionModel SelectionProps FitArgsModel FitArgsProps SelectArgsModel.
Import ListNotations.
Local Open Scope nat_scope.
Local Open Scope list_scope.

Lemma sbind_inr {A B} (r : select_error + A) (f : A -> select_error + B) b : sbind r f = inr b <-> exists a, r = inr a /\ f a = inr b.
Proof. destruct r as [e|a]; cbn; split; [discriminate|intros (a & H & _); discriminate|eauto|intros (a' & H & E)]. injection H as ->. exact E. Qed.
Lemma sguard_bind {B} ok e (f : unit -> select_error + B) b : sbind (sguard ok e) f = inr b <-> ok = true /\ f tt = inr b.
Proof. destruct ok; cbn; split; intuition discriminate. Qed.

(** ** Specification *)
(** what a user asks for with [s] for the selected DUT with index [k]; None, for all DUTs or for one: nothing *)
Definition asks_duts (s : FitArgsModel.selection) (k : nat) (l : list nat) : Prop :=
  (s = SNone /\ l = []) \/ (exists t, s = SIter t (map Leaf l)) \/
  (exists t items, s = SIter t items /\ (nth_error items k = Some (Items l) \/ (nth_error items k = Some INone /\ l = []))).
Definition asks_query (q : query_argument) (k : nat) (s : string) : Prop :=
  match q with QNone => s = ""%string | QString q => s = q | QList l => nth_error l k = Some (Some s) end.
(** a selection of the accepted shape: None, DUTs for all, or DUTs or None for each DUT, in all cases not empty *)
Definition good_shape (n : nat) (s : FitArgsModel.selection) : Prop :=
  s = SNone \/ (exists t l, s = SIter t (map Leaf l) /\ l <> []) \/ (exists t items, s = SIter t items /\ length items = n /\ forall i, In i items -> is_leaf i = false).
Definition good_query (n : nat) (q : query_argument) : Prop := match q with QList l => length l = n /\ ~ In None l | _ => True end.

Lemma check_selection_ok n s l : n <> 0 -> check_selection n s = inr l -> length l = n /\ forall k, k < n -> asks_duts s k (duts_at l k).
Proof.
  intros N0. unfold check_selection. rewrite sbind_inr. intros (items & E & H). rewrite !sguard_bind in H. destruct H as (H1 & H2 & H3 & H4). injection H4 as <-.
  apply Nat.eqb_eq in H3. rewrite map_length. split; [exact H3|]. intros k Hk. unfold duts_at.
  set (items' := if forallb is_leaf items then repeat (Items (map leaf_dut items)) n else items) in *.
  destruct (nth_error items' k) as [i|] eqn:Ei; [|apply nth_error_None in Ei; lia].
  rewrite (nth_error_nth _ _ None (map_nth_error _ _ _ Ei)). unfold items' in *. clear items'. destruct (forallb is_leaf items) eqn:F.
  - rewrite nth_repeat_some in Ei by exact Hk. injection Ei as <-. destruct s as [|d|t its]; [|discriminate|].
    + injection E as <-. destruct n; [congruence|]. discriminate.
    + injection E as ->. right. left. exists t. f_equal. apply leaf_all. exact F.
  - rewrite forallb_forall in H2. specialize (H2 i (nth_error_In _ _ Ei)). destruct s as [|d|t its]; [|discriminate|].
    + injection E as <-. rewrite nth_repeat_some in Ei by exact Hk. injection Ei as <-. left. auto.
    + injection E as ->. right. right. exists t, items. split; [reflexivity|]. destruct i; [right; auto|discriminate|left; exact Ei].
Qed.
Lemma check_selection_accepts n s : n <> 0 -> ((exists l, check_selection n s = inr l) <-> good_shape n s).
Proof.
  intros N0. unfold check_selection. split.
  - intros (l & H). rewrite sbind_inr in H. destruct H as (items & E & H). rewrite !sguard_bind in H. destruct H as (H1 & H2 & H3 & _). destruct s as [|d|t its]; [left; reflexivity|discriminate|].
    injection E as ->. right. destruct (forallb is_leaf items) eqn:F.
    + left. exists t, (map leaf_dut items). split; [f_equal; apply leaf_all; exact F|]. destruct items; [discriminate|discriminate].
    + right. exists t, items. split; [reflexivity|]. split; [apply Nat.eqb_eq; exact H3|]. rewrite forallb_forall in H2. intros i Hi. specialize (H2 i Hi). destruct i; [reflexivity|discriminate|reflexivity].
  - intros [->|[(t & l & -> & Nl)|(t & items & -> & L & Q)]]; eexists; rewrite sbind_inr; eexists; (split; [reflexivity|]); rewrite !sguard_bind.
    + assert (F : forallb is_leaf (repeat (Items []) n) = false) by (destruct n; [congruence|reflexivity]). rewrite F, repeat_length. split; [destruct n; [congruence|reflexivity]|].
      split; [|split; [apply Nat.eqb_refl|reflexivity]]. apply forallb_forall. intros i Hi. apply repeat_spec in Hi. subst i. reflexivity.
    + rewrite forallb_leaf, repeat_length. split; [destruct l; [congruence|reflexivity]|]. split; [|split; [apply Nat.eqb_refl|reflexivity]]. apply forallb_forall. intros i Hi. apply repeat_spec in Hi. subst i. reflexivity.
    + assert (F : forallb is_leaf items = false). { destruct items as [|i items]; [cbn in L; congruence|]. cbn. rewrite (Q i) by (left; reflexivity). reflexivity. }
      rewrite F. split; [destruct items; [cbn in L; congruence|reflexivity]|]. split; [|split; [apply Nat.eqb_eq; exact L|reflexivity]]. apply forallb_forall. intros i Hi. specialize (Q i Hi). destruct i; [reflexivity|discriminate|reflexivity].
Qed.
Lemma check_query_ok n q l : check_query n q = inr l <-> length l = n /\ good_query n q /\ forall k, k < n -> asks_query q k (nth k l ""%string).
Proof.
  unfold check_query. set (given := match q with QNone => _ | QString q => _ | QList l => _ end). rewrite !sguard_bind, forallb_forall, Nat.eqb_eq. split.
  - intros (H1 & H2 & H3). injection H3 as <-. rewrite map_length. split; [exact H2|]. split.
    + destruct q as [|q|l]; cbn; auto. split; [exact H2|]. intros X. specialize (H1 None X). discriminate.
    + intros k Hk. destruct (nth_error given k) as [v|] eqn:E; [|apply nth_error_None in E; lia]. rewrite (nth_error_nth _ _ _ (map_nth_error _ _ _ E)).
      specialize (H1 v (nth_error_In _ _ E)). destruct v as [v|]; [|discriminate]. unfold given in E. destruct q as [|q|l']; cbn.
      * rewrite nth_repeat_some in E by exact Hk. congruence.
      * rewrite nth_repeat_some in E by exact Hk. congruence.
      * exact E.
  - intros (L & G & A). assert (Lg : length given = n) by (unfold given; destruct q; [apply repeat_length|apply repeat_length|apply G]).
    assert (F : forall v, In v given -> match v with Some _ => true | None => false end = true).
    { intros v Hv. destruct v; [reflexivity|]. exfalso. unfold given in Hv. destruct q; [apply repeat_spec in Hv; discriminate|apply repeat_spec in Hv; discriminate|]. apply G. exact Hv. }
    split; [exact F|]. split; [exact Lg|]. f_equal. apply nth_ext with (d := ""%string) (d' := ""%string); [rewrite map_length; lia|]. rewrite map_length. intros k Hk.
    destruct (nth_error given k) as [v|] eqn:E; [|apply nth_error_None in E; lia]. rewrite (nth_error_nth _ _ _ (map_nth_error _ _ _ E)).
    specialize (F v (nth_error_In _ _ E)). destruct v as [v|]; [|discriminate]. specialize (A k ltac:(lia)). unfold given in E. destruct q as [|q|l']; cbn in A.
    + rewrite nth_repeat_some in E by lia. congruence.
    + rewrite nth_repeat_some in E by lia. congruence.
    + congruence.
Qed.
Lemma check_duts_ok s duts : check_duts s = inr duts <-> duts <> [] /\ exists t, s = SIter t (map Leaf duts).
Proof.
  unfold check_duts. destruct s as [|d|t items]; [split; [discriminate|intros (_ & t & H); discriminate]|split; [discriminate|intros (_ & t & H); discriminate]|].
  rewrite !sguard_bind, leaf_all. split.
  - intros (H1 & H2 & H3). injection H3 as <-. split; [destruct items; [discriminate|discriminate]|]. exists t. f_equal. exact H2.
  - intros (N & t' & H). injection H as -> ->. rewrite leaf_map. split; [destruct duts; [congruence|reflexivity]|]. auto.
Qed.
Lemma disjoint_spec a b : disjoint a b = true <-> forall d, In d a -> ~ In d b.
Proof.
  unfold disjoint. rewrite forallb_forall. split; intros H d Hd.
  - intros X. specialize (H d Hd). apply negb_true_iff, not_true_iff_false in H. apply H, existsb_exists. exists d. rewrite Nat.eqb_refl. auto.
  - apply negb_true_iff, not_true_iff_false. intros X. apply existsb_exists in X. destruct X as (e & He & E). apply Nat.eqb_eq in E. subst e. apply (H d Hd He).
Qed.
Lemma check_disjoint_spec : forall h n, length h = length n -> (check_disjoint h n = true <-> forall k d, k < length h -> In d (duts_at h k) -> ~ In d (duts_at n k)).
Proof.
  induction h as [|a h IH]; intros [|b n] L; cbn in L; try lia; cbn [check_disjoint].
  - split; [|reflexivity]. intros _ k d Hk. cbn in Hk. lia.
  - rewrite andb_true_iff, IH by lia. split.
    + intros [H1 H2] [|k] d Hk.
      * unfold duts_at. cbn. destruct a as [a|]; [|intros []]. destruct b as [b|]; [|intros _ []]. intros Ha Hb. apply (proj1 (disjoint_spec b a) H1 d Hb Ha).
      * apply (H2 k d). cbn in Hk. lia.
    + intros H. split.
      * destruct a as [a|]; [|reflexivity]. destruct b as [b|]; [|reflexivity]. apply disjoint_spec. intros d Hb Ha. specialize (H 0 d ltac:(cbn; lia)). unfold duts_at in H. cbn in H. exact (H Ha Hb).
      * intros k d Hk. apply (H (S k) d). cbn. lia.
Qed.

Lemma nth_seq (duts : list nat) : map (fun k => nth k duts 0) (seq 0 (length duts)) = duts.
Proof. induction duts as [|d duts IH]; [reflexivity|]. cbn [length seq map nth]. rewrite <- seq_shift, map_map. f_equal. exact IH. Qed.
(** the selection for a DUT is the one asked for *)
Definition step_asked (a : select_arguments) (k : nat) (q : SelectionModel.selection) : Prop :=
  asks_duts (s_hit a) k (q_hit q) /\ asks_duts (s_no_hit a) k (q_no_hit q) /\ asks_duts (s_quality a) k (q_quality q) /\
  asks_duts (s_iso_track a) k (q_iso_track q) /\ asks_duts (s_iso_hit a) k (q_iso_hit q).
Lemma create_ok : forall steps existing, create_tables steps existing = inr tt <-> NoDup (map (fun s => fst (fst s)) steps) /\ forall s, In s steps -> ~ In (fst (fst s)) existing.
Proof.
  induction steps as [|s steps IH]; intros existing; cbn [create_tables map].
  - split; [intros _; split; [constructor|intros s []]|reflexivity].
  - destruct (existsb (Nat.eqb (fst (fst s))) existing) eqn:E.
    + split; [discriminate|]. intros [_ H]. apply existsb_exists in E. destruct E as (e & He & Q). apply Nat.eqb_eq in Q. subst e. destruct (H s (or_introl eq_refl) He).
    + rewrite IH. apply not_true_iff_false in E. split.
      * intros [N H]. split.
        -- constructor; [|exact N]. intros X. apply in_map_iff in X. destruct X as (u & Eu & Hu). apply (H u Hu). left. auto.
        -- intros u [<-|Hu]; [|intros X; apply (H u Hu); right; exact X]. intros X. apply E, existsb_exists. exists (fst (fst s)). rewrite Nat.eqb_refl. auto.
      * intros [N H]. inversion N as [|? ? N1 N2]; subst. split; [exact N2|]. intros u Hu [X|X]; [|apply (H u (or_intror Hu) X)]. apply N1, in_map_iff. exists u. auto.
Qed.

(** If the arguments are accepted, the tracks of each selected DUT are selected once, in the order of the selection, with the selections and the query asked for; no DUT
    is required to have a hit and to have no hit at the same time. *)
Theorem C118_as_asked : forall a steps, select_tracks_steps a = inr steps ->
  exists t duts, s_duts a = SIter t (map Leaf duts) /\ NoDup duts /\ map (fun s => fst (fst s)) steps = duts /\
  forall k d q query, nth_error steps k = Some (d, q, query) -> nth_error duts k = Some d /\ step_asked a k q /\ asks_query (s_query a) k query /\
    (forall e, In e (q_hit q) -> ~ In e (q_no_hit q)).
Proof.
  intros a steps H. unfold select_tracks_steps in H. rewrite sbind_inr in H. destruct H as (steps' & H & C). rewrite sbind_inr in C. destruct C as ([] & C & E). injection E as ->.
  apply create_ok in C. destruct C as [Nd _]. unfold check_select in H. rewrite sbind_inr in H. destruct H as (duts & Hd & H). apply check_duts_ok in Hd. destruct Hd as (N & t & Hd).
  assert (N0 : length duts <> 0) by (destruct duts; [congruence|discriminate]). set (n := length duts) in *.
  rewrite sbind_inr in H. destruct H as (hit & H1 & H). apply check_selection_ok in H1; [|exact N0]. destruct H1 as [L1 A1].
  rewrite sbind_inr in H. destruct H as (no & H2 & H). apply check_selection_ok in H2; [|exact N0]. destruct H2 as [L2 A2].
  rewrite sguard_bind in H. destruct H as (Dj & H).
  rewrite sbind_inr in H. destruct H as (qu & H3 & H). apply check_selection_ok in H3; [|exact N0]. destruct H3 as [L3 A3].
  rewrite sbind_inr in H. destruct H as (it & H4 & H). apply check_selection_ok in H4; [|exact N0]. destruct H4 as [L4 A4].
  rewrite sbind_inr in H. destruct H as (ih & H5 & H). apply check_selection_ok in H5; [|exact N0]. destruct H5 as [L5 A5].
  rewrite sbind_inr in H. destruct H as (qs & H6 & H). apply check_query_ok in H6. destruct H6 as (L6 & _ & A6). injection H as <-.
  assert (M : map (fun s : select_step => fst (fst s)) (steps_of duts hit no qu it ih qs) = duts).
  { unfold steps_of. rewrite map_map. apply nth_seq. }
  exists t, duts. split; [exact Hd|]. split; [rewrite <- M; exact Nd|]. split; [exact M|]. intros k d q query Hk.
  assert (Kn : k < n). { assert (X : k < length (steps_of duts hit no qu it ih qs)) by (apply nth_error_Some; congruence). unfold steps_of in X. rewrite map_length, seq_length in X. exact X. }
  unfold steps_of in Hk. rewrite (map_nth_error _ k (seq 0 n) (d := k)) in Hk by (rewrite (nth_error_nth' _ 0) by (rewrite seq_length; exact Kn); rewrite seq_nth by exact Kn; reflexivity).
  injection Hk as <- <- <-. split; [apply nth_error_nth'; exact Kn|]. split; [unfold step_asked; cbn [q_hit q_no_hit q_quality q_iso_track q_iso_hit]; auto 7|]. split; [apply A6; exact Kn|]. cbn.
  intros e He. apply (proj1 (check_disjoint_spec hit no ltac:(lia)) Dj k e); [lia|exact He].
Qed.

(** The arguments that are accepted: different DUTs, selections of the right shape, no DUT required with and without a hit. *)
Theorem C118_accepted : forall a, (exists steps, select_tracks_steps a = inr steps) <->
  exists t duts, s_duts a = SIter t (map Leaf duts) /\ duts <> [] /\ NoDup duts /\
    good_shape (length duts) (s_hit a) /\ good_shape (length duts) (s_no_hit a) /\ good_shape (length duts) (s_quality a) /\ good_shape (length duts) (s_iso_track a) /\
    good_shape (length duts) (s_iso_hit a) /\ good_query (length duts) (s_query a) /\
    forall k l m d, k < length duts -> asks_duts (s_hit a) k l -> asks_duts (s_no_hit a) k m -> In d l -> ~ In d m.
Proof.
  assert (U : forall s k l m, asks_duts s k l -> asks_duts s k m -> l = m).
  { intros s k l m A B.
    destruct A as [[-> ->]|[(t & ->)|(t & items & -> & A)]], B as [[E ->]|[(t' & E)|(t' & items' & E & B)]]; try discriminate; try reflexivity; injection E; intros; subst.
    - apply leaf_inj. auto.
    - destruct B as [B|[B _]]; apply no_items in B; destruct B; discriminate.
    - destruct A as [A|[A _]]; apply no_items in A; destruct A; discriminate.
    - destruct A as [A|[A ->]], B as [B|[B ->]]; congruence. }
  intros a. split.
  - intros (steps & H). pose proof (C118_as_asked _ _ H) as (t & duts & Hd & Nd & M & As). exists t, duts. unfold select_tracks_steps in H. rewrite sbind_inr in H. destruct H as (steps' & H & C). rewrite sbind_inr in C. destruct C as ([] & C & E). injection E as ->.
    unfold check_select in H. rewrite sbind_inr in H. destruct H as (duts' & Hd' & H). apply check_duts_ok in Hd'. destruct Hd' as (N & t' & Hd'). rewrite Hd in Hd'. injection Hd' as _ E. apply leaf_inj in E. subst duts'.
    assert (N0 : length duts <> 0) by (destruct duts; [congruence|discriminate]).
    rewrite sbind_inr in H. destruct H as (hit & H1 & H). rewrite sbind_inr in H. destruct H as (no & H2 & H). rewrite sguard_bind in H. destruct H as (Dj & H).
    rewrite sbind_inr in H. destruct H as (qu & H3 & H). rewrite sbind_inr in H. destruct H as (it & H4 & H). rewrite sbind_inr in H. destruct H as (ih & H5 & H). rewrite sbind_inr in H. destruct H as (qs & H6 & _).
    assert (W : forall s l, check_selection (length duts) s = inr l -> good_shape (length duts) s) by (intros s l X; apply (check_selection_accepts _ _ N0); eauto).
    split; [exact Hd|]. split; [exact N|]. split; [exact Nd|]. repeat (split; [eapply W; eassumption|]). split; [apply check_query_ok in H6; tauto|].
    intros k l m d Hk Al Am Hl Hm. apply check_selection_ok in H1, H2; auto. destruct H1 as [L1 A1], H2 as [L2 A2].
    apply (proj1 (check_disjoint_spec hit no ltac:(lia)) Dj k d ltac:(lia)); [rewrite (U _ _ _ _ (A1 k Hk) Al); exact Hl|rewrite (U _ _ _ _ (A2 k Hk) Am); exact Hm].
  - intros (t & duts & Hd & N & Nd & G1 & G2 & G3 & G4 & G5 & G6 & Dj). assert (N0 : length duts <> 0) by (destruct duts; [congruence|discriminate]).
    apply (check_selection_accepts _ _ N0) in G1, G2, G3, G4, G5. destruct G1 as (hit & H1), G2 as (no & H2), G3 as (qu & H3), G4 as (it & H4), G5 as (ih & H5).
    assert (G : exists qs, check_query (length duts) (s_query a) = inr qs).
    { destruct (s_query a) as [|q|l]; cbn in G6; unfold check_query; eexists; rewrite !sguard_bind, forallb_forall, Nat.eqb_eq.
      - split; [intros v Hv; apply repeat_spec in Hv; subst v; reflexivity|]. split; [apply repeat_length|reflexivity].
      - split; [intros v Hv; apply repeat_spec in Hv; subst v; reflexivity|]. split; [apply repeat_length|reflexivity].
      - destruct G6 as [G6 G7]. split; [intros [v|] Hv; [reflexivity|contradiction]|]. split; [exact G6|reflexivity]. }
    destruct G as (qs & H6). eexists. unfold select_tracks_steps. rewrite sbind_inr. exists (steps_of duts hit no qu it ih qs). split.
    + unfold check_select. rewrite (proj2 (check_duts_ok (s_duts a) duts)) by eauto. cbn [sbind]. rewrite H1. cbn [sbind]. rewrite H2. cbn [sbind].
      apply check_selection_ok in H1, H2; auto. destruct H1 as [L1 A1], H2 as [L2 A2].
      rewrite (proj2 (check_disjoint_spec hit no ltac:(lia))) by (intros k d Hk Hl Hm; apply (Dj k _ _ d ltac:(lia) (A1 k ltac:(lia)) (A2 k ltac:(lia)) Hl Hm)).
      cbn [sguard sbind]. rewrite H3. cbn [sbind]. rewrite H4. cbn [sbind]. rewrite H5. cbn [sbind]. rewrite H6. reflexivity.
    + rewrite sbind_inr. exists tt. split; [|reflexivity]. apply create_ok. split; [|intros s _ []].
      unfold steps_of. rewrite map_map. cbn [fst]. rewrite nth_seq. exact Nd.
Qed.

(** The requirements of an accepted selection can be met: a track with hits, quality and isolation in all DUTs but those without a hit is kept. *)
Theorem C118_satisfiable : forall a steps d q query, select_tracks_steps a = inr steps -> In (d, q, query) steps -> (forall e, In e (q_hit q) -> e < 32) -> (forall e, In e (q_no_hit q) -> e < 32) ->
  exists t, uint32 (t_hit t) /\ pass q t = true.
Proof.
  intros a steps d q query H Hi B1 B2. destruct (C118_as_asked _ _ H) as (t & duts & _ & _ & _ & As). apply In_nth_error in Hi. destruct Hi as [k Hk].
  destruct (As _ _ _ _ Hk) as (_ & _ & _ & Dj). exists (TrackFlags (mask_of (q_hit q)) (-1) (-1) (-1)).
  assert (B : uint32 (mask_of (q_hit q))) by (apply FitTracksProps.mask_small; exact B1). split; [exact B|].
  apply pass_iff; [exact B|exact B2|]. unfold requested, bit. cbn [t_hit t_quality t_iso_track t_iso_hit].
  assert (M : forall e, Z.testbit (mask_of (q_hit q)) (Z.of_nat e) = true <-> In e (q_hit q)) by (intros e; rewrite mask_bits, Nat2Z.id by lia; reflexivity).
  split; [intros e He; apply M; exact He|]. split; [intros e He X; apply M in X; apply (Dj e X He)|].
  split; [|split]; intros; apply Z.bits_m1; lia.
Qed.

(** Without selections all tracks are kept. *)
Theorem C118_no_selection : forall t duts, duts <> [] -> NoDup duts ->
  select_tracks_steps (SelectArguments (SIter t (map Leaf duts)) SNone SNone SNone SNone SNone QNone) =
    inr (map (fun d => (d, SelectionModel.Selection [] [] [] [] [], ""%string)) duts) /\
  forall flags, pass (SelectionModel.Selection [] [] [] [] []) flags = true.
Proof.
  intros t duts N Nd. split; [|reflexivity].
  destruct (proj2 (C118_accepted (SelectArguments (SIter t (map Leaf duts)) SNone SNone SNone SNone SNone QNone))) as (steps & H).
  { exists t, duts. split; [reflexivity|]. split; [exact N|]. split; [exact Nd|]. do 5 (split; [left; reflexivity|]). split; [exact Logic.I|].
    intros k l m d _ [[_ ->]|[(u & E)|(u & i & E & _)]] _ X; try discriminate. destruct X. }
  rewrite H. f_equal. destruct (C118_as_asked _ _ H) as (t' & duts' & E & _ & M & As). injection E as _ E. apply leaf_inj in E. subst duts'.
  rewrite <- M, map_map. rewrite <- (map_id steps) at 1. apply map_ext_in. intros [[d q] query] Hs. apply In_nth_error in Hs. destruct Hs as [k Hk].
  destruct (As _ _ _ _ Hk) as (_ & (A1 & A2 & A3 & A4 & A5) & Aq & _). cbn in *. subst query.
  assert (Z : forall l, asks_duts SNone k l -> l = []) by (intros l [[_ ->]|[(u & X)|(u & i & X & _)]]; [reflexivity|discriminate|discriminate]).
  destruct q as [q1 q2 q3 q4 q5]. cbn in *. rewrite (Z q1), (Z q2), (Z q3), (Z q4), (Z q5) by assumption. reflexivity.
Qed.

(** An empty list of DUTs for all DUTs is rejected, although an empty list for each DUT is accepted and asks for the same. *)
Theorem C118_empty_refuted : forall t, check_selection 1 (SIter t []) = inl SelectValueErr /\ check_selection 1 (SIter t [Items []]) = inr [Some []] /\ asks_duts (SIter t [Items []]) 0 [] /\ asks_duts (SIter t []) 0 [].
Proof.
  intros t. split; [reflexivity|]. split; [reflexivity|]. split.
  - right. right. exists t, [Items []]. split; [reflexivity|]. left. reflexivity.
  - right. left. exists t. reflexivity.
Qed.
(** A repeated DUT passes the checks; the error comes when the second table is created, after the tracks of the DUT have been written. *)
Theorem C118_repeated_dut_refuted : exists a steps, check_select a = inr steps /\ length steps = 2 /\ select_tracks_steps a = inl SelectNodeErr.
Proof. exists (SelectArguments (SIter false [Leaf 3; Leaf 3]) SNone SNone SNone SNone SNone QNone). eexists. split; [reflexivity|]. split; reflexivity. Qed.

Example C118_case :
  let a := SelectArguments (SIter true [Leaf 1; Leaf 0]) (SIter false [Leaf 0; Leaf 2]) (SIter true [INone; Items [1]]) SNone (SIter false [Items [0]; INone]) SNone (QString "charge > 5") in
  select_tracks_steps a = inr [(1, SelectionModel.Selection [0; 2] [] [] [0] [], "charge > 5"%string); (0, SelectionModel.Selection [0; 2] [1] [] [] [], "charge > 5"%string)] /\
  select_tracks_steps (SelectArguments (SIter true [Leaf 1]) (SIter false [Leaf 0; Leaf 2]) (SIter true [Leaf 2]) SNone SNone SNone QNone) = inl SelectValueErr /\
  select_tracks_steps (SelectArguments (SIter true [Leaf 1]) SNone SNone (SIter true [Leaf 2; Items [1]]) SNone SNone QNone) = inl SelectValueErr /\
  select_tracks_steps (SelectArguments (SIter true [Leaf 1]) SNone SNone SNone SNone SNone (QList [None])) = inl SelectValueErr.
Proof. repeat split; reflexivity. Qed.

Print Assumptions C118_as_asked.
Print Assumptions C118_accepted.
Print Assumptions C118_satisfiable.
Print Assumptions C118_no_selection.
Print Assumptions C118_empty_refuted.
Print Assumptions C118_repeated_dut_refuted.
