(** C93: arguments and steps of the alignment. *)
From Coq Require Import Ascii String List Arith Bool Lia.
From Verif Require Import AlignArgsModel.
Import ListNotations.

Lemma bind_inr {A B} (r : res A) (f : A -> res B) b : bind r f = inr b <-> exists a, r = inr a /\ f a = inr b.
Proof. destruct r as [e|a]; cbn; split; [discriminate|intros (a & H & _); discriminate|eauto|intros (a' & H & E)]. injection H as ->. exact E. Qed.
Lemma guard_bind {B} ok e (f : unit -> res B) b : bind (guard ok e) f = inr b <-> ok = true /\ f tt = inr b.
Proof. destruct ok; cbn; split; intuition discriminate. Qed.
Lemma nonempty_spec {A} (l : list A) : negb (length l =? 0) = true <-> l <> [].
Proof. destruct l; cbn; split; congruence. Qed.
Lemma leaf_all l : forallb is_leaf l = true <-> l = map Leaf (map leaf_dut l).
Proof. induction l as [|[d|ds] l IH]; cbn; [tauto| |split; [discriminate|intros H; discriminate]]. rewrite IH. split; [intros <-|intros H; injection H as H]; auto. Qed.
Lemma items_all l : forallb (fun i => negb (is_leaf i)) l = true <-> l = map Items (map item_duts l).
Proof. induction l as [|[d|ds] l IH]; cbn; [tauto|split; [discriminate|intros H; discriminate]|]. rewrite IH. split; [intros <-|intros H; injection H as H]; auto. Qed.
Lemma map_items l : map item_duts (map Items l) = l.
Proof. induction l as [|a l IH]; cbn; congruence. Qed.
Lemma map_leaf l : map leaf_dut (map Leaf l) = l.
Proof. induction l as [|a l IH]; cbn; congruence. Qed.
Lemma items_not_leaf a l : forallb is_leaf (map Items (a :: l)) = false.
Proof. reflexivity. Qed.

Lemma repeat_map {A B} (c : A) (l : list B) : repeat c (length l) = map (fun _ => c) l.
Proof. induction l as [|b l IH]; [reflexivity|]. cbn [length repeat map]. rewrite IH. reflexivity. Qed.

(** ** select_duts: one list of DUTs is one group; a list of non-empty lists is the list of the groups; all others are errors *)
Theorem C93_select_duts s g : check_select_duts s = inr g <->
  (exists l, l <> [] /\ s = SIter (map Leaf l) /\ g = [l]) \/ (g <> [] /\ s = SIter (map Items g) /\ Forall (fun l => l <> []) g).
Proof.
  destruct s as [| |items]; cbn [check_select_duts]; [split; [discriminate|intros [(l & _ & H & _)|(_ & H & _)]; discriminate]..|].
  rewrite guard_bind, nonempty_spec. destruct (forallb is_leaf items) eqn:L.
  - assert (E := proj1 (leaf_all items) L). rewrite guard_bind. cbn [forallb is_leaf negb item_duts map andb]. rewrite guard_bind, andb_true_r, map_length. split.
    + intros (N & _ & _ & X). left. exists (map leaf_dut items). split; [intros Z; apply map_eq_nil in Z; auto|]. split; [congruence|congruence].
    + intros [(l & N & X & ->)|(N & X & _)].
      * injection X as ->. rewrite map_leaf, map_length. destruct l; [congruence|]. cbn. split; [discriminate|auto].
      * injection X as ->. destruct g as [|a g]; [congruence|]. rewrite items_not_leaf in L. discriminate.
  - rewrite !guard_bind. split.
    + intros (N & I & F & X). right. injection X as <-. apply items_all in I. split; [intros Z; apply map_eq_nil in Z; auto|]. split; [congruence|]. apply Forall_forall. intros l Hl. apply in_map_iff in Hl. destruct Hl as (i & <- & Hi).
      rewrite forallb_forall in F. specialize (F i Hi). apply nonempty_spec in F. exact F.
    + intros [(l & N & X & ->)|(N & X & F)].
      * injection X as ->. assert (forallb is_leaf (map Leaf l) = true) by (apply leaf_all; rewrite map_leaf; reflexivity). congruence.
      * injection X as ->. split; [intros Z; apply map_eq_nil in Z; auto|]. split; [apply items_all; rewrite map_items; reflexivity|]. rewrite map_items. split; [|reflexivity]. apply forallb_forall. intros i Hi. apply in_map_iff in Hi. destruct Hi as (l & <- & Hl). apply nonempty_spec. cbn. rewrite Forall_forall in F. auto.
Qed.
(** The documented default "None: align all DUTs" is an error. *)
Theorem C93_none_refuted : check_select_duts SNone = inl TypeErr.
Proof. reflexivity. Qed.

(** ** hit and fit DUTs *)
Lemma expand_spec items n r : expand_selection items n = inr r <-> items <> [] /\ ((exists l, items = map Leaf l /\ r = repeat l n) \/ (items = map Items r /\ length r = n)).
Proof.
  unfold expand_selection. rewrite guard_bind, nonempty_spec. destruct (forallb is_leaf items) eqn:L.
  - assert (E := proj1 (leaf_all items) L). rewrite !guard_bind. rewrite repeat_length, Nat.eqb_refl.
    assert (M : map item_duts (repeat (Items (map leaf_dut items)) n) = repeat (map leaf_dut items) n) by (clear; induction n; cbn; congruence).
    assert (Fi : forallb (fun i => negb (is_leaf i)) (repeat (Items (map leaf_dut items)) n) = true) by (clear; induction n; cbn; auto). rewrite Fi, M. split.
    + intros (N & _ & _ & X). split; [exact N|]. left. exists (map leaf_dut items). split; [exact E|congruence].
    + intros (N & [(l & -> & ->)|[-> H]]); [rewrite map_leaf; auto|]. destruct r as [|a r]; [destruct N; reflexivity|]. rewrite items_not_leaf in L. discriminate.
  - rewrite !guard_bind. split.
    + intros (N & I & Le & X). split; [exact N|]. right. apply items_all in I. apply Nat.eqb_eq in Le. injection X as <-. rewrite map_length. auto.
    + intros (N & [(l & -> & ->)|[-> H]]).
      * assert (forallb is_leaf (map Leaf l) = true) by (apply leaf_all; rewrite map_leaf; reflexivity). congruence.
      * split; [exact N|]. rewrite map_items, map_length, Nat.eqb_eq. split; [apply items_all; rewrite map_items; reflexivity|]. auto.
Qed.
Lemma short_spec {A} (l : list A) : negb (length l <? 2) = true <-> 2 <= length l.
Proof. rewrite negb_true_iff, Nat.ltb_ge. tauto. Qed.
Lemma mem_iff d l : mem d l = true <-> In d l.
Proof. unfold mem. rewrite existsb_exists. split; [intros (x & H & E); apply Nat.eqb_eq in E; subst; auto|intros H; exists d; rewrite Nat.eqb_refl; auto]. Qed.
(** Hit DUTs: one list for all groups, or one list for every group; at least 2 DUTs. *)
Theorem C93_hit_duts s groups hits : groups <> [] -> (check_hit_duts s groups = inr hits <->
  Forall (fun l => 2 <= length l) hits /\ ((s = SNone /\ hits = groups) \/ (exists l, l <> [] /\ s = SIter (map Leaf l) /\ hits = map (fun _ => l) groups) \/ (s = SIter (map Items hits) /\ length hits = length groups))).
Proof.
  intros N. unfold check_hit_duts. rewrite bind_inr. setoid_rewrite guard_bind.
  assert (F : forall h, forallb (fun l : list nat => negb (length l <? 2)) h = true <-> Forall (fun l => 2 <= length l) h).
  { intros h. rewrite forallb_forall, Forall_forall. split; intros H x Hx; apply short_spec; auto. }
  assert (R : forall l : list nat, repeat l (length groups) = map (fun _ : list nat => l) groups) by (intros l; apply repeat_map). split.
  - intros (h & E & Fh & X). injection X as ->. apply F in Fh. split; [exact Fh|]. destruct s as [| |items]; [|discriminate|].
    + apply expand_spec in E. destruct E as (_ & [(l & E & _)|[E _]]).
      * destruct groups as [|a groups]; [congruence|]. destruct l; discriminate.
      * left. split; [reflexivity|]. rewrite <- (map_items hits), <- E, map_items. reflexivity.
    + apply expand_spec in E. destruct E as (Ne & [(l & -> & ->)|[-> E]]); [right; left; exists l|right; right; auto]. split; [intros ->; apply Ne; reflexivity|]. rewrite R. auto.
  - intros (Fh & H). exists hits. rewrite F. split; [|auto]. destruct H as [[-> ->]|[(l & Nl & -> & ->)|[-> H]]]; apply expand_spec.
    + split; [destruct groups; [congruence|discriminate]|]. right. auto.
    + split; [destruct l; [congruence|discriminate]|]. left. exists l. rewrite R. auto.
    + split; [destruct hits; [destruct groups; [congruence|discriminate]|discriminate]|]. right. auto.
Qed.
(** Without select_hit_duts a group with one DUT is an error, also the example of the documentation. *)
Theorem C93_single_dut_refuted groups d : In [d] groups -> check_hit_duts SNone groups = inl ValueErr.
Proof.
  intros H. assert (N : groups <> []) by (intros ->; destruct H). unfold check_hit_duts. assert (E : expand_selection (map Items groups) (length groups) = inr groups) by (apply expand_spec; split; [destruct groups; [congruence|discriminate]|auto]). rewrite E. cbn [bind].
  assert (F : forallb (fun l : list nat => negb (length l <? 2)) groups = false). { destruct (forallb _ groups) eqn:X; [|reflexivity]. rewrite forallb_forall in X. specialize (X [d] H). discriminate. }
  rewrite F. reflexivity.
Qed.
Example C93_documentation : exists g, check_select_duts (SIter [Items [0; 1; 2; 5; 6; 7]; Items [4]; Items [3]]) = inr g /\ check_hit_duts SNone g = inl ValueErr.
Proof. eexists. split; reflexivity. Qed.
(** Fit DUTs have at least two DUTs in every group, and a hit is required in all of them. *)
Theorem C93_fit_duts s groups hits fits : length hits = length groups -> check_fit_duts s groups hits = inr fits ->
  Forall2 (fun fit hit => 2 <= length fit /\ incl fit hit) fits hits /\ (s = SNone -> fits = hits) /\ (forall l, l <> [] -> s = SIter (map Leaf l) -> fits = map (fun _ => l) groups) /\ (forall ls, ls <> [] -> s = SIter (map Items ls) -> fits = ls).
Proof.
  intros L E. unfold check_fit_duts in E. apply bind_inr in E. destruct E as (f & E & G). apply guard_bind in G. destruct G as [G X]. injection X as ->.
  assert (Lf : length fits = length hits).
  { destruct s as [| |items]; [|discriminate|]; apply expand_spec in E; destruct E as (_ & [(l & _ & ->)|[_ E]]); rewrite ?repeat_length; congruence. }
  split.
  - rewrite forallb_forall in G. clear E L. revert hits Lf G. induction fits as [|f fits IH]; intros [|h hits] Lf G; try discriminate; constructor.
    + specialize (G (f, h) (or_introl eq_refl)). cbn [fst snd] in G. apply andb_true_iff in G. destruct G as [G1 G2]. split; [apply short_spec; exact G1|]. intros d Hd. rewrite forallb_forall in G2. apply mem_iff, G2, Hd.
    + apply IH; [cbn in Lf; lia|]. intros x Hx. apply G. right. exact Hx.
  - assert (R : forall l : list nat, repeat l (length groups) = map (fun _ : list nat => l) groups) by (intros l; apply repeat_map). split; [|split].
    + intros ->. apply expand_spec in E. destruct E as (N & [(l & E & _)|[E _]]); [destruct hits as [|a hits]; [destruct N; reflexivity|destruct l; discriminate]|]. rewrite <- (map_items fits), <- E, map_items. reflexivity.
    + intros l N ->. apply expand_spec in E. destruct E as (_ & [(l' & E & ->)|[E _]]).
      * rewrite <- (map_leaf l), E, map_leaf. apply R.
      * destruct l as [|a l]; [congruence|]. destruct fits; discriminate.
    + intros ls N ->. apply expand_spec in E. destruct E as (_ & [(l' & E & ->)|[E _]]).
      * destruct ls as [|a ls]; [congruence|]. destruct l'; discriminate.
      * rewrite <- (map_items fits), <- E, map_items. reflexivity.
Qed.

(** ** chi2, cluster shapes, parameters: one entry for every DUT to align *)
Theorem C93_chi2 C (a : chi2_arg C) groups l : check_chi2 C a groups = inr l -> Forall2 (fun cs duts => length cs = length duts) l groups /\
  (forall c, a = CScalar C c -> l = map (map (fun _ => c)) groups) /\ (forall cs, a = CIter C (map inl cs) -> l = map (fun cd => map (fun _ => fst cd) (snd cd)) (combine cs groups)).
Proof.
  unfold check_chi2. set (l0 := match a with CScalar _ c => repeat (inl c) (length groups) | CIter _ l => l end). intros E. apply guard_bind in E. destruct E as [E1 E]. apply guard_bind in E. destruct E as [E2 E]. injection E as <-. apply Nat.eqb_eq in E1. split.
  - clearbody l0. rewrite forallb_forall in E2. revert groups E1 E2. induction l0 as [|c l0 IH]; intros [|g groups] E1 E2; try discriminate; cbn [combine map] in *; constructor.
    + apply Nat.eqb_eq. apply (E2 (_, g)). left. reflexivity.
    + apply IH; [cbn in E1; lia|]. intros x Hx. apply E2. right. exact Hx.
  - split.
    + intros c ->. unfold l0. clear. induction groups as [|g groups IH]; [reflexivity|]. cbn [length repeat combine map fst snd]. rewrite IH. f_equal. clear. induction g as [|d g IHg]; [reflexivity|]. cbn [length repeat map]. rewrite IHg. reflexivity.
    + intros cs ->. unfold l0 in *. clear E2 l0. rewrite map_length in E1. revert groups E1. induction cs as [|c cs IH]; intros [|g groups] E1; try discriminate; [reflexivity|]. cbn [map combine fst snd]. rewrite IH by (cbn in E1; lia). f_equal. apply repeat_map.
Qed.
Theorem C93_shapes a groups l : groups <> [] -> check_shapes a groups = inr l -> Forall2 (fun ss duts => length ss = length duts) l groups /\
  (a = ANone -> l = map (map (fun _ => None)) groups) /\ (forall s, a = AIter (map GLeaf s) -> l = map (map (fun _ => Some s)) groups).
Proof.
  intros N. unfold check_shapes. destruct a as [| |items] eqn:A; [| discriminate|].
  - rewrite guard_bind. assert (F : forallb is_group_shape (repeat GNone (length groups)) = false) by (destruct groups; [congruence|reflexivity]). rewrite F. intros [_ E]. apply guard_bind in E. destruct E as [_ E]. apply guard_bind in E. destruct E as [_ E]. injection E as <-.
    assert (G : map (map (fun s => match s with ShItems l => Some l | _ => None end)) (map (fun gd => expand_shapes (fst gd) (snd gd)) (combine (repeat GNone (length groups)) groups)) = map (map (fun _ => None)) groups).
    { clear. induction groups as [|g groups IH]; [reflexivity|]. cbn [length repeat combine map fst snd expand_shapes]. rewrite IH. f_equal. clear. induction g as [|d g IHg]; [reflexivity|]. cbn [length repeat map]. rewrite IHg. reflexivity. }
    rewrite G. split; [|split; [auto|intros s H; discriminate]]. clear. induction groups as [|g groups IH]; cbn; constructor; [apply map_length|exact IH].
  - rewrite guard_bind. destruct (forallb is_group_shape items) eqn:F.
    + intros [_ E]. apply guard_bind in E. destruct E as [_ E]. apply guard_bind in E. destruct E as [_ E]. injection E as <-.
      assert (G : map (map (fun s => match s with ShItems l => Some l | _ => None end)) (map (fun gd => expand_shapes (fst gd) (snd gd)) (combine (repeat (GItems (map (fun g => ShLeaf (group_shape g)) items)) (length groups)) groups)) = map (map (fun _ => Some (map group_shape items))) groups).
      { clear. induction groups as [|g groups IH]; [reflexivity|]. cbn [length repeat combine map fst snd expand_shapes]. rewrite IH. f_equal.
        assert (S : forallb is_shape (map (fun g => ShLeaf (group_shape g)) items) = true) by (clear; induction items; cbn; auto). rewrite S. clear. rewrite map_map. induction g as [|d g IH]; [reflexivity|]. cbn [length repeat map]. rewrite IH. reflexivity. }
      rewrite G. split; [|split; [discriminate|]]. { clear. induction groups as [|g groups IH]; cbn; constructor; [apply map_length|exact IH]. }
      intros s E. injection E as ->. rewrite map_map. cbn. rewrite map_id. reflexivity.
    + intros [_ E]. apply guard_bind in E. destruct E as [E1 E]. apply guard_bind in E. destruct E as [E2 E]. injection E as <-. apply Nat.eqb_eq in E1. split; [|split; [discriminate|]].
      * rewrite forallb_forall in E2. clear F A. revert groups N E1 E2. induction items as [|i items IH]; intros [|g groups] N E1 E2; try discriminate; [constructor|]. cbn [combine map] in *. constructor.
        -- specialize (E2 (expand_shapes i g, g) (or_introl eq_refl)). cbn [fst snd] in E2. rewrite !andb_true_iff in E2. rewrite map_length. apply Nat.eqb_eq, E2.
        -- destruct groups as [|g' groups]; [destruct items; [constructor|discriminate]|]. apply IH; [discriminate|cbn in *; lia|]. intros x Hx. apply E2. right. exact Hx.
      * intros s E. injection E as ->. assert (forallb is_group_shape (map GLeaf s) = true) by (clear; induction s; auto). congruence.
Qed.
(** The shapes of one group: None for all DUTs of the group, one list for all DUTs of the group, or one item for every DUT of the group. *)
Theorem C93_group_shapes gs groups l i g duts : check_shapes (AIter gs) groups = inr l -> nth_error gs i = Some g -> nth_error groups i = Some duts -> (forall n, g <> GLeaf n) ->
  exists ss, nth_error l i = Some ss /\ (g = GNone -> ss = map (fun _ => None) duts) /\ (forall s, g = GItems (map ShLeaf s) -> ss = map (fun _ => Some s) duts) /\
    (forall os : list (option (list nat)), os <> [] -> g = GItems (map (fun o => match o with Some s => ShItems s | None => ShNone end) os) -> ss = os /\ length os = length duts).
Proof.
  intros E G D NL. unfold check_shapes in E.
  assert (F : forallb is_group_shape gs = false).
  { apply not_true_is_false. intros F. rewrite forallb_forall in F. specialize (F g (nth_error_In _ _ G)). destruct g; try discriminate. exact (NL _ eq_refl). }
  rewrite F in E. apply guard_bind in E. destruct E as [_ E]. apply guard_bind in E. destruct E as [_ E]. apply guard_bind in E. destruct E as [E2 E]. injection E as <-.
  assert (C : nth_error (combine gs groups) i = Some (g, duts)).
  { clear - G D. revert groups i G D. induction gs as [|a gs IH]; intros [|b groups] [|i] G D; try discriminate; cbn in *; [congruence|auto]. }
  assert (M : nth_error (map (fun gd => expand_shapes (fst gd) (snd gd)) (combine gs groups)) i = Some (expand_shapes g duts)) by exact (map_nth_error (fun gd => expand_shapes (fst gd) (snd gd)) _ _ C).
  eexists. split; [rewrite (map_nth_error _ _ _ M); reflexivity|]. assert (R : forall (s : shapes_item) (ds : list nat), repeat s (length ds) = map (fun _ => s) ds) by (intros s ds; induction ds; cbn; congruence).
  split; [|split].
  - intros ->. cbn [expand_shapes]. rewrite R, map_map. reflexivity.
  - intros s ->. cbn [expand_shapes]. assert (S : forallb is_shape (map ShLeaf s) = true) by (clear; induction s; auto). rewrite S, R, !map_map. cbn [shape_of]. rewrite map_id. reflexivity.
  - intros os Ne ->. cbn [expand_shapes] in *. assert (S : forallb is_shape (map (fun o => match o with Some s => ShItems s | None => ShNone end) os) = false) by (destruct os as [|[s|] os]; [congruence|reflexivity|reflexivity]). rewrite S in *.
    split; [rewrite map_map; rewrite <- (map_id os) at 2; apply map_ext; intros [s|]; reflexivity|].
    rewrite forallb_forall in E2. specialize (E2 (map (fun o => match o with Some s => ShItems s | None => ShNone end) os, duts)).
    cbn [fst snd] in E2. rewrite !andb_true_iff, Nat.eqb_eq, map_length in E2. apply E2. apply (nth_error_In _ i).
    clear - M D. revert groups i M D. induction gs as [|a gs IH]; intros [|b groups] [|i] M D; try discriminate; cbn in *; [congruence|auto].
Qed.
(** max_iterations and max_events: one number for every group, or a list with one entry for every group; other lists are refused. *)
Theorem C93_number N (a : N + list N) groups l : check_number a groups = inr l <-> (exists n, a = inl n /\ l = map (fun _ => n) groups) \/ (a = inr l /\ length l = length groups).
Proof.
  unfold check_number. rewrite guard_bind, Nat.eqb_eq. destruct a as [n|ns].
  - assert (R : repeat n (length groups) = map (fun _ : list nat => n) groups) by (clear; induction groups; cbn; congruence). split.
    + intros [_ E]. injection E as <-. left. exists n. auto.
    + intros [(m & E & ->)|[E _]]; [|discriminate]. injection E as <-. rewrite R, map_length. auto.
  - split; [intros [L E]; injection E as <-; auto|]. intros [(m & E & _)|[E L]]; [discriminate|]. injection E as ->. auto.
Qed.
(** quality_distances and isolation_distances: None or a tuple for every DUT of the telescope, or a list with one item for every DUT; a distance has two numbers. *)
Theorem C93_distances D (a : distances D) n_duts l : check_distances D a n_duts = inr l <-> n_duts <> 0 /\ length l = n_duts /\ (forall d, In (Some d) l -> length d = 2) /\
  ((a = DNone D /\ forall d, In d l -> d = None) \/ (exists t, a = DTuple D t /\ forall d, In d l -> d = Some t) \/ a = DList D (map (fun o => match o with Some d => DiIter D d | None => DiNone D end) l)).
Proof.
  assert (R : forall B (x : B) n k, length k = n -> (forall d, In d k -> d = x) -> k = repeat x n) by (intros B x n k <-; clear; induction k as [|d k IH]; intros H; [reflexivity|]; cbn; rewrite <- IH by (intros; apply H; right; auto); f_equal; apply H; left; reflexivity).
  assert (P : forall items, bind (guard (negb (length items =? 0)) ValueErr) (fun _ => bind (guard (length items =? n_duts) ValueErr) (fun _ => bind (guard (forallb (fun i => match i with DiOther _ => false | _ => true end) items) ValueErr) (fun _ =>
     bind (guard (forallb (fun i => match i with DiIter _ t => length t =? 2 | _ => true end) items) ValueErr) (fun _ => inr (map (fun i => match i with DiIter _ t => Some t | _ => None end) items))))) = inr l <->
     n_duts <> 0 /\ length l = n_duts /\ (forall d, In (Some d) l -> length d = 2) /\ items = map (fun o => match o with Some d => DiIter D d | None => DiNone D end) l).
  { intros items. rewrite !guard_bind, negb_true_iff, Nat.eqb_neq, Nat.eqb_eq, !forallb_forall. split.
    - intros (N & L & O & T & E). injection E as <-. rewrite map_length. split; [congruence|]. split; [exact L|]. split.
      + intros d I. apply in_map_iff in I. destruct I as (x & E & I). specialize (T x I). destruct x as [| |t]; try discriminate. injection E as ->. apply Nat.eqb_eq, T.
      + rewrite map_map. rewrite <- (map_id items) at 1. apply map_ext_in. intros x I. specialize (O x I). destruct x; [reflexivity|discriminate|reflexivity].
    - intros (N & L & T & ->). rewrite map_length. split; [congruence|]. split; [exact L|]. split; [|split].
      + intros x I. apply in_map_iff in I. destruct I as ([d|] & <- & _); reflexivity.
      + intros x I. apply in_map_iff in I. destruct I as ([d|] & <- & I); [apply Nat.eqb_eq, T, I|reflexivity].
      + rewrite map_map. f_equal. rewrite <- (map_id l) at 2. apply map_ext. intros [d|]; reflexivity. }
  assert (M : forall o items n, items = repeat (match o with Some d => DiIter D d | None => DiNone D end) n -> (items = map (fun o => match o with Some d => DiIter D d | None => DiNone D end) l <-> length l = n /\ forall d, In d l -> d = o)).
  { intros o items n ->. split.
    - intros E. split; [apply (f_equal (@length _)) in E; rewrite repeat_length, map_length in E; congruence|]. intros d I. assert (X := in_map (fun o => match o with Some d => DiIter D d | None => DiNone D end) _ _ I). rewrite <- E in X. apply repeat_spec in X. destruct d, o; congruence.
    - intros [L E]. rewrite (R _ _ _ _ L E). clear. induction n; cbn; congruence. }
  destruct a as [|t| |items]; cbn [check_distances].
  - rewrite P, (M None _ n_duts eq_refl). split; [intros (N & L & T & _ & E); repeat split; auto|]. intros (N & L & T & [(_ & E)|[(t & E & _)|E]]); try discriminate. auto.
  - rewrite P, (M (Some t) _ n_duts eq_refl). split; [intros (N & L & T & _ & E); repeat split; auto; right; left; eauto|]. intros (N & L & T & [(E & _)|[(t' & E & H)|E]]); try discriminate. injection E as <-. auto.
  - split; [discriminate|]. intros (_ & _ & _ & [(E & _)|[(t & E & _)|E]]); discriminate.
  - rewrite P. split; [intros (N & L & T & ->); auto 10|]. intros (N & L & T & [(E & _)|[(t & E & _)|E]]); try discriminate. injection E as ->. auto.
Qed.
Lemma map_res_Forall2 {A B} (f : A -> res B) l r : map_res f l = inr r -> Forall2 (fun a b => f a = inr b) l r.
Proof.
  revert r. induction l as [|a l IH]; cbn [map_res]; intros r E; [injection E as <-; constructor|]. apply bind_inr in E. destruct E as (b & E1 & E). apply bind_inr in E. destruct E as (bs & E2 & E). injection E as <-. constructor; auto.
Qed.
Theorem C93_parameters P (a : parameters P) groups l : check_parameters P a groups = inr l -> Forall2 (fun ps duts => length ps = length duts) l groups /\ (a = PNone P -> l = map (map (fun _ => None)) groups).
Proof.
  destruct a as [| |items]; cbn [check_parameters]; [|discriminate|].
  - intros E. injection E as <-. split.
    + clear. induction groups; cbn; constructor; auto. apply repeat_length.
    + intros _. clear. induction groups as [|g groups IH]; [reflexivity|]. cbn [map]. rewrite IH. f_equal. clear. induction g as [|d g IHg]; [reflexivity|]. cbn [length repeat map]. rewrite IHg. reflexivity.
  - intros E. apply guard_bind in E. destruct E as [_ E]. apply guard_bind in E. destruct E as [E1 E]. split; [|discriminate]. apply Nat.eqb_eq in E1. apply map_res_Forall2 in E. revert groups l E1 E. induction items as [|i items IH]; intros [|g groups] l E1 E; try discriminate; cbn [combine] in E; inversion E; subst; constructor.
    + cbn [fst snd] in H1. destruct i as [ps|]; cbn [expand_parameters] in H1; [apply guard_bind in H1; destruct H1 as [H1 H2]; apply Nat.eqb_eq in H1; injection H2 as <-; exact H1|injection H1 as <-; apply repeat_length].
    + apply IH; auto.
Qed.

(** ** the query for the tracks *)
(** Specification: value of a query, for a track with the chi2 comparison [below] and the cluster shapes [shape]; other sequences are syntax errors *)
Definition value {C} (below : C -> bool) (shape : nat -> nat) (t : token C) : option bool := match t with Chi2Below c => Some (below c) | ShapeIn d l => Some (mem (shape d) l) | And => None end.
Definition eval {C} (below : C -> bool) (shape : nat -> nat) (q : list (token C)) : option bool :=
  match q with
  | [] => Some true
  | [t] => value below shape t
  | [t; And; u] => match value below shape t, value below shape u with Some a, Some b => Some (a && b) | _, _ => None end
  | _ => None
  end.
(** The query is well-formed; it selects the tracks with chi2 below the cut (if it is not None or 0) and with a cluster of a selected shape in the DUT (if there are any; the default shapes for None). *)
Theorem C93_query C (truth : C -> bool) below shape d c s : exists b, eval below shape (query C truth d c (actual_shapes s)) = Some b /\
  (b = true <-> (truth c = true -> below c = true) /\ (forall l, s = Some l -> l <> [] -> In (shape d) l) /\ (s = None -> In (shape d) [1; 3; 5; 13; 14; 7; 11; 15])).
Proof.
  unfold query. assert (A : (forall l, s = Some l -> l <> [] -> In (shape d) l) /\ (s = None -> In (shape d) [1; 3; 5; 13; 14; 7; 11; 15]) <-> (actual_shapes s <> [] -> In (shape d) (actual_shapes s))).
  { destruct s as [l|]; cbn [actual_shapes]; split.
    - intros [H _]. auto.
    - intros H. split; [intros l' E; injection E as <-; exact H|discriminate].
    - intros [_ H] _. apply H. reflexivity.
    - intros H. split; [discriminate|]. intros _. apply H. discriminate. }
  destruct (actual_shapes s) as [|a l] eqn:E; cbn [length Nat.eqb negb]; destruct (truth c) eqn:T; cbn [andb app].
  - eexists. split; [reflexivity|]. rewrite A. intuition congruence.
  - eexists. split; [reflexivity|]. rewrite A. intuition congruence.
  - eexists. split; [reflexivity|]. rewrite A, andb_true_iff, mem_iff. intuition congruence.
  - eexists. split; [reflexivity|]. rewrite A, mem_iff. intuition congruence.
Qed.

(** ** the steps of a group *)
Section Steps.
  Variable C D : Type.
  Variable truth : C -> bool.
  Notation group := (group_arguments C).
  (** Without select_telescope_duts (the default) the alignment fails; also with quality_distances None, documented as infinite. *)
  Theorem C93_telescope_none_refuted plot (q : list (option (list D))) (g : group) : 1 <= iterations g -> duts_alignment C D truth plot None q g = inl TypeErr.
  Proof. intros H. unfold duts_alignment. destruct (iterations g); [lia|reflexivity]. Qed.
  Theorem C93_quality_none_refuted plot t (g : group) n : 1 <= iterations g -> 1 <= n -> exists q, check_distances D (DNone D) n = inr q /\ duts_alignment C D truth plot (Some t) q g = inl TypeOrIndexErr.
  Proof.
    intros H N. exists (repeat None n). split.
    - unfold check_distances. rewrite repeat_length, Nat.eqb_refl. destruct (Nat.eqb_spec n 0); [lia|]. cbn [negb guard bind]. assert (F : forall f : distance_item D -> bool, f (DiNone D) = true -> forallb f (repeat (DiNone D) n) = true) by (intros f Hf; clear -Hf; induction n; cbn; auto; rewrite Hf; auto).
      rewrite !F by reflexivity. cbn. f_equal. clear. induction n; cbn; congruence.
    - unfold duts_alignment. destruct (iterations g); [lia|]. destruct n; [lia|]. reflexivity.
  Qed.
  Lemma in_iteration (a : action C) plot t (g : group) k : In a (iteration C truth plot t g k) ->
    match a with
    | FitTracks i o s f h => i = match k with 0 => Prealigned | _ => Candidates (align_duts g) k end /\ o = Tracks (align_duts g) k /\ s = align_duts g /\ f = fit_duts g /\ h = map (with_dut (hit_duts g)) (align_duts g)
    | SelectTracks i o s h q => i = Tracks (align_duts g) k /\ o = Selected (align_duts g) k /\ s = align_duts g /\ h = map (with_dut (hit_duts g)) (align_duts g) /\ q = queries C truth g
    | Transformation i s p => i = Selected (align_duts g) k /\ s = align_duts g /\ p = map (fun dp => selected_parameters t (fst dp) (snd dp)) (combine (align_duts g) (parameters_of g))
    | _ => True
    end.
  Proof.
    unfold iteration. rewrite !in_app_iff. cbn [In].
    intros [H|[H|[H|[H|[H|H]]]]].
    - destruct (length _ =? 0); [destruct H|]. destruct H as [<-|[]]. exact I.
    - destruct k as [|[|k]]; cbn in H; intuition (subst; exact I).
    - destruct H as [<-|[<-|[]]]; auto.
    - destruct (length _ =? 0); [destruct H|]. cbn in H. intuition (subst; exact I).
    - destruct plot; cbn in H; intuition (subst; exact I).
    - intuition (subst; auto).
  Qed.
  (** All tracks of the alignment have hits in the required DUTs and in the DUT to align; the fit uses the fit DUTs, which are among them; the parameters are those asked for, or all but the z position for telescope DUTs. *)
  Theorem C93_steps plot t (q : list (option (list D))) (g : group) acts : incl (fit_duts g) (hit_duts g) -> length (parameters_of g) = length (align_duts g) -> duts_alignment C D truth plot (Some t) q g = inr acts ->
    (forall i o s f h, In (FitTracks i o s f h) acts -> s = align_duts g /\ f = fit_duts g /\ Forall2 (fun d hits => incl (fit_duts g) hits /\ forall x, In x hits <-> In x (hit_duts g) \/ x = d) s h) /\
    (forall i o s h qs, In (SelectTracks i o s h qs) acts -> s = align_duts g /\ Forall2 (fun d hits => forall x, In x hits <-> In x (hit_duts g) \/ x = d) s h) /\
    (forall i s p, In (Transformation i s p) acts -> s = align_duts g /\ Forall2 (fun dq ps => match snd dq with
      | Some l => ps = l
      | None => forall name, In name ps <-> In name default_alignment_parameters /\ (In (fst dq) t -> name <> "translation_z"%string) end) (combine s (parameters_of g)) p /\ length p = length s) /\
    length (filter (fun a => match a with Transformation _ _ _ => true | _ => false end) acts) = iterations g.
  Proof.
    intros Sub Lp E. unfold duts_alignment in E. destruct (iterations g) as [|last] eqn:It; [injection E as <-; cbn; repeat split; try (intros; contradiction)|]. apply bind_inr in E. destruct E as (u & _ & E). injection E as <-.
    set (tail := match last with 0 => [] | _ => [Remove (Candidates (align_duts g) last)] end). change (iteration C truth plot t g 0 ++ flat_map (iteration C truth plot t g) (seq 1 last)) with (flat_map (iteration C truth plot t g) (seq 0 (S last))).
    assert (W : forall l, Forall2 (fun d hits => forall x, In x hits <-> In x (hit_duts g) \/ x = d) l (map (with_dut (hit_duts g)) l)).
    { induction l as [|d l IH]; cbn; constructor; auto. intros x. unfold with_dut. destruct (mem d (hit_duts g)) eqn:M; [apply mem_iff in M; split; [auto|intros [H| ->]; auto]|]. rewrite in_app_iff. cbn. intuition. }
    assert (T : forall a, In a tail -> exists f, a = Remove f) by (intros a H; unfold tail in H; destruct last; [destruct H|destruct H as [<-|[]]; eauto]).
    split; [|split; [|split]].
    - intros i o s f h H. apply in_app_or in H. destruct H as [H|H]; [|apply T in H; destruct H; discriminate]. apply in_flat_map in H. destruct H as (k & _ & H). apply in_iteration in H. destruct H as (_ & _ & -> & -> & ->). split; [reflexivity|]. split; [reflexivity|].
      specialize (W (align_duts g)). clear -W Sub. induction W as [|d h l hs H W IH]; constructor; auto. split; [intros x Hx; apply H; auto|exact H].
    - intros i o s h qs H. apply in_app_or in H. destruct H as [H|H]; [|apply T in H; destruct H; discriminate]. apply in_flat_map in H. destruct H as (k & _ & H). apply in_iteration in H. destruct H as (_ & _ & -> & -> & _). auto.
    - intros i s p H. apply in_app_or in H. destruct H as [H|H]; [|apply T in H; destruct H; discriminate]. apply in_flat_map in H. destruct H as (k & _ & H). apply in_iteration in H. destruct H as (_ & -> & ->). split; [reflexivity|]. split; [|rewrite map_length, combine_length; lia].
      clear -t. induction (combine (align_duts g) (parameters_of g)) as [|[d [l|]] ds IH]; cbn [map]; constructor; auto; cbn [fst snd selected_parameters]; [reflexivity|]. intros name. destruct (mem d t) eqn:M.
      + apply mem_iff in M. unfold telescope_alignment_parameters, default_alignment_parameters. cbn [In]. split.
        * intros H. split; [intuition|]. intros _ ->. intuition discriminate.
        * intros [H Z]. specialize (Z M). intuition congruence.
      + assert (~ In d t) by (intros H; apply mem_iff in H; congruence). intuition.
    - rewrite filter_app, app_length. assert (Z : length (filter (fun a : action C => match a with Transformation _ _ _ => true | _ => false end) tail) = 0) by (unfold tail; destruct last; reflexivity). rewrite Z.
      assert (K : forall k, length (filter (fun a : action C => match a with Transformation _ _ _ => true | _ => false end) (iteration C truth plot t g k)) = 1).
      { intros k. unfold iteration. rewrite !filter_app, !app_length. destruct (length (common (align_duts g) t) =? 0), (length (common (align_duts g) (fit_duts g)) =? 0), plot, k as [|[|k]]; reflexivity. }
      transitivity (length (seq 0 (S last)) + 0); [|rewrite seq_length; lia]. f_equal. clear -K. generalize (seq 0 (S last)). intros l. induction l as [|k l IH]; [reflexivity|]. cbn [flat_map]. rewrite filter_app, app_length, K, IH. reflexivity.
  Qed.

  (** Every DUT has its own query, with its chi2 cut and its cluster shapes. *)
  Theorem C93_queries plot t (q : list (option (list D))) (g : group) acts below shape : length (chi2_of g) = length (align_duts g) -> length (shapes_of g) = length (align_duts g) -> duts_alignment C D truth plot t q g = inr acts ->
    forall i o s h qs, In (SelectTracks i o s h qs) acts -> length qs = length s /\ forall n d c shapes, nth_error s n = Some d -> nth_error (chi2_of g) n = Some c -> nth_error (shapes_of g) n = Some shapes ->
      exists qu b, nth_error qs n = Some qu /\ eval below shape qu = Some b /\ (b = true <-> (truth c = true -> below c = true) /\ (forall l, shapes = Some l -> l <> [] -> In (shape d) l) /\ (shapes = None -> In (shape d) [1; 3; 5; 13; 14; 7; 11; 15])).
  Proof.
    intros Lc Ls E i o s h qs H. unfold duts_alignment in E. destruct (iterations g) as [|last] eqn:It; [injection E as <-; destruct H|]. destruct t as [t|]; [|discriminate]. apply bind_inr in E. destruct E as (u & _ & E). apply (f_equal (fun r => match r with inr x => x | inl _ => [] end)) in E. cbv beta iota in E. rewrite <- E in H. clear E.
    apply in_app_or in H. destruct H as [H|H]; [|destruct last; [destruct H|destruct H as [H|[]]; discriminate]]. apply in_flat_map in H. destruct H as (k & _ & H). apply in_iteration in H. destruct H as (_ & _ & -> & _ & ->). unfold queries. split; [rewrite map_length, !combine_length; lia|].
    intros n d c shapes Hd Hc Hs. assert (N : nth_error (combine (align_duts g) (combine (chi2_of g) (shapes_of g))) n = Some (d, (c, shapes))).
    { clear -Hd Hc Hs. revert n Hd Hc Hs. generalize (align_duts g) as ds, (chi2_of g) as cs, (shapes_of g) as ss. induction ds as [|d0 ds IH]; intros [|c0 cs] [|s0 ss] [|n] Hd Hc Hs; try discriminate; cbn in *; [congruence|]. apply IH; auto. }
    exists (query C truth d c (actual_shapes shapes)). destruct (C93_query C truth below shape d c shapes) as (b & E & B). exists b. split; [|split; [exact E|exact B]]. rewrite (map_nth_error _ _ _ N). reflexivity.
  Qed.

  (** *** files *)
  Definition has (fs : list file) (f : file) : Prop := exists_file fs f = true.
  Lemma has_In fs f : has fs f <-> In f fs.
  Proof. unfold has, exists_file. rewrite existsb_exists. split; [intros (g & H & E); destruct (file_eq_dec f g); [subst; auto|discriminate]|intros H; exists f; destruct (file_eq_dec f f); auto]. Qed.
  Definition remove (fs : list file) (f : file) : list file := filter (fun g => if file_eq_dec f g then false else true) fs.
  Lemma has_write fs o f : has (write fs o) f <-> f = o \/ has fs f.
  Proof. unfold write. destruct (exists_file fs o) eqn:E; rewrite !has_In; [|cbn; intuition]. assert (In o fs) by (apply has_In; exact E). split; [auto|intros [->|]; auto]. Qed.
  Lemma has_remove fs o f : has (remove fs o) f <-> f <> o /\ has fs f.
  Proof. unfold remove. rewrite !has_In, filter_In. destruct (file_eq_dec o f); intuition congruence. Qed.
  Lemma run_app (l m : list (action C)) fs : run fs (l ++ m) = match run fs l with None => None | Some fs => run fs m end.
  Proof. revert fs. induction l as [|a l IH]; intros fs; [reflexivity|]. cbn [app run]. destruct (step fs a); auto. Qed.
  (** an action which finds what it needs *)
  Definition reads (a : action C) : option file :=
    match a with
    | AlignTelescope _ => None
    | FindTracks i _ | FitTracks i _ _ _ _ | SelectTracks i _ _ _ _ | TrackAngles i _ | CalculateResiduals i _ | ReadAngles i | Transformation i _ _ | Remove i => Some i
    end.
  Definition effect (fs : list file) (a : action C) : list file :=
    match a with
    | FindTracks _ o | FitTracks _ o _ _ _ | SelectTracks _ o _ _ _ | TrackAngles _ o | CalculateResiduals _ o => write fs o
    | Remove f => remove fs f
    | _ => fs
    end.
  Lemma run_cons a l fs : (forall i, reads a = Some i -> has fs i) -> run fs (a :: l) = run (effect fs a) l.
  Proof. intros H. cbn [run]. destruct a; cbn [step reads effect] in *; try reflexivity; rewrite (H _ eq_refl); reflexivity. Qed.
  (** temporary files of a group *)
  Definition temporary (f : file) : Prop := match f with Candidates _ _ | Tracks _ _ | Selected _ _ | Angles _ _ | Residuals _ _ => True | _ => False end.
  Definition left_by (a : list nat) (k : nat) (f : file) : Prop := match k with 0 => False | S p => match p with 0 => False | _ => f = Candidates a p end end.
  Ltac runs := match goal with |- context[run ?fs (?x :: ?l)] => rewrite (run_cons x l fs); [cbn [effect]|cbn [reads]; intros ? X; injection X as <- || discriminate X] end.
  Lemma run_iteration plot t (g : group) k fs0 fs : has fs0 Merged -> has fs0 Prealigned -> (forall f, temporary f -> ~ has fs0 f) -> (forall f, has fs f <-> has fs0 f \/ left_by (align_duts g) k f) ->
    exists fs', run fs (iteration C truth plot t g k) = Some fs' /\ forall f, has fs' f <-> has fs0 f \/ left_by (align_duts g) (S k) f.
  Proof.
    intros M P Cl Inv. unfold iteration. set (a := align_duts g) in *.
    assert (Done : forall fs', (forall f, has fs' f <-> ((has fs f \/ match k with 0 => False | _ => f = Candidates a k end) /\ ~ left_by a k f)) -> forall f, has fs' f <-> has fs0 f \/ left_by a (S k) f).
    { intros fs' H f. rewrite H, Inv. clear H. split.
      - intros [[[H|H]|H] N]; [auto|contradiction|]. right. destruct k; [contradiction|]. exact H.
      - intros [H|H].
        + split; [auto|]. intros L. assert (temporary f) by (destruct k as [|[|k]]; cbn in L; [contradiction..|]; subst; exact I). apply (Cl f); auto.
        + destruct k as [|k]; [contradiction|]. cbn [left_by] in H. subst f. split; [auto|]. destruct k; cbn [left_by]; [tauto|]. intros L. injection L as L. lia. }
    assert (Dis : forall f, temporary f -> has fs f -> left_by a k f) by (intros f T H; apply Inv in H; destruct H as [H|H]; [destruct (Cl f T H)|exact H]).
    assert (Mf : has fs Merged) by (apply Inv; auto). assert (Pf : has fs Prealigned) by (apply Inv; auto).
    assert (Lf : forall f, left_by a k f -> has fs f) by (intros f H; apply Inv; auto).
    assert (Fin : exists fs', run fs ((if length (common a t) =? 0 then [] else [AlignTelescope (common a t)]) ++
      (match k with 0 => [] | S p => (match p with 0 => [] | _ => [Remove (Candidates a p)] end) ++ [FindTracks Merged (Candidates a k)] end) ++
      [FitTracks (match k with 0 => Prealigned | _ => Candidates a k end) (Tracks a k) a (fit_duts g) (map (with_dut (hit_duts g)) a);
       SelectTracks (Tracks a k) (Selected a k) a (map (with_dut (hit_duts g)) a) (queries C truth g)] ++
      (if length (common a (fit_duts g)) =? 0 then [] else [TrackAngles (Selected a k) (Angles a k); ReadAngles (Angles a k); Remove (Angles a k)]) ++
      (if plot then [CalculateResiduals (Selected a k) (Residuals a k); Remove (Residuals a k)] else []) ++
      [Transformation (Selected a k) a (map (fun dp => selected_parameters t (fst dp) (snd dp)) (combine a (parameters_of g))); Remove (Tracks a k); Remove (Selected a k)]) = Some fs' /\
      forall f, has fs' f <-> ((has fs f \/ match k with 0 => False | _ => f = Candidates a k end) /\ ~ left_by a k f)).
    { assert (NT : ~ has fs (Tracks a k)) by (intros H; apply (Dis (Tracks a k) I) in H; destruct k as [|[|k]]; cbn in H; [contradiction..|discriminate]).
      assert (NS : ~ has fs (Selected a k)) by (intros H; apply (Dis (Selected a k) I) in H; destruct k as [|[|k]]; cbn in H; [contradiction..|discriminate]).
      assert (NA : ~ has fs (Angles a k)) by (intros H; apply (Dis (Angles a k) I) in H; destruct k as [|[|k]]; cbn in H; [contradiction..|discriminate]).
      assert (NR : ~ has fs (Residuals a k)) by (intros H; apply (Dis (Residuals a k) I) in H; destruct k as [|[|k]]; cbn in H; [contradiction..|discriminate]).
      (* the first two parts *)
      assert (One : exists fs1, @run C fs ((if length (common a t) =? 0 then [] else [AlignTelescope (common a t)]) ++ (match k with 0 => [] | S p => (match p with 0 => [] | _ => [Remove (Candidates a p)] end) ++ [FindTracks Merged (Candidates a k)] end)) = Some fs1 /\
        forall f, has fs1 f <-> ((has fs f \/ match k with 0 => False | _ => f = Candidates a k end) /\ ~ left_by a k f)).
      { assert (A1 : forall l, @run C fs ((if length (common a t) =? 0 then [] else [AlignTelescope (common a t)]) ++ l) = run fs l) by (intros l; destruct (length _ =? 0); [reflexivity|cbn [app]; rewrite run_cons; [reflexivity|cbn; discriminate]]).
        rewrite A1. destruct k as [|[|k]]; cbn [app left_by].
        - exists fs. split; [reflexivity|]. intros f. tauto.
        - rewrite run_cons by (cbn; intros i E; injection E as <-; exact Mf). eexists. split; [reflexivity|]. intros f. cbn [effect]. rewrite has_write. tauto.
        - rewrite run_cons by (cbn; intros i E; injection E as <-; apply Lf; reflexivity). rewrite run_cons by (cbn; intros i E; injection E as <-; apply has_remove; split; [discriminate|exact Mf]). eexists. split; [reflexivity|]. intros f. cbn [effect]. rewrite has_write, has_remove. split.
          + intros [->|[H1 H2]]; [split; [auto|]; intros E; injection E as E; lia|auto].
          + intros [[H| ->] N]; auto. }
      destruct One as (fs1 & R1 & H1). rewrite app_assoc, run_app, R1. clear R1.
      assert (NL : forall f, ~ match f with Candidates _ _ => True | _ => False end -> has fs1 f <-> has fs f) by (intros f Hf; rewrite H1; split; [intros [[H|H] _]; [auto|destruct k; [contradiction|subst; destruct (Hf I)]]|intros H; split; [auto|]; intros L; destruct k as [|[|k]]; cbn in L; [contradiction..|]; subst; destruct (Hf I)]).
      assert (In1 : has fs1 (match k with 0 => Prealigned | _ => Candidates a k end)).
      { destruct k as [|k]; [apply NL; [cbn; tauto|exact Pf]|]. apply H1. split; [auto|]. destruct k; cbn [left_by]; [tauto|]. intros E. injection E as E. lia. }
      assert (NT1 : ~ has fs1 (Tracks a k)) by (rewrite NL; [exact NT|cbn; tauto]). assert (NS1 : ~ has fs1 (Selected a k)) by (rewrite NL; [exact NS|cbn; tauto]). assert (NA1 : ~ has fs1 (Angles a k)) by (rewrite NL; [exact NA|cbn; tauto]). assert (NR1 : ~ has fs1 (Residuals a k)) by (rewrite NL; [exact NR|cbn; tauto]).
      enough (Two : exists fs', run fs1 ([FitTracks (match k with 0 => Prealigned | _ => Candidates a k end) (Tracks a k) a (fit_duts g) (map (with_dut (hit_duts g)) a);
       SelectTracks (Tracks a k) (Selected a k) a (map (with_dut (hit_duts g)) a) (queries C truth g)] ++
      (if length (common a (fit_duts g)) =? 0 then [] else [TrackAngles (Selected a k) (Angles a k); ReadAngles (Angles a k); Remove (Angles a k)]) ++
      (if plot then [CalculateResiduals (Selected a k) (Residuals a k); Remove (Residuals a k)] else []) ++
      [Transformation (Selected a k) a (map (fun dp => selected_parameters t (fst dp) (snd dp)) (combine a (parameters_of g))); Remove (Tracks a k); Remove (Selected a k)]) = Some fs' /\ forall f, has fs' f <-> has fs1 f).
      { destruct Two as (fs' & R & H). exists fs'. split; [exact R|]. intros f. rewrite H, H1. tauto. }
      cbn [app]. runs; [|exact In1]. runs; [|rewrite has_write; auto].
      set (fs2 := write (write fs1 (Tracks a k)) (Selected a k)). assert (H2 : forall f, has fs2 f <-> f = Selected a k \/ f = Tracks a k \/ has fs1 f) by (intros f; unfold fs2; rewrite !has_write; tauto). clearbody fs2.
      assert (Three : exists fs3, (forall f, has fs3 f <-> has fs2 f) /\ forall l, @run C fs2 ((if length (common a (fit_duts g)) =? 0 then [] else [TrackAngles (Selected a k) (Angles a k); ReadAngles (Angles a k); Remove (Angles a k)]) ++ l) = run fs3 l).
      { destruct (length _ =? 0); [exists fs2; split; [tauto|reflexivity]|]. exists (remove (write fs2 (Angles a k)) (Angles a k)). split.
        - intros f. rewrite has_remove, has_write. split; [intros [N [->|H]]; [congruence|exact H]|]. intros H. split; [|auto]. intros ->. apply H2 in H. destruct H as [H|[H|H]]; [discriminate..|contradiction].
        - intros l. cbn [app]. runs; [|apply H2; auto]. runs; [|rewrite has_write; auto]. runs; [|rewrite has_write; auto]. reflexivity. }
      destruct Three as (fs3 & H3 & R3). rewrite R3. clear R3.
      assert (Four : exists fs4, (forall f, has fs4 f <-> has fs2 f) /\ forall l, @run C fs3 ((if plot then [CalculateResiduals (Selected a k) (Residuals a k); Remove (Residuals a k)] else []) ++ l) = run fs4 l).
      { destruct plot; [|exists fs3; split; [exact H3|reflexivity]]. exists (remove (write fs3 (Residuals a k)) (Residuals a k)). split.
        - intros f. rewrite has_remove, has_write, H3. split; [intros [N [->|H]]; [congruence|exact H]|]. intros H. split; [|auto]. intros ->. apply H2 in H. destruct H as [H|[H|H]]; [discriminate..|contradiction].
        - intros l. cbn [app]. runs; [|apply H3, H2; auto]. runs; [|rewrite has_write; auto]. reflexivity. }
      destruct Four as (fs4 & H4 & R4). rewrite R4. clear R4. runs; [|apply H4, H2; auto]. runs; [|apply H4, H2; auto]. runs; [|rewrite has_remove; split; [discriminate|apply H4, H2; auto]].
      eexists. split; [reflexivity|]. intros f. rewrite !has_remove, H4, H2. split; [intros (A & B & [E|[E|E]]); [contradiction..|exact E]|]. intros H. split; [intros ->; contradiction|]. split; [intros ->; contradiction|]. auto. }
    destruct Fin as (fs' & R & H). exists fs'. split; [exact R|]. apply Done. exact H.
  Qed.
  Lemma run_iterations plot t (g : group) n fs0 : has fs0 Merged -> has fs0 Prealigned -> (forall f, temporary f -> ~ has fs0 f) -> forall k fs, (forall f, has fs f <-> has fs0 f \/ left_by (align_duts g) k f) ->
    exists fs', run fs (flat_map (iteration C truth plot t g) (seq k n)) = Some fs' /\ forall f, has fs' f <-> has fs0 f \/ left_by (align_duts g) (k + n) f.
  Proof.
    intros M P Cl. induction n as [|n IH]; intros k fs Inv; cbn [seq flat_map]; [exists fs; rewrite Nat.add_0_r; auto|]. destruct (run_iteration plot t g k fs0 fs M P Cl Inv) as (fs1 & R1 & H1). rewrite run_app, R1. destruct (IH (S k) fs1 H1) as (fs2 & R2 & H2). exists fs2. split; [exact R2|]. replace (k + S n) with (S k + n) by lia. exact H2.
  Qed.
  Lemma run_group plot t q (g : group) acts fs0 : has fs0 Merged -> has fs0 Prealigned -> (forall f, temporary f -> ~ has fs0 f) -> duts_alignment C D truth plot t q g = inr acts ->
    exists fs', run fs0 acts = Some fs' /\ forall f, has fs' f <-> has fs0 f.
  Proof.
    intros M P Cl E. unfold duts_alignment in E. destruct (iterations g) as [|last] eqn:It; [injection E as <-; exists fs0; split; [reflexivity|tauto]|]. destruct t as [t|]; [|discriminate]. apply bind_inr in E. destruct E as (u & _ & E). apply (f_equal (fun r => match r with inr x => x | inl _ => [] end)) in E. cbv beta iota in E. rewrite <- E. clear E.
    destruct (run_iterations plot t g (S last) fs0 M P Cl 0 fs0) as (fs1 & R & H); [intros f; cbn; tauto|]. rewrite run_app, R. cbn [Nat.add] in H. destruct last as [|last].
    - exists fs1. split; [reflexivity|]. intros f. rewrite H. cbn. tauto.
    - rewrite run_cons by (cbn; intros i E; injection E as <-; apply H; right; reflexivity). eexists. split; [reflexivity|]. intros f. cbn [effect]. rewrite has_remove, H. cbn [left_by]. split; [intros [N [X|X]]; [exact X|contradiction]|]. intros X. split; [|auto]. intros ->. exact (Cl (Candidates (align_duts g) (S last)) I X).
  Qed.
  (** Every file which is read exists at that time, and at the end all temporary files are removed; nothing else is changed. *)
  Theorem C93_files plot t q (groups : list group) acts fs : has fs Merged -> (forall f, temporary f -> ~ has fs f) -> groups <> [] -> all_steps C D truth plot t q groups (exists_file fs Prealigned) = inr acts ->
    exists fs', run fs acts = Some fs' /\ forall f, has fs' f <-> has fs f /\ f <> Prealigned.
  Proof.
    intros M Cl N E. unfold all_steps in E. apply bind_inr in E. destruct E as (ls & E & X). apply (f_equal (fun r => match r with inr x => x | inl _ => [] end)) in X. cbv beta iota in X. rewrite <- X. clear X. destruct groups as [|g gs] eqn:G; [congruence|]. rewrite <- G in E. clear N.
    assert (Z : exists fs1, @run C fs ((if exists_file fs Prealigned then [Remove Prealigned] else []) ++ [FindTracks Merged Prealigned]) = Some fs1 /\ forall f, has fs1 f <-> f = Prealigned \/ has fs f).
    { destruct (exists_file fs Prealigned) eqn:P; cbn [app].
      - runs; [|exact P]. runs; [|rewrite has_remove; split; [discriminate|exact M]]. eexists. split; [reflexivity|]. intros f. rewrite has_write, has_remove. destruct (file_eq_dec f Prealigned); tauto.
      - runs; [|exact M]. eexists. split; [reflexivity|]. intros f. rewrite has_write. tauto. }
    destruct Z as (fs1 & R1 & H1). rewrite app_assoc, run_app, R1. clear R1.
    assert (W : exists fs2, run fs1 (List.concat ls) = Some fs2 /\ forall f, has fs2 f <-> has fs1 f).
    { apply map_res_Forall2 in E. assert (M1 : has fs1 Merged) by (apply H1; auto). assert (P1 : has fs1 Prealigned) by (apply H1; auto). assert (Cl1 : forall f, temporary f -> ~ has fs1 f) by (intros f T H; apply H1 in H; destruct H as [->|H]; [exact T|exact (Cl f T H)]).
      clear H1 M Cl G. revert fs1 M1 P1 Cl1. induction E as [|g0 l0 gs0 ls Hg Hgs IH]; intros fs1 M1 P1 Cl1; [exists fs1; split; [reflexivity|tauto]|]. cbn [List.concat]. destruct (run_group plot t q g0 l0 fs1 M1 P1 Cl1 Hg) as (fs2 & R & H). rewrite run_app, R.
      destruct (IH fs2) as (fs3 & R3 & H3); [apply H; exact M1|apply H; exact P1|intros f T X; apply H in X; exact (Cl1 f T X)|]. exists fs3. split; [exact R3|]. intros f. rewrite H3. apply H. }
    destruct W as (fs2 & R2 & H2). rewrite run_app, R2. runs; [|apply H2, H1; auto]. eexists. split; [reflexivity|]. intros f. rewrite has_remove, H2, H1. destruct (file_eq_dec f Prealigned); tauto.
  Qed.
  (** The files at the time of each action: what it reads or removes is there. *)
  Lemma run_reads (pre : list (action C)) a post fs fs' : run fs (pre ++ a :: post) = Some fs' -> exists fs1, run fs pre = Some fs1 /\ forall i, reads a = Some i -> has fs1 i.
  Proof.
    rewrite run_app. destruct (run fs pre) as [fs1|]; [|discriminate]. intros E. exists fs1. split; [reflexivity|]. intros i R. cbn [run] in E. unfold has.
    destruct a; cbn [step reads] in *; try discriminate R; injection R as <-; destruct (exists_file fs1 _); reflexivity || discriminate E.
  Qed.
  Theorem C93_reads plot t q (groups : list group) acts fs : has fs Merged -> (forall f, temporary f -> ~ has fs f) -> groups <> [] -> all_steps C D truth plot t q groups (exists_file fs Prealigned) = inr acts ->
    forall pre a post, acts = pre ++ a :: post -> exists fs1, run fs pre = Some fs1 /\ forall i, reads a = Some i -> has fs1 i.
  Proof. intros M Cl N E pre a post ->. destruct (C93_files plot t q groups _ fs M Cl N E) as (fs' & R & _). exact (run_reads _ _ _ _ _ R). Qed.
  (** The telescope is aligned with the beam for the DUTs which are aligned and belong to the telescope, in every iteration if there is one; the angles are used if a DUT is aligned and used for the fit. *)
  Theorem C93_telescope plot t (q : list (option (list D))) (g : group) acts : duts_alignment C D truth plot (Some t) q g = inr acts ->
    (forall l, In (AlignTelescope l) acts -> l <> [] /\ forall d, In d l <-> In d (align_duts g) /\ In d t) /\
    length (filter (fun a => match a with AlignTelescope _ => true | _ => false end) acts) = (if existsb (fun d => mem d t) (align_duts g) then iterations g else 0) /\
    length (filter (fun a => match a with ReadAngles _ => true | _ => false end) acts) = (if existsb (fun d => mem d (fit_duts g)) (align_duts g) then iterations g else 0).
  Proof.
    intros E. unfold duts_alignment in E. destruct (iterations g) as [|last] eqn:It; [injection E as <-; cbn; split; [intros l []|]; destruct (existsb _ _), (existsb _ _); auto|]. apply bind_inr in E. destruct E as (u & _ & E).
    apply (f_equal (fun r => match r with inr x => x | inl _ => [] end)) in E. cbv beta iota in E. rewrite <- E. clear E.
    set (tail := match last with 0 => [] | _ => [Remove (Candidates (align_duts g) last)] end).
    assert (T : forall a, In a tail -> exists f, a = Remove f) by (intros a H; unfold tail in H; destruct last; [destruct H|destruct H as [<-|[]]; eauto]).
    assert (Cm : forall b, (length (common (align_duts g) b) =? 0) = negb (existsb (fun d => mem d b) (align_duts g))) by (intros b; unfold common; clear; induction (align_duts g) as [|d l IH]; [reflexivity|]; cbn; destruct (mem d b); [reflexivity|exact IH]).
    split; [|split].
    - intros l H. apply in_app_or in H. destruct H as [H|H]; [|apply T in H; destruct H; discriminate]. apply in_flat_map in H. destruct H as (k & _ & H). unfold iteration in H. rewrite !in_app_iff in H.
      assert (X : l = common (align_duts g) t /\ length (common (align_duts g) t) <> 0).
      { destruct H as [H|[H|[H|[H|[H|H]]]]].
        - destruct (Nat.eqb_spec (length (common (align_duts g) t)) 0) as [Z|Z]; [destruct H|]. destruct H as [H|[]]. injection H as <-. auto.
        - destruct k as [|[|k]]; cbn in H; intuition discriminate.
        - cbn in H. intuition discriminate.
        - destruct (length _ =? 0); cbn in H; intuition discriminate.
        - destruct plot; cbn in H; intuition discriminate.
        - cbn in H. intuition discriminate. }
      destruct X as [-> Z]. split; [intros Y; rewrite Y in Z; apply Z; reflexivity|]. intros d. unfold common. rewrite filter_In. rewrite mem_iff. reflexivity.
    - rewrite filter_app, app_length. assert (Z : length (filter (fun a : action C => match a with AlignTelescope _ => true | _ => false end) tail) = 0) by (unfold tail; destruct last; reflexivity). rewrite Z, Nat.add_0_r.
      assert (K : forall k, length (filter (fun a : action C => match a with AlignTelescope _ => true | _ => false end) (iteration C truth plot t g k)) = if existsb (fun d => mem d t) (align_duts g) then 1 else 0).
      { intros k. unfold iteration. rewrite !filter_app, !app_length, !Cm. destruct (existsb (fun d => mem d t) _), (existsb _ _), plot, k as [|[|k]]; reflexivity. }
      assert (G : forall n k, length (filter (fun a : action C => match a with AlignTelescope _ => true | _ => false end) (flat_map (iteration C truth plot t g) (seq k n))) = if existsb (fun d => mem d t) (align_duts g) then n else 0); [|exact (G (S last) 0)].
      clear -K. induction n as [|n IH]; intros k; cbn [seq flat_map]; [destruct (existsb _ _); reflexivity|]. rewrite filter_app, app_length, K, IH. destruct (existsb _ _); reflexivity.
    - rewrite filter_app, app_length. assert (Z : length (filter (fun a : action C => match a with ReadAngles _ => true | _ => false end) tail) = 0) by (unfold tail; destruct last; reflexivity). rewrite Z, Nat.add_0_r.
      assert (K : forall k, length (filter (fun a : action C => match a with ReadAngles _ => true | _ => false end) (iteration C truth plot t g k)) = if existsb (fun d => mem d (fit_duts g)) (align_duts g) then 1 else 0).
      { intros k. unfold iteration. rewrite !filter_app, !app_length, !Cm. destruct (existsb (fun d => mem d t) _), (existsb _ _), plot, k as [|[|k]]; reflexivity. }
      assert (G : forall n k, length (filter (fun a : action C => match a with ReadAngles _ => true | _ => false end) (flat_map (iteration C truth plot t g) (seq k n))) = if existsb (fun d => mem d (fit_duts g)) (align_duts g) then n else 0); [|exact (G (S last) 0)].
      clear -K. induction n as [|n IH]; intros k; cbn [seq flat_map]; [destruct (existsb _ _); reflexivity|]. rewrite filter_app, app_length, K, IH. destruct (existsb _ _); reflexivity.
  Qed.
End Steps.

(** ** the output configuration: the DUTs to align are taken from the input, the others from the existing output *)
Theorem C93_configuration Dut (telescope : configuration Dut) existing groups c : output_configuration Dut telescope (Some existing) groups = Some c ->
  forall k, ((exists g, In g groups /\ In k g) -> c k = telescope k /\ telescope k <> None) /\ ((forall g, In g groups -> ~ In k g) -> c k = existing k).
Proof.
  cbn [output_configuration]. assert (G : forall duts ex c, revert Dut telescope duts ex = Some c -> forall k, (In k duts -> c k = telescope k /\ telescope k <> None) /\ (~ In k duts -> c k = ex k)).
  { clear. induction duts as [|d ds IH]; intros ex c; cbn [revert]; [intros E; injection E as <-; intros k; split; [intros []|auto]|]. destruct (telescope d) as [v|] eqn:T; [|discriminate]. intros E k. destruct (IH _ _ E k) as [I1 I2]. cbn [In]. destruct (in_dec Nat.eq_dec k ds) as [H|H]; [split; [auto|tauto]|].
    specialize (I2 H). unfold set_dut in I2. destruct (Nat.eqb_spec k d) as [->|Ne]; [split; [intros _; rewrite I2, T; split; congruence|tauto]|]. split; [intros [->|X]; tauto|auto]. }
  intros E k. destruct (G _ _ _ E k) as [G1 G2]. split.
  - intros (g & H1 & H2). apply G1. apply in_concat. eauto.
  - intros H. apply G2. intros X. apply in_concat in X. destruct X as (g & H1 & H2). exact (H g H1 H2).
Qed.
(** The default name changes all occurrences, also in the name of the folder. *)
Theorem C93_name_refuted root : output_name root "prealigned_run/telescope_prealigned.yaml" None = Some "aligned_run/telescope_aligned.yaml"%string.
Proof. reflexivity. Qed.
Theorem C93_name root input o : output_name root input (Some o) <> Some input.
Proof. cbn. destruct (String.eqb_spec o input); congruence. Qed.

Example C93_distances_example : check_distances nat (DList nat [DiIter nat [250; 250]; DiNone nat]) 2 = inr [Some [250; 250]; None] /\ check_number (inr [3; 5]) [[0]; [1; 2]] = inr [3; 5] /\
  check_shapes (AIter [GNone; GItems [ShLeaf 1; ShLeaf 3]]) [[0]; [1; 2]] = inr [[None]; [Some [1; 3]; Some [1; 3]]].
Proof. repeat split; reflexivity. Qed.
Example C93_example : exists acts, all_steps nat nat (fun c => negb (c =? 0)) false (Some [0; 1; 2]) [Some [250; 250]; Some [250; 250]; Some [250; 250]; None] [Group [0; 1] [None; None] [0; 1] [0; 1] [10; 10] [None; Some []] 0] false = inr acts /\ acts = [FindTracks Merged Prealigned; Remove Prealigned].
Proof. eexists. split; reflexivity. Qed.
Example C93_steps_example : exists acts, duts_alignment nat nat (fun c => negb (c =? 0)) true (Some [0; 1]) [Some [250; 250]] (Group [0; 3] [None; None] [0; 1] [0; 1] [10; 0] [None; Some []] 3) = inr acts /\ length acts = 37 /\
  In (Transformation (Selected [0; 3] 1) [0; 3] [telescope_alignment_parameters; default_alignment_parameters]) acts /\ In (FitTracks (Candidates [0; 3] 2) (Tracks [0; 3] 2) [0; 3] [0; 1] [[0; 1]; [0; 1; 3]]) acts.
Proof. eexists. split; [reflexivity|]. split; [reflexivity|]. split; cbn; tauto. Qed.

Print Assumptions C93_select_duts.
Print Assumptions C93_none_refuted.
Print Assumptions C93_hit_duts.
Print Assumptions C93_single_dut_refuted.
Print Assumptions C93_fit_duts.
Print Assumptions C93_chi2.
Print Assumptions C93_shapes.
Print Assumptions C93_group_shapes.
Print Assumptions C93_number.
Print Assumptions C93_distances.
Print Assumptions C93_parameters.
Print Assumptions C93_query.
Print Assumptions C93_telescope_none_refuted.
Print Assumptions C93_quality_none_refuted.
Print Assumptions C93_steps.
Print Assumptions C93_queries.
Print Assumptions C93_files.
Print Assumptions C93_reads.
Print Assumptions C93_telescope.
Print Assumptions C93_configuration.
Print Assumptions C93_name_refuted.
Print Assumptions C93_name.
