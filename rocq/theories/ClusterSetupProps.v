(** Property C119: the set-up of cluster_hits, the functions at the end of clusters and events, the conversion and the copying of columns. *)
From Coq Require Import ZArith Reals Lra String List Arith Bool Lia.
From Verif Require Import BitsModel BitsProofs BitsProps GeometryModel GeometryProofs ClusterSetupModel.
Import ListNotations.
Local Open Scope list_scope.
Local Open Scope Z_scope.

(** ** Minimum and maximum over the hits of a cluster *)
Section Order.
Variable A : Type.
Variable ltb : A -> A -> bool.
Hypothesis trans : forall a b c, ltb b a = false -> ltb c b = false -> ltb c a = false.
Hypothesis asym : forall a b, ltb a b = true -> ltb b a = false.
Hypothesis irr : forall a, ltb a a = false.
Definition smallest (m : A) (l : list A) : Prop := In m l /\ forall v, In v l -> ltb v m = false.
Definition largest (m : A) (l : list A) : Prop := In m l /\ forall v, In v l -> ltb m v = false.
(** the indices of the hits, and after them nothing or the mark -1 *)
Definition indices_of (js indices : list Z) : Prop := (forall j, In j js -> 0 <= j) /\ exists rest, indices = js ++ rest /\ forall i r, rest = i :: r -> i < 0.

Lemma min_loop_spec values : forall js rest m, (forall j, In j js -> 0 <= j) -> (forall i r, rest = i :: r -> i < 0) -> smallest (min_loop A ltb values (js ++ rest) m) (m :: map values js).
Proof using A ltb trans asym irr.
  induction js as [|j js IH]; intros rest m P N; cbn [app map].
  - assert (E : min_loop A ltb values rest m = m).
    { destruct rest as [|i r]; [reflexivity|]. cbn. specialize (N i r eq_refl). destruct (Z.ltb_spec i 0); [reflexivity|lia]. }
    rewrite E. split; [left; reflexivity|]. intros v [<-|[]]. apply irr.
  - cbn [min_loop]. assert (J := P j (or_introl eq_refl)). destruct (Z.ltb_spec j 0); [lia|]. set (m' := if ltb (values j) m then values j else m).
    destruct (IH rest m' (fun k Hk => P k (or_intror Hk)) N) as [I1 I2]. split.
    + destruct I1 as [<-|I1]; [|right; right; exact I1]. unfold m'. destruct (ltb (values j) m); [right; left; reflexivity|left; reflexivity].
    + assert (Hm' := I2 m' (or_introl eq_refl)). intros v [<-|[<-|Hv]].
      * unfold m' in *. destruct (ltb (values j) m) eqn:E; [|exact Hm']. apply (trans _ (values j)); [exact Hm'|apply asym; exact E].
      * unfold m' in *. destruct (ltb (values j) m) eqn:E; [exact Hm'|]. apply (trans _ m); [exact Hm'|exact E].
      * apply I2. right. exact Hv.
Qed.
Lemma max_loop_spec values : forall js rest m, (forall j, In j js -> 0 <= j) -> (forall i r, rest = i :: r -> i < 0) -> largest (max_loop A ltb values (js ++ rest) m) (m :: map values js).
Proof using A ltb trans asym irr.
  induction js as [|j js IH]; intros rest m P N; cbn [app map].
  - assert (E : max_loop A ltb values rest m = m).
    { destruct rest as [|i r]; [reflexivity|]. cbn. specialize (N i r eq_refl). destruct (Z.ltb_spec i 0); [reflexivity|lia]. }
    rewrite E. split; [left; reflexivity|]. intros v [<-|[]]. apply irr.
  - cbn [max_loop]. assert (J := P j (or_introl eq_refl)). destruct (Z.ltb_spec j 0); [lia|]. set (m' := if ltb m (values j) then values j else m).
    destruct (IH rest m' (fun k Hk => P k (or_intror Hk)) N) as [I1 I2]. split.
    + destruct I1 as [<-|I1]; [|right; right; exact I1]. unfold m'. destruct (ltb m (values j)); [right; left; reflexivity|left; reflexivity].
    + assert (Hm' := I2 m' (or_introl eq_refl)). intros v [<-|[<-|Hv]].
      * unfold m' in *. destruct (ltb m (values j)) eqn:E; [|exact Hm']. apply (trans _ (values j)); [apply asym; exact E|exact Hm'].
      * unfold m' in *. destruct (ltb m (values j)) eqn:E; [exact Hm'|]. apply (trans _ m); [exact E|exact Hm'].
      * apply I2. right. exact Hv.
Qed.
End Order.

Lemma Z_trans a b c : (b <? a) = false -> (c <? b) = false -> (c <? a) = false.
Proof. rewrite !Z.ltb_ge. lia. Qed.
Lemma Z_asym a b : (a <? b) = true -> (b <? a) = false.
Proof. rewrite Z.ltb_lt, Z.ltb_ge. lia. Qed.
Lemma smallest_Z m l : smallest Z Z.ltb m l -> is_min m l.
Proof. intros [H1 H2]. split; [exact H1|]. intros x Hx. apply Z.ltb_ge, H2, Hx. Qed.
Lemma largest_Z m l : largest Z Z.ltb m l -> is_max m l.
Proof. intros [H1 H2]. split; [exact H1|]. intros x Hx. apply Z.ltb_ge, H2, Hx. Qed.
Lemma used_spec : forall js rest, (forall j, In j js -> 0 <= j) -> (forall i r, rest = i :: r -> i < 0) -> used (js ++ rest) = js.
Proof.
  induction js as [|j js IH]; intros rest P N; cbn [app used].
  - destruct rest as [|i r]; [reflexivity|]. cbn. specialize (N i r eq_refl). destruct (Z.ltb_spec i 0); [reflexivity|lia].
  - assert (J := P j (or_introl eq_refl)). destruct (Z.ltb_spec j 0); [lia|]. f_equal. apply IH; [intros k Hk; apply P; right; exact Hk|exact N].
Qed.

(** A cluster with the hits i :: js: the shape is the one of C11, the sizes are the differences of the largest and smallest column and row, the frame is the smallest one.
    What follows the mark -1 in the array of indices does not matter. *)
Theorem C119_cluster_of_indices : forall column row frame i js indices shape ec er f,
  indices_of js indices -> end_of_cluster_with_index column row frame i indices = (shape, ec, er, f) ->
  end_of_cluster (column i, row i) (map (fun j => (column j, row j)) js) = (shape, ec, er) /\ is_min f (map frame (i :: js)) /\
  (forall c0 c1, is_min c0 (map column (i :: js)) -> is_max c1 (map column (i :: js)) -> ec = c1 - c0) /\
  (forall r0 r1, is_min r0 (map row (i :: js)) -> is_max r1 (map row (i :: js)) -> er = r1 - r0).
Proof.
  intros column row frame i js indices shape ec er f (P & rest & -> & N) E. unfold end_of_cluster_with_index in E. rewrite used_spec in E by assumption.
  assert (Mi : forall v, is_min (min_loop Z Z.ltb v (js ++ rest) (v i)) (map v (i :: js))) by (intros v; apply smallest_Z, (min_loop_spec Z Z.ltb Z_trans Z_asym Z.ltb_irrefl); assumption).
  assert (Ma : forall v, is_max (max_loop Z Z.ltb v (js ++ rest) (v i)) (map v (i :: js))) by (intros v; apply largest_Z, (max_loop_spec Z Z.ltb Z_trans Z_asym Z.ltb_irrefl); assumption).
  destruct (end_of_cluster (column i, row i) (map (fun j => (column j, row j)) js)) as [[shape' ec'] er'] eqn:B.
  assert (Q1 : map fst ((column i, row i) :: map (fun j => (column j, row j)) js) = map column (i :: js)) by (cbn; f_equal; rewrite map_map; reflexivity).
  assert (Q2 : map snd ((column i, row i) :: map (fun j => (column j, row j)) js) = map row (i :: js)) by (cbn; f_equal; rewrite map_map; reflexivity).
  assert (K : forall c0 c1 r0 r1, is_min c0 (map column (i :: js)) -> is_max c1 (map column (i :: js)) -> is_min r0 (map row (i :: js)) -> is_max r1 (map row (i :: js)) -> ec' = c1 - c0 /\ er' = r1 - r0).
  { intros c0 c1 r0 r1 H1 H2 H3 H4. rewrite <- Q1 in H1, H2. rewrite <- Q2 in H3, H4. destruct (C11_cluster_shape _ _ _ _ _ _ _ _ _ H1 H2 H3 H4 B) as (A1 & A2 & _). auto. }
  destruct (K _ _ _ _ (Mi column) (Ma column) (Mi row) (Ma row)) as [K1 K2].
  injection E as E1 E2 E3 E4. subst f. rewrite E2 in K1. rewrite E3 in K2. rewrite E1, K1, K2. split; [reflexivity|]. split; [apply Mi|]. split.
  - intros c0 c1 H1 H2. rewrite <- K1. apply (K c0 c1 _ _ H1 H2 (Mi row) (Ma row)).
  - intros r0 r1 H1 H2. rewrite <- K2. apply (K _ _ r0 r1 (Mi column) (Ma column) H1 H2).
Qed.

(** A cluster of positions has no shape; the sizes are the distances of the outermost hits, the frame is the smallest one. *)
Theorem C119_cluster_of_positions : forall x y frame i js indices shape ex ey f,
  indices_of js indices -> end_of_cluster_with_position R Rltb Rminus x y frame i indices = (shape, ex, ey, f) ->
  shape = -1 /\ is_min f (map frame (i :: js)) /\
  (forall j k, In j (i :: js) -> In k (i :: js) -> (Rabs (x j - x k) <= ex)%R /\ (Rabs (y j - y k) <= ey)%R) /\
  (exists j k, In j (i :: js) /\ In k (i :: js) /\ ex = (x j - x k)%R) /\ (exists j k, In j (i :: js) /\ In k (i :: js) /\ ey = (y j - y k)%R).
Proof.
  assert (T : forall a b c, Rltb b a = false -> Rltb c b = false -> Rltb c a = false) by (intros a b c H1 H2; apply Rltb_false in H1, H2; apply Rltb_false; lra).
  assert (As : forall a b, Rltb a b = true -> Rltb b a = false) by (intros a b H1; apply Rltb_true in H1; apply Rltb_false; lra).
  assert (Ir : forall a, Rltb a a = false) by (intros a; apply Rltb_false; lra).
  intros x y frame i js indices shape ex ey f (P & rest & -> & N) E. unfold end_of_cluster_with_position in E. injection E as E1 E2 E3 E4. subst.
  assert (K : forall v : Z -> R, let e := (max_loop R Rltb v (js ++ rest) (v i) - min_loop R Rltb v (js ++ rest) (v i))%R in
     (forall j k, In j (i :: js) -> In k (i :: js) -> (Rabs (v j - v k) <= e)%R) /\ exists j k, In j (i :: js) /\ In k (i :: js) /\ e = (v j - v k)%R).
  { intros v e. destruct (min_loop_spec R Rltb T As Ir v js rest (v i) P N) as [m1 m2], (max_loop_spec R Rltb T As Ir v js rest (v i) P N) as [M1 M2]. split.
    - intros j k Hj Hk. assert (B : forall j, In j (i :: js) -> (min_loop R Rltb v (js ++ rest) (v i) <= v j <= max_loop R Rltb v (js ++ rest) (v i))%R).
      { intros u Hu. assert (Iu : In (v u) (v i :: map v js)) by (apply (in_map v (i :: js)); exact Hu). assert (B1 := m2 _ Iu). assert (B2 := M2 _ Iu). apply Rltb_false in B1, B2. lra. }
      pose proof (B j Hj). pose proof (B k Hk). unfold e. apply Rabs_le. lra.
    - change (v i :: map v js) with (map v (i :: js)) in m1, M1. apply in_map_iff in m1, M1. destruct m1 as (k & Ek & Hk), M1 as (j & Ej & Hj). exists j, k. unfold e. rewrite Ej, Ek. auto. }
  destruct (K x) as [X1 X2], (K y) as [Y1 Y2]. split; [reflexivity|]. split; [apply smallest_Z, (min_loop_spec Z Z.ltb Z_trans Z_asym Z.ltb_irrefl); assumption|].
  split; [intros j k Hj Hk; split; [apply X1; assumption|apply Y1; assumption]|]. split; assumption.
Qed.

(** At the end of an event its clusters get the number of clusters of its first hit, the other clusters keep theirs. *)
Theorem C119_end_of_event : forall n_of start_hit start stop l k n, nth_error l k = Some n ->
  nth_error (end_of_event n_of start_hit start stop l) k = Some (if (start <=? k)%nat && (k <? stop)%nat then n_of start_hit else n).
Proof.
  intros n_of start_hit start stop l k n H. unfold end_of_event. assert (Hk : (k < length l)%nat) by (apply nth_error_Some; congruence).
  rewrite (map_nth_error _ k _ (d := (k, n))); [reflexivity|].
  assert (G : forall (l : list Z) s k n, nth_error l k = Some n -> nth_error (combine (seq s (length l)) l) k = Some ((s + k)%nat, n)).
  { clear. induction l as [|a l IH]; intros s [|k] n H; cbn in *; try discriminate.
    - injection H as ->. rewrite Nat.add_0_r. reflexivity.
    - rewrite (IH (S s) k n H). do 2 f_equal. lia. }
  apply (G l 0%nat k n H).
Qed.

(** ** The set-up *)
Lemma has_spec n l : has n l = true <-> In n l.
Proof. unfold has. rewrite existsb_exists. split; [intros (m & H & E); apply String.eqb_eq in E; subst; exact H|]. intros H. exists n. rewrite String.eqb_refl. auto. Qed.

(** Masks are rejected exactly if a mask is in the file and positions are clustered: because this is asked for, or because nothing is asked for and the hits have positions. *)
Theorem C119_masks : forall use columns masks, masks_accepted (use_positions (decide use columns)) masks = false <->
  (exists d n, masks = Some (d, n) /\ (d = true \/ n = true)) /\ (use = UTrue \/ use = UOtherTrue \/ (use = UNone /\ In "x"%string columns)).
Proof.
  intros use columns masks. assert (P : use_positions (decide use columns) = true <-> (use = UTrue \/ use = UOtherTrue \/ (use = UNone /\ In "x"%string columns))).
  { rewrite <- has_spec. destruct use; cbn; intuition congruence. }
  rewrite <- P. destruct masks as [[d n]|]; cbn.
  - destruct (use_positions (decide use columns)); cbn.
    + destruct d, n; cbn; split; intros H; try discriminate; try reflexivity; try (split; [do 2 eexists; split; [reflexivity|auto]|reflexivity]). destruct H as [(d & n & E & [->| ->]) _]; discriminate.
    + split; [discriminate|intros [_ H]; discriminate].
  - split; [discriminate|]. intros [(d & n & E & _) _]. discriminate.
Qed.

Section Func.
Variable V C : Type.
Variable px py : V -> V -> V.
Variable cl : list (string * list V) -> list (string * list V) * C.

Lemma lookup_app name (t u : table V) : lookup V name (t ++ u) = match lookup V name t with Some v => Some v | None => lookup V name u end.
Proof using. induction t as [|[n v] t IH]; cbn; [reflexivity|]. destruct (String.eqb name n); auto. Qed.
Lemma lookup_none name (t : table V) : lookup V name t = None <-> ~ In name (map fst t).
Proof using.
  induction t as [|[n v] t IH]; cbn; [split; auto|]. destruct (String.eqb_spec name n) as [E|E].
  - split; [discriminate|]. intros H. exfalso. apply H. left. congruence.
  - rewrite IH. split; [intros H [X|X]; [congruence|auto]|intros H X; apply H; right; exact X].
Qed.
Lemma unique_spec l : unique l = true <-> NoDup l.
Proof using.
  induction l as [|n l IH]; cbn; [split; [constructor|reflexivity]|]. rewrite andb_true_iff, IH, negb_true_iff, <- not_true_iff_false, has_spec. split.
  - intros [A B]. constructor; assumption.
  - intros H. inversion H; subst. auto.
Qed.
Lemma map2_nth f : forall a b k u v, nth_error a k = Some u -> nth_error b k = Some v -> nth_error (map2 V f a b) k = Some (f u v).
Proof using.
  induction a as [|x a IH]; intros [|y b] [|k] u v H1 H2; cbn in *; try discriminate; [congruence|auto].
Qed.
(** the value of column [name] of row [k] *)
Definition cell (t : table V) (name : string) (k : nat) (v : V) : Prop := exists l, lookup V name t = Some l /\ nth_error l k = Some v.
(** the clusterizer returns the hits in the same order, with the same values in this column *)
Definition keeps (name : string) : Prop := forall t v, lookup V name t = Some v -> lookup V name (fst (cl t)) = Some v.

Lemma convert_lookup (hits new : table V) c r : lookup V "column" hits = Some c -> lookup V "row" hits = Some r -> convert V px py hits = inr new ->
  lookup V "x" new = Some (map2 V px c r) /\ lookup V "y" new = Some (map2 V py c r) /\
  forall n, n <> "x"%string -> n <> "y"%string -> n <> "column"%string -> n <> "row"%string -> lookup V n new = lookup V n hits.
Proof using.
  intros Hc Hr E. unfold convert in E. rewrite Hc, Hr in E. set (f := fun p : string * list V => _) in E. destruct (unique (map fst (map f hits))) eqn:U; [|discriminate]. injection E as <-.
  apply unique_spec in U.
  assert (G : forall name l, In (name, l) (map f hits) -> lookup V name (map f hits) = Some l).
  { revert U. generalize (map f hits). intros t U name l H. induction t as [|[n v] t IH]; [destruct H|]. cbn in *. inversion U as [|? ? U1 U2]; subst. destruct H as [H|H].
    - injection H as -> ->. rewrite String.eqb_refl. reflexivity.
    - destruct (String.eqb_spec name n) as [->|N]; [|auto]. exfalso. apply U1, in_map_iff. exists (n, l). auto. }
  assert (M : forall name l, lookup V name hits = Some l -> In (name, l) hits).
  { clear. intros name l. induction hits as [|[n v] t IH]; cbn; [discriminate|]. destruct (String.eqb_spec name n) as [->|N]; [intros H; injection H as ->; left; reflexivity|intros H; right; auto]. }
  split; [|split].
  - apply G, in_map_iff. exists ("column"%string, c). split; [reflexivity|apply M, Hc].
  - apply G, in_map_iff. exists ("row"%string, r). split; [reflexivity|apply M, Hr].
  - intros n N1 N2 N3 N4. clear -N1 N2 N3 N4. induction hits as [|[m v] t IH]; [reflexivity|]. cbn. unfold f at 1. cbn. destruct (String.eqb_spec m "column") as [->|Nm]; cbn.
    + destruct (String.eqb_spec n "x"); [congruence|]. destruct (String.eqb_spec n "column"); [congruence|]. exact IH.
    + destruct (String.eqb_spec m "row") as [->|Nm2]; cbn.
      * destruct (String.eqb_spec n "y"); [congruence|]. destruct (String.eqb_spec n "row"); [congruence|]. exact IH.
      * destruct (String.eqb n m); [reflexivity|exact IH].
Qed.

(** If positions are asked for and the file has columns and rows only, each row of the result has the column and the row of the hit and the position of this pixel; the
    other columns kept by the clusterizer are those of the hit.  The clusterizer is any function that keeps the order of the hits. *)
Theorem C119_converted : forall (hits out : table V) clusters, ~ In "x"%string (map fst hits) ->
  cluster_func V C px py cl (decide UTrue (map fst hits)) hits = inr (out, clusters) -> keeps "x" -> keeps "y" ->
  forall k c r, cell hits "column" k c -> cell hits "row" k r ->
  cell out "column" k c /\ cell out "row" k r /\ cell out "x" k (px c r) /\ cell out "y" k (py c r) /\
  (forall name v, keeps name -> ~ In name ["x"; "y"; "column"; "row"]%string -> cell hits name k v -> cell out name k v).
Proof using V C px py cl.
  intros hits out clusters Nx E Kx Ky k c r (cs & Hc & Hck) (rs & Hr & Hrk).
  assert (Hcol : has "column" (map fst hits) = true). { apply has_spec. destruct (in_dec string_dec "column"%string (map fst hits)) as [|N]; [assumption|]. apply lookup_none in N. congruence. }
  assert (Hx : has "x" (map fst hits) = false) by (apply not_true_iff_false; rewrite has_spec; exact Nx).
  unfold cluster_func, decide in E. rewrite Hcol, Hx in E. cbn [negb convert_to_positions copy_hit_indices] in E.
  destruct (convert V px py hits) as [e|new] eqn:Ec; [discriminate|]. destruct (convert_lookup _ _ _ _ Hc Hr Ec) as (Lx & Ly & Lo).
  destruct (cl new) as [ch cs'] eqn:El. assert (F : fst (cl new) = ch) by (rewrite El; reflexivity).
  unfold copy_indices in E. destruct (unique _) eqn:U; [|discriminate]. rewrite Hc, Hr in E. destruct (forallb _ ch); [|discriminate]. injection E as <- <-.
  apply unique_spec in U.
  assert (Nc : lookup V "column" ch = None). { apply lookup_none. intros X. apply (NoDup_remove_2 _ _ _ U). apply in_or_app. left. exact X. }
  assert (Nr : lookup V "row" ch = None). { apply lookup_none. intros X. change (map fst ch ++ ["column"; "row"]%string) with (map fst ch ++ ["column"]%string ++ ["row"]%string) in U. rewrite app_assoc in U. apply (NoDup_remove_2 _ _ _ U). rewrite app_nil_r. apply in_or_app. left. exact X. }
  apply Kx in Lx as Fx. rewrite F in Fx. apply Ky in Ly as Fy. rewrite F in Fy.
  split; [exists cs; rewrite lookup_app, Nc; auto|]. split; [exists rs; rewrite lookup_app, Nr; auto|].
  split; [eexists; rewrite lookup_app, Fx; split; [reflexivity|]; apply map2_nth; assumption|]. split; [eexists; rewrite lookup_app, Fy; split; [reflexivity|]; apply map2_nth; assumption|].
  intros name v Kn Nn (l & Hl & Hlk). exists l. rewrite lookup_app. rewrite <- Lo in Hl by (intros ->; apply Nn; cbn; auto). apply Kn in Hl. rewrite F in Hl. rewrite Hl. auto.
Qed.

(** If the file has positions they are used, not the columns and rows, which are copied if they are in the file. *)
Theorem C119_given_positions : forall (hits out : table V) clusters use, In "x"%string (map fst hits) -> use = UNone \/ use = UTrue ->
  cluster_func V C px py cl (decide use (map fst hits)) hits = inr (out, clusters) ->
  (forall name k v, keeps name -> cell hits name k v -> cell out name k v) /\ clusters = snd (cl hits) /\
  (forall name k v, In name ["column"; "row"]%string -> In "column"%string (map fst hits) -> cell hits name k v -> cell out name k v).
Proof using V C px py cl.
  intros hits out clusters use Hx Hu E. apply has_spec in Hx. unfold cluster_func, decide in E. rewrite Hx in E.
  assert (E2 : (let '(cluster_hits, clusters) := cl hits in if has "column" (map fst hits) then match copy_indices V hits cluster_hits with inl e => inl e | inr t => inr (t, clusters) end else inr (cluster_hits, clusters)) = inr (out, clusters)) by (destruct Hu as [->| ->]; exact E).
  clear E. destruct (cl hits) as [ch cs] eqn:El. assert (F : fst (cl hits) = ch) by (rewrite El; reflexivity). destruct (has "column" (map fst hits)) eqn:Hcol.
  - unfold copy_indices in E2. destruct (unique _) eqn:U; [|discriminate]. destruct (lookup V "column" hits) as [c|] eqn:Hc; [|discriminate]. destruct (lookup V "row" hits) as [r|] eqn:Hr; [|discriminate].
    destruct (forallb _ ch); [|discriminate]. injection E2 as <- <-. apply unique_spec in U.
    assert (Nc : lookup V "column" ch = None). { apply lookup_none. intros X. apply (NoDup_remove_2 _ _ _ U). apply in_or_app. left. exact X. }
    assert (Nr : lookup V "row" ch = None). { apply lookup_none. intros X. change (map fst ch ++ ["column"; "row"]%string) with (map fst ch ++ ["column"]%string ++ ["row"]%string) in U. rewrite app_assoc in U. apply (NoDup_remove_2 _ _ _ U). rewrite app_nil_r. apply in_or_app. left. exact X. }
    split; [|split; [reflexivity|]].
    + intros name k v Kn (l & Hl & Hk). exists l. rewrite lookup_app. apply Kn in Hl. rewrite F in Hl. rewrite Hl. auto.
    + intros name k v [<-|[<-|[]]] _ (l & Hl & Hk); exists l; rewrite lookup_app; [rewrite Nc|rewrite Nr]; cbn; rewrite Hl in *; split; auto; congruence.
  - injection E2 as <- <-. split; [|split; [reflexivity|]].
    + intros name k v Kn (l & Hl & Hk). exists l. apply Kn in Hl. rewrite F in Hl. auto.
    + intros name k v _ X. apply has_spec in X. congruence.
Qed.

(** Columns and rows that the clusterizer already returns cannot be added once more: then the run fails.  The columns and rows of the file are passed to the clusterizer as
    additional columns whenever they are to be copied afterwards. *)
Theorem C119_copied_twice : forall (hits : table V) use, copy_hit_indices (decide use (map fst hits)) = true ->
  In "column"%string (additional_columns (use_positions (decide use (map fst hits))) (map fst hits)) /\
  (In "column"%string (map fst (fst (cl hits))) -> convert_to_positions (decide use (map fst hits)) = false ->
   cluster_func V C px py cl (decide use (map fst hits)) hits = inl NameErr).
Proof using V C px py cl.
  intros hits use H. assert (P : use_positions (decide use (map fst hits)) = true /\ In "column"%string (map fst hits)).
  { unfold decide in *. destruct use; cbn in *; try discriminate; try (split; [reflexivity|apply has_spec; exact H]). destruct (has "x" (map fst hits)); [|discriminate]. split; [reflexivity|apply has_spec; exact H]. }
  destruct P as [P1 P2]. split.
  - rewrite P1. unfold additional_columns. apply filter_In. split; [exact P2|reflexivity].
  - intros X Y. unfold cluster_func. rewrite Y. destruct (cl hits) as [ch cs]. cbn [fst] in X. rewrite H. unfold copy_indices. destruct (unique _) eqn:U; [|reflexivity]. exfalso.
    apply unique_spec in U. apply (NoDup_remove_2 _ _ _ U). apply in_or_app. left. exact X.
Qed.

(** With another true value than True (1, or a boolean of numpy) the columns and rows are not converted: positions are clustered, but the clusterizer gets hits without positions. *)
Theorem C119_other_true_refuted : forall (hits : table V), ~ In "x"%string (map fst hits) ->
  let s := decide UOtherTrue (map fst hits) in use_positions s = true /\ convert_to_positions s = false /\ lookup V "x" hits = None /\
  forall out clusters, cluster_func V C px py cl s hits = inr (out, clusters) -> clusters = snd (cl hits).
Proof using V C px py cl.
  intros hits Nx. cbn. split; [reflexivity|]. split; [reflexivity|]. split; [apply lookup_none; exact Nx|]. intros out clusters. unfold cluster_func. cbn.
  destruct (cl hits) as [ch cs]. destruct (has "column" (map fst hits)); [|intros E; injection E as <- <-; reflexivity]. destruct (copy_indices V hits ch); intros E; [discriminate|injection E as <- <-; reflexivity].
Qed.
End Func.

Example C119_case :
  let column k := nth (Z.to_nat k) [10; 12; 11; 90] 0 in let row k := nth (Z.to_nat k) [5; 5; 6; 7] 0 in let frame k := nth (Z.to_nat k) [3; 4; 2; 0] 0 in
  indices_of [1; 2] [1; 2; -1; 3] /\ (let '(_, ec, er, f) := end_of_cluster_with_index column row frame 0 [1; 2; -1; 3] in (ec, er, f)) = (2, 1, 2).
Proof. split; [split; [intros j [<-|[<-|[]]]; lia|exists [-1; 3]; split; [reflexivity|intros i r E; injection E as <- _; lia]]|reflexivity]. Qed.
Example C119_case_converted :
  let hits := [("event_number", [7; 8]); ("column", [3; 4]); ("row", [1; 2])]%string in
  let cl := fun t : list (string * list Z) => (t ++ [("cluster_ID", [0; 0])]%string, tt) in
  cluster_func Z unit (fun c r => 50 * c) (fun c r => 100 * r) cl (decide UTrue (map fst hits)) hits =
    inr ([("event_number", [7; 8]); ("x", [150; 200]); ("y", [100; 200]); ("cluster_ID", [0; 0]); ("column", [3; 4]); ("row", [1; 2])]%string, tt) /\
  keeps Z unit cl "x" /\ cluster_func Z unit (fun c r => 50 * c) (fun c r => 100 * r) cl (decide UTrue ["x"; "column"; "row"]%string) [("x", [1]); ("column", [3]); ("row", [1])]%string = inl NameErr.
Proof. split; [reflexivity|]. split; [|reflexivity]. intros t v H. cbn. rewrite lookup_app, H. reflexivity. Qed.

Print Assumptions C119_cluster_of_indices.
Print Assumptions C119_cluster_of_positions.
Print Assumptions C119_end_of_event.
Print Assumptions C119_masks.
Print Assumptions C119_converted.
Print Assumptions C119_given_positions.
Print Assumptions C119_copied_twice.
Print Assumptions C119_other_true_refuted.
