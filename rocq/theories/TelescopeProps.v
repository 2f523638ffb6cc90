(** Properties of the telescope configuration: C33. *)
From Coq Require Import Ascii String List ZArith Bool Lia Permutation Sorted.
From Verif Require Import TelescopeModel.
Import ListNotations.
Local Open Scope string_scope.
Local Open Scope list_scope.
Set Implicit Arguments.

(** ** Dictionaries *)
Section Dict.
Variables (K V : Type) (eqb : K -> K -> bool).
Hypothesis E : forall a b, eqb a b = true <-> a = b.
Implicit Types d : list (K * V).
Lemma eqb_refl k : eqb k k = true.
Proof using E. now apply E. Qed.
Lemma eqb_neq a b : eqb a b = false <-> a <> b.
Proof using E. destruct (eqb a b) eqn:H; rewrite <- (E a b), H; split; congruence. Qed.
Lemma dget_dset k v d k' : dget eqb k' (dset eqb k v d) = if eqb k' k then Some v else dget eqb k' d.
Proof using E.
  induction d as [|[a x] d IH]; cbn; [reflexivity|].
  destruct (eqb k a) eqn:H; cbn.
  - apply E in H; subst a. destruct (eqb k' k); reflexivity.
  - rewrite IH. destruct (eqb k' a) eqn:H1; [|reflexivity]. apply E in H1; subst a.
    destruct (eqb k' k) eqn:H2; [|reflexivity]. apply E in H2; subst. rewrite eqb_refl in H. discriminate.
Qed.
Lemma dget_In k v d : dget eqb k d = Some v -> In (k, v) d.
Proof using E.
  induction d as [|[a x] d IH]; cbn; [discriminate|]. destruct (eqb k a) eqn:H; intros G.
  - apply E in H; subst. left. congruence.
  - right. now apply IH.
Qed.
Lemma dget_Some k v d : NoDup (map fst d) -> In (k, v) d -> dget eqb k d = Some v.
Proof using E.
  induction d as [|[a x] d IH]; cbn; [easy|]. intros N [G|G]; inversion_clear N.
  - injection G as -> ->. now rewrite eqb_refl.
  - destruct (eqb k a) eqn:Hk; [|now apply IH]. apply E in Hk; subst. destruct H. change a with (fst (a, v)). now apply in_map.
Qed.
Lemma dget_None k d : dget eqb k d = None <-> ~ In k (map fst d).
Proof using E.
  induction d as [|[a x] d IH]; cbn; [easy|]. destruct (eqb k a) eqn:H.
  - apply E in H; subst. split; [discriminate|intros []; now left].
  - apply eqb_neq in H. rewrite IH. intuition congruence.
Qed.
Lemma dset_keys k v d x : In x (map fst (dset eqb k v d)) <-> x = k \/ In x (map fst d).
Proof using E.
  induction d as [|[a y] d IH]; cbn; [intuition|]. destruct (eqb k a) eqn:H; cbn.
  - apply E in H; subst. intuition.
  - rewrite IH. intuition.
Qed.
Lemma dset_nodup k v d : NoDup (map fst d) -> NoDup (map fst (dset eqb k v d)).
Proof using E.
  induction d as [|[a y] d IH]; cbn; intros N; [constructor; [easy|constructor]|].
  inversion_clear N. destruct (eqb k a) eqn:Hk; cbn; constructor; auto.
  apply eqb_neq in Hk. rewrite dset_keys. intuition congruence.
Qed.
Lemma dset_same_keys k v d : In k (map fst d) -> map fst (dset eqb k v d) = map fst d.
Proof using E.
  induction d as [|[a y] d IH]; cbn; [easy|]. destruct (eqb k a) eqn:Hk; cbn; [reflexivity|].
  apply eqb_neq in Hk. intros [G|G]; [congruence|]. now rewrite IH.
Qed.
Lemma dict_ext d d' : NoDup (map fst d) -> map fst d = map fst d' -> (forall k, In k (map fst d) -> dget eqb k d = dget eqb k d') -> d = d'.
Proof using E.
  revert d'. induction d as [|[a x] d IH]; intros [|[b y] d']; cbn; intros N M G; try discriminate; [reflexivity|].
  injection M as -> M. inversion_clear N. f_equal.
  - specialize (G b (or_introl eq_refl)). rewrite !eqb_refl in G. congruence.
  - apply IH; auto. intros k Hk. specialize (G k (or_intror Hk)). destruct (eqb k b) eqn:Hb; [|exact G].
    apply E in Hb; subst. contradiction.
Qed.
Lemma dset_new k v d : ~ In k (map fst d) -> dset eqb k v d = d ++ [(k, v)].
Proof using E.
  induction d as [|[a x] d IH]; cbn; [reflexivity|]. intros N. destruct (eqb k a) eqn:H.
  - apply E in H; subst. destruct N. now left.
  - rewrite IH; [reflexivity|]. intuition.
Qed.
Lemma dset_forall k v d (P : K * V -> Prop) : P (k, v) -> Forall P d -> Forall P (dset eqb k v d).
Proof using E.
  intros Pk. induction 1 as [|[a x] d Px F IH]; cbn; [now constructor|].
  destruct (eqb k a) eqn:H; constructor; auto. apply E in H. now subst.
Qed.
End Dict.

Lemma key_eqbE a b : key_eqb a b = true <-> a = b.
Proof. destruct a, b; cbn; rewrite ?Z.eqb_eq, ?String.eqb_eq; split; congruence. Qed.

(** Sorting by key *)
Section Sort.
Variable V : Type.
Implicit Types d : list (Z * V).
Lemma insert_perm k v d : Permutation (insert k v d) ((k, v) :: d).
Proof.
  induction d as [|[a x] d IH]; cbn; [reflexivity|]. destruct (Z.leb k a); [reflexivity|].
  rewrite IH. apply perm_swap.
Qed.
Lemma sorted_perm d : Permutation (sorted_items d) d.
Proof. induction d as [|[a x] d IH]; cbn; [constructor|]. rewrite insert_perm. now constructor. Qed.
Definition ordered d := StronglySorted Z.lt (map fst d).
Lemma insert_ordered k v d : ~ In k (map fst d) -> ordered d -> ordered (insert k v d).
Proof.
  unfold ordered. induction d as [|[a x] d IH]; cbn; intros N S; [repeat constructor|].
  apply StronglySorted_inv in S as [S F]. destruct (Z.leb k a) eqn:H.
  - apply Z.leb_le in H. assert (a <> k) by tauto. constructor; [now constructor|]. constructor; [cbn in *; lia|].
    eapply Forall_impl; [|exact F]. intros z Hz. cbn in *; lia.
  - apply Z.leb_gt in H. cbn. constructor; [apply IH; intuition|].
    apply Forall_forall. intros y Hy. apply in_map_iff in Hy as ([y' z] & <- & Hy). cbn.
    apply (Permutation_in _ (insert_perm k v d)) in Hy as [G|G]; [injection G as <- _; cbn in *; lia|].
    rewrite Forall_forall in F. apply F. change y' with (fst (y', z)). now apply in_map.
Qed.
Lemma sorted_ordered d : NoDup (map fst d) -> ordered (sorted_items d).
Proof.
  induction d as [|[a x] d IH]; cbn; intros N; [constructor|]. inversion_clear N. apply insert_ordered; [|now apply IH].
  intros G. apply H. eapply Permutation_in; [|exact G]. apply Permutation_map, sorted_perm.
Qed.
Lemma sorted_nodup d : NoDup (map fst d) -> NoDup (map fst (sorted_items d)).
Proof. intros N. eapply Permutation_NoDup; [|exact N]. apply Permutation_map. symmetry. apply sorted_perm. Qed.
Lemma insert_first k v d : Forall (fun y => (k < y)%Z) (map fst d) -> insert k v d = (k, v) :: d.
Proof. destruct d as [|[a x] d]; cbn; [reflexivity|]. intros F. inversion_clear F. destruct (Z.leb_spec k a); [reflexivity|lia]. Qed.
Lemma sorted_id d : ordered d -> sorted_items d = d.
Proof.
  unfold ordered. induction d as [|[a x] d IH]; cbn; intros S; [reflexivity|]. apply StronglySorted_inv in S as [S F].
  change (insert a x (sorted_items d) = (a, x) :: d). rewrite IH by assumption. now apply insert_first.
Qed.
Lemma sorted_get d k : NoDup (map fst d) -> dget Z.eqb k (sorted_items d) = dget Z.eqb k d.
Proof.
  intros N. destruct (dget Z.eqb k d) eqn:G.
  - apply (dget_Some _ Z.eqb_eq); [now apply sorted_nodup|]. apply (Permutation_in _ (Permutation_sym (sorted_perm d))).
    now apply (dget_In _ Z.eqb_eq).
  - apply (dget_None _ Z.eqb_eq). apply (dget_None _ Z.eqb_eq) in G. intros H. apply G.
    eapply Permutation_in; [|exact H]. apply Permutation_map, sorted_perm.
Qed.
(** Strictly ordered dictionaries with the same content are equal *)
Lemma ordered_unique d d' : ordered d -> ordered d' -> Permutation d d' -> d = d'.
Proof.
  unfold ordered. revert d'. induction d as [|[a x] d IH]; intros d' S S' P.
  - now apply Permutation_nil in P.
  - destruct d' as [|[b y] d']; [now apply Permutation_sym, Permutation_nil in P|].
    cbn in S, S'. apply StronglySorted_inv in S as [S F]. apply StronglySorted_inv in S' as [S' F'].
    assert (H : (a, x) = (b, y)).
    { assert (In (a, x) ((b, y) :: d')) as [G|G] by (eapply Permutation_in; [exact P|now left]); [congruence|].
      assert (In (b, y) ((a, x) :: d)) as [G'|G'] by (eapply Permutation_in; [symmetry; exact P|now left]); [congruence|].
      rewrite Forall_forall in F, F'. apply (in_map fst) in G, G'. apply F' in G. apply F in G'. cbn in G, G'. lia. }
    rewrite H in *. f_equal. apply IH; auto. eapply Permutation_cons_inv; exact P.
Qed.
End Sort.

Section Props.
Variable Float : Type.
Variable lt : Float -> Float -> bool.
Variable of_int : Z -> Float.
Variable to_int : Float -> option Z.
Variable zero : Float.
Variable to_str : Float -> string.
Variable int_to_str : Z -> string.
Variable mimosa_resolution : value Float.
(** Comparison of floats, nan included: a strict partial order *)
Hypothesis lt_irreflexive : forall x, lt x x = false.
Hypothesis lt_transitive : forall x y z, lt x y = true -> lt y z = true -> lt x z = true.

Local Notation value := (value Float).
Local Notation dut := (dut Float).
Local Notation telescope := (telescope Float).
Local Notation set_attribute := (set_attribute lt of_int to_int to_str int_to_str).
Local Notation init_attribute := (init_attribute lt of_int to_int zero to_str int_to_str).
Local Notation construct := (construct lt of_int to_int zero to_str int_to_str mimosa_resolution).
Local Notation assign := (assign lt of_int to_int to_str int_to_str).
Local Notation new := (new zero).
Local Notation set_telescope := (set_telescope of_int).
Local Notation add_dut := (add_dut lt of_int to_int zero to_str int_to_str mimosa_resolution).
Local Notation load_configuration := (load_configuration lt of_int to_int zero to_str int_to_str mimosa_resolution).
Local Notation save_configuration := (@save_configuration Float).
Local Notation dget_s := (dget String.eqb).

(** ** Attributes *)
Lemma minimum_first f fs : minimum lt f fs = f \/ lt (minimum lt f fs) f = true.
Proof using lt_transitive.
  unfold minimum. revert f. induction fs as [|x fs IH]; intros f; cbn; [now left|].
  destruct (lt x f) eqn:H; [|apply IH]. right. destruct (IH x) as [->|G]; [exact H|]. eapply lt_transitive; eassumption.
Qed.
Lemma maximum_first f fs : maximum lt f fs = f \/ lt f (maximum lt f fs) = true.
Proof using lt_transitive.
  unfold maximum. revert f. induction fs as [|x fs IH]; intros f; cbn; [now left|].
  destruct (lt f x) eqn:H; [|apply IH]. right. destruct (IH x) as [->|G]; [exact H|]. eapply lt_transitive; eassumption.
Qed.
Lemma limit_again f fs : let a := minimum lt f fs in let b := maximum lt f fs in minimum lt a [b] = a /\ maximum lt a [b] = b.
Proof using lt_irreflexive lt_transitive.
  cbn. assert (H : minimum lt f fs = maximum lt f fs \/ lt (minimum lt f fs) (maximum lt f fs) = true).
  { destruct (minimum_first f fs) as [->|H], (maximum_first f fs) as [->|H']; auto. right. eapply lt_transitive; eassumption. }
  destruct H as [<-|H]; [now rewrite lt_irreflexive|]. rewrite H. split; [|reflexivity].
  destruct (lt (maximum lt f fs) (minimum lt f fs)) eqn:G; [|reflexivity].
  exfalso. pose proof (lt_transitive H G). rewrite lt_irreflexive in *. discriminate.
Qed.
(** Assigning the value of an attribute to it does not change it *)
Lemma set_again n v w : set_attribute n v = Some w -> set_attribute n w = Some w /\ (n = "material_budget" -> w <> VNull).
Proof using lt_irreflexive lt_transitive.
  unfold TelescopeModel.set_attribute. destruct (n =? "name")%string eqn:N.
  { apply String.eqb_eq in N; subst. intros H. split; [|easy]. destruct v; try discriminate; injection H as <-; reflexivity. }
  destruct (existsb (String.eqb n) ["x_limit"; "y_limit"]) eqn:L.
  { intros H. split; [|intros ->; discriminate]. destruct v; try discriminate; [injection H as <-; reflexivity|].
    destruct floats as [[|f fs]|]; try discriminate. injection H as <-. cbn -[minimum maximum].
    destruct (limit_again f fs) as [A B]. cbn -[minimum maximum] in A, B. now rewrite A, B. }
  destruct (n =? "intrinsic_resolution")%string eqn:I.
  { intros H. split; [|intros ->; discriminate]. destruct v as [ | | | |[|a [|b l]]|]; try discriminate; [injection H as <-; reflexivity|].
    destruct (to_float of_int a), (to_float of_int b); try discriminate. injection H as <-. reflexivity. }
  destruct (n =? "sensor_position")%string eqn:P.
  { intros H. split; [|intros ->; discriminate]. destruct v as [ | | | |[|a [|b l]]|]; try discriminate.
    destruct (to_integer to_int a), (to_integer to_int b); try discriminate. injection H as <-. reflexivity. }
  destruct (existsb (String.eqb n) ["n_columns"; "n_rows"]) eqn:C.
  { intros H. split; [|intros ->; discriminate]. unfold int_value in *. destruct to_integer; [|discriminate]. injection H as <-. reflexivity. }
  unfold float_value. destruct to_float; [|discriminate]. intros H; injection H as <-. now split.
Qed.
Lemma init_again n v w : init_attribute n v = Some w -> init_attribute n w = Some w.
Proof using lt_irreflexive lt_transitive.
  assert (G : forall x, set_attribute n x = Some w -> init_attribute n w = Some w).
  { intros x H. apply set_again in H as [H M]. destruct w; cbn; try exact H.
    destruct (n =? "material_budget")%string eqn:B; [|exact H]. apply String.eqb_eq in B. now destruct (M B). }
  destruct v; cbn; try exact (G _). destruct (n =? "material_budget")%string eqn:B; [|exact (G _)].
  intros H; injection H as <-. apply String.eqb_eq in B; subst. reflexivity.
Qed.

(** ** States that can be reached *)
Inductive reachable_dut : dut -> Prop :=
| Made class names kwargs d : dget_s class classes = Some names -> construct class names kwargs = Some d -> reachable_dut d
| Assigned d name v d' : reachable_dut d -> assign d name v = Some d' -> reachable_dut d'.
Inductive reachable : telescope -> Prop :=
| New : reachable new
| SetTelescope t name v t' : reachable t -> In name telescope_attributes -> set_telescope t name v = Some t' -> reachable t'
| AddDut t class id kwargs t' : reachable t -> add_dut t class id kwargs = Some t' -> reachable t'
| SetItem t id d : reachable t -> reachable_dut d -> reachable (set_item t id d)
| Load t file t' : reachable t -> load_configuration t file = Some t' -> reachable t'.

Definition valid_dut (d : dut) := exists names, dget_s (d_class d) classes = Some names /\ map fst (d_attributes d) = names
  /\ Forall (fun p => init_attribute (fst p) (snd p) = Some (snd p)) (d_attributes d).
Definition valid (t : telescope) := map fst (t_attributes t) = telescope_attributes /\ Forall (fun p => exists f, snd p = VFloat f) (t_attributes t)
  /\ NoDup (map fst (t_duts t)) /\ Forall (fun p => valid_dut (snd p)) (t_duts t).

Lemma init_attributes_valid class names kwargs l : init_attributes lt of_int to_int zero to_str int_to_str mimosa_resolution class names kwargs = Some l ->
  map fst l = names /\ Forall (fun p => init_attribute (fst p) (snd p) = Some (snd p)) l.
Proof using lt_irreflexive lt_transitive.
  revert l. induction names as [|n names IH]; intros l; cbn [init_attributes]; [intros H; injection H as <-; now split|].
  destruct (match dget_s n kwargs with Some v => Some v | None => default mimosa_resolution class n end) as [v|]; [|discriminate].
  destruct (TelescopeModel.init_attribute _ _ _ _ _ _ n v) as [w|] eqn:A; [|discriminate].
  destruct init_attributes as [l'|]; [|discriminate]. intros H; injection H as <-.
  destruct (IH _ eq_refl) as [M F]. split; [cbn; now rewrite M|]. constructor; [|exact F]. cbn. eapply init_again; exact A.
Qed.
Lemma construct_valid class names kwargs d : dget_s class classes = Some names -> construct class names kwargs = Some d -> valid_dut d.
Proof using lt_irreflexive lt_transitive.
  unfold TelescopeModel.construct. intros C. destruct forallb; [|discriminate]. destruct init_attributes as [l|] eqn:I; [|discriminate].
  intros H; injection H as <-. apply init_attributes_valid in I as [M F]. exists names. cbn. auto.
Qed.
Lemma reachable_dut_valid d : reachable_dut d -> valid_dut d.
Proof using lt_irreflexive lt_transitive.
  induction 1 as [class names kwargs d C M|d name v d' R (names & C & M & F) A]; [eapply construct_valid; eassumption|].
  unfold TelescopeModel.assign in A. destruct (dget_s name (d_attributes d)) eqn:G; [|discriminate].
  destruct (TelescopeModel.set_attribute _ _ _ _ _ name v) as [w|] eqn:S; [|discriminate]. injection A as <-. exists names. cbn. repeat split; auto.
  - rewrite dset_same_keys; auto using String.eqb_eq. apply (dget_In _ String.eqb_eq) in G. apply (in_map fst) in G. exact G.
  - apply dset_forall; auto using String.eqb_eq. cbn. apply set_again in S as [S N]. destruct w; cbn; try exact S.
    destruct (name =? "material_budget")%string eqn:B; [|exact S]. apply String.eqb_eq in B. now destruct (N B).
Qed.
Lemma set_telescope_valid t name v t' : valid t -> In name telescope_attributes -> set_telescope t name v = Some t' -> valid t'.
Proof using.
  intros (M & F & N & D) I. unfold TelescopeModel.set_telescope, float_value. destruct to_float; [|discriminate].
  intros H; injection H as <-. repeat split; cbn; auto.
  - rewrite dset_same_keys; auto using String.eqb_eq. now rewrite M.
  - apply dset_forall; auto using String.eqb_eq. now eexists.
Qed.
Lemma set_item_valid t id d : valid t -> valid_dut d -> valid (set_item t id d).
Proof using.
  intros (M & F & N & D) V. repeat split; cbn; auto.
  - apply dset_nodup; auto using Z.eqb_eq.
  - apply dset_forall; auto using Z.eqb_eq.
Qed.
Lemma add_dut_valid t class id kwargs t' : valid t -> add_dut t class id kwargs = Some t' -> valid t'.
Proof using lt_irreflexive lt_transitive.
  intros V. unfold TelescopeModel.add_dut. destruct (dget_s class classes) as [names|] eqn:C; [|discriminate].
  destruct (TelescopeModel.construct _ _ _ _ _ _ _ class names _) as [d|] eqn:M; [|discriminate]. intros H; injection H as <-.
  apply (set_item_valid id V). eapply construct_valid; eassumption.
Qed.
Lemma load_duts_valid items t t' : valid t -> load_duts lt of_int to_int zero to_str int_to_str mimosa_resolution t items = Some t' -> valid t'.
Proof using lt_irreflexive lt_transitive.
  revert t. induction items as [|[[id|s] v] items IH]; intros t V; cbn [load_duts]; [congruence| |discriminate].
  destruct v as [ | | | | |m]; try discriminate.
  destruct (match dget key_eqb (KStr "dut_type") m with None => _ | Some _ => _ end) as [class|]; [|discriminate].
  destruct keywords as [kwargs|]; [|discriminate].
  destruct (TelescopeModel.add_dut _ _ _ _ _ _ _ t class id kwargs) as [t1|] eqn:A; [|discriminate].
  apply IH. eapply add_dut_valid; eassumption.
Qed.
Lemma load_attributes_valid items t t' : valid t -> load_attributes of_int t items = Some t' -> valid t'.
Proof using.
  revert t. induction items as [|[[id|s] v] items IH]; intros t V; cbn [load_attributes]; [congruence|now apply IH|].
  destruct (existsb (String.eqb s) telescope_attributes) eqn:E; [|now apply IH].
  destruct (TelescopeModel.set_telescope of_int t s v) as [t1|] eqn:S; [|discriminate]. apply IH.
  eapply set_telescope_valid; [exact V| |exact S]. apply existsb_exists in E as (x & Hx & E). apply String.eqb_eq in E. now subst.
Qed.
Lemma reachable_valid t : reachable t -> valid t.
Proof using lt_irreflexive lt_transitive.
  induction 1 as [|t name v t' R V I S|t class id kwargs t' R V A|t id d R V D|t file t' R V L].
  - split; [reflexivity|]. split; [cbn; repeat (constructor; [now eexists|]); constructor|]. cbn. split; constructor.
  - eapply set_telescope_valid; eassumption.
  - eapply add_dut_valid; eassumption.
  - apply set_item_valid; auto. now apply reachable_dut_valid.
  - unfold TelescopeModel.load_configuration in L. destruct file as [ | | | | |c]; try discriminate; [congruence|].
    destruct (dget key_eqb (KStr "TELESCOPE") c) as [[ | | | | |tel]|]; try discriminate; [|congruence].
    destruct (dget key_eqb (KStr "DUT") tel) as [[ | | | | |items]|]; try discriminate.
    + destruct load_duts as [t1|] eqn:D; [|discriminate]. eapply load_attributes_valid; [|exact L]. eapply load_duts_valid; eassumption.
    + eapply load_attributes_valid; eassumption.
Qed.

(** ** Saving and loading *)
Fixpoint nodupb (l : list string) : bool := match l with [] => true | s :: l => negb (existsb (String.eqb s) l) && nodupb l end.
Lemma nodupb_true l : nodupb l = true -> NoDup l.
Proof using.
  clear. induction l as [|s l IH]; cbn; [constructor|]. intros H. apply andb_true_iff in H as [H1 H2]. constructor; [|now apply IH].
  intros G. assert (existsb (String.eqb s) l = true); [|now rewrite H in H1]. apply existsb_exists. exists s. split; [assumption|apply String.eqb_refl].
Qed.
Lemma known_class class names : dget_s class classes = Some names -> NoDup names /\ In "name" names /\ ~ In "dut_type" names.
Proof using.
  clear. intros H. apply (dget_In _ String.eqb_eq) in H. set (inb := fun s => existsb (String.eqb s)).
  assert (I : forall s l, inb s l = true <-> In s l).
  { intros s l. unfold inb. rewrite existsb_exists. split; [intros (x & Hx & E); apply String.eqb_eq in E; now subst|intros G; exists s; split; [assumption|apply String.eqb_refl]]. }
  assert (C : forallb (fun p => nodupb (snd p) && (inb "name" (snd p) && negb (inb "dut_type" (snd p))))%bool classes = true) by (vm_compute; reflexivity).
  rewrite forallb_forall in C. apply C in H. cbn [snd] in H. apply andb_true_iff in H as [H1 H]. apply andb_true_iff in H as [H2 H3].
  split; [now apply nodupb_true|]. split; [now apply I|]. intros G. apply I in G. rewrite G in H3. discriminate.
Qed.
Definition items (l : list (string * value)) : list (key * value) := map (fun p => (KStr (fst p), snd p)) l.
Lemma keywords_items l : keywords (items l) = Some l.
Proof using. induction l as [|[s v] l IH]; cbn; [reflexivity|]. unfold items in IH. now rewrite IH. Qed.
Lemma items_get l s : dget key_eqb (KStr s) (items l) = dget_s s l.
Proof using. induction l as [|[a v] l IH]; cbn; [reflexivity|]. destruct (s =? a)%string; [reflexivity|exact IH]. Qed.
Lemma dget_app K V (eqb : K -> K -> bool) k (a b : list (K * V)) : dget eqb k (a ++ b) = match dget eqb k a with Some v => Some v | None => dget eqb k b end.
Proof using. induction a as [|[x v] a IH]; cbn; [reflexivity|]. destruct (eqb k x); [reflexivity|exact IH]. Qed.
Lemma remove_type l v : ~ In "dut_type" (map fst l) -> dremove key_eqb (KStr "dut_type") (items l ++ [(KStr "dut_type", v)]) = items l.
Proof using.
  unfold dremove. intros N. rewrite filter_app. cbn [filter fst].
  replace (key_eqb (KStr "dut_type") (KStr "dut_type")) with true by reflexivity. cbn [negb]. rewrite app_nil_r.
  induction l as [|[s x] l IH]; [reflexivity|]. cbn [map fst] in N. unfold items. cbn [map filter fst snd]. fold (items l).
  replace (key_eqb (KStr "dut_type") (KStr s)) with false.
  - cbn [negb]. f_equal. apply IH. intros G. apply N. now right.
  - symmetry. apply not_true_iff_false. intros G. apply key_eqbE in G. injection G as G. destruct N. now left.
Qed.
Lemma init_attributes_again class names l : NoDup names -> map fst l = names -> Forall (fun p => init_attribute (fst p) (snd p) = Some (snd p)) l ->
  init_attributes lt of_int to_int zero to_str int_to_str mimosa_resolution class names l = Some l.
Proof using.
  intros N M F. assert (G : forall l', (forall p, In p l' -> In p l) ->
    init_attributes lt of_int to_int zero to_str int_to_str mimosa_resolution class (map fst l') l = Some l').
  { induction l' as [|[n v] l' IH]; intros I; cbn [map fst init_attributes]; [reflexivity|].
    rewrite (@dget_Some _ _ _ String.eqb_eq n v); [|now rewrite M|apply I; now left].
    rewrite Forall_forall in F. pose proof (F (n, v) (I _ (or_introl eq_refl))) as Fn. cbn in Fn. rewrite Fn.
    rewrite IH; [reflexivity|]. intros p Hp. apply I. now right. }
  rewrite <- M. apply G. auto.
Qed.
Lemma add_saved t id d : valid_dut d -> add_dut t (d_class d) id (d_attributes d) = Some (set_item t id d).
Proof using.
  intros (names & C & M & F). destruct (known_class _ C) as (N & Nn & Nt). unfold TelescopeModel.add_dut.
  destruct (dget_s "name" (d_attributes d)) eqn:G; [|apply (dget_None _ String.eqb_eq) in G; rewrite M in G; contradiction].
  rewrite C. unfold TelescopeModel.construct.
  replace (forallb _ (d_attributes d)) with true.
  - rewrite init_attributes_again; auto. cbn. destruct d; reflexivity.
  - symmetry. apply forallb_forall. intros p Hp. apply existsb_exists. exists (fst p). split; [|apply String.eqb_refl].
    rewrite <- M. now apply in_map.
Qed.
Definition saved_dut (p : Z * dut) : key * value := (KInt (fst p), dut_configuration (snd p)).
Lemma load_saved l t : Forall (fun p => valid_dut (snd p)) l ->
  load_duts lt of_int to_int zero to_str int_to_str mimosa_resolution t (map saved_dut l)
  = Some (Telescope (t_attributes t) (fold_left (fun d p => dset Z.eqb (fst p) (snd p) d) l (t_duts t))).
Proof using.
  revert t. induction l as [|[id d] l IH]; intros t F; cbn [map saved_dut fst snd load_duts fold_left]; [now destruct t|].
  inversion_clear F as [|? ? V F']. cbn [snd] in V. pose proof V as (names & C & M & _). destruct (known_class _ C) as (_ & _ & Nt).
  unfold dut_configuration. fold (items (d_attributes d)).
  rewrite dget_app, items_get.
  assert (dget_s "dut_type" (d_attributes d) = None) as -> by (apply (dget_None _ String.eqb_eq); now rewrite M).
  cbn [dget key_eqb]. rewrite String.eqb_refl. rewrite remove_type by now rewrite M. rewrite keywords_items, add_saved by assumption.
  now rewrite IH.
Qed.
Lemma build_dict l d : NoDup (map fst d ++ map fst l) -> fold_left (fun (d : list (Z * dut)) p => dset Z.eqb (fst p) (snd p) d) l d = d ++ l.
Proof using.
  revert d. induction l as [|[id x] l IH]; intros d N; cbn; [now rewrite app_nil_r|].
  rewrite (dset_new _ Z.eqb_eq).
  - rewrite IH; [now rewrite <- app_assoc|]. rewrite map_app. cbn. now rewrite <- app_assoc.
  - cbn in N. apply NoDup_remove_2 in N. intros G. apply N, in_or_app. now left.
Qed.

(** Attributes of the telescope *)
Lemma load_attributes_get tel t : valid t -> NoDup (map fst tel) ->
  (forall n, In n telescope_attributes -> exists f, dget key_eqb (KStr n) tel = Some (VFloat f)) ->
  exists t', load_attributes of_int t tel = Some t' /\ valid t' /\ t_duts t' = t_duts t
    /\ forall n, In n telescope_attributes -> dget_s n (t_attributes t') = dget key_eqb (KStr n) tel.
Proof using.
  intros V N A.
  assert (G : forall tel' t, valid t -> NoDup (map fst tel') -> (forall p, In p tel' -> In p tel) ->
    exists t', load_attributes of_int t tel' = Some t' /\ valid t' /\ t_duts t' = t_duts t
    /\ forall n, In n telescope_attributes -> dget_s n (t_attributes t') = match dget key_eqb (KStr n) tel' with Some v => Some v | None => dget_s n (t_attributes t) end).
  { clear V t. induction tel' as [|[k v] tel' IH]; intros t V N' I; cbn [load_attributes].
    - exists t. repeat split; try apply V; auto.
    - inversion_clear N' as [|? ? Nk N'']. assert (I' : forall p, In p tel' -> In p tel) by (intros; apply I; now right).
      destruct k as [id|s].
      { destruct (IH t V N'' I') as (t' & L & V' & D & Q). exists t'. repeat split; auto; try apply V'. }
      destruct (existsb (String.eqb s) telescope_attributes) eqn:Es.
      + assert (Hs : In s telescope_attributes) by (apply existsb_exists in Es as (x & Hx & E); apply String.eqb_eq in E; now subst).
        destruct (A s Hs) as [f Ef]. rewrite (@dget_Some _ _ _ key_eqbE (KStr s) v) in Ef; [|assumption|apply I; now left].
        injection Ef as ->. cbn [TelescopeModel.set_telescope float_value to_float option_map].
        destruct (IH (Telescope (dset String.eqb s (VFloat f) (t_attributes t)) (t_duts t))) as (t' & L & V' & D & Q); auto.
        { eapply set_telescope_valid with (v := VFloat f); [exact V|exact Hs|reflexivity]. }
        exists t'. unfold TelescopeModel.set_telescope. cbn [float_value to_float option_map]. repeat split; auto; try apply V'.
        intros n Hn. rewrite Q by assumption. cbn [dget key_eqb t_attributes]. rewrite (dget_dset _ String.eqb_eq).
        destruct (n =? s)%string eqn:Ens; [|reflexivity]. apply String.eqb_eq in Ens; subst n.
        destruct (dget key_eqb (KStr s) tel') eqn:G; [|reflexivity]. apply (dget_In _ key_eqbE), (in_map fst) in G. contradiction.
      + destruct (IH t V N'' I') as (t' & L & V' & D & Q). exists t'. repeat split; auto; try apply V'.
        intros n Hn. rewrite Q by assumption. cbn [dget key_eqb]. destruct (n =? s)%string eqn:Ens; [|reflexivity].
        apply String.eqb_eq in Ens; subst n. exfalso. assert (existsb (String.eqb s) telescope_attributes = true); [|congruence].
        apply existsb_exists. exists s. split; [assumption|apply String.eqb_refl]. }
  destruct (G tel t V N) as (t' & L & V' & D & Q); auto. exists t'. repeat split; auto; try apply V'.
  intros n Hn. rewrite Q by assumption. destruct (A n Hn) as [f ->]. reflexivity.
Qed.

(** The content of a file with TELESCOPE section [tel] and other sections; dictionaries have each key once *)
Definition well_formed (old : option value) (c tel : list (key * value)) :=
  NoDup (map fst tel) /\
  match old with
  | None => c = [] /\ tel = []
  | Some v => v = VMap c /\ match dget key_eqb (KStr "TELESCOPE") c with None => tel = [] | Some w => w = VMap tel end
  end.
Definition set_all (l : list (string * value)) (tel : list (key * value)) := fold_left (fun m p => dset key_eqb (KStr (fst p)) (snd p) m) l tel.
Lemma set_all_nodup l tel : NoDup (map fst tel) -> NoDup (map fst (set_all l tel)).
Proof using. revert tel. induction l as [|p l IH]; intros tel N; cbn; [assumption|]. apply IH. apply dset_nodup; auto using key_eqbE. Qed.
Lemma set_all_get l tel k : NoDup (map fst l) -> dget key_eqb k (set_all l tel)
  = match k with KStr s => match dget_s s l with Some v => Some v | None => dget key_eqb k tel end | KInt _ => dget key_eqb k tel end.
Proof using.
  revert tel. induction l as [|[s v] l IH]; intros tel N; cbn [set_all fold_left fst snd].
  - destruct k; reflexivity.
  - inversion_clear N as [|? ? Ns N']. fold (set_all l (dset key_eqb (KStr s) v tel)). rewrite IH by assumption. rewrite (dget_dset _ key_eqbE). destruct k as [z|n]; [reflexivity|].
    cbn [dget key_eqb]. destruct (n =? s)%string eqn:E.
    + apply String.eqb_eq in E; subst n. destruct (dget_s s l) eqn:G; [|reflexivity]. apply (dget_In _ String.eqb_eq), (in_map fst) in G. contradiction.
    + reflexivity.
Qed.
Definition saved_section (t : telescope) (tel : list (key * value)) : list (key * value) :=
  dset key_eqb (KStr "DUT") (VMap (map saved_dut (sorted_items (t_duts t)))) (set_all (t_attributes t) tel).
Lemma saved_duts t tel : dget key_eqb (KStr "DUT") (saved_section t tel) = Some (VMap (map saved_dut (sorted_items (t_duts t)))).
Proof using. unfold saved_section. rewrite (dget_dset _ key_eqbE). cbn [key_eqb]. now rewrite String.eqb_refl. Qed.
Lemma saveE t old c tel : well_formed old c tel -> save_configuration t old = Some (VMap (dset key_eqb (KStr "TELESCOPE") (VMap (saved_section t tel)) c)).
Proof using.
  intros [N W]. unfold TelescopeModel.save_configuration. destruct old as [v|].
  - destruct W as [-> W]. destruct (dget key_eqb (KStr "TELESCOPE") c); subst; reflexivity.
  - destruct W as [-> ->]. reflexivity.
Qed.
Lemma attributes_nodup : NoDup telescope_attributes.
Proof using. clear. repeat (apply NoDup_cons; [cbn; intuition discriminate|]). apply NoDup_nil. Qed.

(** C33: round trip.  Whatever was in the file before (nothing, or with keep_others anything with a TELESCOPE section or without), after saving a telescope and
    loading it in a new one the attributes are the same, and for each id the DUT; the DUTs are stored in the order of iteration *)
Theorem C33_round_trip t old c tel : reachable t -> well_formed old c tel ->
  exists file t', save_configuration t old = Some file /\ load_configuration new file = Some t'
    /\ t_attributes t' = t_attributes t /\ (forall id, dget Z.eqb id (t_duts t') = dget Z.eqb id (t_duts t)) /\ t_duts t' = iter t /\ iter t' = iter t.
Proof using lt_irreflexive lt_transitive.
  intros R W. apply reachable_valid in R as (M & F & N & D). rewrite (saveE t W). exists (VMap (dset key_eqb (KStr "TELESCOPE") (VMap (saved_section t tel)) c)). unfold TelescopeModel.load_configuration.
  rewrite (dget_dset _ key_eqbE). cbn [key_eqb]. rewrite String.eqb_refl.
  rewrite saved_duts.
  pose proof (sorted_perm (t_duts t)) as P. pose proof (sorted_nodup _ N) as NS.
  rewrite load_saved.
  2: { apply Forall_forall. intros p Hp. rewrite Forall_forall in D. apply D. eapply Permutation_in; eassumption. }
  cbn [t_attributes t_duts]. rewrite build_dict by exact NS. cbn [app].
  set (t0 := Telescope _ _).
  assert (V0 : valid t0).
  { repeat split; cbn; auto; [repeat constructor; now eexists|]. apply Forall_forall. intros p Hp. rewrite Forall_forall in D. apply D. eapply Permutation_in; eassumption. }
  assert (Na : NoDup (map fst (t_attributes t))) by (rewrite M; apply attributes_nodup).
  assert (Ga : forall n, In n telescope_attributes -> dget key_eqb (KStr n) (saved_section t tel) = dget_s n (t_attributes t)).
  { intros n Hn. unfold saved_section. rewrite (dget_dset _ key_eqbE). cbn [key_eqb].
    destruct (n =? "DUT")%string eqn:E; [apply String.eqb_eq in E; subst; cbn in Hn; intuition discriminate|].
    rewrite set_all_get by assumption. destruct (dget_s n (t_attributes t)) eqn:G; [reflexivity|].
    apply (dget_None _ String.eqb_eq) in G. rewrite M in G. contradiction. }
  destruct (@load_attributes_get (saved_section t tel) t0) as (t' & L & (M' & _) & D' & Q); auto.
  { unfold saved_section. apply dset_nodup; auto using key_eqbE. apply set_all_nodup. apply W. }
  { intros n Hn. rewrite Ga by assumption. destruct (dget_s n (t_attributes t)) as [v|] eqn:G.
    - apply (dget_In _ String.eqb_eq) in G. rewrite Forall_forall in F. apply F in G as [f E]. cbn in E. subst. now exists f.
    - apply (dget_None _ String.eqb_eq) in G. rewrite M in G. contradiction. }
  exists t'. split; [reflexivity|]. split; [exact L|]. split; [|split; [|split]].
  - symmetry. apply (dict_ext _ String.eqb_eq); [exact Na|congruence|]. intros n Hn. rewrite M in Hn. rewrite Q, Ga; auto.
  - intros id. rewrite D'. cbn. now apply sorted_get.
  - exact D'.
  - unfold iter. rewrite D'. cbn. apply sorted_id. now apply sorted_ordered.
Qed.
(** Other sections of the file, and other entries of the TELESCOPE section, are kept *)
Theorem C33_keep_others t old c tel : reachable t -> well_formed old c tel ->
  exists c' tel', save_configuration t old = Some (VMap c') /\ dget key_eqb (KStr "TELESCOPE") c' = Some (VMap tel')
    /\ (forall k, k <> KStr "TELESCOPE" -> dget key_eqb k c' = dget key_eqb k c)
    /\ (forall k, k <> KStr "DUT" -> (forall n, In n telescope_attributes -> k <> KStr n) -> dget key_eqb k tel' = dget key_eqb k tel).
Proof using lt_irreflexive lt_transitive.
  intros R W. apply reachable_valid in R as (M & F & N & D). rewrite (saveE t W). eexists; exists (saved_section t tel). split; [reflexivity|]. split; [|split].
  - rewrite (dget_dset _ key_eqbE). cbn [key_eqb]. now rewrite String.eqb_refl.
  - intros k Hk. rewrite (dget_dset _ key_eqbE). apply (eqb_neq _ key_eqbE) in Hk. now rewrite Hk.
  - intros k Hk Hn. unfold saved_section. rewrite (dget_dset _ key_eqbE). apply (eqb_neq _ key_eqbE) in Hk. rewrite Hk.
    rewrite set_all_get by (rewrite M; apply attributes_nodup). destruct k as [z|n]; [reflexivity|].
    destruct (dget_s n (t_attributes t)) eqn:G; [|reflexivity]. apply (dget_In _ String.eqb_eq), (in_map fst) in G. rewrite M in G. now destruct (Hn n G).
Qed.
(** Loading in a telescope that has DUTs adds those of the file: the others stay *)
Theorem C33_load_adds t t0 : reachable t -> reachable t0 ->
  exists file t', save_configuration t None = Some file /\ load_configuration t0 file = Some t'
    /\ t_attributes t' = t_attributes t
    /\ forall id, dget Z.eqb id (t_duts t') = match dget Z.eqb id (t_duts t) with Some d => Some d | None => dget Z.eqb id (t_duts t0) end.
Proof using lt_irreflexive lt_transitive.
  intros R R0. apply reachable_valid in R as (M & F & N & D). apply reachable_valid in R0.
  assert (W : well_formed None [] []) by (repeat split; constructor).
  rewrite (saveE t W). exists (VMap (dset key_eqb (KStr "TELESCOPE") (VMap (saved_section t [])) [])). unfold TelescopeModel.load_configuration. cbn [dset dget key_eqb]. rewrite String.eqb_refl.
  rewrite saved_duts.
  pose proof (sorted_perm (t_duts t)) as P. pose proof (sorted_nodup _ N) as NS.
  assert (DS : Forall (fun p => valid_dut (snd p)) (sorted_items (t_duts t))).
  { apply Forall_forall. intros p Hp. rewrite Forall_forall in D. apply D. eapply Permutation_in; eassumption. }
  rewrite load_saved by exact DS.
  set (t1 := Telescope _ _).
  assert (V1 : valid t1).
  { destruct R0 as (M0 & F0 & N0 & D0). assert (G : forall l d, Forall (fun p => valid_dut (snd p)) l -> NoDup (map fst d) -> Forall (fun p => valid_dut (snd p)) d ->
      NoDup (map fst (fold_left (fun d p => dset Z.eqb (fst p) (snd p) d) l d)) /\ Forall (fun p : Z * dut => valid_dut (snd p)) (fold_left (fun d p => dset Z.eqb (fst p) (snd p) d) l d)).
    { induction l as [|p l IH]; intros d Fl Nd Fd; cbn; [now split|]. inversion_clear Fl. apply IH; [assumption|apply dset_nodup; auto using Z.eqb_eq|apply dset_forall; auto using Z.eqb_eq]. }
    destruct (G (sorted_items (t_duts t)) (t_duts t0)); auto. repeat split; assumption. }
  assert (Na : NoDup (map fst (t_attributes t))) by (rewrite M; apply attributes_nodup).
  assert (Ga : forall n, In n telescope_attributes -> dget key_eqb (KStr n) (saved_section t []) = dget_s n (t_attributes t)).
  { intros n Hn. unfold saved_section. rewrite (dget_dset _ key_eqbE). cbn [key_eqb].
    destruct (n =? "DUT")%string eqn:E; [apply String.eqb_eq in E; subst; cbn in Hn; intuition discriminate|].
    rewrite set_all_get by assumption. destruct (dget_s n (t_attributes t)) eqn:G; [reflexivity|].
    apply (dget_None _ String.eqb_eq) in G. rewrite M in G. contradiction. }
  destruct (@load_attributes_get (saved_section t []) t1) as (t' & L & (M' & _) & D' & Q); auto.
  { unfold saved_section. apply dset_nodup; auto using key_eqbE. apply set_all_nodup. apply W. }
  { intros n Hn. rewrite Ga by assumption. destruct (dget_s n (t_attributes t)) as [v|] eqn:G.
    - apply (dget_In _ String.eqb_eq) in G. rewrite Forall_forall in F. apply F in G as [f E]. cbn in E. subst. now exists f.
    - apply (dget_None _ String.eqb_eq) in G. rewrite M in G. contradiction. }
  exists t'. split; [reflexivity|]. split; [exact L|]. split.
  - symmetry. apply (dict_ext _ String.eqb_eq); [exact Na|congruence|]. intros n Hn. rewrite M in Hn. rewrite Q, Ga; auto.
  - intros id. rewrite D'. cbn [t1 t_duts]. rewrite <- (sorted_get _ id N). generalize (t_duts t0). revert NS. generalize (sorted_items (t_duts t)).
    induction l as [|[i x] l IH]; intros Nl d; cbn [fold_left dget fst snd]; [reflexivity|]. inversion_clear Nl as [|? ? Ni Nl'].
    rewrite IH by assumption. rewrite (dget_dset _ Z.eqb_eq). destruct (Z.eqb id i) eqn:E; [|reflexivity]. apply Z.eqb_eq in E; subst.
    destruct (dget Z.eqb i l) eqn:G; [|reflexivity]. apply (dget_In _ Z.eqb_eq), (in_map fst) in G. contradiction.
Qed.
(** Iteration: each DUT once, in increasing order of the ids, whatever the history *)
Theorem C33_iteration t : reachable t -> StronglySorted Z.lt (map fst (iter t)) /\ forall id d, In (id, d) (iter t) <-> dget Z.eqb id (t_duts t) = Some d.
Proof using lt_irreflexive lt_transitive.
  intros R. apply reachable_valid in R as (M & F & N & D). split; [now apply sorted_ordered|]. intros id d. unfold iter. split; intros H.
  - apply (dget_Some _ Z.eqb_eq); [assumption|]. eapply Permutation_in; [apply sorted_perm|assumption].
  - apply (dget_In _ Z.eqb_eq) in H. eapply Permutation_in; [symmetry; apply sorted_perm|assumption].
Qed.
End Props.

Local Open Scope Z_scope.
(** ** A telescope with three DUTs, added out of order; one limit is given in the wrong order, one DUT is changed afterwards *)
Definition digit (z : Z) : string := if (z =? 1)%Z then "1" else if (z =? 3)%Z then "3" else "0".
Definition ex_new : telescope Z := new 0%Z.
Definition ex_add := @add_dut Z Z.ltb (fun z => z) (@Some Z) 0%Z digit digit (VList [VInt 3; VInt 3]).
Definition ex_set := @set_telescope Z (fun z => z).
Definition ex_load := @load_configuration Z Z.ltb (fun z => z) (@Some Z) 0%Z digit digit (VList [VInt 3; VInt 3]).
Definition ex_assign := @assign Z Z.ltb (fun z => z) (@Some Z) digit digit.
Definition ex_reachable := @reachable Z Z.ltb (fun z => z) (@Some Z) 0%Z digit digit (VList [VInt 3; VInt 3]).
Definition placed (z : Z) : list (string * value Z) :=
  [("translation_x", VInt 5); ("translation_y", VInt 6); ("translation_z", VInt z); ("rotation_alpha", VInt 0); ("rotation_beta", VInt 0); ("rotation_gamma", VInt 1)].
Definition ex_telescope : option (telescope Z) :=
  match ex_set ex_new "translation_x" (VInt 7) with
  | Some t =>
    match ex_add t "FEI4" 3%Z (("x_limit", VList [VInt 9; VInt 2]) :: placed 100) with
    | Some t =>
      match ex_add t "RectangularPixelDut" 1 (placed 50 ++ [("name", VStr "middle"); ("column_size", VInt 250); ("row_size", VInt 50); ("n_columns", VInt 80); ("n_rows", VInt 336)]) with
      | Some t => ex_add t "Mimosa26" 0 (placed 0)
      | None => None
      end
    | None => None
    end
  | None => None
  end.
Example C33_example : exists t file t', ex_telescope = Some t /\ ex_reachable t /\ save_configuration t None = Some file /\ ex_load ex_new file = Some t'
  /\ map fst (t_duts t) = [3; 1; 0]%Z /\ map fst (t_duts t') = [0; 1; 3]%Z /\ t_attributes t' = t_attributes t
  /\ (exists d, dget Z.eqb 3%Z (t_duts t') = Some d /\ d_class d = "FEI4" /\ dget String.eqb "x_limit" (d_attributes d) = Some (VList [VFloat 2%Z; VFloat 9%Z])
      /\ dget String.eqb "name" (d_attributes d) = Some (VStr "DUT3")).
Proof.
  destruct ex_telescope as [t|] eqn:E; [|discriminate E].
  assert (R : ex_reachable t).
  { revert E. unfold ex_telescope. destruct (ex_set ex_new _ _) as [t1|] eqn:E1; [|discriminate].
    destruct (ex_add t1 _ _ _) as [t2|] eqn:E2; [|discriminate]. destruct (ex_add t2 _ _ _) as [t3|] eqn:E3; [|discriminate]. intros E4.
    eapply AddDut; [|exact E4]. eapply AddDut; [|exact E3]. eapply AddDut; [|exact E2]. eapply SetTelescope; [apply New| |exact E1]. now left. }
  exists t. vm_compute in E. injection E as E.
  subst t. eexists. eexists. split; [reflexivity|]. split; [exact R|]. split; [vm_compute; reflexivity|]. split; [vm_compute; reflexivity|].
  split; [reflexivity|]. split; [reflexivity|]. split; [reflexivity|]. eexists. vm_compute. repeat split.
Qed.

(** C33 is not true of a telescope that is not new: the loaded telescope has all DUTs it had before *)
Theorem C33_load_refuted : exists t t0 file t', ex_reachable t /\ ex_reachable t0 /\ save_configuration t None = Some file /\ ex_load t0 file = Some t' /\ iter t' <> iter t.
Proof.
  destruct (ex_add ex_new "FEI4" 3 (placed 100)) as [t0|] eqn:E; [|discriminate E].
  assert (R0 : ex_reachable t0) by (eapply AddDut; [apply New|exact E]).
  exists ex_new, t0. eexists. vm_compute in E. injection E as E. subst t0.
  eexists. split; [apply New|]. split; [exact R0|]. split; [vm_compute; reflexivity|]. split; [vm_compute; reflexivity|]. vm_compute. discriminate.
Qed.
(** keep_others and a file without content: an exception *)
Theorem C33_empty_file_refuted Float (t : telescope Float) : save_configuration t (Some VNull) = None.
Proof. reflexivity. Qed.
(** A DUT of a class of the user (set with telescope[id] = dut): can be saved, cannot be loaded *)
Theorem C33_user_class_refuted : exists d file, construct Z.ltb (fun z => z) (@Some Z) 0%Z digit digit VNull "MyDut" base_attributes (("name", VStr "a") :: placed 5) = Some d
  /\ save_configuration (set_item ex_new 0 d) None = Some file /\ ex_load ex_new file = None.
Proof.
  destruct (construct Z.ltb (fun z => z) (@Some Z) 0%Z digit digit VNull "MyDut" base_attributes (("name", VStr "a") :: placed 5)) as [d|] eqn:E; [|discriminate E].
  exists d. vm_compute in E. injection E as E. subst d. eexists. split; [reflexivity|]. split; [vm_compute; reflexivity|]. vm_compute. reflexivity.
Qed.

Print Assumptions C33_round_trip.
Print Assumptions C33_keep_others.
Print Assumptions C33_load_adds.
Print Assumptions C33_iteration.
Print Assumptions C33_load_refuted.
Print Assumptions C33_empty_file_refuted.
Print Assumptions C33_user_class_refuted.
