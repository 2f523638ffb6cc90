(** C124: what the comparison of yaml files decides. *)
From Coq Require Import String List ZArith QArith Bool Lia Permutation.
From Verif Require Import YamlFilesModel.
Import ListNotations.
Local Open Scope nat_scope.
Local Open Scope list_scope.

(** *** Specification *)
(** an item of a document, the last one of the file if a key is repeated *)
Inductive last_item : list (key * value) -> key -> value -> Prop :=
| last_here k v l : ~ In k (map fst l) -> last_item ((k, v) :: l) k v
| last_later i k v l : last_item l k v -> last_item (i :: l) k v.
(** the items of all documents, one after the other *)
Definition all_items (docs : list value) : list (key * value) := concat (map (fun d => match d with VDict i => i | _ => [] end) docs).
Definition is_dict (v : value) : Prop := exists i, v = VDict i.
(** same content: numbers of the same value whatever their type, lists entry by entry, dictionaries with the same keys in any order *)
Inductive same : value -> value -> Prop :=
| same_none : same VNone VNone
| same_nan : same VNan VNan
| same_str s : same (VStr s) (VStr s)
| same_number a b p q : number a = Some p -> number b = Some q -> (p == q)%Q -> same a b
| same_list l m : Forall2 same l m -> same (VList l) (VList m)
| same_dict d e :
    (forall k v, In (k, v) d -> exists w, In (k, w) e /\ same v w) -> (forall k w, In (k, w) e -> exists v, In (k, v) d /\ same v w) ->
    same (VDict d) (VDict e).
(** no key twice in a dictionary (the loader takes the last one), at every depth *)
Fixpoint unique_keys (v : value) : Prop :=
  match v with
  | VList l => (fix all l := match l with [] => True | x :: l => unique_keys x /\ all l end) l
  | VDict d => NoDup (map fst d) /\ (fix all d := match d with [] => True | (_, x) :: d => unique_keys x /\ all d end) d
  | _ => True
  end.
Definition well_formed (docs : list value) : Prop := Forall unique_keys docs.

(** *** Lemmas *)
Lemma key_eqb_eq a b : key_eqb a b = true <-> a = b.
Proof. destruct a, b; cbn; rewrite ?String.eqb_eq, ?Z.eqb_eq; split; congruence. Qed.
Lemma key_eqb_refl a : key_eqb a a = true. Proof. apply key_eqb_eq. reflexivity. Qed.
Lemma key_dec (a b : key) : a = b \/ a <> b.
Proof. destruct (key_eqb a b) eqn:E; [left; apply key_eqb_eq, E|right; intros K; apply key_eqb_eq in K; congruence]. Qed.
Lemma lookup_in {A} k (d : list (key * A)) v : lookup k d = Some v -> In (k, v) d.
Proof. induction d as [|[k' w] d IH]; cbn; [discriminate|]. destruct (key_eqb k k') eqn:E; [apply key_eqb_eq in E; intros [= ->]; left; congruence|intros H; right; auto]. Qed.
Lemma lookup_some {A} k (d : list (key * A)) v : NoDup (map fst d) -> (lookup k d = Some v <-> In (k, v) d).
Proof.
  intros N. split; [apply lookup_in|]. induction d as [|[k' w] d IH]; cbn; [tauto|]. inversion N as [|? ? N1 N2]; subst. intros [E|I].
  - injection E as -> ->. rewrite key_eqb_refl. reflexivity.
  - destruct (key_eqb k k') eqn:E; [apply key_eqb_eq in E; subst; destruct N1; apply in_map_iff; exists (k', v); auto|auto].
Qed.
Lemma lookup_none {A} k (d : list (key * A)) : lookup k d = None <-> ~ In k (map fst d).
Proof.
  induction d as [|[k' w] d IH]; cbn; [tauto|]. destruct (key_eqb k k') eqn:E.
  - apply key_eqb_eq in E. subst. split; [discriminate|intros H; destruct H; auto].
  - rewrite IH. split; [intros H [K|K]; [subst; rewrite key_eqb_refl in E; discriminate|auto]|tauto].
Qed.
Fixpoint value_ind' (P : value -> Prop) (Pn : P VNone) (Pb : forall b, P (VBool b)) (Pi : forall z, P (VInt z)) (Pf : forall q, P (VFloat q)) (Pa : P VNan) (Ps : forall s, P (VStr s))
  (Pl : forall l, Forall P l -> P (VList l)) (Pd : forall d, Forall (fun i => P (snd i)) d -> P (VDict d)) (v : value) : P v :=
  match v with
  | VNone => Pn | VBool b => Pb b | VInt z => Pi z | VFloat q => Pf q | VNan => Pa | VStr s => Ps s
  | VList l => Pl l ((fix go l : Forall P l := match l with [] => Forall_nil _ | x :: t => Forall_cons _ (value_ind' P Pn Pb Pi Pf Pa Ps Pl Pd x) (go t) end) l)
  | VDict d => Pd d ((fix go d : Forall (fun i => P (snd i)) d := match d with [] => Forall_nil _ | (k, x) :: t => @Forall_cons _ (fun i => P (snd i)) (k, x) t (value_ind' P Pn Pb Pi Pf Pa Ps Pl Pd x) (go t) end) d)
  end.
Definition all_same := fix same (l m : list value) : bool := match l, m with [], [] => true | x :: l, y :: m => py_eq x y && same l m | _, _ => false end.
Definition all_found (e : list (key * value)) := fix all (d : list (key * value)) : bool :=
  match d with [] => true | (k, v) :: d => match lookup k e with Some w => py_eq v w | None => false end && all d end.
Lemma py_list l m : py_eq (VList l) (VList m) = all_same l m. Proof. reflexivity. Qed.
Lemma py_dict d e : py_eq (VDict d) (VDict e) = Nat.eqb (length d) (length e) && all_found e d. Proof. reflexivity. Qed.
Lemma all_found_spec e d : all_found e d = true <-> forall k v, In (k, v) d -> exists w, lookup k e = Some w /\ py_eq v w = true.
Proof.
  induction d as [|[k v] d IH]; cbn [all_found]; [split; [intros _ k v []|reflexivity]|]. rewrite andb_true_iff, IH. split.
  - intros (A & B) k' v' [E|I]; [|auto]. injection E as <- <-. destruct (lookup k e) as [w|]; [eauto|discriminate].
  - intros H. split; [|intros k' v' I; apply H; right; exact I]. destruct (H k v) as (w & E & P); [left; reflexivity|]. rewrite E. exact P.
Qed.
Lemma unique_list l : unique_keys (VList l) <-> Forall unique_keys l.
Proof. cbn. induction l as [|x l IH]; [split; [constructor|trivial]|]. rewrite IH. split; [intros (A & B); constructor; auto|intros H; inversion H; auto]. Qed.
Lemma unique_dict d : unique_keys (VDict d) <-> NoDup (map fst d) /\ Forall (fun i => unique_keys (snd i)) d.
Proof.
  cbn. assert (E : (fix all d := match d with [] => True | (_, x) :: d => unique_keys x /\ all d end) d <-> Forall (fun i => unique_keys (snd i)) d).
  { induction d as [|[k x] d IH]; [split; [constructor|trivial]|]. rewrite IH. split; [intros (A & B); constructor; auto|intros H; inversion H; auto]. }
  rewrite E. reflexivity.
Qed.
(** the keys of the second are those of the first, if there are as many *)
Lemma keys_back (d e : list (key * value)) : NoDup (map fst d) -> NoDup (map fst e) -> length d = length e -> incl (map fst d) (map fst e) -> incl (map fst e) (map fst d).
Proof. intros N1 N2 L I. apply NoDup_length_incl; [exact N1|rewrite !map_length; lia|exact I]. Qed.
Lemma same_number_iff a b : number a <> None -> (same a b <-> exists p q, number a = Some p /\ number b = Some q /\ (p == q)%Q).
Proof.
  intros H. split; [|intros (p & q & A & B & C); apply (same_number a b p q); auto].
  intros S. inversion S; subst; try (cbn in H; congruence). eauto.
Qed.
Lemma py_eq_same a : forall b, unique_keys a -> unique_keys b -> (py_eq a b = true <-> same a b).
Proof.
  induction a as [|x|x|x| |s|l IH|d IH] using value_ind'; intros b Ua Ub.
  - destruct b; cbn; split; try discriminate; intros H; try (inversion H; subst; cbn in *; discriminate); try constructor; reflexivity.
  - rewrite same_number_iff by (cbn; discriminate). destruct b as [|y|y|y| |y|y|y]; cbn; try (split; [discriminate|intros (p & q & _ & [=] & _)]); rewrite Qeq_bool_iff; split; [intros H; eauto|intros (p & q & [= <-] & [= <-] & E); exact E|intros H; eauto|intros (p & q & [= <-] & [= <-] & E); exact E|intros H; eauto|intros (p & q & [= <-] & [= <-] & E); exact E].
  - rewrite same_number_iff by (cbn; discriminate). destruct b as [|y|y|y| |y|y|y]; cbn; try (split; [discriminate|intros (p & q & _ & [=] & _)]); rewrite Qeq_bool_iff; split; [intros H; eauto|intros (p & q & [= <-] & [= <-] & E); exact E|intros H; eauto|intros (p & q & [= <-] & [= <-] & E); exact E|intros H; eauto|intros (p & q & [= <-] & [= <-] & E); exact E].
  - rewrite same_number_iff by (cbn; discriminate). destruct b as [|y|y|y| |y|y|y]; cbn; try (split; [discriminate|intros (p & q' & _ & [=] & _)]); rewrite Qeq_bool_iff; split; [intros H; eauto|intros (p & q' & [= <-] & [= <-] & E); exact E|intros H; eauto|intros (p & q' & [= <-] & [= <-] & E); exact E|intros H; eauto|intros (p & q' & [= <-] & [= <-] & E); exact E].
  - destruct b; cbn; split; try discriminate; intros H; try (inversion H; subst; cbn in *; discriminate); try constructor; reflexivity.
  - destruct b; cbn; try (split; [discriminate|intros H; inversion H; subst; cbn in *; discriminate]). rewrite String.eqb_eq. split; [intros ->; constructor|intros H; inversion H; subst; [reflexivity|cbn in *; discriminate]].
  - destruct b as [| | | | | |m|]; try (split; [discriminate|intros H; inversion H; subst; cbn in *; discriminate]). rewrite py_list. rewrite unique_list in Ua, Ub.
    assert (G : all_same l m = true <-> Forall2 same l m).
    { clear - IH Ua Ub. revert m Ub. induction l as [|x l IHl]; intros [|y m] Ub; cbn [all_same]; try (split; [discriminate|intros H; inversion H]); [split; [constructor|reflexivity]|].
      inversion IH; subst. inversion Ua; subst. inversion Ub; subst. rewrite andb_true_iff, (H1 y), (IHl H2 H4 m) by assumption. split; [intros (A & B); constructor; auto|intros H; inversion H; auto]. }
    rewrite G. split; [constructor; assumption|intros H; inversion H; subst; [cbn in *; discriminate|assumption]].
  - destruct b as [| | | | | | |e]; try (split; [discriminate|intros H; inversion H; subst; cbn in *; discriminate]). rewrite py_dict, andb_true_iff, Nat.eqb_eq, all_found_spec. rewrite unique_dict in Ua, Ub.
    destruct Ua as (N1 & Ua), Ub as (N2 & Ub). rewrite Forall_forall in IH, Ua, Ub.
    assert (G : forall k v w, In (k, v) d -> In (k, w) e -> (py_eq v w = true <-> same v w)).
    { intros k v w I J. apply (IH (k, v) I); [apply (Ua (k, v) I)|apply (Ub (k, w) J)]. }
    split.
    + intros (L & H). assert (Fw : forall k v, In (k, v) d -> exists w, In (k, w) e /\ same v w).
      { intros k v I. destruct (H k v I) as (w & E & P). apply lookup_in in E. exists w. split; [exact E|]. apply (G k v w); assumption. }
      apply same_dict; [exact Fw|]. intros k w J.
      assert (K : In k (map fst d)).
      { apply (keys_back d e N1 N2 L); [|apply in_map_iff; exists (k, w); auto]. intros x X. apply in_map_iff in X as ([x' v] & <- & I). destruct (Fw _ _ I) as (w' & J' & _). apply in_map_iff. exists (x', w'). auto. }
      apply in_map_iff in K as ([k' v] & E & I). cbn in E. subst k'. exists v. split; [exact I|]. destruct (Fw _ _ I) as (w' & J' & S).
      assert (w' = w) by (apply (lookup_some k e w' N2) in J'; apply (lookup_some k e w N2) in J; congruence). subst. exact S.
    + intros S. inversion S as [| | |? ? ? ? Q| |? ? Fw Bw]; subst; [cbn in Q; discriminate|]. split.
      * assert (A : length (map fst d) <= length (map fst e)) by (apply NoDup_incl_length; [exact N1|]; intros x X; apply in_map_iff in X as ([k v] & <- & I); destruct (Fw _ _ I) as (w & J & _); apply in_map_iff; exists (k, w); auto).
        assert (B : length (map fst e) <= length (map fst d)) by (apply NoDup_incl_length; [exact N2|]; intros x X; apply in_map_iff in X as ([k v] & <- & I); destruct (Bw _ _ I) as (w & J & _); apply in_map_iff; exists (k, w); auto).
        rewrite !map_length in A, B. lia.
      * intros k v I. destruct (Fw _ _ I) as (w & J & P). exists w. split; [apply lookup_some; assumption|]. apply (G k v w); assumption.
Qed.
(** *** Loading *)
Lemma set_item_keys {A} k (v : A) d : NoDup (map fst d) -> NoDup (map fst (set_item k v d)) /\ (forall x, In x (map fst (set_item k v d)) <-> x = k \/ In x (map fst d)).
Proof.
  induction d as [|[k' w] d IH]; cbn [set_item map fst]; intros N.
  - split; [constructor; [intros []|constructor]|]. intros x. cbn. intuition.
  - inversion N as [|? ? N1 N2]; subst. destruct (IH N2) as (IA & IB). destruct (key_eqb k k') eqn:E.
    + apply key_eqb_eq in E. subst. cbn [map fst]. split; [constructor; assumption|]. intros x. cbn. intuition.
    + cbn [map fst]. split.
      * constructor; [|exact IA]. intros I. apply IB in I as [I|I]; [subst; rewrite key_eqb_refl in E; discriminate|contradiction].
      * intros x. cbn. rewrite IB. intuition.
Qed.
Lemma lookup_set {A} k (v : A) d x : lookup x (set_item k v d) = if key_eqb x k then Some v else lookup x d.
Proof.
  induction d as [|[k' w] d IH]; cbn [set_item lookup].
  - reflexivity.
  - destruct (key_eqb k k') eqn:E.
    + apply key_eqb_eq in E. subst. cbn [lookup]. destruct (key_eqb x k'); reflexivity.
    + cbn [lookup]. rewrite IH. destruct (key_eqb x k') eqn:X; [|reflexivity]. apply key_eqb_eq in X. subst. destruct (key_eqb k' k) eqn:Q; [apply key_eqb_eq in Q; subst; rewrite key_eqb_refl in E; discriminate|reflexivity].
Qed.
Definition put := fold_left (fun d (i : key * value) => set_item (fst i) (snd i) d).
Lemma put_keys items d : NoDup (map fst d) -> NoDup (map fst (put items d)).
Proof. revert d. induction items as [|[k v] t IH]; intros d N; [exact N|]. apply IH. apply set_item_keys, N. Qed.
Lemma last_unique l k v w : last_item l k v -> last_item l k w -> v = w.
Proof.
  assert (J : forall l k v, last_item l k v -> In k (map fst l)) by (clear; induction 1; cbn; auto).
  induction 1 as [k v l N|i k v l H IH]; intros K; inversion K as [? ? ? N'|? ? ? ? H']; subst; auto.
  - destruct N. apply (J _ _ _ H').
  - destruct N'. apply (J _ _ _ H).
Qed.
Lemma last_exists l k : In k (map fst l) -> exists v, last_item l k v.
Proof.
  induction l as [|[k' v] l IH]; [intros []|]. intros I. destruct (in_dec (fun a b => match Bool.bool_dec (key_eqb a b) true with left e => left (proj1 (key_eqb_eq a b) e) | right n => right (fun e => n (proj2 (key_eqb_eq a b) e)) end) k (map fst l)) as [J|J].
  - destruct (IH J) as (w & H). exists w. constructor 2. exact H.
  - cbn in I. destruct I as [<-|I]; [|contradiction]. exists v. constructor 1. exact J.
Qed.
Lemma last_in l k v : last_item l k v -> In (k, v) l.
Proof. induction 1; [left; reflexivity|right; assumption]. Qed.
Lemma put_lookup items : forall d k v, lookup k (put items d) = Some v <-> last_item items k v \/ ~ In k (map fst items) /\ lookup k d = Some v.
Proof.
  induction items as [|[k' w] t IH]; intros d k v.
  - cbn. split; [intros H; right; split; [intros []|exact H]|intros [H|(_ & H)]; [inversion H|exact H]].
  - change (put ((k', w) :: t) d) with (put t (set_item k' w d)). rewrite IH, lookup_set. cbn [map fst In]. split.
    + intros [H|(N & H)]; [left; constructor 2; exact H|]. destruct (key_eqb k k') eqn:E.
      * apply key_eqb_eq in E. subst. injection H as ->. left. constructor 1. exact N.
      * right. split; [|exact H]. intros [K|K]; [subst; rewrite key_eqb_refl in E; discriminate|contradiction].
    + intros [H|(N & H)].
      * inversion H as [? ? ? N|? ? ? ? H']; subst; [right; split; [exact N|rewrite key_eqb_refl; reflexivity]|left; exact H'].
      * right. split; [tauto|]. destruct (key_eqb k k') eqn:E; [apply key_eqb_eq in E; subst; tauto|exact H].
Qed.
Lemma put_app a b d : put (a ++ b) d = put b (put a d). Proof. apply fold_left_app. Qed.
Lemma load_spec docs : forall d, yaml_as_dict d docs = if forallb (fun v => match v with VDict _ => true | _ => false end) docs then Some (put (all_items docs) d) else None.
Proof.
  induction docs as [|doc t IH]; intros d; [reflexivity|]. cbn [yaml_as_dict forallb]. destruct doc; try reflexivity. cbn [items_of andb]. rewrite IH. unfold all_items. cbn [map concat]. rewrite put_app. reflexivity.
Qed.
Lemma dicts_iff docs : forallb (fun v => match v with VDict _ => true | _ => false end) docs = true <-> Forall is_dict docs.
Proof.
  rewrite forallb_forall, Forall_forall. split; intros H x I; specialize (H x I); destruct x; try discriminate; try (destruct H as (i & [=])); try reflexivity. eexists; reflexivity.
Qed.
Lemma loaded docs : Forall is_dict docs -> yaml_as_dict [] docs = Some (put (all_items docs) []).
Proof. intros H. rewrite load_spec. apply dicts_iff in H. rewrite H. reflexivity. Qed.
Lemma loaded_item docs k v : In (k, v) (put (all_items docs) []) <-> last_item (all_items docs) k v.
Proof. rewrite <- lookup_some by (apply put_keys; constructor). rewrite put_lookup. cbn. split; [intros [H|(_ & [=])]; exact H|auto]. Qed.
Lemma put_values (P : value -> Prop) items : forall d, Forall (fun i => P (snd i)) items -> Forall (fun i => P (snd i)) d -> NoDup (map fst d) -> Forall (fun i => P (snd i)) (put items d).
Proof.
  intros d A B N. apply Forall_forall. intros [k v] I. apply (lookup_some k _ v (put_keys items d N)) in I. apply put_lookup in I as [H|(_ & H)].
  - rewrite Forall_forall in A. exact (A _ (last_in _ _ _ H)).
  - rewrite Forall_forall in B. exact (B _ (lookup_in _ _ _ H)).
Qed.
Lemma loaded_unique docs : well_formed docs -> unique_keys (VDict (put (all_items docs) [])).
Proof.
  intros H. apply unique_dict. split; [apply put_keys; constructor|]. apply put_values; [|constructor|constructor].
  unfold all_items. apply Forall_forall. intros [k v] I. apply in_concat in I as (l & Hl & I). apply in_map_iff in Hl as (doc & <- & D).
  unfold well_formed in H. rewrite Forall_forall in H. specialize (H doc D). destruct doc; try contradiction. apply unique_dict in H as (_ & H). rewrite Forall_forall in H. exact (H _ I).
Qed.

Lemma some_true b : Some b = Some true <-> b = true. Proof. split; congruence. Qed.

(** ** C124 *)
(** An exception is raised exactly if a document of one of the files is no dictionary, for example an empty document. *)
Theorem C124_error : forall f g, compare_yaml_files f g = None <-> ~ (Forall is_dict f /\ Forall is_dict g).
Proof.
  intros f g. unfold compare_yaml_files. rewrite !load_spec, <- !dicts_iff. destruct (forallb _ f), (forallb _ g); (split; [intros E; try discriminate E; intros (A & B); discriminate|intros H; try reflexivity]).
  destruct H. auto.
Qed.
(** Files are equal exactly if they have the same keys and the same content for each key, where the last item of a key counts, whichever document it is in. *)
Theorem C124_equal : forall f g, well_formed f -> well_formed g -> Forall is_dict f -> Forall is_dict g ->
  (compare_yaml_files f g = Some true <->
   forall k, (forall v, last_item (all_items f) k v -> exists w, last_item (all_items g) k w /\ same v w) /\
             (forall w, last_item (all_items g) k w -> exists v, last_item (all_items f) k v /\ same v w)).
Proof.
  intros f g Wf Wg Df Dg. unfold compare_yaml_files. rewrite (loaded f Df), (loaded g Dg).
  transitivity (py_eq (VDict (put (all_items f) [])) (VDict (put (all_items g) [])) = true); [apply some_true|].
  rewrite py_eq_same by (apply loaded_unique; assumption). split.
  - intros S. inversion S as [| | |? ? ? ? Q| |? ? Fw Bw]; subst; [cbn in Q; discriminate|]. intros k. split.
    + intros v H. apply loaded_item in H. destruct (Fw _ _ H) as (w & J & P). exists w. split; [apply loaded_item, J|exact P].
    + intros w H. apply loaded_item in H. destruct (Bw _ _ H) as (v & J & P). exists v. split; [apply loaded_item, J|exact P].
  - intros H. apply same_dict.
    + intros k v I. apply loaded_item in I. destruct (proj1 (H k) v I) as (w & J & P). exists w. split; [apply loaded_item, J|exact P].
    + intros k w I. apply loaded_item in I. destruct (proj2 (H k) w I) as (v & J & P). exists v. split; [apply loaded_item, J|exact P].
Qed.
Lemma same_refl v : unique_keys v -> same v v.
Proof.
  induction v as [|x|x|x| |s|l IH|d IH] using value_ind'; intros U; try (constructor; fail).
  - eapply same_number; cbn; reflexivity.
  - eapply same_number; cbn; reflexivity.
  - eapply same_number; cbn; reflexivity.
  - constructor. apply unique_list in U. induction l; constructor; inversion IH; inversion U; auto.
  - apply unique_dict in U as (_ & U). rewrite Forall_forall in IH, U. constructor; intros k v I; exists v; (split; [exact I|]); apply (IH _ I), (U _ I).
Qed.
Lemma same_sym v : forall w, same v w -> same w v.
Proof.
  induction v as [|x|x|x| |s|l IH|d IH] using value_ind'; intros w S; inversion S; subst; try (constructor; fail);
    try (match goal with A : number ?a = Some ?p, B : number ?b = Some ?q, C : (?p == ?q)%Q |- same ?b ?a => apply (same_number b a q p); [exact B|exact A|symmetry; exact C] end).
  - match goal with F : Forall2 same l ?m |- _ => constructor; clear S; revert m F end. induction IH as [|y l P F IHl]; intros m A; inversion A; subst; constructor; auto.
  - rewrite Forall_forall in IH. match goal with A : forall k v, In (k, v) d -> _, B : forall k w, In (k, w) e -> _ |- _ => rename A into Fw, B into Bw end. constructor.
    + intros k u I. destruct (Bw _ _ I) as (v & J & P). exists v. split; [exact J|]. apply (IH _ J), P.
    + intros k u I. destruct (Fw _ _ I) as (v & J & P). exists v. split; [exact J|]. apply (IH _ I), P.
Qed.
Lemma same_trans_number v w x : number v <> None -> same v w -> same w x -> same v x.
Proof.
  intros N S T. apply (same_number_iff v w N) in S as (p & q & A & B & C).
  apply (same_number_iff w x) in T as (q' & r & B' & D & E); [|congruence]. assert (q' = q) by congruence. subst.
  apply (same_number v x p r); [exact A|exact D|]. rewrite C. exact E.
Qed.
Lemma same_trans v : forall w x, same v w -> same w x -> same v x.
Proof.
  induction v as [|b|b|b| |s|l IH|d IH] using value_ind'; intros w x S T; try (apply (same_trans_number _ w); [cbn; discriminate|exact S|exact T]; fail);
    inversion S; subst; try exact T; try (cbn in *; discriminate).
  - inversion T; subst; [cbn in *; discriminate|]. constructor. match goal with A : Forall2 same l ?m, B : Forall2 same ?m ?n |- _ => clear S T; revert m A n B end. induction IH as [|y l P F IHl]; intros m A m' B; inversion A; subst; inversion B; subst; constructor; eauto.
  - inversion T as [| | |? ? ? ? Q| |? e' Fw' Bw']; subst; [cbn in Q; discriminate|]. rewrite Forall_forall in IH.
    match goal with A : forall k v, In (k, v) d -> _, B : forall k w, In (k, w) e -> exists v, In (k, v) d /\ _ |- _ => rename A into Fw, B into Bw end. constructor.
    + intros k v I. destruct (Fw _ _ I) as (w & J & P). destruct (Fw' _ _ J) as (u & K & Q). exists u. split; [exact K|]. exact (IH _ I w u P Q).
    + intros k u K. destruct (Bw' _ _ K) as (w & J & Q). destruct (Bw _ _ J) as (v & I & P). exists v. split; [exact I|]. exact (IH _ I w u P Q).
Qed.
(** The comparison is an equivalence: a file is equal to itself (also with nan), and the order of the files does not matter. *)
Theorem C124_equivalence : forall f g h, well_formed f -> well_formed g -> well_formed h -> Forall is_dict f -> Forall is_dict g -> Forall is_dict h ->
  compare_yaml_files f f = Some true /\ compare_yaml_files f g = compare_yaml_files g f /\
  (compare_yaml_files f g = Some true -> compare_yaml_files g h = Some true -> compare_yaml_files f h = Some true).
Proof.
  intros f g h Wf Wg Wh Df Dg Dh. unfold compare_yaml_files. rewrite !loaded by assumption.
  set (d := put (all_items f) []). set (e := put (all_items g) []). set (i := put (all_items h) []).
  assert (Ud : unique_keys (VDict d)) by (apply loaded_unique, Wf). assert (Ue : unique_keys (VDict e)) by (apply loaded_unique, Wg). assert (Ui : unique_keys (VDict i)) by (apply loaded_unique, Wh).
  clearbody d e i. split; [|split].
  - f_equal. apply py_eq_same; auto. apply same_refl, Ud.
  - f_equal. apply eq_true_iff_eq. rewrite !py_eq_same by assumption. split; apply same_sym.
  - rewrite !some_true. intros A B. apply py_eq_same in A; [|assumption|assumption]. apply py_eq_same in B; [|assumption|assumption]. apply py_eq_same; [assumption|assumption|]. eapply same_trans; eassumption.
Qed.
(** The order of the keys of a document does not matter. *)
Theorem C124_order : forall d e, Permutation d e -> unique_keys (VDict d) -> compare_yaml_files [VDict d] [VDict e] = Some true.
Proof.
  intros d e P U. assert (Ue : unique_keys (VDict e)).
  { apply unique_dict in U as (N & F). apply unique_dict. split; [apply (Permutation_NoDup (Permutation_map fst P) N)|]. rewrite Forall_forall in *. intros x I. apply F. apply (Permutation_in _ (Permutation_sym P) I). }
  assert (L : forall l k v, NoDup (map fst l) -> (last_item l k v <-> In (k, v) l)).
  { intros l k v N. split; [apply last_in|]. intros I. destruct (last_exists l k) as (w & H); [apply in_map_iff; exists (k, v); auto|].
    assert (w = v); [|subst; exact H]. apply last_in in H. apply (lookup_some k l w N) in H. apply (lookup_some k l v N) in I. congruence. }
  apply C124_equal; try (constructor; [eexists; reflexivity|constructor]); try (constructor; [assumption|constructor]).
  unfold all_items. cbn [map concat]. rewrite !app_nil_r. apply unique_dict in U as (N & F), Ue as (Ne & _). rewrite Forall_forall in F. intros k. split; intros v H; apply L in H; auto; exists v.
  - split; [apply L; [exact Ne|]; apply (Permutation_in _ P H)|]. apply same_refl. apply (F _ H).
  - assert (I := Permutation_in _ (Permutation_sym P) H). split; [apply L; [exact N|exact I]|]. apply same_refl, (F _ I).
Qed.
(** Refuted: equal files have the same documents.  A first document whose keys all come again is not looked at, and the types of numbers may differ. *)
Theorem C124_hidden_refuted : forall items hidden, unique_keys (VDict items) -> unique_keys (VDict hidden) -> incl (map fst hidden) (map fst items) ->
  compare_yaml_files [VDict hidden; VDict items] [VDict items] = Some true.
Proof.
  intros items hidden U V I.
  assert (A : forall k v, last_item (hidden ++ items) k v <-> last_item items k v).
  { clear U V. induction hidden as [|[k' w] t IH]; intros k v; cbn [app]; [reflexivity|].
    assert (I' : incl (map fst t) (map fst items)) by (intros x X; apply I; right; exact X). rewrite <- (IH I'). split.
    - intros H. inversion H as [? ? ? N|? ? ? ? H']; subst; [|exact H']. destruct N. rewrite map_app. apply in_or_app. right. apply I. left. reflexivity.
    - intros H. constructor 2. exact H. }
  apply C124_equal; unfold well_formed; [auto|auto|constructor; [|constructor; [|constructor]]; eexists; reflexivity|constructor; [|constructor]; eexists; reflexivity|].
  unfold all_items. cbn [map concat]. rewrite !app_nil_r. apply unique_dict in U as (_ & U). rewrite Forall_forall in U. intros k. split.
  - intros v H. exists v. assert (K := H). rewrite A in K. split; [exact K|]. apply same_refl, (U _ (last_in _ _ _ K)).
  - intros w H. exists w. rewrite A. split; [exact H|]. apply same_refl, (U _ (last_in _ _ _ H)).
Qed.
Theorem C124_types_refuted : exists f g, well_formed f /\ well_formed g /\ f <> g /\ compare_yaml_files f g = Some true.
Proof.
  exists [VDict [(KStr "limit", VList [VInt 1; VFloat (5 # 2)]); (KInt 3, VBool true)]], [VDict [(KInt 3, VFloat (2 # 2)); (KStr "limit", VList [VBool true; VFloat (10 # 4)])]].
  assert (N : forall a b : key, a <> b -> NoDup [a; b]) by (intros a b H; constructor; [intros [E|[]]; congruence|constructor; [intros []|constructor]]).
  split; [constructor; [cbn; split; [apply N; discriminate|tauto]|constructor]|]. split; [constructor; [cbn; split; [apply N; discriminate|tauto]|constructor]|].
  split; [discriminate|reflexivity].
Qed.
(** Files with different values, a missing key or another order of a list are different. *)
Example C124_case :
  compare_yaml_files [VDict [(KStr "x", VInt 1); (KStr "y", VDict [(KInt 0, VNan)])]] [VDict [(KStr "y", VDict [(KInt 0, VNan)])]; VDict [(KStr "x", VFloat 1)]] = Some true /\
  compare_yaml_files [VDict [(KStr "x", VInt 1)]] [VDict [(KStr "x", VStr "1")]] = Some false /\
  compare_yaml_files [VDict [(KStr "x", VInt 1)]] [VDict [(KStr "x", VInt 1); (KStr "y", VNone)]] = Some false /\
  compare_yaml_files [VDict [(KStr "x", VList [VInt 1; VInt 2])]] [VDict [(KStr "x", VList [VInt 2; VInt 1])]] = Some false /\
  compare_yaml_files [VDict []; VNone] [VDict []] = None.
Proof. repeat split. Qed.

Print Assumptions C124_error.
Print Assumptions C124_equal.
Print Assumptions C124_equivalence.
Print Assumptions C124_order.
Print Assumptions C124_hidden_refuted.
Print Assumptions C124_types_refuted.
