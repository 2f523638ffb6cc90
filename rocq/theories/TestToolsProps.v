(** C82: comparison of result files.  C83: combinations of arguments for fixtures. *)
From Coq Require Import Ascii String.
From Coq Require Import QArith Qabs List Bool Arith Lia.
From Verif Require Import TestToolsModel.
Import ListNotations.
Local Open Scope nat_scope.

(** * Specification *)
(** equal entries, NaN is equal to NaN *)
Definition equal_value (a b : value) : Prop :=
  match a, b with
  | Num p, Num q => (p == q)%Q
  | NaN, NaN => True
  | Inf x, Inf y => x = y
  | Str s, Str t => s = t
  | _, _ => False
  end.
(** entries which differ at most by the tolerance *)
Definition near_value (rtol atol : Q) (a b : value) : Prop :=
  match a, b with
  | Num p, Num q => (Qabs (p - q) <= atol + rtol * Qabs q)%Q
  | _, _ => equal_value a b
  end.
Definition rows_related (R : value -> value -> Prop) := Forall2 (Forall2 (Forall2 R)).
(** the description of two nodes is the same *)
Definition same_header (a b : node) : Prop :=
  is_table a = is_table b /\ inner_shape a = inner_shape b /\ map col_name (columns a) = map col_name (columns b) /\ map col_type (columns a) = map col_type (columns b).
Definition well_formed (n : node) : Prop := Forall (fun r => length r = length (columns n)) (rows n).
Definition no_strings (n : node) : Prop := is_table n = false \/ Forall (fun c => col_string c = false) (columns n).
(** What a comparison of nodes decides; [k]: rows of a chunk *)
Definition matching (R : value -> value -> Prop) (k : nat) (a b : node) : Prop :=
  rows a = [] \/
  same_header a b /\ rows_related R (rows a) (firstn (length (rows a)) (rows b)) /\
  (length (rows b) = length (rows a) \/ (length (rows a) < length (rows b) /\ Nat.divide k (length (rows a)))).

(** * Lemmas *)
Lemma list_eqb_iff A (f : A -> A -> bool) (R : A -> A -> Prop) l m : (forall x y, f x y = true <-> R x y) -> list_eqb f l m = true <-> Forall2 R l m.
Proof.
  intros H. revert m. induction l as [|x l IH]; intros [|y m]; cbn [list_eqb].
  - split; auto.
  - split; [discriminate|intros F; inversion F].
  - split; [discriminate|intros F; inversion F].
  - rewrite andb_true_iff, H, IH. split; [intros []; constructor; auto|intros F; inversion F; auto].
Qed.
Lemma Forall2_eq A (l m : list A) : Forall2 eq l m <-> l = m.
Proof. split; [induction 1; congruence|intros ->; induction m; constructor; auto]. Qed.
Lemma list_eqb_eq A (f : A -> A -> bool) l m : (forall x y, f x y = true <-> x = y) -> list_eqb f l m = true <-> l = m.
Proof. intros H. rewrite (list_eqb_iff _ _ eq); auto. apply Forall2_eq. Qed.
Lemma same_value_iff a b : same_value a b = true <-> equal_value a b.
Proof.
  destruct a, b; cbn; try (split; [discriminate|contradiction]); try tauto.
  - apply Qeq_bool_iff.
  - apply eqb_true_iff.
  - apply String.eqb_eq.
Qed.
Lemma close_value_iff r t a b : close_value r t a b = true <-> near_value r t a b.
Proof.
  destruct a, b; try apply same_value_iff. cbn. apply Qle_bool_iff.
Qed.

(** all columns, with one relation of entries *)
Fixpoint columns_rel (f : value -> value -> bool) (j : nat) (ca cb : list column) (da db : list (list (list value))) : bool :=
  match ca, cb with
  | x :: ca, y :: cb => (col_type x =? col_type y) && same_cells f (cells da j) (cells db j) && columns_rel f (S j) ca cb da db
  | _, _ => true
  end.
Lemma columns_equal_rel j ca cb da db : columns_equal j ca cb da db = columns_rel same_value j ca cb da db.
Proof. revert j cb. induction ca as [|x ca IH]; intros j [|y cb]; cbn [columns_equal columns_rel]; auto. rewrite IH. auto. Qed.
Lemma columns_close_rel t r e j ca cb da db : (t = false \/ Forall (fun c => col_string c = false) ca) -> columns_close t r e j ca cb da db = columns_rel (close_value r e) j ca cb da db.
Proof.
  intros H. revert j cb. induction ca as [|x ca IH]; intros j [|y cb]; cbn [columns_close columns_rel]; auto.
  assert (t && col_string x = false) as -> by (destruct H as [->|H]; auto; inversion H; subst; rewrite H2; apply andb_false_r).
  rewrite IH by (destruct H as [H|H]; auto; inversion H; auto). rewrite andb_assoc. auto.
Qed.

Section Relation.
  Variable f : value -> value -> bool.
  Variable R : value -> value -> Prop.
  Hypothesis fR : forall x y, f x y = true <-> R x y.

  Lemma same_cells_iff u v : same_cells f u v = true <-> Forall2 (Forall2 R) u v.
  Proof. unfold same_cells. apply list_eqb_iff. intros. apply list_eqb_iff. auto. Qed.

  Lemma columns_rel_iff ca : forall j cb da db, length ca = length cb -> columns_rel f j ca cb da db = true <->
    map col_type ca = map col_type cb /\ forall i, j <= i < j + length ca -> Forall2 (Forall2 R) (cells da i) (cells db i).
  Proof.
    induction ca as [|x ca IH]; intros j [|y cb] da db L; try discriminate; cbn [columns_rel map length].
    - split; auto. intros _. split; auto. intros i Hi. lia.
    - injection L as L. rewrite !andb_true_iff, Nat.eqb_eq, same_cells_iff, IH by auto. split.
      + intros [[T C] [E H]]. split; [congruence|]. intros i Hi. destruct (Nat.eq_dec i j) as [->|N]; auto. apply H. lia.
      + intros [E H]. injection E as E1 E2. repeat split; auto; [apply H; lia|]. intros i Hi. apply H. lia.
  Qed.
  Lemma Forall2_nth_iff A (d : A) (P : A -> A -> Prop) l m : Forall2 P l m <-> length l = length m /\ forall i, i < length l -> P (nth i l d) (nth i m d).
  Proof.
    revert m. induction l as [|x l IH]; intros [|y m]; cbn [length].
    - split; [intros _; split; auto; intros; lia|constructor].
    - split; [intros F; inversion F|intros []; discriminate].
    - split; [intros F; inversion F|intros []; discriminate].
    - split.
      + intros F. inversion F; subst. apply IH in H4. destruct H4 as [L H]. split; [lia|]. intros [|i] Hi; cbn [nth]; auto. apply H. lia.
      + intros [L H]. constructor; [apply (H 0); lia|]. apply IH. split; [lia|]. intros i Hi. apply (H (S i)). lia.
  Qed.
  Lemma rows_columns n da db : length da = length db -> Forall (fun r => length r = n) da -> Forall (fun r => length r = n) db ->
    (rows_related R da db <-> forall i, i < n -> Forall2 (Forall2 R) (cells da i) (cells db i)).
  Proof.
    intros L. revert db L. induction da as [|r da IH]; intros [|s db] L Wa Wb; try discriminate.
    - split; [intros _ i _; constructor|constructor].
    - injection L as L. inversion Wa as [|? ? Lr Wa']; subst. inversion Wb as [|? ? Ls Wb']; subst. specialize (IH db L Wa' Wb'). unfold rows_related in *. split.
      + intros F i Hi. inversion F as [|? ? ? ? F1 F2]; subst. cbn [cells map]. constructor; [|apply IH; auto].
        apply (Forall2_nth_iff _ [] _ r s) in F1. destruct F1 as [_ F1]. apply F1. auto.
      + intros H. constructor.
        * apply (Forall2_nth_iff _ []). split; [auto|]. intros i Hi. specialize (H i Hi). cbn [cells map] in H. inversion H; auto.
        * apply IH. intros i Hi. specialize (H i Hi). cbn [cells map] in H. inversion H; auto.
  Qed.

  Variable compare : node -> node -> list (list (list value)) -> list (list (list value)) -> bool.
  Variable a b : node.
  Hypothesis compare_spec : forall da db, Forall (fun r => length r = length (columns a)) da -> Forall (fun r => length r = length (columns b)) db ->
    (compare a b da db = true <-> same_header a b /\ rows_related R da db).
  Hypothesis Wa : well_formed a.
  Hypothesis Wb : well_formed b.
  Variable chunk_size k : nat.
  Hypothesis Hk : read_nrows chunk_size a = Some k.

  Lemma k_pos : 1 <= k.
  Proof.
    assert (H := Hk). unfold read_nrows in H. cbv zeta in H. destruct (fold_right Nat.mul 1 (inner_shape a) =? 0); [discriminate|].
    apply (f_equal (fun o => match o with Some x => x | None => k end)) in H. cbv beta iota in H. rewrite <- H. apply Nat.le_max_l.
  Qed.
  Lemma Forall_sub A (P : A -> Prop) n m l : Forall P l -> Forall P (firstn n (skipn m l)).
  Proof.
    intros F. assert (G : forall m, Forall P (skipn m l)) by (clear m; induction l as [|x l IH]; intros [|m]; simpl; auto; inversion F; auto).
    generalize (G m). generalize (skipn m l). clear. intros l. revert n. induction l; intros [|n] F; simpl; constructor; inversion F; auto.
  Qed.
  Lemma Forall2_length_ A B (P : A -> B -> Prop) l m : Forall2 P l m -> length l = length m.
  Proof. induction 1; simpl; congruence. Qed.
  Lemma Forall2_app_inv_ A B (P : A -> B -> Prop) l1 l2 m1 m2 : length l1 = length m1 -> Forall2 P (l1 ++ l2) (m1 ++ m2) <-> Forall2 P l1 m1 /\ Forall2 P l2 m2.
  Proof.
    intros L. split; [|intros [F G]; apply Forall2_app; auto]. revert m1 L. induction l1 as [|x l1 IH]; intros [|y m1] L; try discriminate; simpl; [auto|].
    intros F. inversion F; subst. destruct (IH m1) as [F1 F2]; auto; simpl in *; try lia. 
  Qed.

  Lemma skipn_skipn_ A n m (l : list A) : skipn n (skipn m l) = skipn (n + m) l.
  Proof.
    revert l. induction m as [|m IH]; intros l; [rewrite Nat.add_0_r; auto|]. rewrite Nat.add_succ_r. destruct l; [rewrite !skipn_nil; auto|]. cbn [skipn]. auto.
  Qed.

  Lemma chunk_loop_spec : forall fuel start, length (rows a) - start <= fuel -> Nat.divide k start -> (start <= length (rows b) \/ length (rows a) <= start) ->
    (chunk_loop compare chunk_size fuel start a b = Some true <->
     length (rows a) <= start \/
     same_header a b /\ rows_related R (skipn start (rows a)) (firstn (length (rows a) - start) (skipn start (rows b))) /\
     (length (rows b) = length (rows a) \/ (length (rows a) < length (rows b) /\ Nat.divide k (length (rows a))))).
  Proof.
    pose proof k_pos as K. set (na := length (rows a)). set (nb := length (rows b)).
    induction fuel as [|fuel IH]; intros start Hf Hd Hb; cbn [chunk_loop]; [split; [left; lia|auto]|].
    fold na. destruct (Nat.ltb_spec start na) as [Hs|Hs]; [|split; auto]. rewrite Hk. destruct Hb as [Hb|Hb]; [|lia].
    set (da := read a start (start + k)). set (db := read b start (start + k)).
    assert (La : length da = Nat.min k (na - start)). { unfold da, read. rewrite firstn_length, skipn_length. fold na. f_equal. lia. }
    assert (Lb : length db = Nat.min k (nb - start)). { unfold db, read. rewrite firstn_length, skipn_length. fold nb. f_equal. lia. }
    assert (C := compare_spec da db). specialize (C (Forall_sub _ _ _ _ _ Wa) (Forall_sub _ _ _ _ _ Wb)).
    assert (Ea : skipn start (rows a) = da ++ skipn (start + k) (rows a)).
    { unfold da, read. replace (start + k - start) with k by lia. rewrite (Nat.add_comm start k), <- skipn_skipn_, firstn_skipn. auto. }
    assert (Eb : skipn start (rows b) = db ++ skipn (start + k) (rows b)).
    { unfold db, read. replace (start + k - start) with k by lia. rewrite (Nat.add_comm start k), <- skipn_skipn_, firstn_skipn. auto. }
    destruct (compare a b da db) eqn:E.
    - destruct C as [C _]. destruct (C eq_refl) as [H Rab]. pose proof (Forall2_length_ _ _ _ _ _ Rab) as L. rewrite La, Lb in L.
      rewrite IH; [|lia|apply Nat.divide_add_r; auto; apply Nat.divide_refl|lia]. rewrite Ea, Eb. rewrite firstn_app, Lb.
      assert (F : firstn (na - start) db = db) by (apply firstn_all2; lia). rewrite F.
      destruct (Nat.le_gt_cases na (start + k)) as [Hl|Hl].
      + split; [intros _|auto]. right. split; auto.
        assert (skipn (start + k) (rows a) = []) as -> by (apply skipn_all2; fold na; lia). rewrite app_nil_r.
        destruct (Nat.eq_dec nb na) as [En|Nn].
        * replace (na - start - Nat.min k (nb - start)) with 0 by lia. simpl. rewrite app_nil_r. auto.
        * assert (start + k = na /\ na < nb) by lia. replace (na - start - Nat.min k (nb - start)) with 0 by lia. simpl. rewrite app_nil_r. split; auto. right. split; [lia|].
          replace na with (start + k) by lia. apply Nat.divide_add_r; auto. apply Nat.divide_refl.
      + replace (na - start - Nat.min k (nb - start)) with (na - (start + k)) by lia. unfold rows_related in *. rewrite Forall2_app_inv_ by lia. split; [intros [?|?]; [lia|right; tauto]|]. intros [?|?]; [lia|right; tauto].
    - split; [discriminate|]. intros [?|(H & F & Q)]; [lia|]. exfalso. assert (same_header a b /\ rows_related R da db); [|apply C in H0; discriminate]. split; auto.
      assert (L : length da = length db).
      { rewrite La, Lb. destruct Q as [Q|[Q D]]; [fold na nb in Q; lia|]. fold na in D, Q. fold nb in Q. destruct D as (u & Du), Hd as (w & Hw).
        assert (w < u) by (apply Nat.nle_gt; intros G; apply (Nat.mul_le_mono_r _ _ k) in G; lia). assert ((w + 1) * k <= u * k) by (apply Nat.mul_le_mono_r; lia). lia. }
      rewrite Ea, Eb in F. rewrite firstn_app in F. unfold rows_related in F. assert (Fd : firstn (na - start) db = db) by (apply firstn_all2; lia). rewrite Fd in F. apply Forall2_app_inv_ in F; auto. apply F.
  Qed.
  Lemma chunk_loop_defined : forall fuel start, exists r, chunk_loop compare chunk_size fuel start a b = Some r.
  Proof.
    induction fuel as [|fuel IH]; intros start; cbn [chunk_loop]; [eauto|]. destruct (_ <? _); [|eauto]. rewrite Hk. destruct (compare _ _ _ _); eauto.
  Qed.
  Lemma compare_node_spec : compare_node compare chunk_size a b = Some true <-> matching R k a b.
  Proof.
    unfold compare_node, matching. rewrite chunk_loop_spec; [|lia|exists 0; auto|lia]. cbn [skipn]. rewrite Nat.sub_0_r.
    destruct (rows a); simpl; [split; auto|]. split; (intros [H|H]; [try lia; discriminate|auto]).
  Qed.
End Relation.

Lemma kind_iff a b da db : same_kind a b da db = true <-> length da = length db /\ inner_shape a = inner_shape b /\ is_table a = is_table b.
Proof.
  unfold same_kind. rewrite !andb_true_iff, Nat.eqb_eq, eqb_true_iff, list_eqb_eq by apply Nat.eqb_eq. tauto.
Qed.
Lemma compare_rel f R (fR : forall x y, f x y = true <-> R x y) a b da db : Forall (fun r => length r = length (columns a)) da -> Forall (fun r => length r = length (columns b)) db ->
  (same_kind a b da db && list_eqb String.eqb (map col_name (columns a)) (map col_name (columns b)) && columns_rel f 0 (columns a) (columns b) da db = true <-> same_header a b /\ rows_related R da db).
Proof.
  intros Wa Wb. rewrite !andb_true_iff, kind_iff, list_eqb_eq by apply String.eqb_eq. unfold same_header. split.
  - intros [[(L & Sh & T) N] C]. assert (Lc : length (columns a) = length (columns b)) by (apply (f_equal (@length _)) in N; rewrite !map_length in N; auto).
    rewrite (columns_rel_iff f R fR) in C by auto. destruct C as [Ty C]. split; [auto|]. apply (rows_columns R (length (columns a))); auto; [rewrite Lc; auto|]. intros i Hi. apply C. lia.
  - intros [(T & Sh & N & Ty) F]. pose proof (Forall2_length_ _ _ _ _ _ F) as L. assert (Lc : length (columns a) = length (columns b)) by (apply (f_equal (@length _)) in N; rewrite !map_length in N; auto).
    rewrite (columns_rel_iff f R fR) by auto. repeat split; auto. intros i Hi. apply (rows_columns R (length (columns a))); auto; [rewrite Lc; auto|lia].
Qed.

(** * C82 *)
(** Two nodes are reported as equal iff the first is empty, or they have the same description and rows; further rows of
    the second node are not noticed if the rows of the first fill its chunks. *)
Theorem C82_exact chunk_size k a b : well_formed a -> well_formed b -> read_nrows chunk_size a = Some k ->
  compare_node nan_equal chunk_size a b = Some true <-> matching equal_value k a b.
Proof.
  intros Wa Wb Hk. apply compare_node_spec; auto. intros da db Fa Fb. unfold nan_equal. rewrite columns_equal_rel. apply (compare_rel same_value equal_value); auto. apply same_value_iff.
Qed.
Theorem C82_close chunk_size k rtol atol a b : well_formed a -> well_formed b -> no_strings a -> read_nrows chunk_size a = Some k ->
  compare_node (nan_close rtol atol) chunk_size a b = Some true <-> matching (near_value rtol atol) k a b.
Proof.
  intros Wa Wb Ns Hk. apply compare_node_spec; auto. intros da db Fa Fb. unfold nan_close. rewrite columns_close_rel by auto. apply (compare_rel (close_value rtol atol) (near_value rtol atol)); auto. apply close_value_iff.
Qed.

Lemma mem_iff x l : mem x l = true <-> In x l.
Proof. unfold mem. rewrite existsb_exists. split; [intros (y & H & E); apply String.eqb_eq in E; congruence|intros H; exists x; split; auto; apply String.eqb_refl]. Qed.
Lemma without_In x ig l : In x (without ig l) <-> In x l /\ ~ In x ig.
Proof. unfold without. rewrite filter_In, negb_true_iff, <- not_true_iff_false, mem_iff. tauto. Qed.
Lemma subset_iff l m : subset l m = true <-> forall x, In x l -> In x m.
Proof. unfold subset. rewrite forallb_forall. split; intros H x Hx; apply mem_iff; auto. Qed.
Lemma find_node_In f x : In x (map fst f) <-> exists n, find_node f x = Some n.
Proof.
  unfold find_node. induction f as [|[y n] f IH]; simpl; [split; [intros []|intros (? & ?); discriminate]|]. destruct (String.eqb_spec y x) as [->|N]; simpl.
  - split; [eauto|auto].
  - rewrite <- IH. split; [intros [?|?]; [contradiction|auto]|auto].
Qed.
Lemma compare_nodes_iff compare c names f g : compare_nodes compare c names f g = Some true <->
  forall x, In x names -> exists a b, find_node f x = Some a /\ find_node g x = Some b /\ compare_node compare c a b = Some true.
Proof.
  induction names as [|x names IH]; cbn [compare_nodes]; [split; [intros _ x []|auto]|]. split.
  - destruct (find_node f x) as [a|] eqn:A; [|discriminate]. destruct (find_node g x) as [b|] eqn:B; [|discriminate]. destruct (compare_node _ _ _ _) as [r|] eqn:C; [|discriminate]. destruct (compare_nodes _ _ _ _ _) as [s|]; [|discriminate].
    intros E. injection E as E. apply andb_true_iff in E. destruct E as [-> ->]. intros y [<-|Hy]; [eauto 6|apply IH; auto].
  - intros H. destruct (H x (or_introl eq_refl)) as (a & b & -> & -> & ->). rewrite (proj2 IH); auto. intros; apply H; simpl; auto.
Qed.
(** All nodes are compared, or the required ones. *)
Theorem C82_files compare c f g ignore : compare_h5_files compare c f g None ignore = Some true <->
  forall x, ~ In x ignore -> (In x (map fst f) <-> In x (map fst g)) /\
    forall a b, find_node f x = Some a -> find_node g x = Some b -> compare_node compare c a b = Some true.
Proof.
  unfold compare_h5_files. set (nf := without ignore (map fst f)). set (ng := without ignore (map fst g)).
  transitivity (subset nf ng && subset ng nf = true /\ compare_nodes compare c (filter (fun x => mem x ng) nf) f g = Some true).
  { destruct (compare_nodes _ _ _ _ _) as [r|]; [|split; [discriminate|intros []; discriminate]]. split; [intros E; injection E as E; apply andb_true_iff in E; destruct E as [-> ->]; auto|intros [-> E]; injection E as ->; auto]. }
  rewrite andb_true_iff, !subset_iff, compare_nodes_iff. unfold nf, ng. split.
  - intros [[S1 S2] C] x Hx. split.
    + split; intros H; [apply (S1 x) in H || (assert (In x (without ignore (map fst g))) by (apply S1, without_In; auto))|assert (In x (without ignore (map fst f))) by (apply S2, without_In; auto)]; rewrite without_In in *; tauto.
    + intros a b A B. assert (In x (map fst f)) by (apply find_node_In; eauto). assert (In x (map fst g)) by (apply find_node_In; eauto).
      destruct (C x) as (a' & b' & A' & B' & E). { apply filter_In. rewrite mem_iff, !without_In. auto. } congruence.
  - intros H. split; [split; intros x; rewrite !without_In; intros [H1 H2]; split; auto; apply (H x H2); auto|]. intros x Hx. apply filter_In in Hx. rewrite mem_iff, !without_In in Hx. destruct Hx as [[F I] [G _]].
    apply find_node_In in F. destruct F as (a & F). apply find_node_In in G. destruct G as (b & G). exists a, b. do 2 (split; auto). apply (H x I); auto.
Qed.
(** Specification: nodes are given with or without the leading slash; an empty name stays empty *)
Inductive node_path : string -> string -> Prop :=
| path_empty : node_path EmptyString EmptyString
| path_absolute s : node_path (String "/" s) (String "/" s)
| path_relative c s : c <> "/"%char -> node_path (String c s) (String "/" (String c s)).
Lemma with_slash_path name x : node_path name x <-> x = with_slash name.
Proof.
  destruct name as [|c s]; cbn [with_slash]; [split; [intros H; inversion H; auto|intros ->; constructor]|]. destruct (Ascii.eqb_spec c "/") as [->|Hc].
  - split; [intros H; inversion H; [reflexivity|congruence]|intros ->; constructor].
  - split; [intros H; inversion H; [congruence|reflexivity]|intros ->; constructor; auto].
Qed.
Theorem C82_required compare c f g names ignore : compare_h5_files compare c f g (Some names) ignore = Some true <->
  forall name x, In name names -> node_path name x -> ~ In x ignore /\ exists a b, find_node f x = Some a /\ find_node g x = Some b /\ compare_node compare c a b = Some true.
Proof.
  unfold compare_h5_files. set (nf := without ignore (map fst f)). set (ng := without ignore (map fst g)). set (ns := map with_slash names).
  transitivity (subset ns nf && subset ns ng = true /\ compare_nodes compare c (filter (fun x => mem x ng && mem x ns) nf) f g = Some true).
  { destruct (compare_nodes _ _ _ _ _) as [r|]; [|split; [discriminate|intros []; discriminate]]. split; [intros E; injection E as E; apply andb_true_iff in E; destruct E as [-> ->]; auto|intros [-> E]; injection E as ->; auto]. }
  rewrite andb_true_iff, !subset_iff, compare_nodes_iff. split.
  - intros [[S1 S2] C] name x0 Hn Hp. apply with_slash_path in Hp. subst x0. assert (Hx : In (with_slash name) ns) by (apply in_map; auto). pose proof (S1 _ Hx) as F. pose proof (S2 _ Hx) as G. unfold nf in F. apply without_In in F. split; [tauto|].
    apply C. apply filter_In. rewrite andb_true_iff, !mem_iff. auto.
  - intros H. assert (K : forall x, In x ns -> ~ In x ignore /\ exists a b, find_node f x = Some a /\ find_node g x = Some b /\ compare_node compare c a b = Some true).
    { intros x Hx. apply in_map_iff in Hx. destruct Hx as (n & <- & Hn). apply (H n _ Hn). apply with_slash_path. reflexivity. }
    split; [split; intros x Hx; destruct (K x Hx) as (I & a & b & A & B & _); apply without_In; (split; [apply find_node_In; eauto|auto])|].
    intros x Hx. apply filter_In in Hx. rewrite andb_true_iff, !mem_iff in Hx. apply K. tauto.
Qed.

(** A file is equal to itself (unless an array with rows has an empty dimension). *)
Lemma equal_value_refl v : equal_value v v.
Proof. destruct v; cbn; auto. apply Qeq_refl. Qed.
Theorem C82_reflexive c f ignore : NoDup (map fst f) -> (forall x n, In (x, n) f -> well_formed n /\ (rows n = [] \/ ~ In 0 (inner_shape n))) -> compare_h5_files nan_equal c f f None ignore = Some true.
Proof.
  intros _ W. apply C82_files. intros x _. split; [tauto|]. intros a b A B. rewrite A in B. injection B as <-.
  assert (In (x, a) f). { unfold find_node in A. destruct (find _ f) as [[y n]|] eqn:E; [|discriminate]. injection A as <-. apply find_some in E. destruct E as [E1 E2]. simpl in *. apply String.eqb_eq in E2. subst. auto. }
  destruct (W _ _ H) as [Wa [E|Z]]; [unfold compare_node; rewrite E; reflexivity|].
  assert (exists k, read_nrows c a = Some k) as (k & Hk).
  { unfold read_nrows. assert (P : forall l, ~ In 0 l -> fold_right Nat.mul 1 l <> 0) by (induction l as [|u l IH]; simpl; intros Hl; [lia|]; apply Nat.neq_mul_0; split; [intros ->; auto|apply IH; auto]).
    destruct (Nat.eqb_spec (fold_right Nat.mul 1 (inner_shape a)) 0) as [C|C]; [apply P in C; tauto|eauto]. }
  apply (C82_exact _ _ _ _ Wa Wa Hk). right. split; [unfold same_header; auto|]. split; [|auto]. rewrite firstn_all. clear. unfold rows_related.
  assert (G : forall A (P : A -> A -> Prop) l, (forall x, P x x) -> Forall2 P l l) by (induction l; constructor; auto). apply G. intros r. apply G. intros u. apply G. apply equal_value_refl.
Qed.

Definition ex_columns := [Column "event" 1 false; Column "name" 2 true; Column "x" 3 false].
Definition ex_row (e : Q) (s : string) (x : value) := [[Num e]; [Str s]; [x]].
Definition ex_node := Node true [] ex_columns [ex_row 1 "a" (Num 2); ex_row 2 "b" NaN].
Example C82_example : well_formed ex_node /\ read_nrows 1 ex_node = Some 1 /\ compare_h5_files nan_equal 10 [("/A", ex_node)]%string [("/A", ex_node)]%string None [] = Some true /\
  compare_h5_files nan_equal 10 [("/A", ex_node)]%string [("/A", Node true [] ex_columns [ex_row 1 "a" (Num 2); ex_row 2 "b" (Num 0)])]%string None [] = Some false.
Proof. split; [repeat constructor|]. repeat split. Qed.
(** An empty table is equal to any table, and further rows of the second file are not noticed behind full chunks; the result
    depends on the order of the files. *)
Theorem C82_extra_rows_refuted : exists a b, well_formed a /\ well_formed b /\ rows b = rows a ++ [ex_row 3 "c" (Num 5)] /\
  compare_h5_files nan_equal 2 [("/A", a)]%string [("/A", b)]%string None [] = Some true /\ compare_h5_files nan_equal 2 [("/A", b)]%string [("/A", a)]%string None [] = Some false.
Proof.
  exists ex_node, (Node true [] ex_columns (rows ex_node ++ [ex_row 3 "c" (Num 5)])). split; [repeat constructor|]. split; [repeat constructor|]. repeat split.
Qed.
Theorem C82_empty_refuted compare c a b : rows a = [] -> compare_h5_files compare c [("/A", a)]%string [("/A", b)]%string None [] = Some true.
Proof. intros E. apply C82_files. intros x _. split; [tauto|]. intros a' b' A B. unfold find_node in *. cbn [find fst] in *. destruct (String.eqb _ x); [|discriminate]. cbn in A. injection A as <-. unfold compare_node. rewrite E. reflexivity. Qed.
(** Behind a column of strings nothing is compared. *)
Theorem C82_strings_refuted : exists a b, well_formed a /\ well_formed b /\ same_header a b /\ ~ matching (near_value (1 # 100000) (1 # 100000000)) 1 a b /\
  compare_node (nan_close (1 # 100000) (1 # 100000000)) 1000000 a b = Some true.
Proof.
  exists (Node true [] ex_columns [ex_row 1 "a" (Num 2)]), (Node true [] ex_columns [ex_row 1 "a" (Num 99)]). split; [repeat constructor|]. split; [repeat constructor|]. split; [repeat split|]. split; [|reflexivity].
  intros [H|(_ & H & _)]; [discriminate|]. cbn in H. inversion H as [|? ? ? ? H1 _]; subst. inversion H1 as [|? ? ? ? _ H2]; subst. inversion H2 as [|? ? ? ? _ H3]; subst. inversion H3 as [|? ? ? ? H4 _]; subst. inversion H4 as [|? ? ? ? H5 _]; subst. apply H5. reflexivity.
Qed.
(** The comparison with tolerance is not symmetric. *)
Theorem C82_symmetry_refuted : exists a b, no_strings a /\ no_strings b /\ compare_node (nan_close (1 # 100000) (1 # 100000000)) 1000000 a b = Some true /\ compare_node (nan_close (1 # 100000) (1 # 100000000)) 1000000 b a = Some false.
Proof.
  exists (Node false [] [Column "" 1 false] [[[Num 100000]]]), (Node false [] [Column "" 1 false] [[[Num (100001000001 # 1000000)]]]). split; [left; auto|]. split; [left; auto|]. split; vm_compute; reflexivity.
Qed.

(** * C83 *)
(** The calls: one for each combination, the first looped argument is the slowest. *)
Fixpoint combinations {A} (args : list (argument A)) : list (list A) :=
  match args with
  | [] => [[]]
  | Fixed a :: r => map (cons a) (combinations r)
  | Looped l :: r => concat (map (fun x => map (cons x) (combinations r)) l)
  end.
Fixpoint fill_in {A} (args : list (argument A)) (v : list A) : list A :=
  match args, v with
  | Fixed a :: r, _ => a :: fill_in r v
  | Looped _ :: r, x :: v => x :: fill_in r v
  | _, _ => []
  end.
Lemma insert_end A (pre v : list A) a : insert (length pre) a (pre ++ v) = (pre ++ [a]) ++ v.
Proof. unfold insert. rewrite firstn_app, skipn_app, Nat.sub_diag, firstn_all, skipn_all. simpl. rewrite app_nil_r, <- app_assoc. auto. Qed.
Lemma split_length A (args : list (argument A)) : forall i v, In v (product (fst (split_arguments i args))) ->
  forall pre, length pre = i -> fold_left (fun l pf => insert (fst pf) (snd pf) l) (snd (split_arguments i args)) (pre ++ v) = pre ++ fill_in args v.
Proof.
  induction args as [|[a|l] args IH]; intros i v Hv pre L; cbn [split_arguments] in *.
  - cbn in Hv. destruct Hv as [<-|[]]. reflexivity.
  - specialize (IH (S i)). destruct (split_arguments (S i) args) as [c f]. cbn [fst snd fold_left fill_in] in *. rewrite <- L, insert_end, (IH v Hv) by (rewrite app_length; simpl; lia). rewrite <- app_assoc. auto.
  - specialize (IH (S i)). destruct (split_arguments (S i) args) as [c f]. cbn [fst snd product] in *. apply in_flat_map in Hv. destruct Hv as (x & Hx & Hv). apply in_map_iff in Hv. destruct Hv as (w & <- & Hw). cbn [fill_in].
    replace (pre ++ x :: w) with ((pre ++ [x]) ++ w) by (rewrite <- app_assoc; auto). rewrite (IH w Hw) by (rewrite app_length; simpl; lia). rewrite <- app_assoc. auto.
Qed.
Lemma combinations_product A (args : list (argument A)) : forall i, combinations args = map (fill_in args) (product (fst (split_arguments i args))).
Proof.
  induction args as [|[a|l] args IH]; intros i; cbn [combinations split_arguments]; [reflexivity| |].
  - rewrite (IH (S i)). destruct (split_arguments (S i) args) as [c f]. cbn [fst]. rewrite map_map. apply map_ext. auto.
  - rewrite (IH (S i)). destruct (split_arguments (S i) args) as [c f]. cbn [fst product]. rewrite flat_map_concat_map, concat_map, !map_map. f_equal. apply map_ext. intros x. rewrite !map_map. apply map_ext. auto.
Qed.
Theorem C83_calls A (args : list (argument A)) : all_calls args = combinations args.
Proof.
  unfold all_calls. rewrite (combinations_product _ _ 0). pose proof (split_length _ args 0) as H. destruct (split_arguments 0 args) as [c f]. cbn [fst snd] in *. apply map_ext_in. intros v Hv. apply (H v Hv []). auto.
Qed.
(** Each combination is called, and only those; their number is the product of the lengths of the lists. *)
Theorem C83_all A (args : list (argument A)) v : In v (all_calls args) <-> Forall2 (fun arg x => match arg with Fixed a => x = a | Looped l => In x l end) args v.
Proof.
  rewrite C83_calls. revert v. induction args as [|[a|l] args IH]; intros v; cbn [combinations].
  - split; [intros [<-|[]]; constructor|intros F; inversion F; simpl; auto].
  - rewrite in_map_iff. split; [intros (w & <- & Hw); constructor; [auto|apply IH; auto]|]. intros F. inversion F; subst. eexists. split; [reflexivity|apply IH; auto].
  - rewrite in_concat. split.
    + intros (m & Hm & Hv). apply in_map_iff in Hm. destruct Hm as (x & <- & Hx). apply in_map_iff in Hv. destruct Hv as (w & <- & Hw). constructor; [auto|apply IH; auto].
    + intros F. inversion F as [|? x ? w Hx Hw]; subst. exists (map (cons x) (combinations args)). split; [apply in_map_iff; eauto|apply in_map, IH; auto].
Qed.
Theorem C83_number A (args : list (argument A)) : length (all_calls args) = fold_right (fun arg n => match arg with Fixed _ => n | Looped l => length l * n end) 1 args.
Proof.
  rewrite C83_calls. induction args as [|[a|l] args IH]; cbn [combinations fold_right]; [reflexivity|rewrite map_length; auto|]. rewrite <- IH. generalize (combinations args). clear.
  intros m. induction l as [|x l IH]; simpl; auto. rewrite app_length, map_length, IH. auto.
Qed.
Example C83_example : all_calls [Looped [1; 2]; Fixed 7; Looped [3; 4]; Fixed 8] = [[1; 7; 3; 8]; [1; 7; 4; 8]; [2; 7; 3; 8]; [2; 7; 4; 8]].
Proof. reflexivity. Qed.

Print Assumptions C82_exact.
Print Assumptions C82_close.
Print Assumptions C82_files.
Print Assumptions C82_required.
Print Assumptions C82_reflexive.
Print Assumptions C82_extra_rows_refuted.
Print Assumptions C82_empty_refuted.
Print Assumptions C82_strings_refuted.
Print Assumptions C82_symmetry_refuted.
Print Assumptions C83_calls.
Print Assumptions C83_all.
Print Assumptions C83_number.
