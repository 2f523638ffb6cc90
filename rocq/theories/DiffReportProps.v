(** C134: the reports of differences of compare_h5_files. *)
From Coq Require Import Ascii String.
From Coq Require Import QArith Qabs List Bool Arith Lia Lqa.
From Verif Require Import TestToolsModel TestToolsProps DiffReportModel.
Import ListNotations.
Local Open Scope nat_scope.

(** * Specification *)
(** a report without difference *)
Definition clean (r : report) : Prop :=
  match r with
  | Mismatch => False
  | OfArray l => l = []
  | OfTable first_only second_only other_order cols => first_only = [] /\ second_only = [] /\ other_order = false /\ forall x l, In (x, l) cols -> l = []
  end.
(** a table has columns with different names; an array has one column without name *)
Definition node_ok (n : node) : Prop := if is_table n then columns n <> [] /\ inner_shape n = [] /\ NoDup (map col_name (columns n)) else exists t s, columns n = [Column "" t s].
(** column number i of n and j of b are named x *)
Definition named (n : node) (x : string) (j : nat) (c : column) : Prop := nth_error (columns n) j = Some c /\ col_name c = x.
(** the entries of two columns are the same, in number and value *)
Definition same_entries (i j : nat) (da db : list (list (list value))) : Prop := Forall2 (Forall2 equal_value) (map (fun r => nth i r []) da) (map (fun r => nth j r []) db).
(** numbers, infinities of one sign at most *)
Definition summable (data : list (list (list value))) (i : nat) : Prop := forall v w, (exists r, In r data /\ In v (nth i r [])) -> (exists r, In r data /\ In w (nth i r [])) ->
  (forall s, v <> Str s) /\ ~ (v = Inf true /\ w = Inf false).

(** * Sums *)
Lemma add_equal a b c d : equal_value a b -> equal_value c d -> equal_value (add a c) (add b d).
Proof.
  destruct a, b; cbn; try contradiction; destruct c, d; cbn; try contradiction; intros; subst; auto.
  - rewrite H, H0. reflexivity.
  - destruct (Bool.eqb _ _); cbn; auto.
Qed.
Lemma nansum_equal l m : Forall2 equal_value l m -> equal_value (nansum l) (nansum m).
Proof.
  unfold nansum. intros F. assert (G : forall a b, equal_value a b -> equal_value (fold_left add (map (fun v => match v with NaN => Num 0 | _ => v end) l) a) (fold_left add (map (fun v => match v with NaN => Num 0 | _ => v end) m) b)).
  { induction F as [|v w l m E F IH]; intros a b H; cbn; [exact H|]. apply IH, add_equal; [exact H|]. destruct v, w; cbn in *; try contradiction; auto. reflexivity. }
  apply G. cbn. reflexivity.
Qed.
Lemma nansum_nan l : (forall v w, In v l -> In w l -> (forall s, v <> Str s) /\ ~ (v = Inf true /\ w = Inf false)) -> nansum l <> NaN.
Proof.
  intros H. assert (X : exists x, forall v, In v l -> v = NaN \/ (exists q, v = Num q) \/ v = Inf x).
  { destruct (existsb (fun v => match v with Inf true => true | _ => false end) l) eqn:E.
    - apply existsb_exists in E. destruct E as (u & I & U). destruct u as [|  |[]|]; try discriminate. exists true. intros v V. destruct v as [q| |[]|s]; eauto; [|exfalso; apply (proj1 (H _ _ V V) s eq_refl)].
      exfalso. apply (proj2 (H _ _ I V)); auto.
    - exists false. intros v V. destruct v as [q| |[]|s]; eauto; [|exfalso; apply (proj1 (H _ _ V V) s eq_refl)].
      exfalso. apply not_true_iff_false in E. apply E, existsb_exists. exists (Inf true). auto. }
  clear H. destruct X as (x & X). unfold nansum. assert (G : forall a, a <> NaN -> ((exists q, a = Num q) \/ a = Inf x) -> fold_left add (map (fun v => match v with NaN => Num 0 | _ => v end) l) a <> NaN).
  { induction l as [|v l IH]; intros a N A; cbn; [exact N|]. assert (Y : (exists q, add a (match v with NaN => Num 0 | _ => v end) = Num q) \/ add a (match v with NaN => Num 0 | _ => v end) = Inf x).
    { destruct (X v (or_introl eq_refl)) as [->|[(q & ->)| ->]], A as [(p & ->)| ->]; cbn; eauto. rewrite eqb_reflx. auto. }
    apply IH; [intros u U; apply X; now right| |exact Y]. destruct Y as [(q & ->)| ->]; discriminate. }
  apply G; [discriminate|]. left. eauto.
Qed.
Lemma sums_agree l m : Forall2 equal_value l m -> (forall v w, In v l -> In w l -> (forall s, v <> Str s) /\ ~ (v = Inf true /\ w = Inf false)) -> unequal (nansum l) (nansum m) = false.
Proof.
  intros F H. pose proof (nansum_equal l m F) as E. pose proof (nansum_nan l H) as N. unfold unequal. destruct (nansum l); [| congruence| |]; destruct (nansum m); try contradiction; apply negb_false_iff, same_value_iff, E.
Qed.
Lemma concat_rel {A} (R : A -> A -> Prop) l m : Forall2 (Forall2 R) l m -> Forall2 R (concat l) (concat m).
Proof. induction 1; cbn; [constructor|]. apply Forall2_app; auto. Qed.
Lemma forall2_len {A B} (R : A -> B -> Prop) l m : Forall2 R l m -> length l = length m.
Proof. induction 1; cbn; congruence. Qed.
Lemma cells_equal i j da db : same_cells same_value (cells da i) (cells db j) = true <-> same_entries i j da db.
Proof. unfold same_cells, same_entries, cells. apply list_eqb_iff. intros x y. apply list_eqb_iff. apply same_value_iff. Qed.

(** * Columns *)
Lemma position_named n x j c : NoDup (map col_name (columns n)) -> named n x j c -> position x (columns n) = j.
Proof.
  unfold named. revert j. induction (columns n) as [|y l IH]; intros [|j] N [E X]; cbn in *; try discriminate.
  - injection E as ->. subst. now rewrite String.eqb_refl.
  - inversion N as [|? ? N1 N2]; subst. destruct (String.eqb_spec (col_name c) (col_name y)) as [Y|Y].
    + exfalso. apply N1. rewrite <- Y. apply in_map, (nth_error_In _ _ E).
    + f_equal. apply IH; auto.
Qed.
Lemma column_named n x j c data : named n x j c -> column_of n data j = Array (col_type c) (col_string c) (length data :: inner_shape n) (cells data j).
Proof. intros [E _]. unfold column_of. rewrite (nth_error_nth _ _ _ E). reflexivity. Qed.
Lemma shape_eqb l m : list_eqb Nat.eqb l m = true <-> l = m.
Proof. apply list_eqb_eq. intros. apply Nat.eqb_eq. Qed.
Lemma compare_columns_in close a b da db : forall names cols, compare_columns close a b da db names = Some cols -> map fst cols = names /\
  forall x l, In (x, l) cols -> compare_arrays close (column_of a da (position x (columns a))) (column_of b db (position x (columns b))) = Some l.
Proof.
  induction names as [|y names IH]; intros cols E; cbn in E.
  - injection E as <-. split; [reflexivity|intros x l []].
  - destruct (compare_arrays _ _ _) as [d|] eqn:C; [|discriminate]. destruct (compare_columns _ _ _ _ _ _) as [r|]; [|discriminate]. injection E as <-. destruct (IH _ eq_refl) as [M I]. split; [cbn; congruence|].
    intros x l [[= <- <-]|J]; auto.
Qed.

(** Of an exact comparison of tables every column of both tables is reported once; a column is reported without difference if and only if the types, the numbers of rows and the entries agree. *)
Theorem C134_columns a b da db first_only second_only order cols x i j c d : node_ok a -> node_ok b -> is_table a = true -> get_array_differences None a b da db = Some (OfTable first_only second_only order cols) ->
  named a x i c -> named b x j d -> (col_string c = true /\ col_string d = true) \/ summable da i ->
  exists l, In (x, l) cols /\ (forall l', In (x, l') cols -> l' = l) /\ (l = [] <-> col_type c = col_type d /\ same_entries i j da db).
Proof.
  intros Ka Kb Ta E Na Nb Sm. unfold node_ok in Ka. rewrite Ta in Ka. destruct Ka as (_ & Ia & Da). unfold get_array_differences in E. rewrite Ta in E. destruct (is_table b) eqn:Tb; [|discriminate].
  unfold node_ok in Kb. rewrite Tb in Kb. destruct Kb as (_ & Ib & Db). cbn [negb Bool.eqb] in E. destruct (compare_columns _ _ _ _ _ _) as [cs|] eqn:C; [|discriminate]. injection E as <- <- <- <-.
  destruct (compare_columns_in _ _ _ _ _ _ _ C) as [M I]. assert (In x (map fst cs)).
  { rewrite M. apply filter_In. split; [destruct Na as [A <-]; apply in_map, (nth_error_In _ _ A)|]. apply mem_iff. destruct Nb as [B <-]. apply in_map, (nth_error_In _ _ B). }
  apply in_map_iff in H. destruct H as ([x' l] & Ex & J). cbn in Ex. subst x'. exists l. split; [exact J|]. split; [intros l' J'; apply I in J, J'; congruence|].
  apply I in J. rewrite (position_named a x i c Da Na), (position_named b x j d Db Nb) in J. rewrite (column_named a x i c), (column_named b x j d) in J by assumption.
  unfold compare_arrays, comparable in J. cbn [a_type a_shape a_string a_cells] in J. rewrite Ia, Ib in J. split.
  - intros ->. destruct (list_eqb Nat.eqb [length da] [length db]) eqn:Sh; cbv zeta in J.
    + destruct (Nat.eqb_spec (col_type c) (col_type d)); [|discriminate]. split; [assumption|]. apply cells_equal. destruct (same_cells _ _ _); [reflexivity|]. injection J as J. apply app_eq_nil in J. destruct J as [_ J]. discriminate.
    + destruct (size _ =? size _); injection J as J; apply app_eq_nil in J; destruct J as [J _]; apply app_eq_nil in J; destruct J as [_ J]; discriminate.
  - intros [T F]. assert (L : length da = length db) by (apply forall2_len in F; rewrite !map_length in F; exact F). rewrite L, T, !Nat.eqb_refl in J. rewrite (proj2 (shape_eqb _ _) eq_refl) in J.
    rewrite (proj2 (cells_equal i j da db) F) in J. cbn [app] in J. rewrite app_nil_r in J. injection J as <-. destruct Sm as [[-> _]|Sm]; [reflexivity|]. destruct (col_string c || col_string d); [reflexivity|].
    rewrite sums_agree; [reflexivity|apply concat_rel, F|]. intros v w V W. apply in_concat in V, W. destruct V as (v' & V1 & V2), W as (w' & W1 & W2). unfold cells in V1, W1. apply in_map_iff in V1, W1.
    destruct V1 as (rv & <- & V1), W1 as (rw & <- & W1). apply Sm; eauto.
Qed.
Definition cell_rel (close : option (Q * Q)) : value -> value -> bool := match close with None => same_value | Some (rtol, atol) => close_value rtol atol end.
Lemma clean_arrays close a b : compare_arrays close a b = Some [] -> a_type a = a_type b /\ a_shape a = a_shape b /\ same_cells (cell_rel close) (a_cells a) (a_cells b) = true /\ (close <> None -> a_string a = false).
Proof.
  unfold compare_arrays, comparable. destruct (list_eqb Nat.eqb (a_shape a) (a_shape b)) eqn:S.
  - destruct (Nat.eqb_spec (a_type a) (a_type b)) as [T|T]; [|destruct close as [[r t]|]; [destruct (a_string a || a_string b)|]; discriminate]. apply shape_eqb in S. intros E. split; [exact T|]. split; [exact S|].
    destruct close as [[r t]|]; cbn [cell_rel].
    + destruct (a_string a) eqn:Sa; [discriminate|]. destruct (a_string b); [discriminate|]. cbn [orb] in E. split; [|intros; reflexivity]. destruct (same_cells _ _ _); [reflexivity|]. injection E as E. apply app_eq_nil in E. destruct E as [_ E]. discriminate.
    + split; [|intros N; now destruct N]. destruct (same_cells _ _ _); [reflexivity|]. injection E as E. apply app_eq_nil in E. destruct E as [_ E]. discriminate.
  - intros E. exfalso. destruct (size _ =? size _); destruct close as [[r t]|]; try destruct (a_string a || a_string b); try discriminate; injection E as E; repeat (apply app_eq_nil in E; destruct E as [E ?]); try discriminate;
      apply app_eq_nil in E; destruct E as [_ E]; discriminate.
Qed.
Lemma columns_all close table da db : forall ca cb j, length ca = length cb ->
  (forall i x y, nth_error ca i = Some x -> nth_error cb i = Some y -> col_type x = col_type y /\ same_cells (cell_rel close) (cells da (j + i)) (cells db (j + i)) = true /\ (close <> None -> col_string x = false)) ->
  match close with None => columns_equal j ca cb da db | Some (r, t) => columns_close table r t j ca cb da db end = true.
Proof.
  induction ca as [|x ca IH]; intros [|y cb] j L H; try discriminate; [destruct close as [[r t]|]; reflexivity|].
  destruct (H 0 x y eq_refl eq_refl) as (T & C & Sn). rewrite Nat.add_0_r in C. assert (R := IH cb (S j)). cbn in L. specialize (R ltac:(lia)).
  assert (R' : forall i u v, nth_error ca i = Some u -> nth_error cb i = Some v -> col_type u = col_type v /\ same_cells (cell_rel close) (cells da (S j + i)) (cells db (S j + i)) = true /\ (close <> None -> col_string u = false)).
  { intros i u v U V. replace (S j + i) with (j + S i) by lia. apply (H (S i)); assumption. }
  specialize (R R'). destruct close as [[r t]|]; cbn [cell_rel columns_equal columns_close] in *; rewrite T, Nat.eqb_refl, C; cbn [andb]; [|exact R]. rewrite Sn by discriminate. rewrite andb_false_r. exact R.
Qed.
(** A report without difference is only given for data which compare as equal (or close): every node which fails has a reason in the message. *)
Theorem C134_reason close a b da db r : node_ok a -> node_ok b -> get_array_differences close a b da db = Some r -> clean r -> chosen close a b da db = true.
Proof.
  intros Ka Kb E K. unfold get_array_differences in E. destruct (Bool.eqb (is_table a) (is_table b)) eqn:T; cbn [negb] in E; [|injection E as <-; contradiction]. apply eqb_prop in T.
  assert (G : same_kind a b da db = true -> map col_name (columns a) = map col_name (columns b) ->
    (forall i x y, nth_error (columns a) i = Some x -> nth_error (columns b) i = Some y -> col_type x = col_type y /\ same_cells (cell_rel close) (cells da i) (cells db i) = true /\ (close <> None -> col_string x = false)) -> chosen close a b da db = true).
  { intros Sk Nm H. assert (L : length (columns a) = length (columns b)) by (rewrite <- (map_length col_name (columns a)), Nm; apply map_length).
    pose proof (columns_all close (is_table a) da db (columns a) (columns b) 0 L H) as A. unfold chosen, nan_equal, nan_close. destruct close as [[r' t]|]; rewrite Sk, Nm, (proj2 (list_eqb_eq _ _ _ _ String.eqb_eq) eq_refl); exact A. }
  destruct (is_table a) eqn:Ta; cbn [negb] in E.
  - unfold node_ok in Ka, Kb. rewrite Ta in Ka. rewrite <- T in Kb. destruct Ka as (Na & _ & Da), Kb as (Nb & _ & Db). destruct (compare_columns _ _ _ _ _ _) as [cs|] eqn:C; [|discriminate]. injection E as <-.
    destruct K as (K1 & K2 & K3 & K4). rewrite K1, K2 in K3. apply negb_false_iff, (list_eqb_eq _ _ _ _ String.eqb_eq) in K3. destruct (compare_columns_in _ _ _ _ _ _ _ C) as [M I].
    assert (All : forall i x y, nth_error (columns a) i = Some x -> nth_error (columns b) i = Some y -> compare_arrays close (column_of a da i) (column_of b db i) = Some [] /\ col_name x = col_name y).
    { intros i x y X Y. assert (Xy : col_name x = col_name y). { assert (Z : nth_error (map col_name (columns a)) i = nth_error (map col_name (columns b)) i) by congruence. rewrite (map_nth_error _ _ _ X), (map_nth_error _ _ _ Y) in Z. congruence. }
      split; [|exact Xy]. assert (J : In (col_name x) (map fst cs)). { rewrite M. apply filter_In. split; [apply in_map, (nth_error_In _ _ X)|]. rewrite Xy. apply mem_iff, in_map, (nth_error_In _ _ Y). }
      apply in_map_iff in J. destruct J as ([x' l] & Ex & J). cbn in Ex. subst x'. pose proof (K4 _ _ J) as ->. apply I in J.
      rewrite (position_named a (col_name x) i x Da), (position_named b (col_name x) i y Db) in J by (split; auto). exact J. }
    destruct (columns a) as [|x0 ra] eqn:Ca; [congruence|]. destruct (columns b) as [|y0 rb] eqn:Cb; [congruence|]. rewrite <- Ca, <- Cb in *.
    assert (Sk : same_kind a b da db = true).
    { destruct (All 0 x0 y0) as [A _]; [now rewrite Ca|now rewrite Cb|]. apply clean_arrays in A. destruct A as (_ & A & _). cbn [column_of a_shape] in A. apply kind_iff. unfold column_of in A. cbn [a_shape] in A. injection A as A1 A2. split; [exact A1|]. split; [exact A2|]. congruence. }
    apply G; [exact Sk|exact K3|]. intros i x y X Y. destruct (All i x y X Y) as [A N]. apply clean_arrays in A. rewrite (column_named a (col_name x) i x), (column_named b (col_name x) i y) in A by (split; auto).
    cbn [a_type a_cells a_string] in A. tauto.
  - unfold node_ok in Ka, Kb. rewrite Ta in Ka. rewrite <- T in Kb. destruct Ka as (t & s & Ka), Kb as (t' & s' & Kb). destruct (compare_arrays _ _ _) as [l|] eqn:C; [|discriminate]. injection E as <-. cbn in K. subst l.
    apply clean_arrays in C. unfold column_of in C. rewrite Ka, Kb in C. cbn [nth a_type a_shape a_string a_cells col_type col_string] in C. destruct C as (C1 & C2 & C3 & C4). injection C2 as C2 C2'.
    apply G; [apply kind_iff; repeat split; congruence|now rewrite Ka, Kb|]. rewrite Ka, Kb. intros [|i] x y X Y; [|destruct i; discriminate]. injection X as <-. injection Y as <-. auto.
Qed.
(** Without strings a report is always made; in an exact comparison for all data. *)
Lemma report_made close a b da db : close = None \/ Forall (fun c => col_string c = false) (columns a) /\ Forall (fun c => col_string c = false) (columns b) -> exists r, get_array_differences close a b da db = Some r.
Proof.
  intros H. assert (Q : close = None \/ forall n j d, n = a \/ n = b -> a_string (column_of n d j) = false).
  { destruct H as [->|[A B]]; [auto|]. right. intros n j d N. unfold column_of. cbn [a_string]. destruct (Nat.lt_ge_cases j (length (columns n))) as [L|L]; [|rewrite nth_overflow by exact L; reflexivity].
    rewrite Forall_forall in A, B. destruct N as [-> | ->]; [apply A|apply B]; apply nth_In, L. }
  assert (C : forall i j, exists l, compare_arrays close (column_of a da i) (column_of b db j) = Some l).
  { intros i j. unfold compare_arrays. destruct (comparable _ _) as [[u v]|]; [|eauto]. destruct close as [[r t]|]; [|eauto]. destruct Q as [Q|Q]; [discriminate|]. rewrite !Q by auto. cbn [orb]. eauto. }
  unfold get_array_differences. destruct (negb _); [eauto|]. destruct (negb _); [destruct (C 0 0) as (l & ->); cbn; eauto|].
  assert (D : forall names, exists cs, compare_columns close a b da db names = Some cs).
  { induction names as [|x names (cs & IH)]; cbn; [eauto|]. destruct (C (position x (columns a)) (position x (columns b))) as (l & ->). rewrite IH. eauto. }
  match goal with |- context [compare_columns close a b da db ?n] => destruct (D n) as (cs & ->) end. cbn. eauto.
Qed.

(** * Messages *)
Lemma chunk_report_loop close k detailed a b : forall fuel start, match chunk_report close k detailed fuel start a b with
  | Some None => chunk_loop (chosen close) k fuel start a b = Some true
  | Some (Some o) => chunk_loop (chosen close) k fuel start a b = Some false /\ (detailed = false -> o = None) /\ (detailed = true -> exists r, o = Some r /\ exists da db, get_array_differences close a b da db = Some r /\ chosen close a b da db = false)
  | None => chunk_loop (chosen close) k fuel start a b = None \/ detailed = true /\ chunk_loop (chosen close) k fuel start a b = Some false /\ exists da db, get_array_differences close a b da db = None
  end.
Proof.
  induction fuel as [|fuel IH]; intros start; cbn [chunk_report chunk_loop]; [reflexivity|]. destruct (start <? length (rows a)); [|reflexivity]. destruct (read_nrows k a) as [n|]; [|auto].
  destruct (chosen close a b _ _) eqn:C; [apply IH|]. destruct detailed; [|cbn; repeat split; congruence].
  destruct (get_array_differences close a b _ _) as [r|] eqn:G; cbn [option_map]; [split; [reflexivity|]; split; [discriminate|]; intros _; eauto 6|]. right. eauto 6.
Qed.
(** the files have usable nodes *)
Definition files_ok (f g : h5_file) : Prop := forall x n, find_node f x = Some n \/ find_node g x = Some n -> node_ok n.
Lemma node_lines_ok close k detailed f g : forall names p l, node_lines close k detailed names f g = Some (p, l) -> compare_nodes (chosen close) k names f g = Some p /\
  (detailed = true -> (p = true <-> l = []) /\ forall x, (exists r, In (OfNode x r) l) <-> In x names /\ exists a b, find_node f x = Some a /\ find_node g x = Some b /\ compare_node (chosen close) k a b = Some false) /\
  (detailed = false -> l = []) /\ forall ln, In ln l -> exists x r a b da db, ln = OfNode x r /\ find_node f x = Some a /\ find_node g x = Some b /\ get_array_differences close a b da db = Some r /\ chosen close a b da db = false.
Proof.
  induction names as [|x names IH]; intros p l E; cbn [node_lines compare_nodes] in *.
  - injection E as <- <-. split; [reflexivity|]. split; [intros _; split; [tauto|intros x; split; [intros (r & [])|intros ([] & _)]]|]. split; [reflexivity|intros ln []].
  - destruct (find_node f x) as [a|] eqn:A; [|discriminate]. destruct (find_node g x) as [b|] eqn:B; [|discriminate]. unfold compare_node. pose proof (chunk_report_loop close k detailed a b (length (rows a)) 0) as L.
    destruct (chunk_report _ _ _ _ _ _ _) as [[o|]|]; [| |destruct (node_lines _ _ _ _ _ _) as [[]|]; discriminate].
    + destruct (node_lines close k detailed names f g) as [[p' l']|]; [|destruct o; discriminate]. destruct (IH _ _ eq_refl) as (I1 & I2 & I3 & I4). destruct L as (L1 & L2 & L3). rewrite L1, I1. destruct o as [r|].
      * injection E as <- <-. split; [reflexivity|]. destruct detailed; [|specialize (L2 eq_refl); discriminate]. destruct (L3 eq_refl) as (r' & [= <-] & L4). destruct (I2 eq_refl) as [I5 I6]. split; [intros _; split; [split; discriminate|]|].
        -- intros y. split.
           ++ intros (r' & [[= <- <-]|J]); [split; [now left|]; exists a, b; unfold compare_node; auto|]. destruct (proj1 (I6 y)) as [Y Z]; [eauto|]. split; [now right|exact Z].
           ++ intros ([<-|Y] & Z); [exists r; now left|]. destruct (proj2 (I6 y)) as (r' & R); [auto|]. exists r'. now right.
        -- split; [discriminate|]. intros ln [<-|J]; [|auto]. destruct L4 as (da & db & L4). exists x, r, a, b, da, db. tauto.
      * injection E as <- <-. split; [reflexivity|]. destruct detailed; [destruct (L3 eq_refl) as (r' & [=] & _)|]. split; [discriminate|]. auto.
    + destruct (node_lines close k detailed names f g) as [[p' l']|]; [|discriminate]. injection E as <- <-. destruct (IH _ _ eq_refl) as (I1 & I2 & I3 & I4). rewrite L, I1. cbn [andb]. split; [reflexivity|]. split; [|auto].
      intros D. destruct (I2 D) as [I5 I6]. split; [exact I5|]. intros y. rewrite I6. split; [intros (Y & Z); split; [now right|exact Z]|]. intros ([<-|Y] & Z); [|auto]. destruct Z as (a' & b' & Za & Zb & Z). exfalso. unfold compare_node in Z. congruence.
Qed.
Lemma node_lines_made close k detailed f g : detailed = false \/ (forall a b da db x, find_node f x = Some a -> find_node g x = Some b -> get_array_differences close a b da db <> None) ->
  forall names, compare_nodes (chosen close) k names f g <> None -> node_lines close k detailed names f g <> None.
Proof.
  intros H. induction names as [|x names IH]; cbn [node_lines compare_nodes]; [intros _; discriminate|]. destruct (find_node f x) as [a|] eqn:A; [|auto]. destruct (find_node g x) as [b|] eqn:B; [|auto]. unfold compare_node.
  pose proof (chunk_report_loop close k detailed a b (length (rows a)) 0) as L. destruct (chunk_loop _ _ _ _ _ _) as [r|] eqn:C; [|congruence]. destruct (compare_nodes _ _ _ _ _); [|congruence]. intros _. specialize (IH ltac:(discriminate)).
  destruct (node_lines _ _ _ _ _ _) as [[p' l']|]; [|congruence]. destruct (chunk_report _ _ _ _ _ _ _) as [[[o|]|]|]; try discriminate. exfalso. destruct L as [L|(D & _ & da & db & L)]; [discriminate|]. destruct H as [H|H]; [congruence|]. now apply (H a b da db x A B).
Qed.
Lemma filter_nil {A} (p : A -> bool) l : filter p l = [] <-> forallb (fun x => negb (p x)) l = true.
Proof. induction l as [|a l IH]; cbn; [tauto|]. destruct (p a); cbn; [split; discriminate|exact IH]. Qed.
Lemma without_nil ig l : without ig l = [] <-> subset l ig = true.
Proof. unfold without, subset. rewrite filter_nil. rewrite !forallb_forall. split; intros H x I; specialize (H x I); destruct (mem x ig); auto. Qed.
Lemma passed_match (first second : list string) (p : bool) l m ig ih : first = without ig l -> second = without ih m -> match first, second with [], [] => p | _, _ => false end = subset l ig && subset m ih && p.
Proof.
  intros -> ->. destruct (without ig l) eqn:A.
  - apply without_nil in A. rewrite A. destruct (without ih m) eqn:B; [apply without_nil in B; now rewrite B|]. destruct (subset m ih) eqn:C; [apply without_nil in C; congruence|reflexivity].
  - destruct (subset l ig) eqn:C; [apply without_nil in C; congruence|reflexivity].
Qed.
(** The decision is that of C82, with or without detailed_comparison, and a decision is reached in the same cases, if the comparison is exact or there are no strings. *)
Theorem C134_decision close k detailed f g names ignore : 
  (forall p l, compare_messages close k detailed f g names ignore = Some (p, l) -> compare_h5_files (chosen close) k f g names ignore = Some p) /\
  (detailed = false \/ close = None \/ (forall x n, find_node f x = Some n \/ find_node g x = Some n -> Forall (fun c => col_string c = false) (columns n)) ->
   compare_messages close k detailed f g names ignore = None -> compare_h5_files (chosen close) k f g names ignore = None).
Proof.
  split.
  - intros p l E. unfold compare_messages in E. unfold compare_h5_files. destruct names as [names|]; destruct (node_lines _ _ _ _ _ _) as [[p' l']|] eqn:N; try discriminate; apply node_lines_ok in N; destruct N as (N & _); rewrite N; injection E as E _.
    + rewrite (passed_match _ _ p' _ _ _ _ eq_refl eq_refl) in E. rewrite E. reflexivity.
    + rewrite (passed_match _ _ p' _ _ _ _ eq_refl eq_refl) in E. rewrite E. reflexivity.
  - intros H E. unfold compare_messages in E. unfold compare_h5_files.
    assert (M : forall common, node_lines close k detailed common f g = None -> compare_nodes (chosen close) k common f g = None).
    { intros common N. destruct (compare_nodes _ _ _ _ _) as [q|] eqn:C; [|reflexivity]. exfalso. apply (node_lines_made close k detailed f g) with (names := common); [|congruence|exact N].
      destruct H as [H|[H|H]]; [auto| |]; right; intros a b da db x A B; destruct (report_made close a b da db) as (r & R); try congruence; auto. right. split; apply (H x); auto. }
    destruct names as [names|]; destruct (node_lines _ _ _ _ _ _) as [[p' l']|] eqn:N; try discriminate; now rewrite (M _ N).
Qed.
(** The message: with detailed_comparison it is empty if and only if the check is passed; it names exactly the nodes (not ignored, required if names are given) which are in both files and differ, each with a report
    which has a difference, and exactly the nodes which are in one file only (or required and missing); without detailed_comparison it is empty. *)
Theorem C134_messages close k detailed f g names ignore p l : files_ok f g -> compare_messages close k detailed f g names ignore = Some (p, l) ->
  (detailed = false -> l = []) /\ (forall x r, In (OfNode x r) l -> ~ clean r) /\
  (detailed = true -> (p = true <-> l = []) /\
    forall x, ((exists r, In (OfNode x r) l) <-> ~ In x ignore /\ (forall ns, names = Some ns -> exists n, In n ns /\ node_path n x) /\ exists a b, find_node f x = Some a /\ find_node g x = Some b /\ compare_node (chosen close) k a b = Some false) /\
      match names with
      | None => ((exists ns, In (OnlyFirst ns) l /\ In x ns) <-> ~ In x ignore /\ In x (map fst f) /\ ~ In x (map fst g)) /\ ((exists ns, In (OnlySecond ns) l /\ In x ns) <-> ~ In x ignore /\ In x (map fst g) /\ ~ In x (map fst f))
      | Some ns => ((exists ms, In (MissingFirst ms) l /\ In x ms) <-> (exists n, In n ns /\ node_path n x) /\ (In x ignore \/ ~ In x (map fst f))) /\
          ((exists ms, In (MissingSecond ms) l /\ In x ms) <-> (exists n, In n ns /\ node_path n x) /\ (In x ignore \/ ~ In x (map fst g)))
      end).
Proof.
  intros Ok E. unfold compare_messages in E.
  set (nf := without ignore (map fst f)) in *. set (ng := without ignore (map fst g)) in *.
  assert (Nl : forall mk ns, (names_line false mk ns = []) /\ (names_line true mk ns = [] <-> ns = []) /\ forall d ln, In ln (names_line d mk ns) <-> d = true /\ ns <> [] /\ ln = mk ns).
  { intros mk ns. destruct ns as [|n ns]; cbn; (split; [reflexivity|]); (split; [split; congruence|]); intros [] ln; cbn; split; intros X; try tauto.
    - destruct X as [<-|[]]. repeat split; discriminate.
    - left. symmetry. tauto.
    - destruct X as (X & _). discriminate. }
  assert (Ps : forall n x, (exists m, In m n /\ node_path m x) <-> In x (map with_slash n)). { intros n x. rewrite in_map_iff. split; intros (m & A & B); exists m; [apply with_slash_path in B; auto|split; [auto|apply with_slash_path; auto]]. }
  assert (Fn : forall x, In x (map fst f) <-> exists a, find_node f x = Some a) by (intros; apply find_node_In). assert (Gn : forall x, In x (map fst g) <-> exists a, find_node g x = Some a) by (intros; apply find_node_In).
  destruct (match names with None => _ | Some _ => _ end) as [[[[first second] mk1] mk2] common] eqn:Cs.
  assert (Nn : forall x r ns, mk1 ns <> OfNode x r /\ mk2 ns <> OfNode x r) by (destruct names; injection Cs as <- <- <- <- <-; split; discriminate).
  destruct (node_lines close k detailed common f g) as [[p' l']|] eqn:N; [|discriminate]. injection E as Ep El. apply node_lines_ok in N. destruct N as (_ & N1 & N2 & N3).
  assert (On : forall x r, In (OfNode x r) l <-> In (OfNode x r) l').
  { intros x r. rewrite <- El, !in_app_iff. split; [|auto]. intros [X|[X|X]]; [| |exact X]; exfalso; apply (proj2 (proj2 (Nl _ _))) in X; destruct X as (_ & _ & X); symmetry in X; [now apply (proj1 (Nn x r first))|now apply (proj2 (Nn x r second))]. }
  split; [|split].
  - intros ->. rewrite <- El, (N2 eq_refl), !(proj1 (Nl _ _)). reflexivity.
  - intros x r I K. apply On, N3 in I. destruct I as (x' & r' & a & b & da & db & [= <- <-] & A & B & G & C). rewrite (C134_reason close a b da db r) in C; auto; [discriminate| |]; apply (Ok x); auto.
  - intros ->. destruct (N1 eq_refl) as [N4 N5]. split.
    + rewrite <- El, <- Ep. destruct first as [|n1 r1]; [destruct second as [|n2 r2]|]; cbn; [exact N4| |]; split; discriminate.
    + intros x. split.
      * transitivity (exists r, In (OfNode x r) l'); [split; intros (r & R); exists r; apply On, R|]. rewrite N5.
        assert (Cm : In x common <-> In x nf /\ In x ng /\ forall ns, names = Some ns -> In x (map with_slash ns)).
        { destruct names as [ns|]; injection Cs as <- <- <- <- <-; rewrite filter_In, ?andb_true_iff, !mem_iff.
          - split; [intros (A & B & C); split; [exact A|]; split; [exact B|]; intros ? [= <-]; exact C|intros (A & B & C); auto].
          - split; [intros (A & B); split; [exact A|]; split; [exact B|]; discriminate|intros (A & B & C); auto]. }
        rewrite Cm. unfold nf, ng. rewrite !without_In. split.
        -- intros (((A & B) & (_ & _) & C) & Z). split; [exact B|]. split; [|exact Z]. intros ns Ns. apply Ps, C, Ns.
        -- intros (A & B & Z). split; [|exact Z]. destruct Z as (a & b & Za & Zb & _). split; [split; [apply Fn; eauto|exact A]|]. split; [split; [apply Gn; eauto|exact A]|]. intros ns Ns. apply Ps, B, Ns.
      * assert (Ln : forall mk ns, mk = mk1 /\ ns = first \/ mk = mk2 /\ ns = second -> (forall u v, mk1 u <> mk2 v) -> (forall u v, mk u = mk v -> u = v) -> forall y, (exists ms, In (mk ms) l /\ In y ms) <-> In y ns).
        { intros mk ns H Df Ij y. split.
          - intros (ms & I & Y). rewrite <- El, !in_app_iff in I. destruct I as [I|[I|I]].
            + apply (proj2 (proj2 (Nl _ _))) in I. destruct I as (_ & _ & I). destruct H as [[-> ->]|[-> ->]]; [apply Ij in I; congruence|exfalso; now apply (Df first ms)].
            + apply (proj2 (proj2 (Nl _ _))) in I. destruct I as (_ & _ & I). destruct H as [[-> ->]|[-> ->]]; [exfalso; now apply (Df ms second)|apply Ij in I; congruence].
            + apply N3 in I. destruct I as (x' & r & _ & _ & _ & _ & I & _). exfalso. destruct H as [[-> _]|[-> _]]; [now apply (proj1 (Nn x' r ms))|now apply (proj2 (Nn x' r ms))].
          - intros Y. exists ns. split; [|exact Y]. rewrite <- El, !in_app_iff. destruct H as [[-> ->]|[-> ->]]; [left|right; left]; apply (proj2 (proj2 (Nl _ _))); (split; [reflexivity|]); (split; [intros Z; rewrite Z in Y; exact Y|reflexivity]). }
        assert (De : forall n s, In n s \/ ~ In n s) by (intros n s; destruct (in_dec string_dec n s); auto).
        destruct names as [ns|]; injection Cs as <- <- <- <- <-.
        -- rewrite (Ln MissingFirst (without nf (map with_slash ns))), (Ln MissingSecond (without ng (map with_slash ns))); try (intros; discriminate); try (intros ? ? [=]; assumption); auto.
           unfold nf, ng. rewrite !without_In, Ps. pose proof (De x ignore). pose proof (De x (map fst f)). pose proof (De x (map fst g)). tauto.
        -- rewrite (Ln OnlyFirst (without ng nf)), (Ln OnlySecond (without nf ng)); try (intros; discriminate); try (intros ? ? [=]; assumption); auto.
           unfold nf, ng. rewrite !without_In. tauto.
Qed.

(** * Refutations *)
(** A column whose entries are all within the tolerances is reported as different, since the sums are compared exactly. *)
Definition two (t : nat) (x y : value) : node := Node true [] [Column "event" 1 false; Column "x" t false] [[[x]; [y]]].
Theorem C134_close_refuted : ~ (forall a b da db r rtol atol x l i, node_ok a -> node_ok b -> get_array_differences (Some (rtol, atol)) a b da db = Some r -> (exists f s o cols, r = OfTable f s o cols /\ In (x, l) cols) ->
  (exists c, named a x i c /\ named b x i c) -> Forall2 (Forall2 (near_value rtol atol)) (map (fun r => nth i r []) da) (map (fun r => nth i r []) db) -> l = []).
Proof.
  intros X. assert (K : forall t x y, node_ok (two t x y)). { intros. split; [discriminate|]. split; [reflexivity|]. constructor; [intros [A|[]]; discriminate|]. constructor; [intros []|constructor]. }
  specialize (X (two 1 (Num 1) (Num 1)) (two 1 (Num 2) (Num (100001 # 100000))) (rows (two 1 (Num 1) (Num 1))) (rows (two 1 (Num 2) (Num (100001 # 100000))))
    (OfTable [] [] false [("event", [OfSum; OfContent]); ("x", [OfSum])]%string) (1 # 1000)%Q 0%Q "x"%string [OfSum] 1 (K _ _ _) (K _ _ _) eq_refl).
  discriminate X.
  - exists [], [], false, [("event", [OfSum; OfContent]); ("x", [OfSum])]%string. split; [reflexivity|]. right. now left.
  - exists (Column "x" 1 false). split; split; reflexivity.
  - cbn. constructor; [|constructor]. constructor; [|constructor]. cbn. discriminate.
Qed.
(** A column which is the same in both tables is reported as different if it has both infinities (their sum is NaN). *)
Theorem C134_infinite_refuted : exists a b cols, node_ok a /\ node_ok b /\ get_array_differences None a b (rows a) (rows b) = Some (OfTable [] [] false cols) /\ In ("x", [OfSum])%string cols /\ same_entries 1 1 (rows a) (rows b).
Proof.
  exists (Node true [] [Column "event" 1 false; Column "x" 1 false] [[[Num 1]; [Inf true]]; [[Num 1]; [Inf false]]]), (Node true [] [Column "event" 1 false; Column "x" 1 false] [[[Num 2]; [Inf true]]; [[Num 1]; [Inf false]]]),
    [("event", [OfSum; OfContent]); ("x", [OfSum])]%string.
  assert (N : NoDup ["event"; "x"]%string) by (constructor; [intros [A|[]]; discriminate|constructor; [intros []|constructor]]).
  split; [repeat split; [discriminate|exact N]|]. split; [repeat split; [discriminate|exact N]|]. split; [reflexivity|]. split; [right; now left|]. repeat constructor.
Qed.
(** With tolerances and a column of strings the detailed comparison fails with an exception where the other one has a result. *)
Theorem C134_strings_refuted : exists f g close, files_ok f g /\ compare_messages close 10 true f g None [] = None /\ compare_messages close 10 false f g None [] = Some (false, []).
Proof.
  exists [("/A", ex_node)]%string, [("/A", Node true [] ex_columns [ex_row 1 "a" (Num 2); ex_row 3 "b" NaN])]%string, (Some (1 # 1000, 0)%Q).
  split; [|split; vm_compute; reflexivity]. assert (N : NoDup ["event"; "name"; "x"]%string) by (repeat constructor; cbn; intuition discriminate).
  intros x n [H|H]; unfold find_node in H; cbn [find fst snd option_map] in H; destruct (String.eqb _ x); try discriminate; injection H as <-; (split; [discriminate|]; split; [reflexivity|exact N]).
Qed.

(** * Arrays *)
(** the number of entries of a row *)
Definition row_size (n : node) : nat := fold_right Nat.mul 1 (inner_shape n).
(** every row has as many entries as the shape says *)
Definition filled (n : node) (data : list (list (list value))) : Prop := Forall (fun r => length (nth 0 r []) = row_size n) data.
(** the entries one after the other *)
Definition values (data : list (list (list value))) : list value := concat (map (fun r => nth 0 r []) data).
Definition agree (close : option (Q * Q)) : value -> value -> Prop := match close with None => equal_value | Some (rtol, atol) => near_value rtol atol end.

Lemma values_length n data : filled n data -> length (values data) = length data * row_size n.
Proof. unfold filled, values. induction 1 as [|r data E F IH]; [reflexivity|]. cbn [map concat length Nat.mul]. rewrite app_length, E, IH. reflexivity. Qed.
Lemma forall2_app_inv {A} (R : A -> A -> Prop) l1 m1 : length l1 = length m1 -> forall l2 m2, Forall2 R (l1 ++ l2) (m1 ++ m2) -> Forall2 R l1 m1 /\ Forall2 R l2 m2.
Proof.
  revert m1. induction l1 as [|x l1 IH]; intros [|y m1] L l2 m2 F; try discriminate; [split; [constructor|exact F]|]. injection L as L. inversion F; subst.
  destruct (IH m1 L l2 m2) as [A1 A2]; [assumption|]. split; [constructor; assumption|exact A2].
Qed.
Lemma concat_rel_inv {A} (R : A -> A -> Prop) k l : forall m, length l = length m -> Forall (fun x => length x = k) l -> Forall (fun x => length x = k) m -> Forall2 R (concat l) (concat m) -> Forall2 (Forall2 R) l m.
Proof.
  induction l as [|x l IH]; intros [|y m] L Fl Fm F; try discriminate; [constructor|]. injection L as L. inversion Fl; subst. inversion Fm; subst. cbn [concat] in F.
  apply forall2_app_inv in F; [|congruence]. destruct F as [F1 F2]. constructor; [exact F1|]. apply IH; assumption.
Qed.

Lemma in_unless (x : bool) (d e : difference) : In d (if x then [] else [e]) -> d = e.
Proof. destruct x; [intros []|intros [H|[]]; congruence]. Qed.
(** Of two arrays the type is reported if and only if it differs, the shape if and only if it differs, and the content if and only if the entries, one after the other, differ in number
    or value: arrays of different shape with the same number of entries are compared entry by entry. *)
Theorem C134_arrays close a b da db r ca cb : columns a = [ca] -> columns b = [cb] -> is_table a = false -> is_table b = false -> filled a da -> filled b db -> get_array_differences close a b da db = Some r ->
  exists l, r = OfArray l /\ (In OfType l <-> col_type ca <> col_type cb) /\ (In OfShape l <-> length da <> length db \/ inner_shape a <> inner_shape b) /\
  (In OfContent l <-> ~ Forall2 (agree close) (values da) (values db)).
Proof.
  intros Ca Cb Ta Tb Fa Fb E. unfold get_array_differences in E. rewrite Ta, Tb in E. cbn [negb Bool.eqb] in E. destruct (compare_arrays _ _ _) as [l|] eqn:C; [|discriminate]. cbn [option_map] in E.
  injection E as <-. exists l. split; [reflexivity|]. unfold compare_arrays, column_of in C. rewrite Ca, Cb in C. cbn [nth a_type a_string a_shape a_cells] in C.
  set (t1 := if col_type ca =? col_type cb then [] else [OfType]) in C.
  set (sh := list_eqb Nat.eqb (length da :: inner_shape a) (length db :: inner_shape b)) in C.
  set (sm := if col_string ca || col_string cb then [] else if unequal _ _ then [OfSum] else []) in C.
  assert (T : forall d, In d t1 <-> d = OfType /\ col_type ca <> col_type cb).
  { intros d. unfold t1. destruct (Nat.eqb_spec (col_type ca) (col_type cb)); cbn [In]; split; try tauto; intuition congruence. }
  assert (Sm : forall d, In d sm -> d = OfSum). { intros d. unfold sm. destruct (_ || _); [intros []|]. destruct (unequal _ _); [intros [<-|[]]; reflexivity|intros []]. }
  assert (Shp : sh = true <-> length da = length db /\ inner_shape a = inner_shape b). { unfold sh. rewrite shape_eqb. split; [intros X; injection X; auto|intros [-> ->]; reflexivity]. }
  assert (D : exists x : bool, (x = true <-> Forall2 (agree close) (values da) (values db)) /\ l = (t1 ++ (if sh then [] else [OfShape]) ++ sm) ++ (if x then [] else [OfContent])).
  { assert (G : forall f (P : value -> value -> Prop), (forall x y, f x y = true <-> P x y) -> forall u v, comparable (Array (col_type ca) (col_string ca) (length da :: inner_shape a) (cells da 0)) (Array (col_type cb) (col_string cb) (length db :: inner_shape b) (cells db 0)) = Some (u, v) ->
      (same_cells f u v = true <-> Forall2 P (values da) (values db))).
    { intros f P fP u v Q. unfold comparable in Q. cbn [a_shape a_cells] in Q. fold sh in Q. rewrite (same_cells_iff f P fP). destruct sh.
      - injection Q as <- <-. destruct (proj1 Shp eq_refl) as [L I]. split; [apply concat_rel|]. apply concat_rel_inv with (row_size a).
        + unfold cells. rewrite !map_length. exact L.
        + unfold cells. apply Forall_map. exact Fa.
        + unfold cells. apply Forall_map. unfold row_size. rewrite I. exact Fb.
      - destruct (size (length da :: inner_shape a) =? size (length db :: inner_shape b)); [|discriminate Q]. injection Q as <- <-. split; [intros X; inversion X; assumption|intros X; constructor; [exact X|constructor]]. }
    assert (N : comparable (Array (col_type ca) (col_string ca) (length da :: inner_shape a) (cells da 0)) (Array (col_type cb) (col_string cb) (length db :: inner_shape b) (cells db 0)) = None ->
      forall P : value -> value -> Prop, ~ Forall2 P (values da) (values db)).
    { intros Q P X. unfold comparable in Q. cbn [a_shape a_cells] in Q. destruct (list_eqb _ _ _); [discriminate|]. destruct (Nat.eqb_spec (size (length da :: inner_shape a)) (size (length db :: inner_shape b))) as [|Ne]; [discriminate|].
      apply forall2_len in X. rewrite (values_length a), (values_length b) in X by assumption. apply Ne. exact X. }
    destruct (comparable _ _) as [[u v]|] eqn:Q.
    - destruct close as [[r t]|].
      + destruct (_ || _); [discriminate|]. injection C as <-. exists (same_cells (close_value r t) u v). split; [|reflexivity]. apply G; [apply close_value_iff|reflexivity].
      + injection C as <-. exists (same_cells same_value u v). split; [|reflexivity]. apply G; [apply same_value_iff|reflexivity].
    - injection C as <-. exists false. split; [|reflexivity]. split; [discriminate|]. intros X. destruct (N eq_refl _ X). }
  destruct D as (x & X & ->). rewrite !in_app_iff, !T. split; [|split].
  - split; [|tauto]. intros [[[_ A]|[A|A]]|A]; [assumption|apply in_unless in A; discriminate|apply Sm in A; discriminate|apply in_unless in A; discriminate].
  - transitivity (sh <> true).
    + split; [intros [[[A _]|[A|A]]|A]; [discriminate|destruct sh; [destruct A|discriminate]|apply Sm in A; discriminate|apply in_unless in A; discriminate]|].
      intros H. destruct sh; [congruence|]. left. right. left. now left.
    + rewrite Shp. destruct (Nat.eq_dec (length da) (length db)); [|tauto]. destruct (list_eq_dec Nat.eq_dec (inner_shape a) (inner_shape b)); tauto.
  - rewrite <- X. split; [intros [[[A _]|[A|A]]|A]; [discriminate|apply in_unless in A; discriminate|apply Sm in A; discriminate|destruct x; [destruct A|discriminate]]|].
    intros H. right. destruct x; [congruence|]. now left.
Qed.
Definition ex_array (shape : list nat) (rs : list (list value)) : node := Node false shape [Column "" 1 false] (map (fun r => [r]) rs).
(** 2 x 3 and 3 x 2 entries: the shape is reported, the content is not. *)
Example C134_arrays_case : let a := ex_array [3] [[Num 1; Num 2; NaN]; [Num 4; Num 5; Num 6]] in let b := ex_array [2] [[Num 1; Num 2]; [NaN; Num 4]; [Num 5; Num 6]] in
  filled a (rows a) /\ filled b (rows b) /\ get_array_differences None a b (rows a) (rows b) = Some (OfArray [OfShape]).
Proof. split; [repeat constructor|]. split; [repeat constructor|vm_compute; reflexivity]. Qed.

(** * Examples *)
Example C134_case : node_ok ex_node /\ summable (rows ex_node) 2 /\ 
  compare_messages None 10 true [("/A", ex_node); ("/B", ex_node); ("/C", ex_node)]%string [("/A", Node true [] ex_columns [ex_row 1 "a" (Num 2); ex_row 3 "b" NaN]); ("/B", ex_node); ("/D", ex_node)]%string None [] =
    Some (false, [OnlyFirst ["/C"]; OnlySecond ["/D"]; OfNode "/A" (OfTable [] [] false [("event", [OfSum; OfContent]); ("name", []); ("x", [])])])%string /\
  compare_messages None 10 true [("/A", ex_node)]%string [("/A", ex_node)]%string (Some ["A"; "E"]%string) [] = Some (false, [MissingFirst ["/E"]; MissingSecond ["/E"]])%string /\
  get_array_differences None ex_node (Node true [] [Column "x" 3 false; Column "event" 2 false] []) (rows ex_node) [[[Num 2]; [Num 1]]; [[NaN]; [Num 2]]] = Some (OfTable ["name"] [] false [("event", [OfType]); ("x", [])])%string.
Proof.
  split; [split; [discriminate|]; split; [reflexivity|]; repeat constructor; cbn; intuition discriminate|]. split; [|repeat split; vm_compute; reflexivity].
  intros v w (r & [<-|[<-|[]]] & V) (r' & [<-|[<-|[]]] & W); cbn in V, W; destruct V as [<-|[]], W as [<-|[]]; split; try discriminate; intros [X Y]; discriminate.
Qed.

Print Assumptions C134_columns.
Print Assumptions C134_reason.
Print Assumptions C134_decision.
Print Assumptions C134_messages.
Print Assumptions C134_close_refuted.
Print Assumptions C134_infinite_refuted.
Print Assumptions C134_strings_refuted.
Print Assumptions C134_arrays.
