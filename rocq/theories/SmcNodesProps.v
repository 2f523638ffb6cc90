(** Property C107: nodes of the output file of the split-map-combine class. *)
From Coq Require Import ZArith Bool Arith Lia Ascii String List.
From Verif Require Import SmcModel SmcProofs SmcProps SmcNodesModel SmcNodesProofs.
Import ListNotations.

Section Props.
Context {A : Type}.
Implicit Types (f g : file A) (results : list (list (item A))).

(** Specification.  Item i of every result is a table (a histogram); the node holds the rows of all results in their order (the sum of the histograms, which are extended with zeros). *)
Definition holds_all results (i : nat) (x : option (node A)) : Prop :=
  match x with
  | Some (TableNode rows) =>
      exists parts, Forall2 (fun r part => nth_error r i = Some (Rows part)) results parts /\ rows = concat parts
  | Some (ArrayNode h) =>
      exists parts, Forall2 (fun r part => nth_error r i = Some (Hist part)) results parts /\
        (forall j, nth j h 0%Z = fold_right Z.add 0%Z (map (fun part => nth j part 0%Z) parts)) /\ (forall part, In part parts -> (List.length part <= List.length h)%nat) /\
        exists part, In part parts /\ List.length part = List.length h
  | None => False
  end.
Definition is_rows (x : item A) : bool := match x with Rows _ => true | Hist _ => false end.
(** results which fit to n node descriptions *)
Definition fitting (n : nat) results : Prop :=
  results <> [] /\ (forall r, In r results -> List.length r = n) /\
  forall r r', In r results -> In r' results -> map is_rows r = map is_rows r'.
(** names without duplicates; the names of the temporary nodes are not in use *)
Definition free_names (names : list string) f : Prop :=
  NoDup names /\ (forall n, In n names -> lookup (n ++ "_tmp") f = None) /\ (forall n m, In n names -> In m names -> (n ++ "_tmp")%string <> m).

Lemma fitting_consistent (r r' : list (item A)) : map is_rows r = map is_rows r' -> consistent r r' = true.
Proof.
  revert r'. induction r as [|a r IH]; intros [|b r'] H; try discriminate; [reflexivity|]. cbn in *. injection H as H1 H2. rewrite (IH _ H2).
  destruct a, b; try discriminate; reflexivity.
Qed.
Lemma consistent_fitting (r r' : list (item A)) : consistent r r' = true -> map is_rows r = map is_rows r'.
Proof.
  revert r'. induction r as [|a r IH]; intros [|b r'] H; try discriminate; [reflexivity|]. cbn in *. apply andb_prop in H as [H1 H2]. rewrite (IH _ H2).
  destruct a, b; try discriminate; reflexivity.
Qed.
Lemma checks n results first rest : results = first :: rest -> fitting n results ->
  ((List.length first =? n)%nat && forallb (consistent first) results)%bool = true.
Proof.
  intros -> (_ & L & K). rewrite (L first) by (left; reflexivity). rewrite Nat.eqb_refl. cbn [andb]. apply forallb_forall. intros r R.
  apply fitting_consistent. apply K; [left; reflexivity|exact R].
Qed.
Lemma write_unfold names results first rest f : results = first :: rest -> fitting (List.length names) results ->
  write names results f = match create names first f with
    | None => None | Some x => let (f, s) := add_results names results x in Some (finish names s f, names_after names s) end /\
  interrupted names results f = match create names first f with None => None | Some x => Some (fst (add_results names results x)) end.
Proof. intros E FIT. assert (CH := checks _ _ _ _ E FIT). rewrite E in *. unfold write, interrupted. rewrite CH. auto. Qed.
(** the node of one column *)
Lemma column_table results i rows0 : (forall r, In r results -> exists q, nth_error r i = Some (Rows q)) ->
  exists parts, Forall2 (fun r part => nth_error r i = Some (Rows part)) results parts /\
    fold_left (fun x r => match nth_error r i with Some y => add_item x y | None => x end) results (TableNode rows0) = TableNode (rows0 ++ concat parts).
Proof.
  revert rows0. induction results as [|r results IH]; intros rows0 H.
  - exists []. cbn. rewrite app_nil_r. auto.
  - destruct (H r (or_introl eq_refl)) as [q Q]. destruct (IH (rows0 ++ q)%list) as (parts & F & E); [intros r' R; apply H; right; exact R|].
    exists (q :: parts). split; [constructor; assumption|]. cbn [fold_left]. rewrite Q. cbn [add_item concat]. rewrite E, <- app_assoc. reflexivity.
Qed.
Lemma column_hist results i h0 : (forall r, In r results -> exists q, nth_error r i = Some (Hist q)) ->
  exists parts, Forall2 (fun r part => nth_error r i = Some (Hist part)) results parts /\
    fold_left (fun x r => match nth_error r i with Some y => add_item x y | None => x end) results (ArrayNode h0) = ArrayNode (fold_left combine_hist parts h0).
Proof.
  revert h0. induction results as [|r results IH]; intros h0 H.
  - exists []. cbn. auto.
  - destruct (H r (or_introl eq_refl)) as [q Q]. destruct (IH (combine_hist h0 q)) as (parts & F & E); [intros r' R; apply H; right; exact R|].
    exists (q :: parts). split; [constructor; assumption|]. cbn [fold_left]. rewrite Q. cbn [add_item]. exact E.
Qed.
Lemma sum_over_fold {B} (u : B -> Z) l : sum_over u l = fold_right Z.add 0%Z (map u l).
Proof. reflexivity. Qed.

Lemma write_ok names results f : free_names names f -> fitting (List.length names) results ->
  exists g l, write names results f = Some (g, l) /\ (forall i n, nth_error names i = Some n -> holds_all results i (lookup n g)) /\
    (forall k, ~ In k names -> lookup k g = lookup k f) /\
    (forall i r n, In r results -> nth_error names i = Some n ->
       nth_error l i = Some (if match nth_error r i with Some (Rows _) => true | _ => false end then (n ++ "_tmp")%string else n)) /\
    List.length l = List.length names.
Proof.
  intros (D & T & TT) FIT. destruct results as [|first rest] eqn:ER; [destruct FIT as [N _]; contradiction|]. rewrite <- ER in *.
  assert (CH := checks _ _ _ _ ER FIT). rewrite (proj1 (write_unfold names results first rest f ER FIT)). destruct FIT as (_ & LEN & KIND).
  assert (INF : In first results) by (rewrite ER; left; reflexivity).
  destruct (create_ok names first f D) as (f1 & s1 & C1 & O1 & K1 & Z1); [apply LEN; exact INF|exact T|]. rewrite C1.
  apply andb_prop in CH as [_ CH]. rewrite forallb_forall in CH.
  assert (KS : Forall (Forall2 kind_of (map start first)) results) by (apply Forall_forall; intros r R; apply consistent_kinds, CH, R).
  destruct (add_results_ok names results s1 _ f1 D O1 KS) as (f2 & s2 & C2 & O2 & K2 & Z2). rewrite C2.
  destruct (finish_ok names s2 _ f2 D O2 TT) as (P1 & P2 & P3 & P4).
  exists (finish names s2 f2), (names_after names s2). split; [reflexivity|].
  assert (LS : Forall (fun r => List.length r = List.length (map start first)) results).
  { apply Forall_forall. intros r R. rewrite map_length, (LEN r R), (LEN first INF). reflexivity. }
  assert (COL : forall i x r, nth_error first i = Some x -> In r results -> exists y, nth_error r i = Some y /\ is_rows y = is_rows x).
  { intros i x r X R. assert (E := KIND first r INF R). assert (E2 := f_equal (fun l => nth_error l i) E). cbn in E2. rewrite !nth_error_map, X in E2.
    destruct (nth_error r i) as [y|]; [|discriminate]. exists y. split; [reflexivity|]. cbn in E2. congruence. }
  split; [|split; [|split]].
  - intros i n Hn. destruct (nth_error first i) as [x|] eqn:HX.
    2:{ apply nth_error_None in HX. rewrite (LEN first INF) in HX. assert (nth_error names i <> None) by congruence. apply nth_error_Some in H. lia. }
    assert (HS : nth_error (map start first) i = Some (start x)) by (rewrite nth_error_map, HX; reflexivity).
    rewrite (P1 i n _ Hn (fold_add_items results _ i _ LS HS)). destruct x as [q|q]; cbn [start].
    + destruct (column_table results i []) as (parts & F & E).
      { intros r R. destruct (COL i _ r HX R) as (y & Y & K). destruct y as [y|y]; [|discriminate]. exists y. exact Y. }
      rewrite E. cbn. exists parts. auto.
    + destruct (column_hist results i (repeat 0%Z (List.length q))) as (parts & F & E).
      { intros r R. destruct (COL i _ r HX R) as (y & Y & K). destruct y as [y|y]; [discriminate|]. exists y. exact Y. }
      rewrite E. cbn. exists parts. split; [exact F|]. rewrite ER in F. inversion F as [|? p0 ? parts' Fa Fb]; subst parts. rewrite HX in Fa. injection Fa as <-.
      destruct (C18_histogram_sum (q :: parts')) as (B1 & B2 & B3). cbn [combine_hists] in B1, B2, B3. split; [|split].
      * intros j. specialize (B1 j). unfold bin in B1. rewrite B1. exact (sum_over_fold _ _).
      * exact B2.
      * destruct B3 as (r & R & E3); [discriminate|]. exists r. split; [exact R|]. symmetry. exact E3.
  - intros k N. destruct (in_dec string_dec k (map tmp names)) as [I|I].
    + apply in_map_iff in I. destruct I as (n & E & I). subst k. rewrite (T n I : lookup (tmp n) f = None). apply In_nth_error in I. destruct I as [i Hn].
      destruct (nth_error first i) as [x|] eqn:HX.
      2:{ apply nth_error_None in HX. rewrite (LEN first INF) in HX. assert (nth_error names i <> None) by congruence. apply nth_error_Some in H. lia. }
      assert (HS : nth_error (map start first) i = Some (start x)) by (rewrite nth_error_map, HX; reflexivity).
      destruct x as [q|q].
      * apply (P2 i n _ Hn) with (2 := fold_add_items results _ i _ LS HS).
        destruct (column_table results i []) as (parts & F & E).
        { intros r R. destruct (COL i _ r HX R) as (y & Y & K). destruct y as [y|y]; [|discriminate]. exists y. exact Y. }
        assert (FI := fold_add_items results _ i _ LS HS). cbn [start] in FI. rewrite E in FI. clear -O2 Hn FI.
        revert i Hn FI. induction O2 as [|m names s rows c L O IH|m names h s c O IH]; intros [|i] Hn FI; try discriminate; cbn in *; eauto.
      * apply P4; [exact N|]. apply Z2. exact (Z1 i n q Hn HX).
    + assert (N2 : forall n, In n names -> k <> tmp n) by (intros n M E; apply I, in_map_iff; exists n; auto).
      rewrite P3, K2, K1 by assumption. reflexivity.
  - intros i r n R Hn. destruct (nth_error first i) as [x|] eqn:HX.
    2:{ apply nth_error_None in HX. rewrite (LEN first INF) in HX. assert (nth_error names i <> None) by congruence. apply nth_error_Some in H. lia. }
    destruct (COL i _ r HX R) as (y & Y & K). rewrite Y.
    assert (HS : nth_error (map start first) i = Some (start x)) by (rewrite nth_error_map, HX; reflexivity).
    assert (FI := fold_add_items results _ i _ LS HS).
    assert (SH : exists z, nth_error (fold_left add_items results (map start first)) i = Some z /\ match z with TableNode _ => is_rows y = true | ArrayNode _ => is_rows y = false end).
    { destruct x as [q|q]; cbn [start] in FI.
      - destruct (column_table results i []) as (parts & F & E).
        { intros r' R'. destruct (COL i _ r' HX R') as (y' & Y' & K'). destruct y' as [y'|y']; [|discriminate]. exists y'. exact Y'. }
        rewrite E in FI. eexists. split; [exact FI|exact K].
      - destruct (column_hist results i (repeat 0%Z (List.length q))) as (parts & F & E).
        { intros r' R'. destruct (COL i _ r' HX R') as (y' & Y' & K'). destruct y' as [y'|y']; [discriminate|]. exists y'. exact Y'. }
        rewrite E in FI. eexists. split; [exact FI|exact K]. }
    destruct SH as (z & Zz & Kz). clear -O2 Hn Zz Kz. revert i Hn Zz.
    induction O2 as [|m names s rows c L O IH|m names h s c O IH]; intros [|i] Hn Zz; cbn in *; try discriminate; eauto.
    + injection Hn as <-. injection Zz as <-. destruct y; [reflexivity|discriminate].
    + injection Hn as <-. injection Zz as <-. destruct y; [discriminate|reflexivity].
  - clear -O2. induction O2; cbn; congruence.
Qed.

(** For results which fit to the node descriptions the run ends with a file in which every named node holds the results of all chunks (tables in order of the chunks, histograms
    summed), also if there was a node with this name before, and every other node is as before: no temporary node is left. *)
Theorem C107_output names results f : free_names names f -> fitting (List.length names) results ->
  exists g l, write names results f = Some (g, l) /\ (forall i n, nth_error names i = Some n -> holds_all results i (lookup n g)) /\
    (forall k, ~ In k names -> lookup k g = lookup k f).
Proof. intros H1 H2. destruct (write_ok names results f H1 H2) as (g & l & W & P & K & _). eauto. Qed.

(** Only such results are written: without any chunk, with another number of items than node descriptions, or with a table in one chunk and a histogram in another the writer dies. *)
Theorem C107_fitting names results f : write names results f <> None -> fitting (List.length names) results.
Proof.
  unfold write. destruct results as [|first rest]; [congruence|]. destruct (Nat.eqb_spec (List.length first) (List.length names)) as [L|L]; [|cbn; congruence]. cbn [andb].
  destruct (forallb (consistent first) (first :: rest)) eqn:F; [|congruence]. intros _. rewrite forallb_forall in F.
  assert (K : forall r, In r (first :: rest) -> map is_rows first = map is_rows r) by (intros r R; apply consistent_fitting, F, R).
  split; [discriminate|]. split.
  - intros r R. rewrite <- L, <- (map_length is_rows r), <- (K r R). apply map_length.
  - intros r r' R R'. rewrite <- (K r R). apply K. exact R'.
Qed.

(** A run that is stopped before its end leaves every node as it was, except the temporary nodes: in particular an input table in the same file, or an old output, is complete. *)
Theorem C107_interrupted names results f : NoDup names -> (forall n, In n names -> lookup (n ++ "_tmp") f = None) -> (results = [] \/ fitting (List.length names) results) ->
  exists g, interrupted names results f = Some g /\ forall k, (forall n, In n names -> k <> (n ++ "_tmp")%string) -> lookup k g = lookup k f.
Proof.
  intros D T [->|FIT]; [exists f; cbn; auto|]. destruct results as [|first rest] eqn:ER; [exists f; cbn; auto|]. rewrite <- ER in *.
  assert (CH := checks _ _ _ _ ER FIT). rewrite (proj2 (write_unfold names results first rest f ER FIT)). destruct FIT as (_ & LEN & KIND).
  assert (INF : In first results) by (rewrite ER; left; reflexivity).
  destruct (create_ok names first f D) as (f1 & s1 & C1 & O1 & K1 & Z1); [apply LEN; exact INF|exact T|]. rewrite C1.
  apply andb_prop in CH as [_ CH]. rewrite forallb_forall in CH.
  assert (KS : Forall (Forall2 kind_of (map start first)) results) by (apply Forall_forall; intros r R; apply consistent_kinds, CH, R).
  destruct (add_results_ok names results s1 _ f1 D O1 KS) as (f2 & s2 & C2 & O2 & K2 & Z2). rewrite C2. exists f2. split; [reflexivity|].
  intros k N. rewrite K2, K1 by exact N. reflexivity.
Qed.

(** But the temporary table of the stopped run stays in the file, and then no later run (with mode 'r+') can write this node: create_table raises in the writer thread. *)
Theorem C107_interrupted_refuted n part rest results2 f : lookup (n ++ "_tmp") f = None -> fitting 1 ([Rows part] :: rest) -> fitting 1 results2 ->
  (exists r q, In r results2 /\ r = [Rows q]) ->
  exists g, interrupted [n] ([Rows part] :: rest) f = Some g /\ lookup (n ++ "_tmp") g <> None /\ write [n] results2 g = None.
Proof.
  intros T FIT FIT2 (r2 & q2 & I2 & E2). assert (CH := checks _ _ _ _ eq_refl FIT). rewrite (proj2 (write_unfold [n] _ [Rows part] rest f eq_refl FIT)). destruct FIT as (_ & LEN & KIND).
  assert (D : NoDup [n]) by (constructor; [intros []|constructor]).
  destruct (create_ok [n] [Rows part] f D eq_refl) as (f1 & s1 & C1 & O1 & K1 & Z1); [intros m [<-|[]]; exact T|]. rewrite C1.
  apply andb_prop in CH as [_ CH]. rewrite forallb_forall in CH.
  assert (KS : Forall (Forall2 kind_of (map start [Rows part])) ([Rows part] :: rest)) by (apply Forall_forall; intros r R; apply consistent_kinds, CH, R).
  destruct (add_results_ok [n] _ s1 _ f1 D O1 KS) as (f2 & s2 & C2 & O2 & K2 & Z2). rewrite C2. exists f2. split; [reflexivity|].
  assert (LS : Forall (fun r => List.length r = List.length (map (@start A) [Rows part])) ([Rows part] :: rest)) by (apply Forall_forall; intros r R; apply (LEN r R)).
  assert (FI := fold_add_items _ (map start [Rows part]) 0 _ LS eq_refl). destruct (column_table ([Rows part] :: rest) 0 []) as (parts & F & E).
  { intros r R. assert (K := KIND [Rows part] r (or_introl eq_refl) R). destruct r as [|[y|y] r]; try discriminate. exists y. reflexivity. }
  cbn [start] in FI. assert (FI2 := eq_trans FI (f_equal Some E)).
  assert (X : lookup (n ++ "_tmp") f2 <> None).
  { clear E FI. revert FI2 O2. generalize (fold_left add_items ([Rows part] :: rest) (map start [Rows part])). intros cc FI2 O2.
    inversion O2 as [|? ? s rows c L O|? ? h s c O]; subst.
    - change (lookup (n ++ "_tmp") f2 = Some (TableNode rows)) in L. congruence.
    - discriminate. }
  split; [exact X|]. destruct results2 as [|first2 rest2] eqn:ER; [reflexivity|]. rewrite <- ER in *. rewrite (proj1 (write_unfold [n] results2 first2 rest2 f2 ER FIT2)).
  destruct FIT2 as (_ & LEN2 & KIND2). assert (INF : In first2 results2) by (rewrite ER; left; reflexivity).
  assert (K := KIND2 r2 first2 I2 INF). rewrite E2 in K. destruct first2 as [|[y|y] [|? ?]]; try discriminate. cbn [create]. unfold exists_node.
  change (tmp n) with (n ++ "_tmp")%string. destruct (lookup (n ++ "_tmp") f2); [reflexivity|contradiction].
Qed.

(** Choice of the input table. *)
Theorem C107_select f : (forall n, select_node f (Named n) = match lookup n f with Some _ => Some n | None => None end) /\
  (forall names n, select_node f (FirstOf names) = Some n <-> exists before after, names = (before ++ n :: after)%list /\ lookup n f <> None /\ forall m, In m before -> lookup m f = None) /\
  (forall names, select_node f (FirstOf names) = None <-> forall n, In n names -> lookup n f = None) /\
  (forall n, select_node f AnyTable = Some n <->
     exists before rows after, f = (before ++ (n, TableNode rows) :: after)%list /\ forall m x, In (m, x) (before ++ after)%list -> exists h, x = ArrayNode h).
Proof.
  split; [|split; [|split]].
  - intros n. cbn. unfold exists_node. destruct (lookup n f); reflexivity.
  - assert (EX : forall m, exists_node f m = true <-> lookup m f <> None) by (intros m; unfold exists_node; destruct (lookup m f); split; congruence).
    intros names n. cbn. induction names as [|m names IH]; cbn.
    + split; [discriminate|]. intros (b & a & E & _). destruct b; discriminate.
    + destruct (exists_node f m) eqn:Em.
      * split.
        -- intros H. injection H as <-. exists [], names. cbn. split; [reflexivity|]. split; [apply EX; exact Em|intros ? []].
        -- intros (b & a & E & L & N). destruct b as [|b0 b]; cbn in E; injection E as <- E2; [reflexivity|]. apply EX in Em. exfalso. apply Em. apply N. left. reflexivity.
      * rewrite IH. assert (Nm : lookup m f = None) by (unfold exists_node in Em; destruct (lookup m f); [discriminate|reflexivity]). split.
        -- intros (b & a & E & L & N). exists (m :: b), a. split; [cbn; congruence|]. split; [exact L|]. intros k [<-|K]; [exact Nm|apply N; exact K].
        -- intros (b & a & E & L & N). destruct b as [|b0 b]; cbn in E; injection E as <- E2; [contradiction|]. exists b, a. split; [exact E2|]. split; [exact L|].
           intros k K. apply N. right. exact K.
  - intros names. cbn. induction names as [|m names IH]; cbn.
    + split; [intros _ ? []|reflexivity].
    + unfold exists_node at 1. destruct (lookup m f) eqn:Em.
      * split; [discriminate|]. intros H. rewrite H in Em by (left; reflexivity). discriminate.
      * rewrite IH. split; [intros H k [<-|K]; [exact Em|apply H; exact K]|intros H k K; apply H; right; exact K].
  - intros n. cbn. assert (NIL : forall l, filter (@is_table A) l = [] <-> forall m x, In (m, x) l -> exists h, x = ArrayNode h).
    { induction l as [|[m x] l IH]; cbn; [split; [intros _ ? ? []|reflexivity]|]. destruct x as [r|h]; cbn.
      - split; [discriminate|]. intros H. destruct (H m _ (or_introl eq_refl)). discriminate.
      - rewrite IH. split; [intros H k y [E|K]; [injection E as <- <-; eauto|eauto]|intros H k y K; apply (H k); right; exact K]. }
    split.
    + intros H. destruct (filter is_table f) as [|[m x] [|? ?]] eqn:F; try discriminate. injection H as ->. revert F. induction f as [|[k y] f IH]; cbn; [discriminate|].
      destruct y as [r|h]; cbn; intros F.
      * injection F as E1 E2 E3. subst k. exists [], r, f. split; [reflexivity|]. cbn. apply NIL. exact E3.
      * destruct (IH F) as (b & rows & a & E & N). exists ((k, ArrayNode h) :: b), rows, a. split; [cbn; congruence|].
        intros m z [E3|M]; [injection E3 as <- <-; eauto|eauto].
    + intros (b & rows & a & E & N). rewrite E, filter_app. cbn.
      replace (filter (@is_table A) b) with (@nil (string * node A)) by (symmetry; apply NIL; intros m x M; apply (N m); apply in_or_app; auto).
      replace (filter (@is_table A) a) with (@nil (string * node A)) by (symmetry; apply NIL; intros m x M; apply (N m); apply in_or_app; auto). reflexivity.
Qed.

(** Names of the outputs: with several node descriptions each needs a name, a single one without name gets the name of the input table. *)
Theorem C107_names same m infile outfile t (descs : list (option string)) chunks func :
  ((List.length descs <> 1)%nat -> In None descs -> smc (A := A) same m infile outfile t descs chunks func = Refused) /\
  (forall n, select_node infile t = Some n -> smc same m infile outfile t [None] chunks func = smc same m infile outfile t [Some n] chunks func).
Proof.
  split.
  - intros L I. unfold smc. destruct (select_node infile t) as [n|]; [|reflexivity]. destruct (Nat.eqb_spec (List.length descs) 1) as [E|_]; [contradiction|]. cbn [negb].
    replace (set_names true n descs) with (@None (list string)); [reflexivity|]. clear L. induction descs as [|[d|] descs IH]; cbn.
    + destruct I.
    + destruct I as [I|I]; [discriminate|]. rewrite <- IH by exact I. reflexivity.
    + destruct (set_names true n descs); reflexivity.
  - intros n S. unfold smc. rewrite S. reflexivity.
Qed.

(** A table can be replaced in its own file: input and output node are the same, the function is applied row by row. *)
Theorem C107_in_place n rows (h : A -> A) chunks f : lookup n f = Some (TableNode rows) -> lookup (n ++ "_tmp") f = None -> concat (chunks rows) = rows -> chunks rows <> [] ->
  exists g l, smc true ModeUpdate f f (Named n) [None] chunks (fun c => [Rows (map h c)]) = Done g l /\
    lookup n g = Some (TableNode (map h rows)) /\ forall k, k <> n -> lookup k g = lookup k f.
Proof.
  intros L T C N. unfold smc. cbn [select_node]. unfold exists_node. rewrite L. cbn [List.length Nat.eqb negb set_names open_file]. rewrite L.
  assert (FN : free_names [n] f).
  { split; [constructor; [intros []|constructor]|]. split; [intros m [<-|[]]; exact T|]. intros a b [<-|[]] [<-|[]]. apply tmp_neq. }
  assert (FIT : fitting 1 (map (fun c => [Rows (map h c)]) (chunks rows))).
  { split; [destruct (chunks rows); [contradiction|discriminate]|]. split.
    - intros r R. apply in_map_iff in R. destruct R as (c & <- & _). reflexivity.
    - intros r r' R R'. apply in_map_iff in R, R'. destruct R as (c & <- & _), R' as (c' & <- & _). reflexivity. }
  destruct (C107_output [n] _ f FN FIT) as (g & l & W & P & K). rewrite W. exists g, l. split; [reflexivity|].
  split; [|intros k Hk; apply K; intros [E|[]]; congruence]. specialize (P 0%nat n eq_refl).
  destruct (lookup n g) as [[r|q]|]; cbn in P; [|exfalso|destruct P].
  - destruct P as (parts & F & E). do 2 f_equal. rewrite E, <- C at 1. clear -F. remember (chunks rows) as cs eqn:Ec. clear Ec. revert parts F.
    induction cs as [|c cs IH]; intros parts F; inversion F as [|? p ? parts' F1 F2]; subst; [reflexivity|]. cbn in F1. injection F1 as <-. cbn. rewrite map_app, (IH _ F2). reflexivity.
  - destruct P as (parts & F & _). destruct (chunks rows) as [|c cs]; [contradiction|]. inversion F as [|? ? ? ? F1 _]; subst. discriminate.
Qed.

(** A new file (mode 'w') has exactly the named nodes. *)
Theorem C107_new_file infile outfile t n rows names chunks func : select_node infile t = Some n -> lookup n infile = Some (TableNode rows) ->
  NoDup names -> (forall a b, In a names -> In b names -> (a ++ "_tmp")%string <> b) -> fitting (List.length names) (map func (chunks rows)) ->
  exists g l, smc (A := A) false ModeW infile outfile t (map Some names) chunks func = Done g l /\
    forall k, lookup k g <> None <-> In k names.
Proof.
  intros S L D TT FIT. unfold smc. rewrite S. replace (set_names _ n (map Some names)) with (Some names).
  2:{ generalize (negb (List.length (map Some names) =? 1)%nat). intros b. clear. induction names as [|m names IH]; cbn; [reflexivity|]. rewrite <- IH. reflexivity. }
  cbn [open_file]. rewrite L. destruct (C107_output names _ [] (conj D (conj (fun _ _ => eq_refl) TT)) FIT) as (g & l & W & P & K). rewrite W. exists g, l. split; [reflexivity|].
  intros k. split.
  - intros H. destruct (in_dec string_dec k names) as [I|I]; [exact I|]. rewrite (K k I) in H. contradiction.
  - intros I. apply In_nth_error in I. destruct I as [i Hi]. specialize (P i k Hi). destruct (lookup k g); [discriminate|destruct P].
Qed.

(** One would expect that the input table survives or that the caller gets an exception.  With the default mode 'w' and output_filename = input_filename every run that is not refused
    empties the file and returns without exception (the NoSuchNodeError is raised in the thread of the reader). *)
Theorem C107_same_file_refuted f t n descs names chunks func : select_node f t = Some n -> set_names (negb (List.length descs =? 1)%nat) n descs = Some names ->
  smc (A := A) true ModeW f f t descs chunks func = Stopped [].
Proof. intros S N. unfold smc. rewrite S, N. reflexivity. Qed.

(** One would expect that a second run with the same node description writes to the same node.  The first run leaves "_tmp" at the name in the dictionary of the caller:
    the second run writes to a node X_tmp, the node X keeps the first result. *)
Theorem C107_reuse_refuted X n n2 rows rows2 infile infile2 outfile t t2 (chunks chunks2 : list A -> list (list A)) (func func2 : list A -> list A) :
  select_node infile t = Some n -> lookup n infile = Some (TableNode rows) -> select_node infile2 t2 = Some n2 -> lookup n2 infile2 = Some (TableNode rows2) ->
  chunks rows <> [] -> chunks2 rows2 <> [] -> lookup (X ++ "_tmp") outfile = None -> lookup ((X ++ "_tmp") ++ "_tmp") outfile = None ->
  exists g l g2 l2, smc false ModeUpdate infile outfile t [Some X] chunks (fun c => [Rows (func c)]) = Done g l /\
    smc false ModeUpdate infile2 g t2 (map Some l) chunks2 (fun c => [Rows (func2 c)]) = Done g2 l2 /\
    lookup X g2 = Some (TableNode (concat (map func (chunks rows)))) /\ lookup (X ++ "_tmp") g2 = Some (TableNode (concat (map func2 (chunks2 rows2)))).
Proof.
  intros S1 L1 S2 L2 N1 N2 T1 T2.
  assert (FIT : forall (u : list A -> list A) cs, cs <> [] -> fitting 1 (map (fun c => [Rows (u c)]) cs)).
  { intros u cs N. split; [destruct cs; [contradiction|discriminate]|]. split.
    - intros r R. apply in_map_iff in R. destruct R as (c & <- & _). reflexivity.
    - intros r r' R R'. apply in_map_iff in R, R'. destruct R as (c & <- & _), R' as (c' & <- & _). reflexivity. }
  assert (ONE : forall n f, lookup (n ++ "_tmp") f = None -> free_names [n] f).
  { intros m f T. split; [constructor; [intros []|constructor]|]. split; [intros k [<-|[]]; exact T|]. intros a b [<-|[]] [<-|[]]. apply tmp_neq. }
  assert (CC : forall (u : list A -> list A) cs x, cs <> [] -> holds_all (map (fun c => [Rows (u c)]) cs) 0 x -> x = Some (TableNode (concat (map u cs)))).
  { intros u cs x N. destruct x as [[r|q]|]; cbn; [|intros P; exfalso|intros []].
    - intros (parts & F & ->). do 3 f_equal. clear N. revert parts F. induction cs as [|c cs IH]; intros parts F; inversion F as [|? p ? parts' F1 F2]; subst; [reflexivity|].
      cbn in F1. injection F1 as <-. cbn. rewrite (IH _ F2). reflexivity.
    - destruct P as (parts & F & _). destruct cs as [|c cs]; [contradiction|]. inversion F as [|? ? ? ? F1 _]; subst. discriminate. }
  destruct (write_ok [X] _ outfile (ONE _ _ T1) (FIT func (chunks rows) N1)) as (g & l & W & P & K & LA & LL).
  assert (El : l = [(X ++ "_tmp")%string]).
  { destruct l as [|l0 [|? ?]]; try discriminate. destruct (chunks rows) as [|c cs]; [contradiction|]. specialize (LA 0%nat _ X (or_introl eq_refl) eq_refl). cbn in LA. congruence. }
  subst l.
  assert (NI : ~ In ((X ++ "_tmp") ++ "_tmp")%string [X]).
  { intros [E|[]]. apply (f_equal String.length) in E. rewrite !append_length in E. cbn in E. lia. }
  destruct (write_ok [(X ++ "_tmp")%string] _ g (ONE _ _ (eq_trans (K _ NI) T2)) (FIT func2 (chunks2 rows2) N2)) as (g2 & l2 & W2 & P2 & K2 & _).
  exists g, [(X ++ "_tmp")%string], g2, l2. split; [|split; [|split]].
  - unfold smc. rewrite S1. cbn [List.length Nat.eqb negb set_names open_file]. rewrite L1, W. reflexivity.
  - unfold smc. rewrite S2. cbn [map List.length Nat.eqb negb set_names open_file]. rewrite L2, W2. reflexivity.
  - rewrite K2. { apply CC; [exact N1|]. exact (P 0%nat X eq_refl). } intros [E|[]]. exact (tmp_neq X E).
  - apply CC; [exact N2|]. exact (P2 0%nat _ eq_refl).
Qed.
End Props.

(** a file with a table and an array: two chunks, a table and a histogram as outputs; the old node Clusters is replaced *)
Example C107_case :
  let f := [("Hits", TableNode [1; 2; 3]); ("Clusters", TableNode [9]); ("Hist", ArrayNode [7%Z])]%string in
  let chunks := fun l : list nat => [firstn 2 l; skipn 2 l] in
  let func := fun c : list nat => [Rows (map S c); Hist (map (fun _ => 1%Z) c)] in
  free_names ["Clusters"; "Sizes"]%string f /\ fitting 2 (map func (chunks [1; 2; 3])) /\
  smc true ModeUpdate f f (Named "Hits") [Some "Clusters"; Some "Sizes"]%string chunks func
  = Done [("Hits", TableNode [1; 2; 3]); ("Hist", ArrayNode [7%Z]); ("Clusters", TableNode [2; 3; 4]); ("Sizes", ArrayNode [2; 1]%Z)]%string ["Clusters_tmp"; "Sizes"]%string /\
  smc true ModeUpdate f f AnyTable [None] chunks func = Refused /\
  smc true ModeW f f (FirstOf ["Tracks"; "Hits"])%string [None] chunks func = Stopped [].
Proof.
  cbv zeta. split; [|split; [|split; [|split]]]; try reflexivity.
  - split; [repeat constructor; cbn; intuition discriminate|]. split; [intros n [<-|[<-|[]]]; reflexivity|].
    intros a b [<-|[<-|[]]] [<-|[<-|[]]]; discriminate.
  - split; [discriminate|]. split; [intros r [<-|[<-|[]]]; reflexivity|]. intros r r' [<-|[<-|[]]] [<-|[<-|[]]]; reflexivity.
Qed.
(** hypotheses of C107_in_place, C107_interrupted_refuted and C107_reuse_refuted *)
Example C107_case2 :
  let f := [("Clusters", TableNode [1; 2; 3])]%string in
  (exists g l, smc true ModeUpdate f f AnyTable [None] (fun l : list nat => [firstn 2 l; skipn 2 l]) (fun c => [Rows (map S c)]) = Done g l /\ lookup "Clusters" g = Some (TableNode [2; 3; 4])) /\
  (exists g, interrupted ["Clusters"%string] [[Rows [2; 3]]] f = Some g /\ g = [("Clusters", TableNode [1; 2; 3]); ("Clusters_tmp", TableNode [2; 3])]%string /\
     write ["Clusters"%string] [[Rows [2; 3]]; [Rows [4]]] g = None) /\
  lookup "X_tmp" f = None /\ lookup "X_tmp_tmp" f = None.
Proof. cbv zeta. split; [eexists; eexists; split; reflexivity|]. split; [eexists; split; [reflexivity|split; reflexivity]|]. split; reflexivity. Qed.

Print Assumptions C107_output.
Print Assumptions C107_fitting.
Print Assumptions C107_interrupted.
Print Assumptions C107_interrupted_refuted.
Print Assumptions C107_select.
Print Assumptions C107_names.
Print Assumptions C107_in_place.
Print Assumptions C107_new_file.
Print Assumptions C107_same_file_refuted.
Print Assumptions C107_reuse_refuted.
