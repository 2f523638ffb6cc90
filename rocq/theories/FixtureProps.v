(** C151: fixtures of the unit tests. *)
From Coq Require Import String.
From Coq Require Import QArith Qabs List Bool Arith Lia.
From Verif Require Import TestToolsModel TestToolsProps FixtureModel.
Import ListNotations.
Local Open Scope nat_scope.

(** ** Specification *)
(** the calls: for each combination of the values (the last list runs fastest) the names with their values *)
Definition calls_of {A} (kwargs : list (string * argument A)) : list (list (string * A)) := map (combine (map fst kwargs)) (combinations (map snd kwargs)).
(** the numbers are close *)
Definition near (a b : number) : Prop :=
  match a, b with
  | Finite p, Finite q => (Qabs (p - q) <= (1 # 100000000) + (1 # 100000) * Qabs q)%Q
  | Infinite x, Infinite y => x = y
  | _, _ => False
  end.

(** ** Proofs *)
Lemma run_Some A (f : list (string * A) -> option number) calls l : run f calls = Some l <-> Forall2 (fun c v => f c = Some v) calls l.
Proof.
  revert l. induction calls as [|c calls IH]; intros l; cbn [run].
  - split; [intros [= <-]; constructor|intros H; inversion H; reflexivity].
  - split.
    + destruct (f c) as [v|] eqn:E; [|discriminate]. destruct (run f calls) as [m|] eqn:R; [|discriminate]. intros [= <-]. constructor; [exact E|]. apply IH. reflexivity.
    + intros H. inversion H as [|? v ? m E F]; subst. rewrite E, (proj2 (IH m) F). reflexivity.
Qed.
Lemma run_None A (f : list (string * A) -> option number) calls : run f calls = None <-> exists c, In c calls /\ f c = None.
Proof.
  induction calls as [|c calls IH]; cbn [run]; [split; [discriminate|intros (c & [] & _)]|]. destruct (f c) as [v|] eqn:E.
  - destruct (run f calls) as [m|] eqn:R; (split; [intros H; try discriminate H|]).
    + intros (c' & [<-|I] & N); [congruence|]. exfalso. assert (X : Some m = None) by (apply IH; exists c'; auto). discriminate.
    + destruct (proj1 IH eq_refl) as (c' & I & N). exists c'. split; [right; exact I|exact N].
    + reflexivity.
  - split; [|reflexivity]. intros _. exists c. split; [left; reflexivity|exact E].
Qed.
Lemma results_calls A (f : list (string * A) -> option number) kwargs : results f kwargs = run f (calls_of kwargs).
Proof. unfold results, calls_of. rewrite C83_calls. reflexivity. Qed.
Lemma close_spec a b : close a b = true <-> near a b.
Proof.
  destruct a as [p| |x], b as [q| |y]; cbn [close near]; try (split; [discriminate|intros []]); [apply Qle_bool_iff|apply eqb_true_iff].
Qed.
Lemma near_refl v : near v v <-> v <> NotANumber.
Proof.
  destruct v as [q| |b]; cbn [near]; split; intros H; try discriminate; try contradiction; try reflexivity; try (elim H; reflexivity).
  rewrite (Qabs_wd (q - q) 0) by ring. change (Qabs 0) with 0%Q. assert (P := Qabs_nonneg q). apply Qle_trans with (0 + (1 # 100000) * 0)%Q; [discriminate|]. apply Qplus_le_compat; [discriminate|]. apply Qmult_le_l; [reflexivity|exact P].
Qed.
Lemma args_given A (names : list string) (kwargs : list (string * argument A)) :
  forallb (fun a => existsb (String.eqb a) (map fst kwargs)) names = true <-> forall a, In a names -> In a (map fst kwargs).
Proof.
  rewrite forallb_forall. split; intros H a I; specialize (H a I).
  - apply existsb_exists in H. destruct H as (b & Ib & E). apply String.eqb_eq in E. subst. exact Ib.
  - apply existsb_exists. exists a. split; [exact H|apply String.eqb_refl].
Qed.

(** The stored fixture: it is made if all arguments are given, there is at least one call and no call raises; it has the return values of all combinations in their order. *)
Theorem C151_stored A names (f : list (string * A) -> option number) kwargs file data :
  create_fixture names f kwargs file = (Stored, Data data) <-> (forall a, In a names -> In a (map fst kwargs)) /\ calls_of kwargs <> [] /\ Forall2 (fun c v => f c = Some v) (calls_of kwargs) data.
Proof.
  unfold create_fixture. rewrite results_calls. rewrite <- (args_given A names kwargs). destruct (forallb _ names) eqn:G; cbn [negb].
  - destruct (run f (calls_of kwargs)) as [l|] eqn:R.
    + apply run_Some in R. destruct l as [|v l].
      * split; [discriminate|]. intros (_ & N & _). inversion R as [E|]. elim N. symmetry. assumption.
      * split.
        -- intros [= <-]. split; [reflexivity|]. split; [|exact R]. intros E. rewrite E in R. inversion R.
        -- intros (_ & _ & F). apply run_Some in F. apply run_Some in R. rewrite R in F. injection F as <-. reflexivity.
    + split; [discriminate|]. intros (_ & _ & F). apply run_Some in F. congruence.
  - split; [discriminate|]. intros (E & _). discriminate.
Qed.
(** Missing arguments and exceptions of the function leave the file as it is. *)
Theorem C151_untouched A names (f : list (string * A) -> option number) kwargs file :
  (forall a, In a names -> ~ In a (map fst kwargs) -> create_fixture names f kwargs file = (ArgumentsMissing, file)) /\
  (forall c, (forall a, In a names -> In a (map fst kwargs)) -> In c (calls_of kwargs) -> f c = None -> create_fixture names f kwargs file = (FunctionRaised, file)).
Proof.
  split.
  - intros a I N. unfold create_fixture. destruct (forallb _ names) eqn:G; [|reflexivity]. elim N. apply (proj1 (args_given A names kwargs) G a I).
  - intros c G I N. unfold create_fixture. apply (args_given A names kwargs) in G. rewrite G, results_calls, (proj2 (run_None A f (calls_of kwargs)) (ex_intro _ c (conj I N))). reflexivity.
Qed.
(** The comparison: with as many calls as stored values the answer is yes exactly if each return value is close to the stored value of the same call. *)
Theorem C151_compared A (f : list (string * A) -> option number) kwargs stored data : Forall2 (fun c v => f c = Some v) (calls_of kwargs) data -> length stored = length data ->
  exists b, check_with_fixture f kwargs (Data stored) = Compared b /\ (b = true <-> Forall2 near stored data).
Proof.
  intros F L. unfold check_with_fixture. rewrite results_calls, (proj2 (run_Some _ _ _ _) F). unfold broadcast. rewrite L, Nat.eqb_refl. eexists. split; [reflexivity|]. clear F. revert data L. induction stored as [|x s IH]; intros [|y d] L; try discriminate.
  - split; [constructor|reflexivity].
  - cbn [combine forallb fst snd]. rewrite andb_true_iff, close_spec, (IH d) by (injection L; auto). split; [intros (H1 & H2); constructor; assumption|intros H; inversion H; subst; split; assumption].
Qed.
(** Round trip: a function agrees with its own fixture exactly if none of the return values is nan. *)
Theorem C151_round_trip A names (f : list (string * A) -> option number) kwargs file data : create_fixture names f kwargs file = (Stored, Data data) ->
  exists b, check_with_fixture f kwargs (Data data) = Compared b /\ (b = true <-> ~ In NotANumber data).
Proof.
  intros C. apply C151_stored in C. destruct C as (_ & _ & F). destruct (C151_compared A f kwargs data data F eq_refl) as (b & E & H). exists b. split; [exact E|]. rewrite H. clear. induction data as [|x d IH].
  - split; [intros _ []|constructor].
  - split.
    + intros H. inversion H as [|? ? ? ? N G]; subst. apply near_refl in N. intros [E|I]; [apply N; exact E|]. apply IH; assumption.
    + intros N. constructor; [apply near_refl; intros ->; apply N; left; reflexivity|]. apply IH. intros I. apply N. right. exact I.
Qed.
(** A missing file, a missing node, an exception and numbers of calls which do not fit are exceptions. *)
Theorem C151_exceptions A (f : list (string * A) -> option number) kwargs :
  check_with_fixture f kwargs NoFile = FileMissing /\ check_with_fixture f kwargs NoData = NodeMissing /\
  (forall stored c, In c (calls_of kwargs) -> f c = None -> check_with_fixture f kwargs (Data stored) = CallRaised) /\
  (forall stored data, Forall2 (fun c v => f c = Some v) (calls_of kwargs) data -> length stored <> length data -> length stored <> 1 -> length data <> 1 -> check_with_fixture f kwargs (Data stored) = ShapesDiffer).
Proof.
  split; [reflexivity|]. split; [reflexivity|]. split.
  - intros stored c I N. unfold check_with_fixture. rewrite results_calls, (proj2 (run_None A f (calls_of kwargs)) (ex_intro _ c (conj I N))). reflexivity.
  - intros stored data F L L1 L2. unfold check_with_fixture. rewrite results_calls, (proj2 (run_Some _ _ _ _) F). unfold broadcast. rewrite (proj2 (Nat.eqb_neq _ _) L). destruct stored as [|x [|x' s]], data as [|y [|y' d]]; cbn in L, L1, L2; try reflexivity; lia.
Qed.
(** "As many calls as stored values are compared" is false: one call is compared with all stored values, and one stored value with all calls; without calls the answer is yes. *)
Theorem C151_number_refuted A (f : list (string * A) -> option number) kwargs stored data : Forall2 (fun c v => f c = Some v) (calls_of kwargs) data ->
  (forall y, data = [y] -> Forall (fun x => near x y) stored -> check_with_fixture f kwargs (Data stored) = Compared true) /\
  (forall x, stored = [x] -> Forall (fun y => near x y) data -> check_with_fixture f kwargs (Data stored) = Compared true) /\
  (forall x, stored = [x] -> calls_of kwargs = [] -> check_with_fixture f kwargs (Data stored) = Compared true).
Proof.
  intros F. assert (M2 : forall x, stored = [x] -> Forall (fun y => near x y) data -> check_with_fixture f kwargs (Data stored) = Compared true).
  { intros x -> H. unfold check_with_fixture. rewrite results_calls, (proj2 (run_Some _ _ _ _) F). unfold broadcast. destruct (Nat.eqb_spec (length [x]) (length data)) as [L|L].
    - destruct data as [|y [|? ?]]; try discriminate L. cbn [combine forallb fst snd]. rewrite (proj2 (close_spec x y)) by (inversion H; assumption). reflexivity.
    - f_equal. apply forallb_forall. intros p I. apply in_map_iff in I. destruct I as (y & <- & I). cbn. apply close_spec. revert y I. apply Forall_forall. exact H. }
  split; [|split; [exact M2|]].
  - intros y -> H. unfold check_with_fixture. rewrite results_calls, (proj2 (run_Some _ _ _ _) F). unfold broadcast. destruct (Nat.eqb_spec (length stored) (length [y])) as [L|L].
    + destruct stored as [|x [|? ?]]; try discriminate L. cbn [combine forallb fst snd]. rewrite (proj2 (close_spec x y)) by (inversion H; assumption). reflexivity.
    + destruct stored as [|x [|x' s]]; [reflexivity|elim L; reflexivity|]. f_equal. apply forallb_forall. intros p I. apply in_map_iff in I. destruct I as (z & <- & I). cbn [fst snd]. apply close_spec. revert z I. apply Forall_forall. exact H.
  - intros x E N. apply (M2 x E). rewrite N in F. inversion F. constructor.
Qed.
(** "A fixture which cannot be made leaves the old one" is false: an empty list of values erases it. *)
Theorem C151_erased_refuted A names (f : list (string * A) -> option number) kwargs file : (forall a, In a names -> In a (map fst kwargs)) -> calls_of kwargs = [] ->
  create_fixture names f kwargs file = (EmptyArray, NoData) /\ check_with_fixture f kwargs (snd (create_fixture names f kwargs file)) = NodeMissing.
Proof.
  intros G N. assert (E : create_fixture names f kwargs file = (EmptyArray, NoData)).
  { unfold create_fixture. apply (args_given A names kwargs) in G. rewrite G, results_calls, N. reflexivity. }
  rewrite E. split; reflexivity.
Qed.
(** "The order of the keyword arguments does not matter" is false: the same calls in another order do not agree with the fixture. *)
Theorem C151_order_refuted : exists (f : list (string * Z) -> option number) kwargs file,
  create_fixture ["a"; "b"]%string f kwargs NoFile = (Stored, file) /\ check_with_fixture f kwargs file = Compared true /\ check_with_fixture f (rev kwargs) file = Compared false /\
  (forall c, In c (calls_of (rev kwargs)) <-> In (rev c) (calls_of kwargs)) /\ (forall x y, f [("a", x); ("b", y)]%string = f [("b", y); ("a", x)]%string).
Proof.
  exists (fun c => match find (fun p => String.eqb (fst p) "a") c with Some (_, x) => Some (Finite (inject_Z x)) | None => None end), [("a", Looped [1; 2]%Z); ("b", Looped [1; 2]%Z)]%string.
  eexists. split; [reflexivity|]. split; [reflexivity|]. split; [reflexivity|]. split; [|reflexivity]. intros c. cbn. split.
  - intros [<-|[<-|[<-|[<-|[]]]]]; cbn; auto 6.
  - intros H. rewrite <- (rev_involutive c). destruct H as [H|[H|[H|[H|[]]]]]; rewrite <- H; cbn; auto 6.
Qed.
(** nan_to_num: the same number of columns and entries; numbers are kept, nan is 0 and infinite entries are the largest number of the type with their sign; the given array is changed exactly if no copy is wanted. *)
Theorem C151_nan_to_num copy array : 
  Forall2 (fun c r => largest r = largest c /\ Forall2 (fun v w => exists q, w = Finite q /\ match v with Finite p => q = p | NotANumber => q = 0%Q | Infinite true => q = largest c | Infinite false => q = (- largest c)%Q end) (values c) (values r)) array (fst (nan_to_num copy array)) /\
  snd (nan_to_num copy array) = (if copy then array else fst (nan_to_num copy array)).
Proof.
  split; [|destruct copy; reflexivity]. unfold nan_to_num. cbn [fst]. induction array as [|[m l] array IH]; cbn [map]; constructor; [|exact IH]. split; [reflexivity|]. cbn [values finite_entries largest]. clear IH. induction l as [|v l IH]; cbn [map]; constructor; [|exact IH].
  destruct v as [q| |[|]]; eexists; split; reflexivity.
Qed.

(** Non-vacuity: a function of two arguments with three calls. *)
Example C151_case : let f (c : list (string * Z)) := Some (Finite (inject_Z (fold_right (fun p s => snd p + s)%Z 0%Z c))) in let kwargs := [("x", Looped [1; 2; 3]%Z); ("y", Fixed 10%Z)]%string in
  let data := [Finite (inject_Z 11); Finite (inject_Z 12); Finite (inject_Z 13)] in
  create_fixture ["x"; "y"]%string f kwargs NoFile = (Stored, Data data) /\ check_with_fixture f kwargs (Data data) = Compared true /\ calls_of [("x", Looped (@nil Z)); ("y", Fixed 10%Z)]%string = [] /\
  create_fixture ["x"; "z"]%string f kwargs NoData = (ArgumentsMissing, NoData).
Proof. repeat split. Qed.

Print Assumptions C151_stored.
Print Assumptions C151_untouched.
Print Assumptions C151_compared.
Print Assumptions C151_round_trip.
Print Assumptions C151_exceptions.
Print Assumptions C151_number_refuted.
Print Assumptions C151_erased_refuted.
Print Assumptions C151_order_refuted.
Print Assumptions C151_nan_to_num.
