(** C125: the arrays which calculate_residuals stores. *)
From Coq Require Import Ascii String List Arith Lia Reals Lra Bool.
From Verif Require Import GeometryModel GeometryProofs RunningMeanModel RunningMeanProps ResidualsModel ResidualNodesModel.
Import ListNotations.
Local Open Scope R_scope.
Local Open Scope list_scope.

(** *** Specification *)
(** number of elements with a property *)
Inductive number {A} (P : A -> Prop) : list A -> nat -> Prop :=
| number_nil : number P [] 0
| number_in a l n : P a -> number P l n -> number P (a :: l) (S n)
| number_out a l n : ~ P a -> number P l n -> number P (a :: l) n.
(** value v is in bin i: from edge i up to, but not including, edge i + 1; the last bin includes its upper edge *)
Definition is_in_bin (edges : list R) (i : nat) (v : R) : Prop :=
  (S i < length edges)%nat /\ nth i edges 0 <= v /\ (v < nth (S i) edges 0 \/ S (S i) = length edges /\ v = nth (S i) edges 0).
(** a coordinate of the hit is inside of the limits which are given *)
Definition within (l : limits) (v : R) : Prop := forall lo hi, l = Some (lo, hi) -> (forall a, lo = Some a -> a <= v) /\ (forall b, hi = Some b -> v <= b).
Inductive axis := X | Y.
Definition coord (a : axis) (p : R * R) : R := match a with X => fst p | Y => snd p end.
Definition other (a : axis) : axis := match a with X => Y | Y => X end.
(** the track was fitted and has the hit h *)
Definition has (t : track) (h : R * R) : Prop := hit t = Some h /\ track_chi2 t <> None.
Definition limit_of (lx ly : limits) (a : axis) : limits := match a with X => lx | Y => ly end.
(** tracks of bin j of the residual histogram of direction r: hits inside of both limits *)
Definition in_residual_bin (lx ly : limits) (r : axis) (redges : list R) (j : nat) (t : track) : Prop :=
  exists h, has t h /\ within lx (fst h) /\ within ly (snd h) /\ is_in_bin redges j (coord r h - coord r (intersection t)).
(** tracks of bin (i, j) of residuals in direction r against the position p of the track: only the limits of the other coordinate of the hit count *)
Definition in_position_bin (lx ly : limits) (r p : axis) (pedges redges : list R) (i j : nat) (t : track) : Prop :=
  exists h, has t h /\ within (limit_of lx ly (other p)) (coord (other p) h) /\
  is_in_bin pedges i (coord p (intersection t)) /\ is_in_bin redges j (coord r h - coord r (intersection t)).
Definition r_edges (e : edges) (a : axis) : list R := match a with X => res_x e | Y => res_y e end.
Definition p_edges (e : edges) (a : axis) : list R := match a with X => pos_x e | Y => pos_y e end.
Definition n_bins (edges : list R) : nat := (length edges - 1)%nat.

(** *** Counting *)
Lemma number_filter {A} (P : A -> Prop) (f : A -> bool) l : (forall a, In a l -> (f a = true <-> P a)) -> number P l (length (filter f l)).
Proof.
  induction l as [|a l IH]; intros H; cbn [filter]; [constructor|]. assert (Ha := H a (or_introl eq_refl)). assert (IH' := IH (fun b I => H b (or_intror I))).
  destruct (f a); cbn [length]; [apply number_in|apply number_out]; auto; [tauto|]. intros K. apply Ha in K. discriminate.
Qed.
Lemma number_unique {A} (P : A -> Prop) l n m : number P l n -> number P l m -> n = m.
Proof. intros H. revert m. induction H; intros m K; inversion K; subst; try contradiction; auto. Qed.
Lemma bin_iff edges i v : in_bin edges i v = true <-> is_in_bin edges i v.
Proof.
  unfold in_bin, is_in_bin, n_edge_bins. rewrite !andb_true_iff, orb_true_iff, andb_true_iff, Nat.ltb_lt, Nat.eqb_eq, Rleb_true, Rltb_true, Reqb_true. split.
  - intros ((A & B) & C). split; [lia|]. split; [exact B|]. destruct C as [C|(C & D)]; [left; exact C|right; split; [lia|exact D]].
  - intros (A & B & C). split; [split; [lia|exact B]|]. destruct C as [C|(C & D)]; [left; exact C|right; split; [lia|exact D]].
Qed.
Lemma within_iff l v : in_limits l v = true <-> within l v.
Proof.
  unfold in_limits, within. destruct l as [[lo hi]|]; [|split; [intros _ ? ? [=]|reflexivity]]. rewrite andb_true_iff. split.
  - intros (A & B) lo' hi' [= <- <-]. split; [intros a ->; apply Rleb_true, A|intros b ->; apply Rleb_true, B].
  - intros H. destruct (H _ _ eq_refl) as (A & B). destruct lo as [a|], hi as [b|]; split; auto; apply Rleb_true; auto.
Qed.
Lemma add1d_seq (f g : nat -> nat) s n : add1d (map f (seq s n)) (map g (seq s n)) = map (fun j => (f j + g j)%nat) (seq s n).
Proof. revert s. unfold add1d. induction n as [|n IH]; intros s; cbn [seq map combine]; [reflexivity|]. f_equal. apply IH. Qed.
Lemma add2d_seq (f g : nat -> nat -> nat) m n s s' : add2d (map (fun i => map (f i) (seq s n)) (seq s' m)) (map (fun i => map (g i) (seq s n)) (seq s' m)) = map (fun i => map (fun j => (f i j + g i j)%nat) (seq s n)) (seq s' m).
Proof. revert s'. unfold add2d. induction m as [|m IH]; intros s'; cbn [seq map combine]; [reflexivity|]. cbn [fst snd]. rewrite add1d_seq. f_equal. apply IH. Qed.
Lemma hist1d_app e a b : hist1d e (a ++ b) = add1d (hist1d e a) (hist1d e b).
Proof. unfold hist1d. rewrite add1d_seq. apply map_ext. intros j. rewrite filter_app, app_length. reflexivity. Qed.
Lemma hist2d_app x y a b : hist2d x y (a ++ b) = add2d (hist2d x y a) (hist2d x y b).
Proof. unfold hist2d. rewrite (add2d_seq (fun i j => length (filter (fun p => in_bin x i (fst p) && in_bin y j (snd p)) a)) (fun i j => length (filter (fun p => in_bin x i (fst p) && in_bin y j (snd p)) b))). apply map_ext. intros i. apply map_ext. intros j. rewrite filter_app, app_length. reflexivity. Qed.
Lemma over_chunks_app {H C E} (make : list E -> H) (add : H -> H -> H) (f : C -> list E) (chunks : list C) : (forall a b, make (a ++ b) = add (make a) (make b)) -> chunks <> [] ->
  over_chunks (fun c => make (f c)) add chunks = Some (make (flat_map f chunks)).
Proof.
  intros A N. destruct chunks as [|c cs]; [congruence|]. clear N. cbn [over_chunks flat_map]. f_equal. generalize (f c) as l. induction cs as [|d cs IH]; intros l; cbn [fold_left flat_map]; [rewrite app_nil_r; reflexivity|].
  rewrite <- A, IH, app_assoc. reflexivity.
Qed.
Lemma flat_map_concat {A B} (f : list A -> list B) (g : A -> list B) chunks : (forall c, f c = flat_map g c) -> flat_map f chunks = flat_map g (concat chunks).
Proof. intros E. induction chunks as [|c cs IH]; [reflexivity|]. cbn [flat_map concat]. rewrite flat_map_app, IH, E. reflexivity. Qed.
(** the entries of a track in a histogram: none or one *)
Definition entry {B} (sel : (R * R) * (R * R) -> bool) (val : (R * R) * (R * R) -> B) (t : track) : list B :=
  match hit t, track_chi2 t with Some h, Some _ => if sel (h, intersection t) then [val (h, intersection t)] else [] | _, _ => [] end.
Lemma entries_eq {B} sel (val : _ -> B) c : map val (filter sel (usable_tracks c)) = flat_map (entry sel val) c.
Proof.
  induction c as [|t c IH]; [reflexivity|]. unfold usable_tracks in *. cbn [flat_map]. rewrite filter_app, map_app, IH. f_equal. unfold entry. destruct (hit t), (track_chi2 t); try reflexivity. cbn [filter]. destruct (sel _); reflexivity.
Qed.
Lemma count_entries {B} sel (val : _ -> B) (inb : B -> bool) (P : track -> Prop) c :
  (forall t, P t <-> exists h, has t h /\ sel (h, intersection t) = true /\ inb (val (h, intersection t)) = true) -> number P c (length (filter inb (flat_map (entry sel val) c))).
Proof.
  intros HP. induction c as [|t c IH]; [constructor|]. cbn [flat_map]. rewrite filter_app, app_length. unfold entry at 1.
  assert (N : forall h, hit t = Some h -> track_chi2 t <> None -> (P t <-> sel (h, intersection t) = true /\ inb (val (h, intersection t)) = true)).
  { intros h Hh Hc. rewrite HP. split; [intros (h' & (E & _) & Q); congruence|intros Q; exists h; unfold has; auto]. }
  assert (Z : hit t = None \/ track_chi2 t = None -> ~ P t). { intros Z K. apply HP in K as (h & (A & B') & _). destruct Z; congruence. }
  destruct (hit t) as [h|] eqn:Hh; [|cbn; apply number_out; auto]. destruct (track_chi2 t) as [x|] eqn:Hc; [|cbn; apply number_out; auto].
  specialize (N h eq_refl ltac:(discriminate)). destruct (sel (h, intersection t)); [|cbn; apply number_out; [rewrite N; intros (K & _); discriminate|exact IH]].
  cbn [filter]. destruct (inb (val (h, intersection t))); cbn [length Nat.add]; [apply number_in|apply number_out]; auto; [apply N; auto|rewrite N; intros (_ & K); discriminate].
Qed.
Lemma nth_hist1d e v j : nth j (hist1d e v) 0%nat = if (j <? n_bins e)%nat then length (filter (in_bin e j) v) else 0%nat.
Proof.
  unfold hist1d. destruct (Nat.ltb_spec j (n_bins e)) as [H|H].
  - rewrite (nth_indep _ 0%nat (length (filter (in_bin e 0%nat) v))) by (rewrite map_length, seq_length; exact H). rewrite (map_nth (fun j => length (filter (in_bin e j) v))). rewrite seq_nth by exact H. reflexivity.
  - apply nth_overflow. rewrite map_length, seq_length. exact H.
Qed.
Lemma nth_hist2d x y v i j : (i < n_bins x)%nat -> (j < n_bins y)%nat -> nth j (nth i (hist2d x y v) []) 0%nat = length (filter (fun p => in_bin x i (fst p) && in_bin y j (snd p)) v).
Proof.
  intros Hi Hj. unfold hist2d. set (row := fun i => map (fun j => length (filter (fun p => in_bin x i (fst p) && in_bin y j (snd p)) v)) (seq 0 (n_edge_bins y))).
  rewrite (nth_indep _ [] (row 0%nat)) by (rewrite map_length, seq_length; exact Hi). rewrite (map_nth row). rewrite seq_nth by exact Hi. unfold row.
  rewrite (nth_indep _ 0%nat (length (filter (fun p => in_bin x (0 + i) (fst p) && in_bin y 0 (snd p)) v))) by (rewrite map_length, seq_length; exact Hj).
  rewrite (map_nth (fun j => length (filter (fun p => in_bin x (0 + i) (fst p) && in_bin y j (snd p)) v))). rewrite seq_nth by exact Hj. reflexivity.
Qed.
Definition residual_entries (lx ly : limits) (a : axis) (c : list track) : list R := match a with X => x_residuals lx ly c | Y => y_residuals lx ly c end.
Definition position_entries (lx ly : limits) (r p : axis) (c : list track) : list (R * R) :=
  match r, p with X, X => x_residuals_x_pos ly c | Y, Y => y_residuals_y_pos lx c | Y, X => y_residuals_x_pos ly c | X, Y => x_residuals_y_pos lx c end.
Definition diff (r : axis) (t : (R * R) * (R * R)) : R := coord r (fst t) - coord r (snd t).
Lemma residual_entries_eq lx ly a c : residual_entries lx ly a c = flat_map (entry (fun t => limit_x_sel lx t && limit_y_sel ly t) (diff a)) c.
Proof. rewrite <- entries_eq. destruct a; reflexivity. Qed.
Lemma position_entries_eq lx ly r p c : position_entries lx ly r p c = flat_map (entry (fun t => in_limits (limit_of lx ly (other p)) (coord (other p) (fst t))) (fun t => (coord p (snd t), diff r t))) c.
Proof. rewrite <- entries_eq. destruct r, p; reflexivity. Qed.
Definition residual_data (lx ly : limits) (a : axis) (e : edges) (chunks : list (list track)) : list nat := hist1d (r_edges e a) (flat_map (residual_entries lx ly a) chunks).
Definition position_data (lx ly : limits) (r p : axis) (e : edges) (chunks : list (list track)) : list (list nat) := hist2d (p_edges e p) (r_edges e r) (flat_map (position_entries lx ly r p) chunks).
Lemma residual_data_spec lx ly a e chunks j : (j < n_bins (r_edges e a))%nat ->
  number (in_residual_bin lx ly a (r_edges e a) j) (concat chunks) (nth j (residual_data lx ly a e chunks) 0%nat).
Proof.
  intros Hj. unfold residual_data. rewrite nth_hist1d. replace (j <? _)%nat with true by (symmetry; apply Nat.ltb_lt; exact Hj).
  rewrite (flat_map_concat _ _ _ (residual_entries_eq lx ly a)). apply count_entries. intros t. unfold in_residual_bin, limit_x_sel, limit_y_sel, diff. cbn [fst snd].
  split; intros (h & H); exists h; rewrite andb_true_iff, !within_iff, bin_iff in *; tauto.
Qed.
Lemma position_data_spec lx ly r p e chunks i j : (i < n_bins (p_edges e p))%nat -> (j < n_bins (r_edges e r))%nat ->
  number (in_position_bin lx ly r p (p_edges e p) (r_edges e r) i j) (concat chunks) (nth j (nth i (position_data lx ly r p e chunks) []) 0%nat).
Proof.
  intros Hi Hj. unfold position_data. rewrite nth_hist2d by assumption.
  rewrite (flat_map_concat _ _ _ (position_entries_eq lx ly r p)). apply count_entries. intros t. unfold in_position_bin, diff. cbn [fst snd].
  split; intros (h & H); exists h; rewrite andb_true_iff, within_iff, !bin_iff in *; tauto.
Qed.
(** *** C125 *)
Definition suffix (a : axis) : string := match a with X => "x" | Y => "y" end.
Lemma dut_nodes_eq dut cs rs lx ly e chunks : dut_nodes dut cs rs lx ly e chunks =
  match chunks with
  | [] => None
  | _ => Some [ Node "local_x_residuals" dut [residual_data lx ly X e chunks] (Some (res_x e)) None (residual_fit cs);
                Node "local_y_residuals" dut [residual_data lx ly Y e chunks] None (Some (res_y e)) (residual_fit rs);
                Node "local_x_residuals_x_pos" dut (position_data lx ly X X e chunks) (Some (pos_x e)) (Some (res_x e)) (Line lx);
                Node "local_y_residuals_y_pos" dut (position_data lx ly Y Y e chunks) (Some (pos_y e)) (Some (res_y e)) (Line ly);
                Node "local_y_residuals_x_pos" dut (position_data lx ly Y X e chunks) (Some (pos_x e)) (Some (res_y e)) (Line lx);
                Node "local_x_residuals_y_pos" dut (position_data lx ly X Y e chunks) (Some (pos_y e)) (Some (res_x e)) (Line ly) ]
  end.
Proof.
  destruct chunks as [|c cs']; [reflexivity|]. unfold dut_nodes. set (chunks := c :: cs').
  assert (N : chunks <> []) by discriminate.
  rewrite (over_chunks_app (hist1d (res_x e)) add1d (x_residuals lx ly) chunks (hist1d_app _) N).
  rewrite (over_chunks_app (hist1d (res_y e)) add1d (y_residuals lx ly) chunks (hist1d_app _) N).
  rewrite (over_chunks_app (hist2d (pos_x e) (res_x e)) add2d (x_residuals_x_pos ly) chunks (hist2d_app _ _) N).
  rewrite (over_chunks_app (hist2d (pos_y e) (res_y e)) add2d (y_residuals_y_pos lx) chunks (hist2d_app _ _) N).
  rewrite (over_chunks_app (hist2d (pos_x e) (res_y e)) add2d (y_residuals_x_pos ly) chunks (hist2d_app _ _) N).
  rewrite (over_chunks_app (hist2d (pos_y e) (res_x e)) add2d (x_residuals_y_pos lx) chunks (hist2d_app _ _) N).
  reflexivity.
Qed.
(** the size of the pixel in a direction *)
Definition pitch (cs rs : R) (a : axis) : R := match a with X => cs | Y => rs end.
(** what is stored for the residuals in direction a *)
Definition residual_node (dut : nat) (cs rs : R) (lx ly : limits) (e : edges) (chunks : list (list track)) (a : axis) (n : node) : Prop :=
  node_name n = ("local_" ++ suffix a ++ "_residuals")%string /\ node_dut n = dut /\
  (match a with X => x_edges n | Y => y_edges n end) = Some (r_edges e a) /\
  (exists h, data n = [h] /\ length h = n_bins (r_edges e a) /\
   forall j, (j < n_bins (r_edges e a))%nat -> number (in_residual_bin lx ly a (r_edges e a) j) (concat chunks) (nth j h 0%nat)) /\
  (pitch cs rs a < 80 -> fit n = Gauss) /\ (80 <= pitch cs rs a -> fit n = GaussBox (pitch cs rs a)).
(** what is stored for the residuals in direction r against the position p *)
Definition position_node (dut : nat) (lx ly : limits) (e : edges) (chunks : list (list track)) (r p : axis) (n : node) : Prop :=
  node_name n = ("local_" ++ suffix r ++ "_residuals_" ++ suffix p ++ "_pos")%string /\ node_dut n = dut /\
  x_edges n = Some (p_edges e p) /\ y_edges n = Some (r_edges e r) /\ fit n = Line (limit_of lx ly p) /\
  length (data n) = n_bins (p_edges e p) /\ (forall l, In l (data n) -> length l = n_bins (r_edges e r)) /\
  (forall i j, (i < n_bins (p_edges e p))%nat -> (j < n_bins (r_edges e r))%nat ->
   number (in_position_bin lx ly r p (p_edges e p) (r_edges e r) i j) (concat chunks) (nth j (nth i (data n) []) 0%nat)).
(** Six nodes are stored for a DUT: each counts, over all chunks, the tracks with hit and chi2 of each bin.  Limits of both coordinates of the hit apply to the residual histograms; only the limits of the other coordinate
    apply to the histograms against a position.  A Gauss function is fitted for pixels of less than 80 um, with a box of the pixel size otherwise; the line is fitted in the limits of the position. *)
Theorem C125_nodes : forall dut cs rs lx ly e chunks nodes, dut_nodes dut cs rs lx ly e chunks = Some nodes ->
  exists nx ny nxx nyy nyx nxy, nodes = [nx; ny; nxx; nyy; nyx; nxy] /\
  residual_node dut cs rs lx ly e chunks X nx /\ residual_node dut cs rs lx ly e chunks Y ny /\
  position_node dut lx ly e chunks X X nxx /\ position_node dut lx ly e chunks Y Y nyy /\ position_node dut lx ly e chunks Y X nyx /\ position_node dut lx ly e chunks X Y nxy.
Proof.
  intros dut cs rs lx ly e chunks nodes H. rewrite dut_nodes_eq in H. destruct chunks as [|c cs']; [discriminate|]. set (chunks := c :: cs') in *. injection H as <-.
  do 6 eexists. split; [reflexivity|].
  assert (F : forall s, (s < 80 -> residual_fit s = Gauss) /\ (80 <= s -> residual_fit s = GaussBox s)).
  { intros s. unfold residual_fit. split; intros L; [rewrite (proj2 (Rltb_true s 80) L)|rewrite (proj2 (Rltb_false s 80) L)]; reflexivity. }
  assert (L : forall x y v, length (hist2d x y v) = n_bins x /\ forall l, In l (hist2d x y v) -> length l = n_bins y).
  { intros x y v. unfold hist2d. rewrite map_length, seq_length. split; [reflexivity|]. intros l I. apply in_map_iff in I as (i & <- & _). rewrite map_length, seq_length. reflexivity. }
  assert (A : forall a n, n = Node ("local_" ++ suffix a ++ "_residuals")%string dut [residual_data lx ly a e chunks] (match a with X => Some (res_x e) | Y => None end) (match a with X => None | Y => Some (res_y e) end) (residual_fit (pitch cs rs a)) -> residual_node dut cs rs lx ly e chunks a n).
  { intros a n ->. unfold residual_node. cbn [node_name node_dut data fit x_edges y_edges]. split; [reflexivity|]. split; [reflexivity|]. split; [destruct a; reflexivity|]. split; [|apply F].
    eexists. split; [reflexivity|]. split; [unfold residual_data, hist1d; rewrite map_length, seq_length; reflexivity|]. intros j Hj. apply residual_data_spec, Hj. }
  assert (B : forall r p n, n = Node ("local_" ++ suffix r ++ "_residuals_" ++ suffix p ++ "_pos")%string dut (position_data lx ly r p e chunks) (Some (p_edges e p)) (Some (r_edges e r)) (Line (limit_of lx ly p)) -> position_node dut lx ly e chunks r p n).
  { intros r p n ->. unfold position_node. cbn [node_name node_dut data fit x_edges y_edges]. do 5 (split; [reflexivity|]). split; [apply L|]. split; [apply L|]. intros i j Hi Hj. apply position_data_spec; assumption. }
  split; [apply A; reflexivity|]. split; [apply A; reflexivity|]. split; [apply B; reflexivity|]. split; [apply B; reflexivity|]. split; apply B; reflexivity.
Qed.
(** The result does not depend on the chunks, as long as there is one (the edges, which are taken from the first chunk, are given here). *)
Theorem C125_chunking : forall dut cs rs lx ly e chunks chunks', chunks <> [] -> chunks' <> [] -> concat chunks = concat chunks' ->
  dut_nodes dut cs rs lx ly e chunks = dut_nodes dut cs rs lx ly e chunks'.
Proof.
  intros dut cs rs lx ly e chunks chunks' N N' E.
  assert (A : forall a, residual_data lx ly a e chunks = residual_data lx ly a e chunks') by (intros a; unfold residual_data; rewrite !(flat_map_concat _ _ _ (residual_entries_eq lx ly a)), E; reflexivity).
  assert (B : forall r p, position_data lx ly r p e chunks = position_data lx ly r p e chunks') by (intros r p; unfold position_data; rewrite !(flat_map_concat _ _ _ (position_entries_eq lx ly r p)), E; reflexivity).
  rewrite !dut_nodes_eq. destruct chunks; [congruence|]. destruct chunks'; [congruence|]. rewrite !A, !B. reflexivity.
Qed.
Lemma sum_number {A} (P : nat -> A -> Prop) (Q : A -> Prop) (f : nat -> nat) m l : (forall i, (i < m)%nat -> number (P i) l (f i)) ->
  (forall a, In a l -> Q a -> exists i, (i < m)%nat /\ P i a) -> (forall a i k, In a l -> P i a -> P k a -> i = k) -> (forall a i, In a l -> P i a -> Q a) -> (forall a, In a l -> Q a \/ ~ Q a) ->
  number Q l (fold_right Nat.add 0%nat (map f (seq 0 m))).
Proof.
  revert f. induction l as [|a l IH]; intros f H E U I D.
  - replace (fold_right Nat.add 0%nat (map f (seq 0 m))) with 0%nat; [constructor|]. symmetry.
    assert (Z : forall i, (i < m)%nat -> f i = 0%nat) by (intros i Hi; specialize (H i Hi); inversion H; reflexivity).
    assert (G : forall s n, (s + n <= m)%nat -> fold_right Nat.add 0%nat (map f (seq s n)) = 0%nat) by (intros s n; revert s; induction n as [|n IHn]; intros s Hs; cbn; [reflexivity|rewrite Z by lia; rewrite IHn by lia; reflexivity]).
    apply G. lia.
  - assert (IH' : forall f', (forall i, (i < m)%nat -> number (P i) l (f' i)) -> number Q l (fold_right Nat.add 0%nat (map f' (seq 0 m)))).
    { intros f' H'. apply IH; [exact H'|intros b J; apply E; right; exact J|intros b i k J; apply U; right; exact J|intros b i J; apply I; right; exact J|intros b J; apply D; right; exact J]. }
    destruct (D a (or_introl eq_refl)) as [Qa|Qa].
    + destruct (E a (or_introl eq_refl) Qa) as (i & Hi & Pi).
      set (f' := fun k => if Nat.eqb k i then (f k - 1)%nat else f k).
      assert (H' : forall k, (k < m)%nat -> number (P k) l (f' k)).
      { intros k Hk. unfold f'. specialize (H k Hk). destruct (Nat.eqb_spec k i) as [->|Nk].
        - inversion H as [|? ? n ? H''|]; subst; [|contradiction]. cbn. rewrite Nat.sub_0_r. exact H''.
        - inversion H as [|? ? n Pk|]; subst; [|assumption]. exfalso. apply Nk. apply (U a); auto. left. reflexivity. }
      assert (Fi : (1 <= f i)%nat) by (specialize (H i Hi); inversion H; subst; [lia|contradiction]).
      replace (fold_right Nat.add 0%nat (map f (seq 0 m))) with (S (fold_right Nat.add 0%nat (map f' (seq 0 m)))); [apply number_in; auto|].
      assert (G : forall n s, ((s <= i < s + n)%nat -> fold_right Nat.add 0%nat (map f (seq s n)) = S (fold_right Nat.add 0%nat (map f' (seq s n)))) /\ (~ (s <= i < s + n)%nat -> fold_right Nat.add 0%nat (map f (seq s n)) = fold_right Nat.add 0%nat (map f' (seq s n)))).
      { induction n as [|n IHn]; intros s; [split; [lia|reflexivity]|]. destruct (IHn (S s)) as (G1 & G2). cbn [seq map fold_right]. unfold f' at 1 3. destruct (Nat.eqb_spec s i) as [->|Ns].
        - split; [intros _; rewrite G2 by lia; lia|lia].
        - split; [intros Hs; rewrite G1 by lia; lia|intros Hs; rewrite G2 by lia; reflexivity]. }
      symmetry. apply (G m 0%nat). lia.
    + apply number_out; [exact Qa|]. apply IH'. intros k Hk. specialize (H k Hk). inversion H; subst; [|assumption]. exfalso. apply Qa. apply (I a k); [left; reflexivity|assumption].
Qed.
Lemma in_residual_dec lx ly a e j t : in_residual_bin lx ly a e j t \/ ~ in_residual_bin lx ly a e j t.
Proof.
  unfold in_residual_bin, has. destruct (hit t) as [h|] eqn:E; [|right; intros (h & (K & _) & _); discriminate].
  destruct (track_chi2 t) eqn:C; [|right; intros (h' & (_ & K) & _); congruence].
  destruct (in_limits lx (fst h) && in_limits ly (snd h) && in_bin e j (coord a h - coord a (intersection t))) eqn:B.
  - left. exists h. rewrite !andb_true_iff, !within_iff, bin_iff in B. split; [split; [reflexivity|discriminate]|tauto].
  - right. intros (h' & ([= <-] & _) & K). apply not_true_iff_false in B. apply B. rewrite !andb_true_iff, !within_iff, bin_iff. tauto.
Qed.
(** Summing a histogram against the position p over the positions gives the residual histogram, if the limits of p are not used and every position is within the position edges. *)
Theorem C125_projection : forall lx ly r p e chunks j, increasing (p_edges e p) -> (2 <= length (p_edges e p))%nat -> (j < n_bins (r_edges e r))%nat ->
  (forall t h, In t (concat chunks) -> has t h -> within (limit_of lx ly p) (coord p h) /\ nth 0 (p_edges e p) 0 <= coord p (intersection t) <= nth (length (p_edges e p) - 1) (p_edges e p) 0) ->
  forall dut cs rs nodes nr np, dut_nodes dut cs rs lx ly e chunks = Some nodes -> In nr nodes -> In np nodes ->
  residual_node dut cs rs lx ly e chunks r nr -> position_node dut lx ly e chunks r p np ->
  nth j (hd [] (data nr)) 0%nat = fold_right Nat.add 0%nat (map (fun i => nth j (nth i (data np) []) 0%nat) (seq 0 (n_bins (p_edges e p)))).
Proof.
  intros lx ly r p e chunks j Inc L2 Hj Hin dut cs rs nodes nr np _ _ _ Nr Np.
  destruct Nr as (_ & _ & _ & (h & -> & _ & Hh) & _). destruct Np as (_ & _ & _ & _ & _ & _ & _ & Hp). cbn [hd].
  apply (number_unique (in_residual_bin lx ly r (r_edges e r) j) (concat chunks)); [apply Hh, Hj|].
  apply (sum_number (fun i => in_position_bin lx ly r p (p_edges e p) (r_edges e r) i j)).
  - intros i Hi. apply Hp; assumption.
  - intros t I (h' & Hh' & Wx & Wy & B). destruct (Hin t h' I Hh') as (_ & Pos).
    destruct (C40_bins (p_edges e p) (coord p (intersection t)) Inc L2) as ((_ & Ex) & _). destruct (Ex Pos) as (i & Bi & _). apply bin_iff in Bi.
    exists i. split; [destruct Bi as (Li & _); unfold n_bins; lia|]. exists h'. split; [exact Hh'|]. split; [destruct p; cbn [other limit_of coord]; assumption|]. split; assumption.
  - intros t i k I (h1 & _ & _ & B1 & _) (h2 & _ & _ & B2 & _).
    destruct (C40_bins (p_edges e p) (coord p (intersection t)) Inc L2) as ((_ & Ex) & [Pos|No]).
    + destruct (Ex Pos) as (q & _ & U). apply bin_iff in B1, B2. rewrite (U i B1), (U k B2). reflexivity.
    + apply bin_iff in B1. rewrite No in B1. discriminate.
  - intros t i I (h' & Hh' & W & _ & B). destruct (Hin t h' I Hh') as (Wp & _). exists h'. split; [exact Hh'|]. destruct p; cbn [other limit_of coord] in *; auto.
  - intros t _. apply in_residual_dec.
Qed.
(** *** The file *)
Lemma create_inv new : forall file out, create_nodes file new = Some out -> out = file ++ new.
Proof. induction new as [|n t IH]; intros file out H; cbn in H; [injection H as <-; rewrite app_nil_r; reflexivity|]. destruct (existsb _ file); [discriminate|]. rewrite (IH _ _ H), <- app_assoc. reflexivity. Qed.
Definition key (n : node) : string * nat := (node_name n, node_dut n).
Lemma exists_key file n : existsb (fun m => String.eqb (node_name m) (node_name n) && Nat.eqb (node_dut m) (node_dut n)) file = true <-> In (key n) (map key file).
Proof.
  rewrite existsb_exists, in_map_iff. split.
  - intros (m & I & E). apply andb_true_iff in E as (A & B). apply String.eqb_eq in A. apply Nat.eqb_eq in B. exists m. split; [unfold key; congruence|exact I].
  - intros (m & E & I). exists m. split; [exact I|]. unfold key in E. injection E as -> ->. rewrite String.eqb_refl, Nat.eqb_refl. reflexivity.
Qed.
Lemma create_iff new : forall file, (exists out, create_nodes file new = Some out) <-> NoDup (map key new) /\ forall n, In n new -> ~ In (key n) (map key file).
Proof.
  induction new as [|n t IH]; intros file; cbn [create_nodes map]; [split; [intros _; split; [constructor|intros n []]|intros _; eexists; reflexivity]|].
  assert (K := exists_key file n). destruct (existsb _ file).
  - split; [intros (out & [=])|]. intros (_ & H). exfalso. apply (H n); [left; reflexivity|]. apply K. reflexivity.
  - rewrite IH. split.
    + intros (N & H). split.
      * constructor; [|exact N]. intros I. apply in_map_iff in I as (m & E & I). apply (H m I). rewrite map_app, in_app_iff. right. left. auto.
      * intros m [<-|I]; [intros Q; apply K in Q; discriminate|]. intros Q. apply (H m I). rewrite map_app, in_app_iff. left. exact Q.
    + intros (N & H). inversion N as [|? ? N1 N2]; subst. split; [exact N2|]. intros m I Q. rewrite map_app, in_app_iff in Q. destruct Q as [Q|[Q|[]]]; [apply (H m); [right; exact I|exact Q]|].
      apply N1. rewrite Q. apply in_map, I.
Qed.
Lemma dut_keys dut cs rs lx ly e chunks nodes : dut_nodes dut cs rs lx ly e chunks = Some nodes -> NoDup (map key nodes) /\ (forall n, In n nodes -> node_dut n = dut) /\ nodes <> [].
Proof.
  rewrite dut_nodes_eq. destruct chunks; [discriminate|]. intros [= <-]. split; [|split; [|discriminate]].
  - cbn [map key node_name node_dut]. repeat (constructor; [cbn; intuition discriminate|]). constructor.
  - intros n I. cbn in I. intuition; subst; reflexivity.
Qed.
Definition limits_used (u : bool) (l : limits) : limits := if u then l else None.
Definition nodes_of (u : bool) (telescope : nat -> residual_dut) (d : nat) : option (list node) :=
  dut_nodes d (d_column_size (telescope d)) (d_row_size (telescope d)) (limits_used u (d_x_limit (telescope d))) (limits_used u (d_y_limit (telescope d))) (d_edges (telescope d)) (d_chunks (telescope d)).
(** The file has the nodes of the selected DUTs one after the other.  It is written exactly if no DUT is selected twice and every selected DUT has a chunk of tracks; otherwise an exception is raised. *)
Theorem C125_file : forall u telescope select,
  (forall file, residuals_file u telescope [] select = Some file -> exists per_dut, Forall2 (fun d l => nodes_of u telescope d = Some l) select per_dut /\ file = concat per_dut) /\
  ((exists file, residuals_file u telescope [] select = Some file) <-> NoDup select /\ forall d, In d select -> d_chunks (telescope d) <> []).
Proof.
  intros u telescope select. split.
  - assert (G : forall select file0 file, residuals_file u telescope file0 select = Some file -> exists per_dut, Forall2 (fun d l => nodes_of u telescope d = Some l) select per_dut /\ file = file0 ++ concat per_dut).
    { clear select. induction select as [|d select IH]; intros file0 file H; cbn [residuals_file] in H.
      - injection H as <-. exists []. split; [constructor|]. cbn. rewrite app_nil_r. reflexivity.
      - destruct (dut_nodes d _ _ _ _ _ _) as [nodes|] eqn:D; [|discriminate]. destruct (create_nodes file0 nodes) as [f1|] eqn:C; [|discriminate]. apply create_inv in C. subst f1.
        destruct (IH _ _ H) as (per & F & ->). exists (nodes :: per). split; [constructor; [exact D|exact F]|]. cbn [concat]. rewrite app_assoc. reflexivity. }
    intros file H. destruct (G _ _ _ H) as (per & F & E). exists per. auto.
  - assert (G : forall select file0, (exists file, residuals_file u telescope file0 select = Some file) <-> NoDup select /\ (forall d, In d select -> d_chunks (telescope d) <> []) /\ forall d, In d select -> forall nodes, nodes_of u telescope d = Some nodes -> forall n, In n nodes -> ~ In (key n) (map key file0)).
    { clear select. induction select as [|d select IH]; intros file0; cbn [residuals_file].
      - split; [intros _; split; [constructor|split; [intros d []|intros d []]]|intros _; eexists; reflexivity].
      - change (dut_nodes d _ _ _ _ _ _) with (nodes_of u telescope d). destruct (nodes_of u telescope d) as [nodes|] eqn:D.
        + destruct (dut_keys _ _ _ _ _ _ _ _ D) as (N & Kd & Ne).
          assert (Ch : d_chunks (telescope d) <> []) by (intros Z; unfold nodes_of in D; rewrite dut_nodes_eq, Z in D; discriminate).
          assert (CI := create_iff nodes file0). destruct (create_nodes file0 nodes) as [f1|] eqn:C.
          * assert (E := create_inv _ _ _ C). subst f1. rewrite IH. destruct (proj1 CI (ex_intro _ _ eq_refl)) as (_ & Fresh). split.
            -- intros (N' & Ch' & H). split; [|split].
               ++ constructor; [|exact N']. intros I. destruct nodes as [|n t]; [congruence|]. apply (H d I _ D n (or_introl eq_refl)). rewrite map_app, in_app_iff. right. left. reflexivity.
               ++ intros x [<-|I]; auto.
               ++ intros x [<-|I] l Dl n J; [rewrite D in Dl; injection Dl as <-; auto|]. intros Q. apply (H x I l Dl n J). rewrite map_app, in_app_iff. left. exact Q.
            -- intros (N' & Ch' & H). inversion N' as [|? ? N1 N2]; subst. split; [exact N2|]. split; [intros x I; apply Ch'; right; exact I|].
               intros x I l Dl n J Q. rewrite map_app, in_app_iff in Q. destruct Q as [Q|Q]; [exact (H x (or_intror I) l Dl n J Q)|].
               apply in_map_iff in Q as (m & E & M). destruct (dut_keys _ _ _ _ _ _ _ _ Dl) as (_ & Kx & _). assert (node_dut m = node_dut n) by (unfold key in E; congruence). rewrite (Kd m M), (Kx n J) in H0. congruence.
          * split; [intros (f & [=])|]. intros (_ & _ & H). assert (X : exists out, @None (list node) = Some out) by (apply CI; split; [exact N|]; intros n J; apply (H d (or_introl eq_refl) _ D n J)). destruct X as (? & [=]).
        + split; [intros (f & [=])|]. intros (_ & Ch & _). exfalso. specialize (Ch d (or_introl eq_refl)). unfold nodes_of in D. rewrite dut_nodes_eq in D. destruct (d_chunks (telescope d)); [congruence|discriminate]. }
    rewrite G. split; [tauto|]. intros (N & C). split; [exact N|]. split; [exact C|]. intros d _ nodes _ n _ [].
Qed.
(** Refuted: the limits select the same tracks for all histograms.  A hit outside of the limits in x is left out of the residual histogram and of the histogram against the y position but counted against the x position. *)
Theorem C125_limits_refuted : exists lx ly e t, let nodes := dut_nodes 0 50 50 lx ly e [[t]] in
  exists nx nxx nxy, nodes <> None /\ (forall l, nodes = Some l -> In nx l /\ In nxx l /\ In nxy l) /\
  node_name nx = "local_x_residuals"%string /\ node_name nxx = "local_x_residuals_x_pos"%string /\ node_name nxy = "local_x_residuals_y_pos"%string /\
  data nx = [[0%nat]] /\ data nxx = [[1%nat]] /\ data nxy = [[0%nat]].
Proof.
  exists (Some (Some 0, Some 10)), None, (Edges [-1; 1] [-1; 1] [0; 30] [0; 30]), (Track (Some (20, 5)) (Some 1) (20, 5)). intros nodes.
  assert (L : in_limits (Some (Some 0, Some 10)) 20 = false) by (cbn; rewrite (proj2 (Rleb_false 20 10)); [apply andb_false_r|lra]).
  assert (B1 : in_bin [0; 30] 0 20 = true) by (apply bin_iff; unfold is_in_bin; cbn; split; [lia|split; [lra|left; lra]]).
  assert (B2 : in_bin [-1; 1] 0 (20 - 20) = true) by (apply bin_iff; unfold is_in_bin; cbn; split; [lia|split; [lra|left; lra]]).
  unfold nodes. rewrite dut_nodes_eq. do 3 eexists. split; [discriminate|]. split; [intros l [= <-]; split; [left; reflexivity|split; [right; right; left; reflexivity|do 5 right; left; reflexivity]]|].
  do 3 (split; [reflexivity|]). cbn [data]. split; [|split].
  - unfold residual_data. cbn [flat_map residual_entries app]. rewrite app_nil_r. unfold x_residuals. cbn [usable_tracks flat_map hit track_chi2 app filter]. unfold limit_x_sel. cbn [fst]. rewrite L. reflexivity.
  - unfold position_data. cbn [flat_map position_entries app]. rewrite app_nil_r. unfold x_residuals_x_pos. cbn [usable_tracks flat_map hit track_chi2 app filter limit_y_sel in_limits map intersection].
    unfold hist2d. cbn [p_edges r_edges n_edge_bins length Nat.sub seq map filter]. cbn [pos_x res_x n_edge_bins length Nat.sub seq map filter fst snd difference]. rewrite B1, B2. reflexivity.
  - unfold position_data. cbn [flat_map position_entries app]. rewrite app_nil_r. unfold x_residuals_y_pos. cbn [usable_tracks flat_map hit track_chi2 app filter]. unfold limit_x_sel. cbn [fst]. rewrite L. reflexivity.
Qed.
(** Two selected DUTs, one of small and one of large pixels, give a file of twelve nodes; selecting a DUT twice fails. *)
Definition case_telescope (d : nat) : residual_dut := ResidualDut (if Nat.eqb d 0 then 50 else 250) 50 (Some (Some (-5), None)) None (Edges [-1; 0; 1] [-1; 1] [0; 30] [0; 10; 20]) [[Track (Some (3, 4)) (Some 1) (2, 4)]; []].
Example C125_case : (exists file, residuals_file true case_telescope [] [0; 2]%nat = Some file /\ length file = 12%nat /\ exists n, In n file /\ node_dut n = 2%nat /\ fit n = GaussBox 250) /\ residuals_file true case_telescope [] [0; 0]%nat = None.
Proof.
  split.
  - destruct (C125_file true case_telescope [0; 2]%nat) as (A & B). destruct (proj2 B) as (file & F).
    { split; [constructor; [intros [K|[]]; discriminate|constructor; [intros []|constructor]]|intros d _; discriminate]. }
    exists file. split; [exact F|]. destruct (A file F) as (per & G & ->). inversion G as [|? l1 ? ? E1 G1]; subst. inversion G1 as [|? l2 ? ? E2 G2]; subst. inversion G2; subst.
    destruct (C125_nodes _ _ _ _ _ _ _ _ E1) as (? & ? & ? & ? & ? & ? & -> & _). destruct (C125_nodes _ _ _ _ _ _ _ _ E2) as (n2 & ? & ? & ? & ? & ? & -> & Nx & _). split; [reflexivity|]. exists n2. split; [cbn; tauto|].
    destruct Nx as (_ & D & _ & _ & _ & K). split; [exact D|]. apply K. cbn. lra.
  - destruct (residuals_file true case_telescope [] [0; 0]%nat) eqn:E; [|reflexivity]. destruct (C125_file true case_telescope [0; 0]%nat) as (_ & B). destruct (proj1 B (ex_intro _ _ E)) as (N & _). inversion N; subst. exfalso. apply H1. left. reflexivity.
Qed.

Print Assumptions C125_nodes.
Print Assumptions C125_chunking.
Print Assumptions C125_projection.
Print Assumptions C125_file.
Print Assumptions C125_limits_refuted.
