(** Properties of the file of cluster_hits *)
From Coq Require Import ZArith Reals Bool Arith Lia Lra Ascii String List Sorted.
From Verif Require Import EventArraysModel HistModel HistProofs HistProps SmcModel SmcProofs SmcProps ClusterHistModel ClusterHistProps ClusterSetupModel ChunksModel ChunksProps
  SmcNodesModel SmcNodesProofs SmcNodesProps ClusterFileModel.
Import ListNotations.
Local Open Scope list_scope.

Section Props.
Variables HIT CHIT REST : Type.
Variable hit_event : HIT -> Z.
Variable cluster_hit_event : CHIT -> Z.
Notation cluster := (cluster REST).
Notation row := (row HIT CHIT REST).
Notation row_event := (row_event HIT CHIT REST hit_event cluster_hit_event).
Variable clusterize : list HIT -> list CHIT * list cluster.
Notation HitRow := (HitRow HIT CHIT REST).
Notation ClusterRow := (ClusterRow HIT CHIT REST).
Notation ClusterHitRow := (ClusterHitRow HIT CHIT REST).
Notation run_smc := (run_smc HIT CHIT REST hit_event cluster_hit_event).
Notation cluster_file := (cluster_file HIT CHIT REST hit_event cluster_hit_event clusterize).

(** ---- specification of the clusterizer ---- *)
Definition sorted {T} (event : T -> Z) (l : list T) : Prop := StronglySorted (fun a b => (event a <= event b)%Z) l.
(** events are clustered independently; the clusters are in the order of the events; an event has not more clusters than hits; a cluster has at least one hit *)
Definition clusters_events : Prop :=
  clusterize [] = ([], []) /\
  (forall a b, (forall x y, In x a -> In y b -> (hit_event x < hit_event y)%Z) ->
     clusterize (a ++ b) = (fst (clusterize a) ++ fst (clusterize b), snd (clusterize a) ++ snd (clusterize b))) /\
  (forall l, sorted hit_event l -> sorted (c_event REST) (snd (clusterize l)) /\
     forall e, (event_rows (c_event REST) e (snd (clusterize l)) <= event_rows hit_event e l)%nat) /\
  (forall l c, In c (snd (clusterize l)) -> (1 <= c_n_hits REST c < 2 ^ 31 - 1)%Z).

(** ---- chunks ---- *)
Lemma map_sorted {T U} (f : T -> U) (event : U -> Z) l : sorted (fun x => event (f x)) l -> sorted event (map f l).
Proof.
  intros S. induction S as [|a l S IH F]; cbn; constructor; [exact IH|]. rewrite Forall_forall in F |- *. intros y I. apply in_map_iff in I. destruct I as (x & <- & I). apply F, I.
Qed.
Lemma event_rows_map {T U} (f : T -> U) (event : U -> Z) e l : event_rows event e (map f l) = event_rows (fun x => event (f x)) e l.
Proof. unfold event_rows. induction l as [|a l IH]; [reflexivity|]. cbn. destruct (event (f a) =? e)%Z; cbn; rewrite IH; reflexivity. Qed.

Lemma chunks_ok {T} (event : T -> Z) (rows : list T) cs : sorted event rows -> (1 <= cs)%nat -> (forall e, (event_rows event e rows < cs)%nat) ->
  exists ys, data_aligned_at_events event rows (Params None None None None cs false true true) = (ys, GenDone) /\ concat (map fst ys) = rows /\
    (forall c, In c (map fst ys) -> c <> [] /\ (List.length c <= cs)%nat) /\
    (forall pre c post, map fst ys = pre ++ c :: post -> forall a b, In a c -> In b (concat post) -> (event a < event b)%Z).
Proof.
  intros S H E. pose proof (C07_whole_table event rows cs S H) as W. pose proof (C07_aligned_chunks event rows (default_call cs) S (default_valid rows cs H)) as A.
  unfold default_call in W, A. destruct (data_aligned_at_events event rows _) as [ys e]. destruct W as (W1 & W2 & _). rewrite (W1 E) in *. destruct (W2 eq_refl) as [W3 _].
  exists ys. split; [reflexivity|]. split; [exact W3|]. destruct A as (rest & _ & R & _ & C & P). rewrite (R eq_refl) in P. split.
  - intros c I. apply in_map_iff in I. destruct I as ([c' n] & <- & I). destruct (C _ _ I) as (C1 & C2 & _). split; assumption.
  - intros pre c post Ey a b Ia Ib. apply (P pre c post Ey a b Ia). rewrite app_nil_r. exact Ib.
Qed.

(** the result of the clusterizer for the chunks *)
Lemma clusterize_chunks : clusters_events -> forall chunks, (forall pre c post, chunks = pre ++ c :: post -> forall a b, In a c -> In b (concat post) -> (hit_event a < hit_event b)%Z) ->
  clusterize (concat chunks) = (concat (map (fun c => fst (clusterize c)) chunks), concat (map (fun c => snd (clusterize c)) chunks)).
Proof.
  intros (C0 & C1 & _) chunks. induction chunks as [|c chunks IH]; intros H; [exact C0|]. cbn [concat map].
  rewrite C1, IH; [reflexivity| |].
  - intros pre c' post E. apply (H (c :: pre) c' post). rewrite E. reflexivity.
  - intros x y Ix Iy. exact (H [] c chunks eq_refl x y Ix Iy).
Qed.

(** ---- a run of SMC ---- *)
Lemma set_names_some several input names : set_names several input (map Some names) = Some names.
Proof. induction names as [|n names IH]; cbn; [reflexivity|]. rewrite IH. reflexivity. Qed.

Lemma run_ok (same : bool) (m : mode) (infile outfile : file row) table rows names func cs :
  (if same then m = ModeUpdate /\ infile = outfile else True) ->
  lookup table infile = Some (TableNode rows) -> sorted row_event rows -> (1 <= cs)%nat -> (forall e, (event_rows row_event e rows < cs)%nat) -> rows <> [] ->
  free_names names (open_file m outfile) ->
  (forall r, List.length (func r) = List.length names) -> (forall r r', map is_rows (func r) = map is_rows (func r')) ->
  exists chunks g, concat chunks = rows /\ (forall c, In c chunks -> c <> [] /\ (List.length c <= cs)%nat) /\
    (forall pre c post, chunks = pre ++ c :: post -> forall a b, In a c -> In b (concat post) -> (row_event a < row_event b)%Z) /\
    run_smc cs same m infile outfile table (map Some names) func = Some g /\
    (forall i n, nth_error names i = Some n -> holds_all (map func chunks) i (lookup n g)) /\ (forall k, ~ In k names -> lookup k g = lookup k (open_file m outfile)).
Proof.
  intros Sm L S H E Ne FN F1 F2. destruct (chunks_ok row_event rows cs S H E) as (ys & Ey & Ec & Hc & Hp).
  assert (map fst ys <> []) as Ny by (intro Z; rewrite Z in Ec; cbn in Ec; congruence).
  assert (fitting (List.length names) (map func (map fst ys))) as FIT.
  { split; [intro Z; apply map_eq_nil in Z; contradiction|]. split.
    - intros r I. apply in_map_iff in I. destruct I as (c & <- & _). apply F1.
    - intros r r' I I'. apply in_map_iff in I, I'. destruct I as (c & <- & _), I' as (c' & <- & _). apply F2. }
  destruct (C107_output names _ _ FN FIT) as (g & l & W & P & K).
  exists (map fst ys), g. split; [exact Ec|]. split; [exact Hc|]. split; [exact Hp|]. split; [|split; [exact P|exact K]].
  unfold ClusterFileModel.run_smc. rewrite L, Ey. unfold smc. cbn [select_node]. unfold exists_node. rewrite L, set_names_some.
  destruct same.
  - destruct Sm as [-> <-]. cbn [open_file] in W |- *. rewrite L, W. reflexivity.
  - rewrite L, W. reflexivity.
Qed.

Lemma holds_rows (func : list row -> list (item row)) chunks i x part : (forall c, nth_error (func c) i = Some (Rows (part c))) -> holds_all (map func chunks) i x -> chunks <> [] ->
  x = Some (TableNode (concat (map part chunks))).
Proof.
  intros N H Ne. destruct x as [[rows|h]|]; cbn in H; [| |contradiction].
  - destruct H as (parts & F & ->). do 2 f_equal. clear Ne. revert parts F. induction chunks as [|c chunks IH]; intros parts F; cbn in F; inversion F; subst; [reflexivity|].
    cbn. rewrite (IH _ H3). rewrite N in H1. injection H1 as ->. reflexivity.
  - destruct H as (parts & F & _). destruct chunks as [|c chunks]; [contradiction|]. cbn in F. inversion F; subst. rewrite N in H1. discriminate.
Qed.
Lemma holds_hist (func : list row -> list (item row)) chunks i x part : (forall c, nth_error (func c) i = Some (Hist (part c))) -> holds_all (map func chunks) i x -> chunks <> [] ->
  exists h, x = Some (ArrayNode h) /\ (forall j, nth j h 0%Z = sum_over (fun c => nth j (part c) 0%Z) chunks) /\
    (forall c, In c chunks -> (List.length (part c) <= List.length h)%nat) /\ exists c, In c chunks /\ List.length (part c) = List.length h.
Proof.
  intros N H Ne. destruct x as [[rows|h]|]; cbn in H; [| |contradiction].
  - destruct H as (parts & F & _). destruct chunks as [|c chunks]; [contradiction|]. cbn in F. inversion F; subst. rewrite N in H1. discriminate.
  - destruct H as (parts & F & H1 & H2 & H3). assert (parts = map part chunks) as ->.
    { clear - F N. revert parts F. induction chunks as [|c chunks IH]; intros parts F; cbn in F; inversion F; subst; [reflexivity|].
      cbn. rewrite (IH _ H3). rewrite N in H1. injection H1 as ->. reflexivity. }
    exists h. split; [reflexivity|]. split; [|split].
    + intros j. rewrite H1, map_map. reflexivity.
    + intros c I. apply H2, in_map, I.
    + destruct H3 as (p & I & E). apply in_map_iff in I. destruct I as (c & <- & I). exists c. split; assumption.
Qed.

Lemma of_rows {T} (f : T -> row) (g : row -> list T) l : (forall x, g (f x) = [x]) -> flat_map g (map f l) = l.
Proof. intros H. induction l as [|a l IH]; [reflexivity|]. cbn. rewrite H, IH. reflexivity. Qed.

(** the chunks of a table whose rows are all of one kind *)
Lemma chunks_kind {T} (f : T -> row) (g : row -> list T) (rows : list T) chunks : (forall x, g (f x) = [x]) -> concat chunks = map f rows ->
  exists parts, chunks = map (map f) parts /\ concat parts = rows /\ parts = map (flat_map g) chunks.
Proof.
  intros H. revert rows. induction chunks as [|c chunks IH]; intros rows E.
  - destruct rows; [|discriminate]. exists []. auto.
  - cbn in E. symmetry in E. apply map_eq_app in E. destruct E as (a & b & -> & <- & Eb). symmetry in Eb. destruct (IH b Eb) as (parts & -> & <- & Ep).
    exists (a :: parts). split; [reflexivity|]. split; [reflexivity|]. cbn. rewrite (of_rows f g a H), <- Ep. reflexivity.
Qed.

(** ---- the histograms of a chunk ---- *)
Definition largest (l : list Z) (m : Z) : Prop := In m l /\ forall v, In v l -> (v <= m)%Z.
Lemma size_list n ns : (forall v, In v (n :: ns) -> (1 <= v < 2 ^ 31 - 1)%Z) -> (Z.of_nat (List.length (n :: ns)) < 2 ^ 32)%Z ->
  exists r m, hist_1d_index (n :: ns) (fold_left Z.max ns n + 1) = Ok r /\ (forall k, nth k r 0%Z = number (fun v => (v =? Z.of_nat k)%Z) (n :: ns)) /\
    largest (n :: ns) m /\ Z.of_nat (List.length r) = (m + 1)%Z.
Proof.
  intros B Len. destruct (fold_max_le ns n) as (M1 & M2 & M3). set (m := fold_left Z.max ns n) in *.
  assert (Hm : In m (n :: ns)) by (destruct M3 as [->|H]; [left|right]; auto).
  assert (Le : forall v, In v (n :: ns) -> (v <= m)%Z) by (intros v [<-|H]; [exact M1|apply M2, H]).
  pose proof (B m Hm) as Bm. pose proof (C04_hist_1d (n :: ns) (m + 1)) as H.
  assert (H1 : forall v, In v (n :: ns) -> is_int32 v) by (intros v Hv; specialize (B v Hv); unfold is_int32; lia).
  specialize (H H1 ltac:(lia)). destruct (hist_1d_index _ _) as [r| | |]; try contradiction.
  - destruct H as (_ & L & N & _). exists r, m. split; [reflexivity|]. split; [|split; [split; assumption|exact L]].
    intros k. destruct (Z_lt_le_dec (Z.of_nat k) (m + 1)) as [Bk|Bk].
    + specialize (N (Z.of_nat k) ltac:(lia)). rewrite Nat2Z.id in N. rewrite N, times1_number. apply number_ext. intros c _. apply Z.eqb_sym.
    + rewrite nth_overflow by lia. symmetry. rewrite (number_ext _ (fun _ => false)); [|intros c Hc; specialize (Le c Hc); apply Z.eqb_neq; lia].
      unfold number. clear. induction (n :: ns); auto.
  - exfalso. destruct H as [(v & Hv & Bv)|(i & _ & Bv)].
    + specialize (B v Hv). specialize (Le v Hv). lia.
    + rewrite times1_number in Bv. pose proof (number_le (fun v => (i =? v)%Z) (n :: ns)). lia.
Qed.

(** a histogram of the values [l] with a bin for each number up to the largest *)
Definition size_histogram (l : list Z) (h : list Z) : Prop :=
  (forall k, nth k h 0%Z = number (fun v => (v =? Z.of_nat k)%Z) l) /\ exists m, largest l m /\ Z.of_nat (List.length h) = (m + 1)%Z.
(** a histogram of the shapes 0 to 65533; 65534 and 65535 share the last bin *)
Definition shape_histogram (l : list Z) (h : list Z) : Prop :=
  Z.of_nat (List.length h) = 65535%Z /\
  (forall k, (Z.of_nat k < 65534)%Z -> nth k h 0%Z = number (fun v => (v =? Z.of_nat k)%Z) l) /\
  (forall k, Z.of_nat k = 65534%Z -> nth k h 0%Z = number (fun v => ((v =? 65534) || (v =? 65535))%Z) l).

Lemma size_unique l h h' : size_histogram l h -> size_histogram l h' -> h = h'.
Proof.
  intros (A & m & (I & M) & L) (A' & m' & (I' & M') & L'). apply nth_ext with (d := 0%Z) (d' := 0%Z).
  - pose proof (M m' I'). pose proof (M' m I). lia.
  - intros k _. rewrite A, A'. reflexivity.
Qed.
Lemma shape_unique l h h' : shape_histogram l h -> shape_histogram l h' -> h = h'.
Proof.
  intros (L & A & B) (L' & A' & B'). apply nth_ext with (d := 0%Z) (d' := 0%Z); [lia|]. intros k Hk.
  destruct (Z_lt_le_dec (Z.of_nat k) 65534) as [C|C]; [rewrite A, A' by exact C; reflexivity|]. assert (Z.of_nat k = 65534%Z) as E by lia. rewrite B, B' by exact E. reflexivity.
Qed.

Lemma sum_number {T} (f : list T -> Z) (q : T -> bool) (parts : list (list T)) : (forall c, In c parts -> f c = number q c) -> sum_over f parts = number q (concat parts).
Proof.
  intros H. rewrite <- number_chunks. unfold sum_over. f_equal. apply map_ext_in. exact H.
Qed.
Lemma sum_over_map {T U} (f : U -> Z) (u : T -> U) l : sum_over f (map u l) = sum_over (fun x => f (u x)) l.
Proof. unfold sum_over. rewrite map_map. reflexivity. Qed.

Lemma shape_list l : Z.of_nat (List.length (np_histogram (arange (Z.to_nat (2 ^ 16))) l)) = 65535%Z /\
  (forall k, (Z.of_nat k < 65534)%Z -> nth k (np_histogram (arange (Z.to_nat (2 ^ 16))) l) 0%Z = number (fun v => (v =? Z.of_nat k)%Z) l) /\
  (forall k, Z.of_nat k = 65534%Z -> nth k (np_histogram (arange (Z.to_nat (2 ^ 16))) l) 0%Z = number (fun v => ((v =? 65534) || (v =? 65535))%Z) l).
Proof.
  assert (Ln : forall s n a, List.length (np_histogram (map Z.of_nat (seq s n)) a) = pred n).
  { clear. intros s n a. revert s. induction n as [|n IH]; intros s; [reflexivity|]. cbn [seq map]. destruct n as [|n]; [reflexivity|]. specialize (IH (S s)). cbn [seq map] in *. 
    change (S (List.length (np_histogram (Z.of_nat (S s) :: map Z.of_nat (seq (S (S s)) n)) a)) = S n). rewrite IH. reflexivity. }
  unfold arange. split; [rewrite Ln, Nat2Z.inj_pred_max, Z2Nat.id; [reflexivity|lia]|].
  assert (forall k, nth k (np_histogram (map Z.of_nat (seq 0 (Z.to_nat (2 ^ 16)))) l) 0%Z =
    if (Z.of_nat k <? 65535)%Z then (if (Z.of_nat k =? 65534)%Z then number (fun c => ((c =? 65534) || (c =? 65535))%Z) l else number (fun c => (c =? Z.of_nat k)%Z) l) else 0%Z) as E.
  { intros k. rewrite arange_bins. generalize (Z2Nat.id (2 ^ 16) ltac:(lia)). generalize (Z.to_nat (2 ^ 16)). change (2 ^ 16)%Z with 65536%Z. intros n En.
    cbn [Nat.add]. destruct (Nat.ltb_spec (S k) n), (Z.ltb_spec (Z.of_nat k) 65535); try lia.
    destruct (Nat.eqb_spec (S (S k)) n), (Z.eqb_spec (Z.of_nat k) 65534); try lia.
    apply number_ext. intros x _. rewrite e0. reflexivity. }
  split; intros k Hk; rewrite E.
  - destruct (Z.ltb_spec (Z.of_nat k) 65535), (Z.eqb_spec (Z.of_nat k) 65534); lia.
  - rewrite Hk. reflexivity.
Qed.

(** ---- C128 ---- *)
Notation set_error := (set_error REST).
(** the nodes of the file *)
Definition complete_file (positions : bool) (column_size row_size : R) (masks : option (option (list Z) * option (list Z))) (hits : list HIT) (g : file row) : Prop :=
  lookup "ClusterHits" g = Some (TableNode (map ClusterHitRow (fst (clusterize hits)))) /\
  lookup "Clusters" g = Some (TableNode (map (fun c => ClusterRow (set_error positions column_size row_size c)) (snd (clusterize hits)))) /\
  (exists h, lookup "HistClusterSize" g = Some (ArrayNode h) /\ size_histogram (map (c_n_hits REST) (snd (clusterize hits))) h) /\
  (exists h, lookup "HistClusterShape" g = Some (ArrayNode h) /\ shape_histogram (map (c_shape REST) (snd (clusterize hits))) h) /\
  lookup "DisabledPixelMask" g = match masks with Some (Some m, _) => Some (ArrayNode m) | _ => None end /\
  lookup "NoisyPixelMask" g = match masks with Some (_, Some m) => Some (ArrayNode m) | _ => None end /\
  forall k, ~ In k ["ClusterHits"; "Clusters"; "HistClusterSize"; "HistClusterShape"; "DisabledPixelMask"; "NoisyPixelMask"]%string -> lookup k g = None.

Lemma lookup_snoc (f : file row) n x k : lookup k (f ++ [(n, x)]) = match lookup k f with Some y => Some y | None => if String.eqb k n then Some x else None end.
Proof. induction f as [|[m y] f IH]; cbn; [reflexivity|]. destruct (String.eqb k m); [reflexivity|exact IH]. Qed.

Definition input_ok (chunk_size : nat) (infile : file row) (hits : list HIT) : Prop :=
  lookup "Hits" infile = Some (TableNode (map HitRow hits)) /\ sorted hit_event hits /\ (1 <= chunk_size)%nat /\ (Z.of_nat chunk_size < 2 ^ 32)%Z /\
  forall e, (event_rows hit_event e hits < chunk_size)%nat.

(** the first run: both tables *)
Lemma first_run chunk_size infile outfile hits : clusters_events -> input_ok chunk_size infile hits -> hits <> [] ->
  exists g, run_smc chunk_size false ModeW infile outfile "Hits" [Some "ClusterHits"; Some "Clusters"]%string (cluster_items HIT CHIT REST clusterize) = Some g /\
    lookup "ClusterHits" g = Some (TableNode (map ClusterHitRow (fst (clusterize hits)))) /\ lookup "Clusters" g = Some (TableNode (map ClusterRow (snd (clusterize hits)))) /\
    forall k, ~ In k ["ClusterHits"; "Clusters"]%string -> lookup k g = None.
Proof.
  intros CE (L & S & P & _ & E) Ne.
  destruct (run_ok false ModeW infile outfile "Hits" (map HitRow hits) ["ClusterHits"; "Clusters"]%string (cluster_items HIT CHIT REST clusterize) chunk_size) as (chunks & g & Ec & Hc & Hp & W & K1 & K2).
  - exact Logic.I.
  - exact L.
  - apply map_sorted. exact S.
  - exact P.
  - intros e. rewrite event_rows_map. apply E.
  - intro Z. apply map_eq_nil in Z. contradiction.
  - split; [repeat constructor; cbn; intuition discriminate|]. split; [reflexivity|]. intros n m [<-|[<-|[]]] [<-|[<-|[]]]; discriminate.
  - reflexivity.
  - reflexivity.
  - assert (chunks <> []) as Nc by (intro Z; subst chunks; cbn in Ec; symmetry in Ec; apply map_eq_nil in Ec; contradiction).
    destruct (chunks_kind HitRow (fun r => match r with ClusterFileModel.HitRow _ _ _ h => [h] | _ => [] end) hits chunks (fun _ => eq_refl) Ec) as (parts & Ep & Eh & Eq).
    assert (clusterize hits = (concat (map (fun c => fst (clusterize c)) parts), concat (map (fun c => snd (clusterize c)) parts))) as CC.
    { rewrite <- Eh. apply clusterize_chunks; [exact CE|]. intros pre c post E1 a b Ia Ib.
      apply (Hp (map (map HitRow) pre) (map HitRow c) (map (map HitRow) post)) with (a := HitRow a) (b := HitRow b).
      - rewrite Ep, E1, map_app. reflexivity.
      - apply in_map, Ia.
      - rewrite <- concat_map. apply in_map, Ib. }
    exists g. split; [exact W|]. split; [|split].
    + rewrite (holds_rows (cluster_items HIT CHIT REST clusterize) chunks 0 _ (fun c => map ClusterHitRow (fst (clusterize (hits_of HIT CHIT REST c)))) (fun _ => eq_refl) (K1 0%nat _ eq_refl) Nc).
      rewrite CC. cbn [fst]. rewrite concat_map, map_map, Eq, map_map. reflexivity.
    + rewrite (holds_rows (cluster_items HIT CHIT REST clusterize) chunks 1 _ (fun c => map ClusterRow (snd (clusterize (hits_of HIT CHIT REST c)))) (fun _ => eq_refl) (K1 1%nat _ eq_refl) Nc).
      rewrite CC. cbn [snd]. rewrite concat_map, map_map, Eq, map_map. reflexivity.
    + intros k N. rewrite (K2 k N). reflexivity.
Qed.

(** a later run, on the table of clusters *)
Lemma later_run chunk_size (f : file row) clusters names func : sorted (c_event REST) clusters -> (1 <= chunk_size)%nat -> (forall e, (event_rows (c_event REST) e clusters < chunk_size)%nat) -> clusters <> [] ->
  lookup "Clusters" f = Some (TableNode (map ClusterRow clusters)) -> free_names names f ->
  (forall r, List.length (func r) = List.length names) -> (forall r r', map is_rows (func r) = map is_rows (func r')) ->
  exists parts g, concat parts = clusters /\ (forall c, In c parts -> c <> [] /\ (List.length c <= chunk_size)%nat) /\ parts <> [] /\
    run_smc chunk_size true ModeUpdate f f "Clusters" (map Some names) func = Some g /\
    (forall i n, nth_error names i = Some n -> holds_all (map func (map (map ClusterRow) parts)) i (lookup n g)) /\ (forall k, ~ In k names -> lookup k g = lookup k f).
Proof.
  intros S P E Ne L FN F1 F2.
  destruct (run_ok true ModeUpdate f f "Clusters" (map ClusterRow clusters) names func chunk_size) as (chunks & g & Ec & Hc & Hp & W & K1 & K2); try assumption.
  - auto.
  - apply map_sorted. exact S.
  - intros e. rewrite event_rows_map. apply E.
  - intro Z. apply map_eq_nil in Z. contradiction.
  - destruct (chunks_kind ClusterRow (fun r => match r with ClusterFileModel.ClusterRow _ _ _ h => [h] | _ => [] end) clusters chunks (fun _ => eq_refl) Ec) as (parts & Ep & Eh & _).
    subst chunks. exists parts, g. split; [exact Eh|]. split.
    + intros c I. destruct (Hc (map ClusterRow c) (in_map _ _ _ I)) as [N1 N2]. rewrite map_length in N2. split; [|exact N2]. intros ->. apply N1. reflexivity.
    + split; [intros ->; cbn in Eh; subst clusters; contradiction|]. split; [exact W|]. split; [exact K1|exact K2].
Qed.

(** Without exception the file has exactly these nodes, whatever the chunk size is. *)
Theorem C128_file : forall positions column_size row_size chunk_size masks infile outfile hits, clusters_events -> input_ok chunk_size infile hits -> snd (clusterize hits) <> [] ->
  (positions = true -> forall d n, masks = Some (d, n) -> d = None /\ n = None) ->
  exists g, cluster_file positions column_size row_size chunk_size masks infile outfile = Some g /\ complete_file positions column_size row_size masks hits g.
Proof.
  intros positions column_size row_size chunk_size masks infile outfile hits CE IO Nc Hm.
  assert (hits <> []) as Nh by (intros ->; rewrite (proj1 CE) in Nc; contradiction).
  destruct (first_run chunk_size infile outfile hits CE IO Nh) as (g1 & W1 & A1 & B1 & D1).
  destruct IO as (_ & S & P & Big & E). pose proof CE as (_ & _ & CS & CN). destruct (CS hits S) as [S2 E2].
  assert (forall e, (event_rows (c_event REST) e (snd (clusterize hits)) < chunk_size)%nat) as E3 by (intro e; specialize (E2 e); specialize (E e); lia).
  set (clusters := snd (clusterize hits)) in *.
  assert (forall n (f : file row), lookup (n ++ "_tmp") f = None -> free_names [n] f) as FN.
  { intros n f T. split; [constructor; [intros []|constructor]|]. split; [intros m [<-|[]]; exact T|]. intros a b [<-|[]] [<-|[]]. apply tmp_neq. }
  (* the sizes *)
  destruct (later_run chunk_size g1 clusters ["HistClusterSize"]%string (size_items HIT CHIT REST) S2 P E3 Nc B1) as (p2 & g2 & Ep2 & Hp2 & Np2 & W2 & K2 & D2); [| reflexivity | reflexivity |].
  { apply FN, D1. cbn. intuition discriminate. }
  specialize (K2 0%nat _ eq_refl).
  destruct (holds_hist (size_items HIT CHIT REST) (map (map ClusterRow) p2) 0 _
    (fun c => match map (c_n_hits REST) (clusters_of HIT CHIT REST c) with [] => [] | n :: ns => match hist_1d_index (n :: ns) (fold_left Z.max ns n + 1) with Ok h => h | _ => [] end end) (fun _ => eq_refl) K2)
    as (h2 & L2 & V2 & M2 & X2); [intro Z; apply map_eq_nil in Z; contradiction|].
  assert (forall c, clusters_of HIT CHIT REST (map ClusterRow c) = c) as CO by (intros c; apply (of_rows ClusterRow); reflexivity).
  assert (forall c, In c p2 -> exists r m, match map (c_n_hits REST) (clusters_of HIT CHIT REST (map ClusterRow c)) with [] => [] | n :: ns => match hist_1d_index (n :: ns) (fold_left Z.max ns n + 1) with Ok h => h | _ => [] end end = r /\
    (forall k, nth k r 0%Z = number (fun v => (v =? Z.of_nat k)%Z) (map (c_n_hits REST) c)) /\ largest (map (c_n_hits REST) c) m /\ Z.of_nat (List.length r) = (m + 1)%Z) as Sz.
  { intros c I. rewrite CO. destruct (Hp2 c I) as [N1 N2]. destruct c as [|x c]; [contradiction|]. cbn [map].
    destruct (size_list (c_n_hits REST x) (map (c_n_hits REST) c)) as (r & m & -> & R1 & R2 & R3).
    - intros v Iv. change (In v (map (c_n_hits REST) (x :: c))) in Iv. apply in_map_iff in Iv. destruct Iv as (y & <- & Iy). apply (CN hits). fold clusters. rewrite <- Ep2. apply in_concat. eauto.
    - cbn [List.length] in *. rewrite map_length. lia.
    - exists r, m. auto. }
  assert (size_histogram (map (c_n_hits REST) clusters) h2) as H2.
  { split.
    - intros k. rewrite V2, sum_over_map, <- Ep2, number_map. apply sum_number. intros c I. destruct (Sz c I) as (r & m & -> & R1 & _). rewrite R1, number_map. reflexivity.
    - destruct X2 as (c & I & Lc). apply in_map_iff in I. destruct I as (c' & <- & I). destruct (Sz c' I) as (r & m & Er & _ & [R2 R2'] & R3). exists m. rewrite Er in Lc. split; [|lia]. split.
      + rewrite <- Ep2. apply in_map_iff in R2. destruct R2 as (y & <- & Iy). apply in_map, in_concat. eauto.
      + intros v Iv. rewrite <- Ep2 in Iv. apply in_map_iff in Iv. destruct Iv as (y & <- & Iy). apply in_concat in Iy. destruct Iy as (d & Id & Iy).
        specialize (M2 _ (in_map _ _ _ Id)). destruct (Sz d Id) as (r' & m' & Er' & _ & [_ R2''] & R3'). rewrite Er' in M2. specialize (R2'' _ (in_map (c_n_hits REST) _ _ Iy)). lia. }
  (* the shapes *)
  assert (lookup "Clusters" g2 = Some (TableNode (map ClusterRow clusters))) as B2 by (rewrite D2; [exact B1|cbn; intuition discriminate]).
  destruct (later_run chunk_size g2 clusters ["HistClusterShape"]%string (shape_items HIT CHIT REST) S2 P E3 Nc B2) as (p3 & g3 & Ep3 & Hp3 & Np3 & W3 & K3 & D3); [| reflexivity | reflexivity |].
  { apply FN. rewrite D2 by (cbn; intuition discriminate). apply D1. cbn. intuition discriminate. }
  specialize (K3 0%nat _ eq_refl).
  destruct (holds_hist (shape_items HIT CHIT REST) (map (map ClusterRow) p3) 0 _
    (fun c => np_histogram (arange (Z.to_nat (2 ^ 16))) (map (c_shape REST) (clusters_of HIT CHIT REST c))) (fun _ => eq_refl) K3) as (h3 & L3 & V3 & M3 & X3); [intro Z; apply map_eq_nil in Z; contradiction|].
  assert (shape_histogram (map (c_shape REST) clusters) h3) as H3.
  { split; [|split].
    - destruct X3 as (c & _ & <-). apply shape_list.
    - intros k Hk. rewrite V3, sum_over_map, <- Ep3, number_map. apply sum_number. intros c I. rewrite CO. rewrite (proj1 (proj2 (shape_list _)) k Hk), number_map. reflexivity.
    - intros k Hk. rewrite V3, sum_over_map, <- Ep3, number_map. apply sum_number. intros c I. rewrite CO. rewrite (proj2 (proj2 (shape_list _)) k Hk), number_map. reflexivity. }
  (* the errors *)
  assert (lookup "Clusters" g3 = Some (TableNode (map ClusterRow clusters))) as B3 by (rewrite D3; [exact B2|cbn; intuition discriminate]).
  destruct (later_run chunk_size g3 clusters ["Clusters"]%string (fun rows => [Rows (map (error_row HIT CHIT REST positions column_size row_size) rows)]) S2 P E3 Nc B3)
    as (p4 & g4 & Ep4 & Hp4 & Np4 & W4 & K4 & D4); [| reflexivity | reflexivity |].
  { apply FN. rewrite D3, D2 by (cbn; intuition discriminate). apply D1. cbn. intuition discriminate. }
  specialize (K4 0%nat _ eq_refl).
  pose proof (holds_rows (fun rows => [Rows (map (error_row HIT CHIT REST positions column_size row_size) rows)]) (map (map ClusterRow) p4) 0 _ (map (error_row HIT CHIT REST positions column_size row_size)) (fun _ => eq_refl) K4) as B4.
  specialize (B4 ltac:(intro Z; apply map_eq_nil in Z; contradiction)).
  rewrite <- concat_map, <- concat_map, Ep4, map_map in B4.
  assert (run_smc chunk_size true ModeUpdate g3 g3 "Clusters" [None] (fun rows => [Rows (map (error_row HIT CHIT REST positions column_size row_size) rows)]) = Some g4) as W4'.
  { revert W4. unfold ClusterFileModel.run_smc. rewrite B3. destruct (data_aligned_at_events _ _ _) as [ys []]; try discriminate. cbn [map].
    rewrite <- (proj2 (C107_names true ModeUpdate g3 g3 (Named "Clusters") [None] _ _) "Clusters"%string); [auto|]. cbn. unfold exists_node. rewrite B3. reflexivity. }
  assert (forall k, ~ In k ["ClusterHits"; "Clusters"; "HistClusterSize"; "HistClusterShape"]%string -> lookup k g4 = None) as D5.
  { intros k N. cbn in N. rewrite D4, D3, D2, D1; [reflexivity|cbn; tauto..]. }
  assert (lookup "ClusterHits" g4 = Some (TableNode (map ClusterHitRow (fst (clusterize hits))))) as A4.
  { rewrite D4, D3, D2; [exact A1|cbn; intuition discriminate..]. }
  assert (lookup "HistClusterSize" g4 = Some (ArrayNode h2)) as L2' by (rewrite D4, D3; [exact L2|cbn; intuition discriminate..]).
  assert (lookup "HistClusterShape" g4 = Some (ArrayNode h3)) as L3' by (rewrite D4; [exact L3|cbn; intuition discriminate..]).
  unfold ClusterFileModel.cluster_file.
  assert (masks_accepted positions (option_map (fun m => (match fst m with Some _ => true | None => false end, match snd m with Some _ => true | None => false end)) masks) = true) as ->.
  { destruct masks as [[d n]|]; [|reflexivity]. cbn. destruct positions; [|reflexivity]. destruct (Hm eq_refl d n eq_refl) as [-> ->]. reflexivity. }
  cbn [map] in W2, W3. rewrite W1, W2, W3, W4'. unfold complete_file. fold clusters.
  destruct masks as [[d n]|].
  2:{ exists g4. split; [reflexivity|]. split; [exact A4|]. split; [exact B4|]. split; [eauto|]. split; [eauto|]. split; [apply D5; cbn; intuition discriminate|]. split; [apply D5; cbn; intuition discriminate|].
      intros k N. apply D5. cbn in *. tauto. }
  assert (lookup "DisabledPixelMask" g4 = None) as ND by (apply D5; cbn; intuition discriminate).
  assert (lookup "NoisyPixelMask" g4 = None) as NN by (apply D5; cbn; intuition discriminate).
  assert (exists g, match copy_mask HIT CHIT REST "DisabledPixelMask" d g4 with None => None | Some f => copy_mask HIT CHIT REST "NoisyPixelMask" n f end = Some g /\
    (forall k, k <> "DisabledPixelMask"%string -> k <> "NoisyPixelMask"%string -> lookup k g = lookup k g4) /\
    lookup "DisabledPixelMask" g = option_map (@ArrayNode row) d /\ lookup "NoisyPixelMask" g = option_map (@ArrayNode row) n) as (g & Wg & O & Md & Mn).
  { unfold copy_mask, exists_node. destruct d as [d|].
    - rewrite ND. destruct n as [n|].
      + rewrite lookup_snoc, NN. cbn [String.eqb Ascii.eqb Bool.eqb]. eexists. split; [reflexivity|]. split; [|split].
        * intros k N1 N2. rewrite !lookup_snoc. apply String.eqb_neq in N1, N2. rewrite N1, N2. destruct (lookup k g4); reflexivity.
        * rewrite !lookup_snoc, ND. reflexivity.
        * rewrite !lookup_snoc, NN. reflexivity.
      + eexists. split; [reflexivity|]. split; [|split].
        * intros k N1 _. rewrite !lookup_snoc. apply String.eqb_neq in N1. rewrite N1. destruct (lookup k g4); reflexivity.
        * rewrite !lookup_snoc, ND. reflexivity.
        * rewrite !lookup_snoc, NN. reflexivity.
    - destruct n as [n|].
      + rewrite NN. eexists. split; [reflexivity|]. split; [|split].
        * intros k _ N1. rewrite !lookup_snoc. apply String.eqb_neq in N1. rewrite N1. destruct (lookup k g4); reflexivity.
        * rewrite !lookup_snoc, ND. reflexivity.
        * rewrite !lookup_snoc, NN. reflexivity.
      + exists g4. split; [reflexivity|]. auto. }
  exists g. split; [exact Wg|]. rewrite !O by discriminate. split; [exact A4|]. split; [exact B4|]. split; [eauto|]. split; [eauto|].
  split; [rewrite Md; destruct d; reflexivity|]. split; [rewrite Mn; destruct n; reflexivity|].
  intros k N. cbn in N. rewrite O; [|intuition..]. apply D5. cbn. tauto.
Qed.

(** If no cluster is found, for example because all pixels are masked, there is no complete file: the run over the (empty) table of clusters does not end normally. *)
Theorem C128_no_cluster : forall positions column_size row_size chunk_size masks infile outfile hits, clusters_events -> input_ok chunk_size infile hits -> snd (clusterize hits) = [] ->
  cluster_file positions column_size row_size chunk_size masks infile outfile = None.
Proof.
  intros positions column_size row_size chunk_size masks infile outfile hits CE IO Nc. unfold ClusterFileModel.cluster_file. destruct (masks_accepted _ _); [|reflexivity].
  assert (forall f l d func, lookup l f = Some (@TableNode row []) -> (1 <= chunk_size)%nat -> forall same m out, (same = true -> open_file m out = f) -> run_smc chunk_size same m f out l d func = None) as Empty.
  { intros f l d func L P same m out Hs. unfold ClusterFileModel.run_smc. rewrite L.
    destruct (chunks_ok row_event [] chunk_size) as (ys & -> & Ec & Hc & _); [constructor|exact P|intros e; cbn; lia|].
    assert (map fst ys = []) as ->. { destruct ys as [|[c n] ys]; [reflexivity|]. cbn in Ec. apply app_eq_nil in Ec. destruct (Hc c (or_introl eq_refl)) as [N _]. destruct N. apply Ec. }
    unfold smc. cbn [select_node]. unfold exists_node. rewrite L. destruct (set_names _ _ _); [|reflexivity].
    destruct same; [rewrite (Hs eq_refl)|]; rewrite L; reflexivity. }
  destruct hits as [|x hits'] eqn:Eh.
  - rewrite Empty; [reflexivity| | |discriminate]; [exact (proj1 IO)|apply IO].
  - destruct (first_run chunk_size infile outfile (x :: hits') CE IO) as (g & -> & _ & B & _); [discriminate|]. rewrite Nc in B.
    rewrite (Empty g); [reflexivity|exact B|apply IO|reflexivity].
Qed.

(** The file does not depend on the chunk size. *)
Theorem C128_chunk_size : forall positions column_size row_size chunk_size chunk_size' masks infile outfile outfile' hits g g', clusters_events -> input_ok chunk_size infile hits -> input_ok chunk_size' infile hits ->
  snd (clusterize hits) <> [] ->
  cluster_file positions column_size row_size chunk_size masks infile outfile = Some g -> cluster_file positions column_size row_size chunk_size' masks infile outfile' = Some g' ->
  forall k, lookup k g = lookup k g'.
Proof.
  intros positions column_size row_size cs cs' masks infile outfile outfile' hits g g' CE IO IO' N W W' k.
  assert (positions = true -> forall d n, masks = Some (d, n) -> d = None /\ n = None) as Hm.
  { intros -> d n ->. unfold ClusterFileModel.cluster_file in W. cbn in W. destruct d, n; try discriminate. auto. }
  destruct (C128_file positions column_size row_size cs masks infile outfile hits CE IO N Hm) as (f & E & A1 & A2 & (h & A3 & A3') & (s & A4 & A4') & A5 & A6 & A7). rewrite W in E. injection E as <-.
  destruct (C128_file positions column_size row_size cs' masks infile outfile' hits CE IO' N Hm) as (f & E & B1 & B2 & (h' & B3 & B3') & (s' & B4 & B4') & B5 & B6 & B7). rewrite W' in E. injection E as <-.
  rewrite (size_unique _ _ _ B3' A3') in B3. rewrite (shape_unique _ _ _ B4' A4') in B4.
  destruct (in_dec string_dec k ["ClusterHits"; "Clusters"; "HistClusterSize"; "HistClusterShape"; "DisabledPixelMask"; "NoisyPixelMask"]%string) as [I|I].
  - cbn in I. intuition (subst; congruence).
  - rewrite A7, B7 by exact I. reflexivity.
Qed.
End Props.

(** The stored clusters are those of the clusterizer, in their order and with all of their columns but the two errors: these are the pixel size over sqrt 12 if the hits have positions, and 1 / sqrt 12 in units of pixels otherwise. *)
Theorem C128_errors HIT CHIT REST hit_event cluster_hit_event (clusterize : list HIT -> list CHIT * list (cluster REST)) positions column_size row_size chunk_size masks infile outfile hits :
  clusters_events HIT CHIT REST hit_event clusterize -> input_ok HIT CHIT REST hit_event chunk_size infile hits -> snd (clusterize hits) <> [] ->
  (positions = true -> forall d n, masks = Some (d, n) -> d = None /\ n = None) -> (column_size <> 0)%R -> (row_size <> 0)%R ->
  exists g rows, cluster_file HIT CHIT REST hit_event cluster_hit_event clusterize positions column_size row_size chunk_size masks infile outfile = Some g /\ lookup "Clusters" g = Some (TableNode rows) /\
    Forall2 (fun c r => exists c', r = ClusterRow HIT CHIT REST c' /\ c_event REST c' = c_event REST c /\ c_n_hits REST c' = c_n_hits REST c /\ c_shape REST c' = c_shape REST c /\ c_rest REST c' = c_rest REST c /\
      c_err REST c' = if positions then (column_size / sqrt 12, row_size / sqrt 12)%R else (/ sqrt 12, / sqrt 12)%R) (snd (clusterize hits)) rows.
Proof.
  intros CE IO Nc Hm Sc Sr. destruct (C128_file HIT CHIT REST hit_event cluster_hit_event clusterize positions column_size row_size chunk_size masks infile outfile hits CE IO Nc Hm) as (g & W & _ & L & _).
  eexists. eexists. split; [exact W|]. split; [exact L|]. generalize (snd (clusterize hits)) as l. induction l as [|c l IH]; cbn [map]; constructor; [|exact IH].
  eexists. split; [reflexivity|]. destruct positions; cbn; repeat (split; [reflexivity|]); [reflexivity|].
  rewrite (proj1 (ClusterHistProps.C89_index_error column_size Sc)), (proj1 (ClusterHistProps.C89_index_error row_size Sr)). reflexivity.
Qed.

(** One would expect that the file tells the extents of the clusters, which are calculated for each cluster (C119).  They are overwritten: two clusterizers whose clusters differ in nothing but
    these two columns give the same file. *)
Theorem C128_extents_refuted : forall HIT CHIT REST hit_event cluster_hit_event (clusterize clusterize' : list HIT -> list CHIT * list (cluster REST)) positions column_size row_size chunk_size masks
    infile outfile hits g g',
  clusters_events HIT CHIT REST hit_event clusterize -> clusters_events HIT CHIT REST hit_event clusterize' ->
  (forall l, fst (clusterize l) = fst (clusterize' l) /\
     Forall2 (fun c d => c_event REST c = c_event REST d /\ c_n_hits REST c = c_n_hits REST d /\ c_shape REST c = c_shape REST d /\ c_rest REST c = c_rest REST d) (snd (clusterize l)) (snd (clusterize' l))) ->
  input_ok HIT CHIT REST hit_event chunk_size infile hits -> snd (clusterize hits) <> [] ->
  cluster_file HIT CHIT REST hit_event cluster_hit_event clusterize positions column_size row_size chunk_size masks infile outfile = Some g ->
  cluster_file HIT CHIT REST hit_event cluster_hit_event clusterize' positions column_size row_size chunk_size masks infile outfile = Some g' ->
  forall k, lookup k g = lookup k g'.
Proof.
  intros HIT CHIT REST hit_event cluster_hit_event clusterize clusterize' positions column_size row_size cs masks infile outfile hits g g' CE CE' Same IO N W W' k.
  assert (positions = true -> forall d n, masks = Some (d, n) -> d = None /\ n = None) as Hm.
  { intros -> d n ->. unfold cluster_file in W. cbn in W. destruct d, n; try discriminate. auto. }
  destruct (Same hits) as [Sf Ss].
  assert (snd (clusterize' hits) <> []) as N' by (intro Z; rewrite Z in Ss; inversion Ss; congruence).
  destruct (C128_file HIT CHIT REST hit_event cluster_hit_event clusterize positions column_size row_size cs masks infile outfile hits CE IO N Hm) as (f & E & A1 & A2 & (h & A3 & A3') & (s & A4 & A4') & A5 & A6 & A7). rewrite W in E. injection E as <-.
  destruct (C128_file HIT CHIT REST hit_event cluster_hit_event clusterize' positions column_size row_size cs masks infile outfile hits CE' IO N' Hm) as (f & E & B1 & B2 & (h' & B3 & B3') & (s' & B4 & B4') & B5 & B6 & B7). rewrite W' in E. injection E as <-.
  assert (map (c_n_hits REST) (snd (clusterize hits)) = map (c_n_hits REST) (snd (clusterize' hits)) /\ map (c_shape REST) (snd (clusterize hits)) = map (c_shape REST) (snd (clusterize' hits)) /\
    map (fun c => ClusterRow HIT CHIT REST (set_error REST positions column_size row_size c)) (snd (clusterize hits)) = map (fun c => ClusterRow HIT CHIT REST (set_error REST positions column_size row_size c)) (snd (clusterize' hits))) as (M1 & M2 & M3).
  { clear - Ss. induction Ss as [|c d l l' (Q1 & Q2 & Q3 & Q4) _ (I1 & I2 & I3)]; [auto|]. cbn [map]. rewrite I1, I2, I3, Q2, Q3. unfold set_error. rewrite Q1, Q2, Q3, Q4. auto. }
  rewrite M1 in A3'. rewrite M2 in A4'. rewrite M3 in A2. rewrite Sf in A1.
  rewrite (size_unique _ _ _ B3' A3') in B3. rewrite (shape_unique _ _ _ B4' A4') in B4.
  destruct (in_dec string_dec k ["ClusterHits"; "Clusters"; "HistClusterSize"; "HistClusterShape"; "DisabledPixelMask"; "NoisyPixelMask"]%string) as [I|I].
  - cbn in I. intuition (subst; congruence).
  - rewrite A7, B7 by exact I. reflexivity.
Qed.

(** A clusterizer that makes a cluster of each hit, and a table with three events: the hypotheses are met. *)
Example C128_case : let clusterize := fun l : list Z => (l, map (fun e => Cluster unit e 1 1 (0, 0)%R tt) l) in
  let hits := [1; 1; 4; 5]%Z in let infile := [("Hits"%string, TableNode (map (HitRow Z Z unit) hits))] in
  clusters_events Z Z unit (fun e => e) clusterize /\ input_ok Z Z unit (fun e => e) 3 infile hits /\ snd (clusterize hits) <> [] /\
  exists g, cluster_file Z Z unit (fun e => e) (fun e => e) clusterize false 250 50 3 (Some (Some [0; 1]%Z, None)) infile [] = Some g /\
    lookup "HistClusterSize" g = Some (ArrayNode [0; 4]%Z) /\ lookup "DisabledPixelMask" g = Some (ArrayNode [0; 1]%Z) /\ lookup "NoisyPixelMask" g = None.
Proof.
  intros clusterize hits infile.
  assert (clusters_events Z Z unit (fun e => e) clusterize) as CE.
  { split; [reflexivity|]. split; [|split].
    - intros a b _. unfold clusterize. cbn. rewrite map_app. reflexivity.
    - intros l S. unfold clusterize. cbn [snd]. split; [apply map_sorted; exact S|]. intros e. rewrite event_rows_map. apply le_n.
    - intros l c I. cbn in I. apply in_map_iff in I. destruct I as (e & <- & _). cbn. lia. }
  assert (input_ok Z Z unit (fun e => e) 3 infile hits) as IO.
  { split; [reflexivity|]. split; [repeat (constructor; [|repeat constructor; lia]); constructor|]. split; [lia|]. split; [lia|].
    intros e. unfold event_rows, hits. cbn [filter]. destruct (1 =? e)%Z eqn:E1, (4 =? e)%Z eqn:E4, (5 =? e)%Z eqn:E5; cbn; lia. }
  split; [exact CE|]. split; [exact IO|]. split; [discriminate|].
  destruct (C128_file Z Z unit (fun e => e) (fun e => e) clusterize false 250 50 3 (Some (Some [0; 1]%Z, None)) infile [] hits CE IO) as (g & W & _ & _ & (h & L & H) & _ & M1 & M2 & _); [discriminate|discriminate|].
  exists g. split; [exact W|]. split; [|auto]. rewrite L. do 2 f_equal. apply (size_unique _ _ _ H). split.
  - intros [|[|k]]; [reflexivity|reflexivity|]. transitivity 0%Z; [destruct k; reflexivity|]. symmetry. change (map (c_n_hits unit) (snd (clusterize hits))) with [1; 1; 1; 1]%Z. unfold number. cbn [filter].
    destruct (Z.eqb_spec 1 (Z.of_nat (S (S k)))) as [E|E]; [lia|reflexivity].
  - exists 1%Z. split; [|reflexivity]. split; [left; reflexivity|]. cbn. intros v I. lia.
Qed.

Print Assumptions C128_file.
Print Assumptions C128_no_cluster.
Print Assumptions C128_chunk_size.
Print Assumptions C128_errors.
Print Assumptions C128_extents_refuted.
