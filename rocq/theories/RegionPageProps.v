(** C156: frames and labels of the efficiency regions. *)
From Coq Require Import Ascii String.
From Coq Require Import List Bool Arith QArith Qminmax Qabs Lia Lqa.
From Verif Require Import FileNamesModel ConverterNamesModel ConverterNamesProps RegionPageModel.
Import ListNotations.
Local Open Scope nat_scope.

(** ** Specification *)
(** a value is between two ends which are given in any order *)
Definition within (ends : Q * Q) (v : Q) : Prop := (fst ends <= v <= snd ends \/ snd ends <= v <= fst ends)%Q.
(** a point is in the frame of a label *)
Definition framed (l : region_label) (x y : Q) : Prop := (frame_x l <= x <= frame_x l + frame_width l /\ frame_y l <= y <= frame_y l + frame_height l)%Q.
(** the label of a region: the frame has the points of the region, the text is in the middle *)
Definition marks (r : region) (l : region_label) : Prop :=
  (forall x y, framed l x y <-> within (fst r) x /\ within (snd r) y) /\ framed l (text_x l) (text_y l) /\ (text_x l - frame_x l == frame_x l + frame_width l - text_x l)%Q /\ (text_y l - frame_y l == frame_y l + frame_height l - text_y l)%Q /\
  (text_rotation l = Vertical <-> (2 * frame_width l < frame_height l)%Q).

(** ** Proofs *)
Lemma span a b : (Qmin a b + Qabs (b - a) == Qmax a b)%Q.
Proof. destruct (Q.min_spec a b) as [(A & E)|(A & E)], (Q.max_spec a b) as [(B & F)|(B & F)]; rewrite E, F; try lra; [rewrite Qabs_pos by lra; lra|rewrite Qabs_neg by lra; lra]. Qed.
Lemma within_span a b v : (Qmin a b <= v <= Qmin a b + Qabs (b - a))%Q <-> within (a, b) v.
Proof. rewrite span. unfold within. cbn [fst snd]. destruct (Q.min_spec a b) as [(A & E)|(A & E)], (Q.max_spec a b) as [(B & F)|(B & F)]; rewrite E, F; lra. Qed.
Lemma middle_span a b : ((a + b) / 2 - Qmin a b == Qmin a b + Qabs (b - a) - (a + b) / 2)%Q.
Proof. rewrite span. assert (H : ((a + b) / 2 == (a + b) * (1 # 2))%Q) by reflexivity. rewrite H. destruct (Q.min_spec a b) as [(A & E)|(A & E)], (Q.max_spec a b) as [(B & F)|(B & F)]; rewrite E, F; lra. Qed.
Lemma middle_within a b : within (a, b) ((a + b) / 2).
Proof. unfold within. cbn [fst snd]. assert (H : ((a + b) / 2 == (a + b) * (1 # 2))%Q) by reflexivity. rewrite H. destruct (Qlt_le_dec a b); lra. Qed.
Lemma label_marks i r n e : marks r (label_of i r n e).
Proof.
  destruct r as ((a, b), (c, d)). unfold marks, framed, label_of. cbn [frame_x frame_y frame_width frame_height text_x text_y text_rotation fst snd]. split; [intros x y; rewrite !within_span; reflexivity|]. split; [rewrite !within_span; split; apply middle_within|]. split; [apply middle_span|]. split; [apply middle_span|].
  unfold label_rotation. cbn [fst snd]. assert (W := span a b). assert (H := span c d). assert (W0 := Qabs_nonneg (b - a)). assert (H0 := Qabs_nonneg (d - c)). set (w := (Qmax a b - Qmin a b)%Q). set (h := (Qmax c d - Qmin c d)%Q). assert (Ew : (w == Qabs (b - a))%Q) by (unfold w; lra). assert (Eh : (h == Qabs (d - c))%Q) by (unfold h; lra).
  destruct (Qle_bool w (h * 2)) eqn:P; cbn [negb].
  - destruct (Qle_bool h (w * 2)) eqn:R; cbn [negb].
    + apply Qle_bool_iff in R. split; [discriminate|]. intros X. exfalso. lra.
    + split; [intros _|reflexivity]. assert (N : ~ (h <= w * 2)%Q) by (intros X; apply Qle_bool_iff in X; congruence). apply Qnot_le_lt in N. lra.
  - assert (N : ~ (w <= h * 2)%Q) by (intros X; apply Qle_bool_iff in X; congruence). apply Qnot_le_lt in N. split; [discriminate|]. intros X. exfalso. lra.
Qed.
Lemma labels_nth names effs : forall regions index l, region_labels index regions names effs = Some l -> length l = length regions /\
  forall k r, nth_error regions k = Some r -> exists n e, nth_error names (index + k) = Some n /\ nth_error effs (index + k) = Some e /\ nth_error l k = Some (label_of (index + k) r n e).
Proof.
  induction regions as [|r rs IH]; intros index l; cbn [region_labels]; [intros [= <-]; split; [reflexivity|intros [|k] r; discriminate]|].
  destruct (nth_error names index) as [n|] eqn:N; [|discriminate]. destruct (nth_error effs index) as [e|] eqn:E; [|discriminate]. destruct (region_labels (S index) rs names effs) as [m|] eqn:M; [|discriminate]. intros [= <-]. destruct (IH _ _ M) as (L & K). split; [cbn; rewrite L; reflexivity|].
  intros [|k] r'; cbn [nth_error]; [intros [= <-]; exists n, e; rewrite Nat.add_0_r; auto|]. intros H. destruct (K k r' H) as (n' & e' & A & B & C). exists n', e'. replace (index + S k) with (S index + k) by lia. auto.
Qed.
Lemma labels_total names effs : forall regions index, index + length regions <= length names -> index + length regions <= length effs -> exists l, region_labels index regions names effs = Some l.
Proof.
  induction regions as [|r rs IH]; intros index N E; cbn [region_labels length] in *; [eexists; reflexivity|]. destruct (nth_error names index) eqn:A; [|apply nth_error_None in A; lia]. destruct (nth_error effs index) eqn:B; [|apply nth_error_None in B; lia]. destruct (IH (S index)) as (l & ->); [lia|lia|]. eexists. reflexivity.
Qed.
(** With a name and an efficiency for each region there are two pages with the same labels: one for each region, in their order; its frame contains exactly the points of the region, the text is in its middle and vertical exactly if the region is more than twice as high as wide, the number is the efficiency in percent. *)
Theorem C156_labels regions names effs : regions <> [] -> length regions <= length names -> length regions <= length effs ->
  exists l, region_overview regions names effs = Some [l; l] /\ length l = length regions /\
    forall k r, nth_error regions k = Some r -> exists lab e, nth_error l k = Some lab /\ nth_error effs k = Some e /\ marks r lab /\ match e with Some v => exists p, percent lab = Some p /\ (p == 100 * v)%Q | None => percent lab = None end.
Proof.
  intros H N E. destruct (labels_total names effs regions 0 N E) as (l & L). exists l. unfold region_overview. destruct regions as [|r0 rs]; [contradiction|]. rewrite L. split; [reflexivity|]. destruct (labels_nth _ _ _ _ _ L) as (A & B). split; [exact A|]. intros k r K. destruct (B k r K) as (n & e & _ & Ee & Le). exists (label_of (0 + k) r n e), e. split; [exact Le|]. split; [exact Ee|]. split; [apply label_marks|]. destruct e as [v|]; cbn; [|reflexivity]. eexists. split; [reflexivity|]. ring.
Qed.
Lemma digits_split a b c d : (forall x, In x a -> 48 <= nat_of_ascii x <= 57) -> (forall x, In x b -> 48 <= nat_of_ascii x <= 57) -> (exists x r, c = x :: r /\ ~ 48 <= nat_of_ascii x <= 57) -> (exists x r, d = x :: r /\ ~ 48 <= nat_of_ascii x <= 57) -> a ++ c = b ++ d -> a = b /\ c = d.
Proof.
  intros A B (x & r & -> & X) (y & s & -> & Y). revert b B. induction a as [|u a IH]; intros [|v b] B E; cbn [app] in E.
  - auto.
  - injection E as -> _. exfalso. apply X, B. left. reflexivity.
  - injection E as -> _. exfalso. apply Y, A. left. reflexivity.
  - injection E as -> E. destruct (IH ltac:(intros z I; apply A; right; exact I) b ltac:(intros z I; apply B; right; exact I) E) as (-> & F). split; [reflexivity|exact F].
Qed.
(** The headings begin with "Region " and the number of the region counted from 1, followed by the name in parentheses if it is not empty, and a colon; headings of different regions are different whatever their names are. *)
Theorem C156_headings regions names effs l : region_labels 0 regions names effs = Some l -> forall i lab, nth_error l i = Some lab ->
  (exists name digits, nth_error names i = Some name /\ value digits = i + 1 /\ heading lab = list_ascii_of_string "Region " ++ digits ++ match name with None | Some [] => list_ascii_of_string ":" | Some n => list_ascii_of_string " (" ++ n ++ list_ascii_of_string "):" end) /\
  forall j lab', nth_error l j = Some lab' -> heading lab = heading lab' -> i = j.
Proof.
  intros L i lab I. destruct (labels_nth _ _ _ _ _ L) as (A & B). assert (G : forall k b, nth_error l k = Some b -> exists r n e, nth_error names k = Some n /\ b = label_of k r n e).
  { intros k b K. assert (Lk : k < length l) by (apply nth_error_Some; congruence). destruct (nth_error regions k) as [r|] eqn:R; [|apply nth_error_None in R; lia]. destruct (B k r R) as (n & e & N & _ & C). cbn [Nat.add] in *. exists r, n, e. split; [exact N|congruence]. }
  destruct (G i lab I) as (r & n & e & N & ->). split.
  - exists n, (decimal (i + 1)). split; [exact N|]. split; [apply C153_number|]. unfold label_of. cbn [heading]. unfold region_heading. destruct n as [[|c m]|]; reflexivity || (rewrite <- !app_assoc; reflexivity).
  - intros j lab' J E. destruct (G j lab' J) as (r' & n' & e' & N' & ->). unfold label_of in E. cbn [heading] in E. unfold region_heading in E. apply app_inv_head in E.
    assert (T : forall name : option path, exists x t, (match name with Some (c :: m) => list_ascii_of_string " (" ++ (c :: m) ++ list_ascii_of_string ")" | _ => [] end ++ list_ascii_of_string ":")%list = x :: t /\ ~ 48 <= nat_of_ascii x <= 57) by (intros [[|c m]|]; eexists _, _; (split; [reflexivity|]); vm_compute; lia).
    apply digits_split in E; [|apply C153_number|apply C153_number|apply T|apply T]. destruct E as (E & _). apply decimal_inj in E. lia.
Qed.
(** Without a region there is no page; a missing name or efficiency ends the plots with an IndexError. *)
Theorem C156_missing regions names effs : (regions = [] -> region_overview regions names effs = Some []) /\ (length names < length regions \/ length effs < length regions -> region_overview regions names effs = None).
Proof.
  split; [intros ->; reflexivity|]. intros H. unfold region_overview. destruct regions as [|r rs]; [cbn in H; lia|]. destruct (region_labels 0 (r :: rs) names effs) as [l|] eqn:L; [|reflexivity]. exfalso. destruct (labels_nth _ _ _ _ _ L) as (_ & B).
  set (k := length rs). destruct (nth_error (r :: rs) k) as [q|] eqn:Q; [|apply nth_error_None in Q; cbn in Q; unfold k in Q; lia]. destruct (B k q Q) as (n & e & N & E & _). assert (k < length names) by (apply nth_error_Some; cbn in N; congruence). assert (k < length effs) by (apply nth_error_Some; cbn in E; congruence). unfold k in *. cbn [length] in H. lia.
Qed.
(** "The labels do not cover each other" is false: regions with the same middle have their texts at the same place. *)
Theorem C156_overlap_refuted : exists r r' : region, (exists x y, within (fst r) x /\ within (snd r) y /\ ~ (within (fst r') x /\ within (snd r') y)) /\ forall i j n m e f, (text_x (label_of i r n e) == text_x (label_of j r' m f))%Q /\ (text_y (label_of i r n e) == text_y (label_of j r' m f))%Q.
Proof.
  exists ((0, 10), (0, 10))%Q, ((4, 6), (4, 6))%Q. split; [|intros; split; reflexivity]. exists 0%Q, 0%Q. unfold within. cbn [fst snd]. split; [lra|]. split; [lra|]. lra.
Qed.

(** Non-vacuity: a high region with a name and a square one without tracks. *)
Example C156_case : match region_overview [((3, 1), (0, 10)); ((0, 1), (0, 1))]%Q [Some (list_ascii_of_string "edge"); None] [Some (99 # 100)%Q; None] with
  | Some [l; m] => l = m /\ map (fun a => (string_of_list_ascii (heading a), text_rotation a, Qred (text_x a), Qred (text_y a))) l = [("Region 1 (edge):"%string, Vertical, 2%Q, 5%Q); ("Region 2:"%string, Horizontal, (1 # 2)%Q, (1 # 2)%Q)] | _ => False end.
Proof. vm_compute. split; reflexivity. Qed.

Print Assumptions C156_labels.
Print Assumptions C156_headings.
Print Assumptions C156_missing.
Print Assumptions C156_overlap_refuted.
