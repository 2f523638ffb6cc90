(** C152: default names of output files. *)
From Coq Require Import Ascii String.
From Coq Require Import List Bool Arith Lia FinFun.
From Verif Require Import FileNamesModel.
Import ListNotations.
Local Open Scope nat_scope.

(** ** Specification *)
(** a file name has a directory (empty or ending with the separator) and a last part without separators *)
Definition directory (d : path) : Prop := d = [] \/ exists e, d = e ++ [slash].
(** root and extension: together the name; an extension is a dot and further characters without dots and separators, in front of which the last part of the name has another character than dots;
    without extension the last part has no dot after another character *)
Definition root_and_extension (p root ext : path) : Prop :=
  p = root ++ ext /\ exists d n, directory d /\ root = d ++ n /\ ~ In slash n /\
  ((exists e, ext = dot :: e /\ ~ In dot e /\ ~ In slash e /\ exists c, In c n /\ c <> dot) \/ (ext = [] /\ forall a b, n = a ++ dot :: b -> ~ In dot b -> Forall (eq dot) a)).
(** the files of a chain of steps: the output of each step is the input of the next *)
Fixpoint chain (p : path) (steps : list step) : list path := match steps with [] => [p] | s :: r => p :: chain (default_output s p) r end.

(** ** Proofs *)
Lemma rfind_app c a b : ~ In c b -> rfind c (a ++ c :: b) = Some (length a).
Proof.
  intros N. induction a as [|x a IH].
  - cbn [app rfind length]. assert (H : rfind c b = None). { induction b as [|y b IH]; [reflexivity|]. cbn [rfind]. rewrite IH by (intros I; apply N; right; exact I). destruct (Ascii.eqb_spec y c) as [->|]; [elim N; left; reflexivity|reflexivity]. } rewrite H, Ascii.eqb_refl. reflexivity.
  - cbn [app rfind length]. rewrite IH. reflexivity.
Qed.
Lemma rfind_none c p : ~ In c p -> rfind c p = None.
Proof. induction p as [|y p IH]; intros N; [reflexivity|]. cbn [rfind]. rewrite IH by (intros I; apply N; right; exact I). destruct (Ascii.eqb_spec y c) as [->|]; [elim N; left; reflexivity|reflexivity]. Qed.
Lemma last_one (c : ascii) p : ~ In c p \/ exists a b, p = a ++ c :: b /\ ~ In c b.
Proof.
  induction p as [|x p [IH|(a & b & -> & N)]]; [left; intros []| |right; exists (x :: a), b; split; [reflexivity|exact N]].
  destruct (ascii_dec x c) as [->|D]; [right; exists [], p; split; [reflexivity|exact IH]|left; intros [E|I]; [exact (D E)|exact (IH I)]].
Qed.
Lemma parts p : exists d n, directory d /\ p = d ++ n /\ ~ In slash n.
Proof.
  destruct (last_one slash p) as [N|(a & b & -> & N)]; [exists [], p; split; [left; reflexivity|split; [reflexivity|exact N]]|].
  exists (a ++ [slash]), b. split; [right; exists a; reflexivity|]. rewrite <- app_assoc. split; [reflexivity|exact N].
Qed.
Lemma start_of d n : directory d -> ~ In slash n -> match rfind slash (d ++ n) with None => 0 | Some s => S s end = length d.
Proof.
  intros [->|(e & ->)] N; [rewrite rfind_none by exact N; reflexivity|]. rewrite <- app_assoc. cbn [app]. rewrite rfind_app by exact N. rewrite app_length. cbn [length]. lia.
Qed.
Lemma split_found d n e : directory d -> ~ In slash n -> ~ In slash e -> ~ In dot e -> (exists c, In c n /\ c <> dot) -> splitext (d ++ n ++ dot :: e) = (d ++ n, dot :: e).
Proof.
  intros D N S E (c & I & C). unfold splitext. rewrite app_assoc, (rfind_app dot (d ++ n) e E). rewrite <- app_assoc. rewrite (start_of d (n ++ dot :: e) D).
  2: { intros H. apply in_app_or in H. destruct H as [H|[H|H]]; [exact (N H)|discriminate H|exact (S H)]. }
  rewrite app_length. replace (length d + length n - length d) with (length n) by lia. rewrite skipn_app, skipn_all, Nat.sub_diag. cbn [skipn app]. rewrite firstn_app, firstn_all, Nat.sub_diag, firstn_O, app_nil_r.
  rewrite (proj2 (Nat.leb_le _ _)) by lia. cbn [andb]. assert (H : existsb (fun c => negb (Ascii.eqb c dot)) n = true). { apply existsb_exists. exists c. split; [exact I|]. destruct (Ascii.eqb_spec c dot); [contradiction|reflexivity]. }
  rewrite H. rewrite app_assoc, <- app_length. rewrite firstn_app, firstn_all, Nat.sub_diag, firstn_O, app_nil_r. rewrite skipn_app, skipn_all, Nat.sub_diag. reflexivity.
Qed.
Lemma dots l : Forall (eq dot) l \/ exists c, In c l /\ c <> dot.
Proof.
  induction l as [|x l [IH|(c & I & C)]]; [left; constructor| |right; exists c; split; [right; exact I|exact C]].
  destruct (ascii_dec x dot) as [->|D]; [left; constructor; [reflexivity|exact IH]|right; exists x; split; [left; reflexivity|exact D]].
Qed.
Lemma split_none d n : directory d -> ~ In slash n -> (forall a b, n = a ++ dot :: b -> ~ In dot b -> Forall (eq dot) a) -> splitext (d ++ n) = (d ++ n, []).
Proof.
  intros D N H. unfold splitext. rewrite (start_of d n D N). destruct (last_one dot n) as [M|(a & b & -> & M)].
  - destruct (rfind dot (d ++ n)) as [k|] eqn:R; [|reflexivity]. destruct (last_one dot d) as [L|(a & b & -> & L)].
    + rewrite rfind_none in R by (intros I; apply in_app_or in I; tauto). discriminate.
    + rewrite <- app_assoc in R. cbn [app] in R. rewrite rfind_app in R by (intros I; apply in_app_or in I; tauto). injection R as <-. rewrite (proj2 (Nat.leb_gt _ _)) by (rewrite app_length; cbn [length]; lia). reflexivity.
  - rewrite app_assoc, (rfind_app dot (d ++ a) b M), <- app_assoc, app_length. replace (length d + length a - length d) with (length a) by lia. rewrite skipn_app, skipn_all, Nat.sub_diag. cbn [skipn app]. rewrite firstn_app, firstn_all, Nat.sub_diag, firstn_O, app_nil_r.
    assert (E : existsb (fun c => negb (Ascii.eqb c dot)) a = false).
    { specialize (H a b eq_refl M). induction H as [|x a <- F IH]; [reflexivity|]. cbn [existsb]. rewrite Ascii.eqb_refl. cbn [negb orb]. apply IH. intros I. apply N. right. exact I. }
    rewrite E, andb_false_r. reflexivity.
Qed.
(** splitext: root and extension *)
Theorem C152_splitext p : root_and_extension p (fst (splitext p)) (snd (splitext p)).
Proof.
  destruct (parts p) as (d & n & D & -> & N). destruct (last_one dot n) as [M|(a & b & -> & M)].
  - assert (H : forall a b, n = a ++ dot :: b -> ~ In dot b -> Forall (eq dot) a) by (intros a b -> _; elim M; apply in_or_app; right; left; reflexivity).
    rewrite (split_none d n D N H). cbn [fst snd]. split; [rewrite app_nil_r; reflexivity|]. exists d, n. split; [exact D|]. split; [reflexivity|]. split; [exact N|]. right. split; [reflexivity|exact H].
  - assert (Na : ~ In slash a) by (intros I; apply N, in_or_app; left; exact I). assert (Nb : ~ In slash b) by (intros I; apply N, in_or_app; right; right; exact I). destruct (dots a) as [F|C].
    + assert (H : forall a' b', a ++ dot :: b = a' ++ dot :: b' -> ~ In dot b' -> Forall (eq dot) a').
      { intros a' b' E M'. assert (L : length a = length a'). { assert (R := rfind_app dot a b M). rewrite E, (rfind_app dot a' b' M') in R. injection R as ->. reflexivity. }
        assert (X : firstn (length a) (a ++ dot :: b) = firstn (length a') (a' ++ dot :: b')) by (rewrite E, L; reflexivity). rewrite !firstn_app, !firstn_all, !Nat.sub_diag, !firstn_O, !app_nil_r in X. rewrite <- X. exact F. }
      rewrite (split_none d (a ++ dot :: b) D N H). cbn [fst snd]. split; [rewrite app_nil_r; reflexivity|]. exists d, (a ++ dot :: b). split; [exact D|]. split; [reflexivity|]. split; [exact N|]. right. split; [reflexivity|exact H].
    + rewrite (split_found d a b D Na Nb M C). cbn [fst snd]. split; [rewrite <- app_assoc; reflexivity|]. exists d, a. split; [exact D|]. split; [reflexivity|]. split; [exact Na|]. left. exists b. split; [reflexivity|]. split; [exact M|]. split; [exact Nb|exact C].
Qed.
(** the endings: a stem starts with an underscore and has no dots and separators, nor has the extension *)
Lemma ending s : (exists r, stem s = "_"%char :: r) /\ ~ In slash (stem s) /\ ~ In dot (stem s) /\ ~ In slash (extension s) /\ ~ In dot (extension s).
Proof. destruct s; (split; [eexists; reflexivity|]); repeat split; intros H; cbn in H; repeat (destruct H as [H|H]; [discriminate H|]); exact H. Qed.
(** The name of an output has the root of the input name and the stem of the step as root, and its extension; the figures beside it replace only the extension. *)
Theorem C152_output s p : splitext (default_output s p) = (fst (splitext p) ++ stem s, dot :: extension s) /\ pdf_of (default_output s p) = fst (splitext p) ++ stem s ++ list_ascii_of_string ".pdf".
Proof.
  assert (E : splitext (default_output s p) = (fst (splitext p) ++ stem s, dot :: extension s)).
  { unfold default_output. destruct (ending s) as ((r & U) & S1 & _ & S3 & S4). destruct (parts (fst (splitext p))) as (d & n & D & Q & N). rewrite Q. replace ((d ++ n) ++ stem s ++ dot :: extension s) with (d ++ (n ++ stem s) ++ dot :: extension s) by (rewrite <- !app_assoc; reflexivity).
    rewrite (split_found d (n ++ stem s) (extension s) D); [rewrite <- app_assoc; reflexivity| |exact S3|exact S4|].
    - intros I. apply in_app_or in I. destruct I; [exact (N H)|exact (S1 H)].
    - exists "_"%char. split; [apply in_or_app; right; rewrite U; left; reflexivity|discriminate]. }
  split; [exact E|]. unfold pdf_of. rewrite E. cbn [fst]. rewrite <- app_assoc. reflexivity.
Qed.
(** No step writes to its input, and no file of a chain of steps is written twice. *)
Lemma root_grows s p : length (fst (splitext p)) < length (fst (splitext (default_output s p))).
Proof. rewrite (proj1 (C152_output s p)). cbn [fst]. rewrite app_length. destruct (ending s) as ((r & ->) & _). cbn [length]. lia. Qed.
Lemma chain_roots steps : forall p q, In q (chain p steps) -> length (fst (splitext p)) <= length (fst (splitext q)).
Proof. induction steps as [|s r IH]; intros p q; cbn [chain]; intros [<-|I]; auto; [destruct I|]. specialize (IH _ _ I). assert (G := root_grows s p). lia. Qed.
Theorem C152_kept s p : default_output s p <> p.
Proof. intros E. assert (G := root_grows s p). rewrite E in G. lia. Qed.
Theorem C152_chain p steps : NoDup (chain p steps).
Proof.
  revert p. induction steps as [|s r IH]; intros p; cbn [chain]; [constructor; [intros []|constructor]|]. constructor; [|apply IH]. intros I. apply chain_roots in I. assert (G := root_grows s p). lia.
Qed.
(** Inputs with the same extension have different outputs. *)
Theorem C152_inputs s p q : snd (splitext p) = snd (splitext q) -> default_output s p = default_output s q -> p = q.
Proof.
  intros E H. unfold default_output in H. apply app_inv_tail in H. destruct (C152_splitext p) as (P & _), (C152_splitext q) as (Q & _). rewrite P, Q, E, H. reflexivity.
Qed.
(** Two different steps have different outputs, except the two conversions to local coordinates. *)
Theorem C152_steps s t p : default_output s p = default_output t p -> s = t \/ (s = GlobalToLocal /\ t = IndexToLocal) \/ (s = IndexToLocal /\ t = GlobalToLocal).
Proof.
  intros H. unfold default_output in H. apply app_inv_head in H. destruct s, t; auto; discriminate H.
Qed.
(** "Different steps have different outputs" and "different inputs have different outputs" are false: both conversions to local coordinates write to the same file, and so do two inputs which differ after the last dot. *)
Theorem C152_same_output_refuted : (forall p, default_output GlobalToLocal p = default_output IndexToLocal p) /\
  (forall s d n e f, directory d -> ~ In slash n -> (exists c, In c n /\ c <> dot) -> ~ In slash e -> ~ In dot e -> ~ In slash f -> ~ In dot f -> default_output s (d ++ n ++ dot :: e) = default_output s (d ++ n ++ dot :: f)).
Proof.
  split; [reflexivity|]. intros s d n e f D N C S1 D1 S2 D2. unfold default_output. rewrite !split_found by assumption. reflexivity.
Qed.
Lemma strip_slashes k r c : c <> slash -> strip_front (repeat slash k ++ c :: r) = c :: r.
Proof. intros C. induction k as [|k IH]; cbn [repeat app strip_front]; [destruct (Ascii.eqb_spec c slash); [contradiction|reflexivity]|rewrite Ascii.eqb_refl; exact IH]. Qed.
Lemma rev_repeat (x : ascii) k : rev (repeat x k) = repeat x k.
Proof. induction k as [|k IH]; [reflexivity|]. cbn [repeat rev]. rewrite IH. clear. induction k as [|k IH]; [reflexivity|]. cbn [repeat app]. rewrite IH. reflexivity. Qed.
Lemma dirname_case d c k n : ~ In slash n -> c <> slash -> dirname ((d ++ [c]) ++ repeat slash (S k) ++ n) = d ++ [c].
Proof.
  intros N C. unfold dirname. assert (R : rfind slash ((d ++ [c]) ++ repeat slash (S k) ++ n) = Some (length ((d ++ [c]) ++ repeat slash k))).
  { rewrite <- (rfind_app slash ((d ++ [c]) ++ repeat slash k) n N). f_equal. rewrite <- (app_assoc (d ++ [c])). f_equal. clear. induction k as [|k IH]; [reflexivity|]. cbn [repeat app] in *. rewrite IH. reflexivity. }
  rewrite R. rewrite app_assoc. assert (F : firstn (S (length ((d ++ [c]) ++ repeat slash k))) (((d ++ [c]) ++ repeat slash (S k)) ++ n) = (d ++ [c]) ++ repeat slash (S k)).
  { replace (S (length ((d ++ [c]) ++ repeat slash k))) with (length ((d ++ [c]) ++ repeat slash (S k))) by (rewrite !app_length, !repeat_length; lia). rewrite firstn_app, firstn_all, Nat.sub_diag, firstn_O, app_nil_r. reflexivity. }
  rewrite F. assert (G : forallb (fun c => Ascii.eqb c slash) ((d ++ [c]) ++ repeat slash (S k)) = false).
  { rewrite !forallb_app. cbn [forallb]. destruct (Ascii.eqb_spec c slash); [contradiction|]. cbn [andb]. rewrite andb_false_r. reflexivity. }
  rewrite G. unfold rstrip. rewrite !rev_app_distr, rev_repeat. cbn [rev app]. rewrite strip_slashes by exact C. cbn [rev]. rewrite rev_involutive. reflexivity.
Qed.
(** correlate, merge_cluster_data, find_tracks and fit_tracks write to a fixed name in the directory of the (first) input: in the current directory, in the root directory, and in a directory with further separators. *)
Theorem C152_beside n name : ~ In slash n ->
  beside n name = list_ascii_of_string name /\ (forall k, beside (repeat slash (S k) ++ n) name = repeat slash (S k) ++ list_ascii_of_string name) /\
  (forall d c k, c <> slash -> beside ((d ++ [c]) ++ repeat slash (S k) ++ n) name = (d ++ [c]) ++ slash :: list_ascii_of_string name).
Proof.
  intros N. unfold beside. split; [|split].
  - unfold dirname. rewrite rfind_none by exact N. reflexivity.
  - intros k. unfold dirname. assert (R : rfind slash (repeat slash (S k) ++ n) = Some k).
    { rewrite <- (repeat_length slash k) at 2. rewrite <- (rfind_app slash (repeat slash k) n N). f_equal. clear. induction k as [|k IH]; [reflexivity|]. cbn [repeat app] in *. rewrite IH. reflexivity. }
    rewrite R. assert (F : firstn (S k) (repeat slash (S k) ++ n) = repeat slash (S k)). { rewrite firstn_app, repeat_length, Nat.sub_diag, firstn_O, app_nil_r. apply firstn_all2. rewrite repeat_length. lia. }
    rewrite F. assert (G : forallb (fun c => Ascii.eqb c slash) (repeat slash (S k)) = true) by (apply forallb_forall; intros x I; apply repeat_spec in I; subst; reflexivity). rewrite G. unfold join. rewrite rev_repeat. cbn [repeat]. rewrite Ascii.eqb_refl. reflexivity.
  - intros d c k C. rewrite dirname_case by assumption. unfold join. rewrite rev_app_distr. cbn [rev app]. destruct (Ascii.eqb_spec c slash); [contradiction|reflexivity].
Qed.
(** "Different inputs have different outputs" is false for these functions: all inputs of a directory share the output. *)
Theorem C152_beside_refuted d c k m n name : c <> slash -> ~ In slash m -> ~ In slash n -> beside ((d ++ [c]) ++ repeat slash (S k) ++ m) name = beside ((d ++ [c]) ++ repeat slash (S k) ++ n) name.
Proof. intros C M N. rewrite (proj2 (proj2 (C152_beside m name M)) d c k C), (proj2 (proj2 (C152_beside n name N)) d c k C). reflexivity. Qed.
(** fit_tracks: the method in upper or lower case is "fit" or "kalman"; the Kalman filter needs beam energy and particle mass, the straight line fit rejects scattering planes; the output is Tracks_Fit.h5 or Tracks_Kalman.h5 in the directory of the input. *)
Theorem C152_fit_tracks method beam mass planes p : 
  (map lower method <> list_ascii_of_string "fit" -> map lower method <> list_ascii_of_string "kalman" -> fit_tracks_output method beam mass planes p = inl UnknownMethod) /\
  (map lower method = list_ascii_of_string "fit" -> fit_tracks_output method beam mass planes p = if planes then inl ScatteringWithoutKalman else inr (beside p "Tracks_Fit.h5")) /\
  (map lower method = list_ascii_of_string "kalman" -> fit_tracks_output method beam mass planes p = if beam then if mass then inr (beside p "Tracks_Kalman.h5") else inl NoParticleMass else inl NoBeamEnergy).
Proof.
  unfold fit_tracks_output. split; [|split].
  - intros N1 N2. destruct (list_eq_dec ascii_dec (map lower method) (list_ascii_of_string "fit")); [contradiction|]. destruct (list_eq_dec ascii_dec (map lower method) (list_ascii_of_string "kalman")); [contradiction|]. reflexivity.
  - intros ->. destruct beam, mass, planes; reflexivity.
  - intros ->. destruct beam, mass, planes; reflexivity.
Qed.
(** a character is the given lower case letter or the upper case letter at the same place of the alphabet *)
Definition same_letter (c w : ascii) : bool := Ascii.eqb c w || existsb (fun ul => Ascii.eqb (fst ul) c && Ascii.eqb (snd ul) w) (combine (list_ascii_of_string "ABCDEFGHIJKLMNOPQRSTUVWXYZ") (list_ascii_of_string "abcdefghijklmnopqrstuvwxyz")).
(** a word in upper or lower case letters *)
Fixpoint spelled (method word : list ascii) : bool := match method, word with [], [] => true | c :: m, w :: r => same_letter c w && spelled m r | _, _ => false end.
Lemma lower_letter w : In w (list_ascii_of_string "abcdefghijklmnopqrstuvwxyz") -> forall c, Ascii.eqb (lower c) w = same_letter c w.
Proof.
  intros I c. assert (G : forallb (fun w => forallb (fun n => Bool.eqb (Ascii.eqb (lower (ascii_of_nat n)) w) (same_letter (ascii_of_nat n) w)) (seq 0 256)) (list_ascii_of_string "abcdefghijklmnopqrstuvwxyz") = true) by (vm_compute; reflexivity).
  rewrite forallb_forall in G. specialize (G w I). rewrite forallb_forall in G. specialize (G (nat_of_ascii c)). rewrite ascii_nat_embedding in G. apply Bool.eqb_prop. apply G. apply in_seq. pose proof (nat_ascii_bounded c). split; [apply Nat.le_0_l|exact H].
Qed.
Lemma lower_word word : (forall w, In w word -> In w (list_ascii_of_string "abcdefghijklmnopqrstuvwxyz")) -> forall method, map lower method = word <-> spelled method word = true.
Proof.
  induction word as [|w r IH]; intros W [|c m]; cbn [map spelled]; try (split; congruence). rewrite Bool.andb_true_iff, <- (lower_letter w) by (apply W; left; reflexivity). rewrite Ascii.eqb_eq, <- IH by (intros v I; apply W; right; exact I). split; [intros E; injection E; auto|intros [-> ->]; reflexivity].
Qed.
(** The method is accepted in every mixture of upper and lower case letters, and nothing else is accepted. *)
Theorem C152_spelling method beam mass planes p :
  (spelled method (list_ascii_of_string "fit") = true -> fit_tracks_output method beam mass planes p = if planes then inl ScatteringWithoutKalman else inr (beside p "Tracks_Fit.h5")) /\
  (spelled method (list_ascii_of_string "kalman") = true -> fit_tracks_output method beam mass planes p = if beam then if mass then inr (beside p "Tracks_Kalman.h5") else inl NoParticleMass else inl NoBeamEnergy) /\
  (spelled method (list_ascii_of_string "fit") = false -> spelled method (list_ascii_of_string "kalman") = false -> fit_tracks_output method beam mass planes p = inl UnknownMethod).
Proof.
  assert (F := lower_word (list_ascii_of_string "fit") ltac:(intros w I; cbn in I |- *; tauto) method). assert (K := lower_word (list_ascii_of_string "kalman") ltac:(intros w I; cbn in I |- *; tauto) method).
  destruct (C152_fit_tracks method beam mass planes p) as (N & A & B). split; [intros S; apply A, F; exact S|]. split; [intros S; apply B, K; exact S|]. intros S T. apply N; intros E; [apply F in E|apply K in E]; congruence.
Qed.
(** Non-vacuity: a method in mixed case. *)
Example C152_spelling_case : spelled (list_ascii_of_string "KaLMaN") (list_ascii_of_string "kalman") = true.
Proof. vm_compute. reflexivity. Qed.
(** The files of the two methods, of find_tracks and of merge_cluster_data are different. *)
Lemma join_inj a b c : join a b = join a c -> b = c.
Proof. unfold join. destruct (rev a) as [|x r]; [trivial|]. destruct (Ascii.eqb x slash); intros H; apply app_inv_head in H; [exact H|injection H; auto]. Qed.
Theorem C152_beside_distinct p : NoDup (map (beside p) ["Correlated.h5"; "Merged.h5"; "Track_Candidates.h5"; "Tracks_Fit.h5"; "Tracks_Kalman.h5"]%string).
Proof.
  apply FinFun.Injective_map_NoDup.
  - intros a b H. apply join_inj in H. rewrite <- (string_of_list_ascii_of_string a), <- (string_of_list_ascii_of_string b), H. reflexivity.
  - repeat constructor; intros H; cbn in H; repeat (destruct H as [H|H]; [discriminate H|]); exact H.
Qed.

Lemma agreement_left a b : exists r, a = agreement a b ++ r.
Proof. revert b. induction a as [|x a IH]; intros [|y b]; cbn [agreement]; [exists []; reflexivity|exists []; reflexivity|exists (x :: a); reflexivity|]. destruct (Ascii.eqb x y); [destruct (IH b) as (r & E); exists r; cbn [app]; rewrite <- E; reflexivity|exists (x :: a); reflexivity]. Qed.
Lemma agreement_right a b : exists r, b = agreement a b ++ r.
Proof. revert b. induction a as [|x a IH]; intros [|y b]; cbn [agreement]; [exists []; reflexivity|exists (y :: b); reflexivity|exists []; reflexivity|]. destruct (Ascii.eqb_spec x y) as [->|]; [destruct (IH b) as (r & E); exists r; cbn [app]; rewrite <- E; reflexivity|exists (y :: b); reflexivity]. Qed.
Lemma agreement_greatest q a b : exists r, agreement (q ++ a) (q ++ b) = q ++ r.
Proof. induction q as [|x q (r & IH)]; [eexists; reflexivity|]. cbn [app agreement]. rewrite Ascii.eqb_refl, IH. exists r. reflexivity. Qed.
(** combine_files: the name starts with what is common to all inputs (the longest such start, without extension); it is not in the list if there is one input. *)
Theorem C152_combined inputs : inputs <> [] ->
  (forall p, In p inputs -> exists r, p = commonprefix inputs ++ r) /\ (forall q, (forall p, In p inputs -> exists r, p = q ++ r) -> exists r, commonprefix inputs = q ++ r) /\
  combined_output inputs = fst (splitext (commonprefix inputs)) ++ list_ascii_of_string "_combined.h5" /\ (forall p, inputs = [p] -> combined_output inputs <> p).
Proof.
  intros N. destruct inputs as [|p0 l]; [contradiction|]. cbn [commonprefix]. split; [|split; [|split; [reflexivity|intros p [= -> ->]; apply C152_kept]]].
  - clear N. revert p0. induction l as [|b l IH]; intros p0 p; cbn [fold_left].
    + intros [<-|[]]. exists []. symmetry. apply app_nil_r.
    + intros [<-|[<-|I]]; [| |apply (IH (agreement p0 b)); right; exact I].
      * destruct (IH (agreement p0 b) _ (or_introl eq_refl)) as (r & E). destruct (agreement_left p0 b) as (r' & E'). exists (r ++ r'). rewrite app_assoc, <- E. exact E'.
      * destruct (IH (agreement p0 b) _ (or_introl eq_refl)) as (r & E). destruct (agreement_right p0 b) as (r' & E'). exists (r ++ r'). rewrite app_assoc, <- E. exact E'.
  - intros q H. clear N. revert p0 H. induction l as [|b l IH]; intros p0 H; cbn [fold_left]; [apply H; left; reflexivity|]. apply IH. intros p [<-|I].
    + destruct (H p0 (or_introl eq_refl)) as (x & ->), (H b (or_intror (or_introl eq_refl))) as (y & ->). apply agreement_greatest.
    + apply H. right. right. exact I.
Qed.
(** "The combined file is none of the inputs" is false: a further file is added to a combined one. *)
Theorem C152_combined_refuted root : ~ In slash root -> ~ In dot root -> root <> [] -> let inputs := [root ++ list_ascii_of_string ".h5"; root ++ list_ascii_of_string "_combined.h5"] in combined_output inputs = root ++ list_ascii_of_string "_combined.h5" /\ In (combined_output inputs) inputs.
Proof.
  intros S D N inputs. assert (E : combined_output inputs = root ++ list_ascii_of_string "_combined.h5").
  { unfold combined_output, inputs. cbn [commonprefix fold_left]. assert (A : forall q a b, agreement (q ++ "."%char :: a) (q ++ "_"%char :: b) = q) by (intros q a b; induction q as [|x q IH]; [reflexivity|cbn [app agreement]; rewrite Ascii.eqb_refl, IH; reflexivity]).
    cbn [list_ascii_of_string]. rewrite A. unfold default_output. change root with ([] ++ root) at 1. rewrite (split_none [] root (or_introl eq_refl) S) by (intros a b -> _; elim D; apply in_or_app; right; left; reflexivity). reflexivity. }
  split; [exact E|]. rewrite E. right. left. reflexivity.
Qed.

(** Non-vacuity: names with and without directories, a hidden file and a chain. *)
Example C152_case : let s := list_ascii_of_string in 
  map (fun p => let '(a, b) := splitext (s p) in (string_of_list_ascii a, string_of_list_ascii b)) ["data/run.1/hits.h5"; "run.1/hits"; ".hidden"; "a.b.c"]%string = [("data/run.1/hits", ".h5"); ("run.1/hits", ""); (".hidden", ""); ("a.b", ".c")]%string /\
  map string_of_list_ascii (chain (s "d/Tracks_Fit.h5"%string) [SelectTracks; Residuals]) = ["d/Tracks_Fit.h5"; "d/Tracks_Fit_selected.h5"; "d/Tracks_Fit_selected_residuals.h5"]%string /\
  string_of_list_ascii (beside (s "data//DUT0.h5"%string) "Merged.h5") = "data/Merged.h5"%string /\ map lower (s "KalmaN"%string) = s "kalman"%string /\ directory (s "data/"%string) /\
  string_of_list_ascii (combined_output [s "d/run_1.h5"; s "d/run_2.h5"; s "d/rum.h5"]%string) = "d/ru_combined.h5"%string.
Proof. cbv zeta. split; [reflexivity|]. split; [reflexivity|]. split; [reflexivity|]. split; [reflexivity|]. split; [right; exists (list_ascii_of_string "data"); reflexivity|reflexivity]. Qed.

Print Assumptions C152_splitext.
Print Assumptions C152_output.
Print Assumptions C152_kept.
Print Assumptions C152_chain.
Print Assumptions C152_inputs.
Print Assumptions C152_steps.
Print Assumptions C152_same_output_refuted.
Print Assumptions C152_beside.
Print Assumptions C152_beside_refuted.
Print Assumptions C152_fit_tracks.
Print Assumptions C152_spelling.
Print Assumptions C152_beside_distinct.
Print Assumptions C152_combined.
Print Assumptions C152_combined_refuted.
