(** C113: the labels of the bars of the cluster shape plot (tools/plot_utils.py L43-61, L513-522) are pictures of the clusters which are counted in the bar. *)
From Coq Require Import List ZArith Bool Lia.
From Verif Require Import BitsModel BitsProps PlotHistModel.
Import ListNotations.
Local Open Scope Z_scope.

(** The pixels of the label of each bar, column to the right and row downwards, in the order of the bars: the labels of L46-60 are drawn with one quarter of a block per pixel. *)
Definition pictures : list (list (Z * Z)) := [
  [(0, 0)];
  [(0, 0); (1, 0)];
  [(0, 0); (0, 1)];
  [(1, 0); (0, 1)];
  [(0, 0); (1, 1)];
  [(0, 0); (0, 1); (1, 1)];
  [(1, 0); (0, 1); (1, 1)];
  [(0, 0); (1, 0); (0, 1)];
  [(0, 0); (1, 0); (1, 1)];
  [(0, 0); (1, 0); (2, 0)];
  [(0, 0); (0, 1); (0, 2)];
  [(0, 0); (1, 0); (0, 1); (1, 1)];
  [(0, 0); (1, 0); (2, 0); (0, 1); (1, 1); (2, 1)];
  [(0, 0); (1, 0); (0, 1); (1, 1); (0, 2); (1, 2)];
  [(0, 0); (1, 0); (2, 0); (0, 1); (1, 1); (2, 1); (0, 2); (1, 2); (2, 2)]].

Lemma picture_shapes : Forall2 (fun p s => exists ec er, end_of_cluster (hd (0, 0) p) (tl p) = (s, ec, er) /\ p <> [] /\ s <> -1) pictures analyze_cluster_shapes.
Proof. unfold pictures, analyze_cluster_shapes. repeat (apply Forall2_cons; [eexists; eexists; split; [vm_compute; reflexivity|split; discriminate]|]). apply Forall2_nil. Qed.
Lemma Forall2_nth {A B} (P : A -> B -> Prop) l l' : Forall2 P l l' -> forall k a, nth_error l k = Some a -> exists b, nth_error l' k = Some b /\ P a b.
Proof. induction 1; intros [|k] a' E; cbn in *; try discriminate; [injection E as <-; eauto|auto]. Qed.
(** A cluster has the shape of bar k exactly if it is the picture of bar k, moved to the place of the cluster: the bar counts the clusters which look like its label. *)
Theorem C113_pictures : length pictures = length analyze_cluster_shapes /\
  forall k picture, nth_error pictures k = Some picture ->
  exists s, nth_error analyze_cluster_shapes k = Some s /\
  forall first others shape ec er, end_of_cluster first others = (shape, ec, er) ->
    (shape = s <-> exists dc dr, translated dc dr picture (first :: others)).
Proof.
  split; [reflexivity|]. intros k p E. destruct (Forall2_nth _ _ _ picture_shapes k p E) as (s & Hs & pc & pr & Ep & Np & Ns).
  exists s. split; [exact Hs|]. intros f o shape ec er C. destruct p as [|pf po]; [congruence|]. cbn [hd tl] in Ep. split.
  - intros ->. exact (C11_shape_determines_cluster _ _ _ _ _ _ _ _ _ Ep C Ns).
  - intros (dc & dr & T). assert (K := C11_translation_invariant _ _ _ _ _ _ T). congruence.
Qed.
(** A cluster of three hits in a column of the sensor is counted in the bar with the vertical picture. *)
Example C113_pictures_case : exists ec er, end_of_cluster (33, 7) [(33, 9); (33, 8)] = (261, ec, er) /\ nth_error pictures 10 = Some [(0, 0); (0, 1); (0, 2)] /\ nth_error analyze_cluster_shapes 10 = Some 261.
Proof. eexists; eexists. split; [vm_compute; reflexivity|split; reflexivity]. Qed.

Print Assumptions C113_pictures.
