(** C92: areas of polygons. *)
From Coq Require Import List Arith Reals Lia Lra Psatz.
From Verif Require Import PolygonModel.
Import ListNotations.
Local Open Scope R_scope.

(** ** Specification *)
Definition point : Type := R * R.
(** twice the signed area of the triangle o, a, b *)
Definition triangle2 (o a b : point) : R := (fst a - fst o) * (snd b - snd o) - (snd a - snd o) * (fst b - fst o).
Definition triangle_area (o a b : point) : R := Rabs (triangle2 o a b) / 2.
(** the sides of a closed polygon *)
Fixpoint sides_from (first : point) (l : list point) : list (point * point) :=
  match l with [] => [] | [a] => [(a, first)] | a :: (b :: _) as l' => (a, b) :: sides_from first l' end.
Definition sides (l : list point) : list (point * point) := match l with [] => [] | a :: _ => sides_from a l end.
Definition sum (l : list R) : R := fold_right Rplus 0 l.
Definition area (l : list point) : option R := polygon_area (map fst l) (map snd l).

(** ** Proofs *)
Definition w (a b : point) : R := fst b * snd a - snd b * fst a.
Fixpoint path (a : point) (l : list point) : R := match l with [] => 0 | b :: l => w a b + path b l end.
Lemma path_app a l m : path a (l ++ m) = path a l + path (last l a) m.
Proof. revert a. induction l as [|b l IH]; intros a; cbn [app path]; [cbn [last]; lra|]. rewrite IH. replace (last (b :: l) a) with (last l b); [lra|]. clear. revert a b. induction l as [|c l IH]; intros a b; [reflexivity|]. change (last (c :: l) b = last (c :: l) a). rewrite <- !IH. reflexivity. Qed.
Lemma last_cons {A} (a d : A) l : last (a :: l) d = last l a.
Proof. revert a d. induction l as [|b l IH]; intros a d; [reflexivity|]. change (last (b :: l) d = last (b :: l) a). rewrite !IH. reflexivity. Qed.
Lemma last_app1 {A} (l : list A) a d : last (l ++ [a]) d = a.
Proof. induction l as [|b l IH]; [reflexivity|]. rewrite <- app_comm_cons, last_cons. clear IH. revert b. induction l as [|c l IH]; intros b; [reflexivity|]. rewrite <- app_comm_cons, last_cons. apply IH. Qed.
Lemma dot_roll l : forall a, dot (map fst l) (snd a :: removelast (map snd l)) - dot (map snd l) (fst a :: removelast (map fst l)) = path a l.
Proof.
  induction l as [|b l IH]; intros a; [cbn; lra|]. cbn [map dot path]. destruct l as [|c l]; [cbn; unfold w; lra|]. specialize (IH b). cbn [map] in *. change (removelast (snd b :: snd c :: map snd l)) with (snd b :: removelast (snd c :: map snd l)). change (removelast (fst b :: fst c :: map fst l)) with (fst b :: removelast (fst c :: map fst l)). unfold w. lra.
Qed.
Lemma last_map {A B} (f : A -> B) l d : last (map f l) (f d) = f (last l d).
Proof. induction l as [|a l IH]; [reflexivity|]. destruct l; [reflexivity|]. exact IH. Qed.
Definition closed (l : list point) : R := path (last l (0, 0)) l.
Lemma area_closed l : area l = Some (1 / 2 * Rabs (closed l)).
Proof.
  unfold area, polygon_area. rewrite !map_length, Nat.eqb_refl. do 3 f_equal. unfold closed. rewrite <- dot_roll. destruct l as [|a l]; [cbn; lra|]. unfold roll. cbn [map].
  change (fst a :: map fst l) with (map fst (a :: l)). change (snd a :: map snd l) with (map snd (a :: l)). assert (L1 := last_map fst (a :: l) (0, 0)). assert (L2 := last_map snd (a :: l) (0, 0)). cbn [fst snd] in L1, L2. rewrite L1, L2. reflexivity.
Qed.
Lemma closed_shift a l : closed (a :: l) = closed (l ++ [a]).
Proof. unfold closed. rewrite last_cons, last_app1, path_app. cbn [path]. lra. Qed.
Lemma closed_rotate l m : closed (l ++ m) = closed (m ++ l).
Proof. revert m. induction l as [|a l IH]; intros m; [rewrite app_nil_r; reflexivity|]. rewrite <- app_comm_cons, closed_shift, <- app_assoc, IH, <- app_assoc. reflexivity. Qed.
Lemma w_anti a b : w a b = - w b a.
Proof. unfold w. lra. Qed.
Lemma path_rev l : forall a b, path b (rev l ++ [a]) = - path a (l ++ [b]).
Proof.
  induction l as [|c l IH]; intros a b; [cbn; rewrite (w_anti a b); lra|]. cbn [rev app path]. rewrite path_app, IH, last_app1. cbn [path]. rewrite (w_anti c a). lra.
Qed.
Lemma closed_rev l : closed (rev l) = - closed l.
Proof.
  destruct l as [|b l _] using rev_ind; [cbn; unfold closed; cbn; lra|]. rewrite rev_app_distr. cbn [rev app]. rewrite closed_shift. unfold closed. rewrite !last_app1. apply path_rev.
Qed.
Lemma area_eq l m : Rabs (closed l) = Rabs (closed m) -> area l = area m.
Proof. intros H. rewrite !area_closed, H. reflexivity. Qed.
(** The area does not depend on the first corner and on the direction. *)
Theorem C92_start l m : area (l ++ m) = area (m ++ l).
Proof. apply area_eq. rewrite closed_rotate. reflexivity. Qed.
Theorem C92_direction l : area (rev l) = area l.
Proof. apply area_eq. rewrite closed_rev. apply Rabs_Ropp. Qed.

(** Maps of the plane: translations and linear maps; the area is multiplied with the determinant. *)
Definition affine (a b c d tx ty : R) (p : point) : point := (a * fst p + b * snd p + tx, c * fst p + d * snd p + ty).
Lemma path_affine a b c d tx ty l : forall p, path (affine a b c d tx ty p) (map (affine a b c d tx ty) l) =
  (a * d - b * c) * path p l + (ty * (a * fst (last l p) + b * snd (last l p)) - tx * (c * fst (last l p) + d * snd (last l p))) - (ty * (a * fst p + b * snd p) - tx * (c * fst p + d * snd p)).
Proof.
  induction l as [|q l IH]; intros p; [cbn; lra|]. cbn [map path]. rewrite IH, last_cons. set (z := last l q). unfold w, affine. cbn [fst snd]. ring.
Qed.
Lemma last_dep {A} (l : list A) a b : l <> [] -> last l a = last l b.
Proof. destruct l as [|c l]; [congruence|]. rewrite !last_cons. reflexivity. Qed.
Lemma closed_affine a b c d tx ty l : closed (map (affine a b c d tx ty) l) = (a * d - b * c) * closed l.
Proof.
  destruct l as [|q l]; [cbn; unfold closed; cbn; lra|]. unfold closed. rewrite (last_dep _ (0, 0) (affine a b c d tx ty (0, 0))) by discriminate. rewrite last_map, path_affine.
  rewrite (last_dep (q :: l) (last (q :: l) (0, 0)) (0, 0)) by discriminate. ring.
Qed.
Theorem C92_affine a b c d tx ty l r : area l = Some r -> area (map (affine a b c d tx ty) l) = Some (Rabs (a * d - b * c) * r).
Proof. rewrite !area_closed. intros H. f_equal. assert (E : 1 / 2 * Rabs (closed l) = r) by congruence. rewrite <- E, closed_affine, Rabs_mult. ring. Qed.

Lemma sides_closed o l : forall p f, sum (map (fun s => triangle2 o (fst s) (snd s)) (sides_from f (p :: l))) = - path (affine 1 0 0 1 (- fst o) (- snd o) p) (map (affine 1 0 0 1 (- fst o) (- snd o)) (l ++ [f])).
Proof.
  unfold sum. induction l as [|q l IH]; intros p f.
  - cbn [sides_from map app fold_right path fst snd]. unfold w, affine, triangle2. cbn [fst snd]. ring.
  - change (sides_from f (p :: q :: l)) with ((p, q) :: sides_from f (q :: l)). cbn [map fold_right app path]. rewrite IH. cbn [app map path]. unfold w, affine, triangle2. cbn [fst snd]. ring.
Qed.
Lemma triangles_closed o l : sum (map (fun s => triangle2 o (fst s) (snd s)) (sides l)) = - closed l.
Proof.
  destruct l as [|p l]; [unfold closed; cbn; lra|]. unfold sides. rewrite sides_closed. f_equal. rewrite closed_shift. unfold closed. rewrite last_app1, path_affine, last_app1. ring.
Qed.
(** If the polygon is seen from [o] in one direction (star-shaped about o; e.g. a convex polygon and a point in it), the area is the sum of the areas of the triangles between [o] and the sides. *)
Theorem C92_triangles o l : (forall s, In s (sides l) -> 0 <= triangle2 o (fst s) (snd s)) \/ (forall s, In s (sides l) -> triangle2 o (fst s) (snd s) <= 0) ->
  area l = Some (sum (map (fun s => triangle_area o (fst s) (snd s)) (sides l))).
Proof.
  intros H. rewrite area_closed. f_equal. pose proof (triangles_closed o l) as T. assert (A : 1 / 2 * Rabs (sum (map (fun s => triangle2 o (fst s) (snd s)) (sides l))) = sum (map (fun s => triangle_area o (fst s) (snd s)) (sides l))).
  { clear T. unfold sum. destruct H as [H|H].
    - assert (G : 0 <= fold_right Rplus 0 (map (fun s => triangle2 o (fst s) (snd s)) (sides l)) /\ 1 / 2 * fold_right Rplus 0 (map (fun s => triangle2 o (fst s) (snd s)) (sides l)) = fold_right Rplus 0 (map (fun s => triangle_area o (fst s) (snd s)) (sides l))).
      { induction (sides l) as [|s ss IH]; [cbn; lra|]. cbn [map fold_right]. assert (H0 := H s (or_introl eq_refl)). destruct IH as [IH1 IH2]; [intros; apply H; right; auto|]. split; [lra|]. rewrite <- IH2. unfold triangle_area. rewrite Rabs_pos_eq by exact H0. lra. }
      rewrite Rabs_pos_eq by apply G. apply G.
    - assert (G : fold_right Rplus 0 (map (fun s => triangle2 o (fst s) (snd s)) (sides l)) <= 0 /\ - (1 / 2) * fold_right Rplus 0 (map (fun s => triangle2 o (fst s) (snd s)) (sides l)) = fold_right Rplus 0 (map (fun s => triangle_area o (fst s) (snd s)) (sides l))).
      { induction (sides l) as [|s ss IH]; [cbn; lra|]. cbn [map fold_right]. assert (H0 := H s (or_introl eq_refl)). destruct IH as [IH1 IH2]; [intros; apply H; right; auto|]. split; [lra|]. rewrite <- IH2. unfold triangle_area. rewrite Rabs_left1 by exact H0. lra. }
      rewrite Rabs_left1 by apply G. destruct G as [_ <-]. ring. }
  rewrite <- A, T, Rabs_Ropp. reflexivity.
Qed.
(** Cutting along a chord: if both parts are seen in the direction of the whole, the areas add up. *)
Theorem C92_chord a b l m ra rb : 0 <= sum (map (fun s => triangle2 (0, 0) (fst s) (snd s)) (sides (a :: l ++ [b]))) -> 0 <= sum (map (fun s => triangle2 (0, 0) (fst s) (snd s)) (sides (b :: m ++ [a]))) ->
  area (a :: l ++ [b]) = Some ra -> area (b :: m ++ [a]) = Some rb -> area (a :: l ++ b :: m) = Some (ra + rb).
Proof.
  rewrite !triangles_closed, !area_closed. intros P1 P2 E1 E2. f_equal. assert (A1 : 1 / 2 * Rabs (closed (a :: l ++ [b])) = ra) by congruence. assert (A2 : 1 / 2 * Rabs (closed (b :: m ++ [a])) = rb) by congruence. rewrite <- A1, <- A2.
  assert (E : closed (a :: l ++ b :: m) = closed (a :: l ++ [b]) + closed (b :: m ++ [a])).
  { unfold closed. rewrite !last_cons. cbn [path]. rewrite !last_app1, !path_app. cbn [path]. replace (last (l ++ b :: m) a) with (last m b).
    - rewrite (w_anti a b). lra.
    - clear. revert a. induction l as [|c l IH]; intros a; [cbn [app]; rewrite last_cons; reflexivity|]. cbn [app]. rewrite last_cons. apply IH. }
  rewrite E. rewrite !Rabs_left1 by lra. lra.
Qed.
(** Rectangles and triangles *)
Theorem C92_rectangle x y a b : 0 <= a -> 0 <= b -> area [(x, y); (x + a, y); (x + a, y + b); (x, y + b)] = Some (a * b).
Proof. intros A B. rewrite area_closed. f_equal. unfold closed. cbn [last path w fst snd]. unfold w. cbn [fst snd]. assert (0 <= a * b) by (apply Rmult_le_pos; assumption). rewrite Rabs_left1 by nra. nra. Qed.
Theorem C92_small l : (length l <= 2)%nat -> area l = Some 0.
Proof. intros H. rewrite area_closed. destruct l as [|a [|b [|c l]]]; cbn [length] in H; try lia; unfold closed; cbn [last path]; unfold w; f_equal; rewrite Rabs_left1; lra. Qed.

(** Padding: repeating the last corner does not change the area. *)
Lemma path_repeat a n : path a (repeat a n) = 0.
Proof. induction n as [|n IH]; [reflexivity|]. cbn [repeat path]. rewrite IH. unfold w. lra. Qed.
Lemma last_repeat {A} (a : A) n : last (repeat a n) a = a.
Proof. induction n as [|n IH]; [reflexivity|]. cbn [repeat]. rewrite last_cons. exact IH. Qed.
Lemma area_padded l n : l <> [] -> area (l ++ repeat (last l (0, 0)) n) = area l.
Proof.
  intros N. apply area_eq. f_equal. destruct l as [|b l _] using rev_ind; [congruence|]. rewrite last_app1. unfold closed.
  assert (E : forall d : point, last ((l ++ [b]) ++ repeat b n) d = b).
  { intros d. rewrite <- app_assoc. cbn [app]. clear. revert d. induction l as [|c l IH]; intros d; cbn [app]; rewrite last_cons; [apply last_repeat|apply IH]. }
  rewrite E, path_app, !last_app1, path_repeat. lra.
Qed.
Lemma map_repeat_eq {A B} (f : A -> B) a n : map f (repeat a n) = repeat (f a) n.
Proof. induction n as [|n IH]; [reflexivity|]. cbn [repeat map]. rewrite IH. reflexivity. Qed.
Lemma fold_max {A} (rs : list (list A)) : forall m, (m <= fold_left (fun m r => Nat.max m (length r)) rs m)%nat /\ forall r, In r rs -> (length r <= fold_left (fun m r => Nat.max m (length r)) rs m)%nat.
Proof. induction rs as [|r rs IH]; intros m; cbn [fold_left]; [split; [lia|intros r []]|]. destruct (IH (Nat.max m (length r))) as [H1 H2]. split; [lia|]. intros r' [<-|H]; [lia|auto]. Qed.
(** The sizes of the pixels are the areas of their regions, whatever the numbers of corners of the other regions. *)
Theorem C92_pixel_sizes vertices regions : (forall r, In r regions -> r <> []) ->
  exists sizes, pixel_sizes vertices regions = Some sizes /\ map Some sizes = map (fun r => area (map (fun k => nth k vertices (0, 0)) r)) regions.
Proof.
  intros N. unfold pixel_sizes. destruct (fold_max regions 0) as [_ M]. fold (max_region_size regions) in M. revert M. generalize (max_region_size regions). intros n M.
  induction regions as [|r rs IH]; [exists []; auto|]. destruct IH as (sizes & E & F); [intros; apply N; right; auto|intros; apply M; right; auto|]. cbn [region_array]. assert (Nr := N r (or_introl eq_refl)).
  assert (P : pad n r 0%nat = Some (r ++ repeat (last r 0%nat) (n - length r))) by (destruct r; [congruence|reflexivity]). rewrite P. destruct (region_array n rs 0%nat) as [a|]; [|discriminate]. cbn [map polygon_area_multi].
  set (f := fun k => nth k vertices (0, 0)). assert (G : polygon_area (map (fun k => fst (f k)) (r ++ repeat (last r 0%nat) (n - length r))) (map (fun k => snd (f k)) (r ++ repeat (last r 0%nat) (n - length r))) = area (map f r)).
  { rewrite <- (area_padded (map f r) (n - length r)) by (intros Z; apply map_eq_nil in Z; contradiction). rewrite (last_dep (map f r) (0, 0) (f 0%nat)) by (intros Z; apply map_eq_nil in Z; contradiction). rewrite last_map.
    unfold area. rewrite <- (map_map f fst), <- (map_map f snd), map_app. rewrite map_repeat_eq. reflexivity. }
  change (fun k : nat => fst (nth k vertices (0, 0))) with (fun k => fst (f k)) in *. change (fun k : nat => snd (nth k vertices (0, 0))) with (fun k => snd (f k)) in *. rewrite G. cbv beta iota zeta in E. rewrite E. rewrite area_closed.
  eexists. split; [reflexivity|]. cbn [map]. rewrite F. reflexivity.
Qed.
Example C92_example : pixel_sizes [(0, 0); (4, 0); (4, 3); (0, 3); (0, 5)] [[0; 1; 2; 3]; [3; 2; 4]]%nat = Some [12; 4].
Proof.
  destruct (C92_pixel_sizes [(0, 0); (4, 0); (4, 3); (0, 3); (0, 5)] [[0; 1; 2; 3]; [3; 2; 4]]%nat) as (s & -> & E); [intros r [<-|[<-|[]]]; discriminate|].
  cbn [map nth] in E. rewrite !area_closed in E. destruct s as [|a [|b [|c s]]]; try discriminate. cbn [map] in E. injection E as -> ->. unfold closed. cbn [last path]. unfold w. cbn [fst snd]. do 2 f_equal; [|f_equal]; (rewrite Rabs_left1; lra).
Qed.
Example C92_seen_example : forall s, In s (sides [(0, 0); (4, 0); (4, 3); (0, 3)]) -> 0 <= triangle2 (1, 1) (fst s) (snd s).
Proof. intros s H. cbn in H. unfold triangle2. destruct H as [<-|[<-|[<-|[<-|[]]]]]; cbn [fst snd]; lra. Qed.

Print Assumptions C92_start.
Print Assumptions C92_direction.
Print Assumptions C92_affine.
Print Assumptions C92_triangles.
Print Assumptions C92_chord.
Print Assumptions C92_rectangle.
Print Assumptions C92_small.
Print Assumptions C92_pixel_sizes.
