(** Models tools/plot_utils.py L86-139: plot_2d_pixel_hist, the limits of the colours and the projections.
    Simplifications: numbers are rational; a masked entry is None; the image is a list of rows, from the lowest; the values of the marked lines, titles and the ticks of the colour bar are not modelled. *)
From Coq Require Import List Bool Arith ZArith QArith Qround Qabs Qminmax.
Import ListNotations.

(** the entries which are not masked [for tools/plot_utils.py L88-91] *)
Definition entries (hist : list (list (option Q))) : list Q := flat_map (flat_map (fun o => match o with Some v => [v] | None => [] end)) hist.
(** np.allclose(0, ...) for one value [for tools/plot_utils.py L88] *)
Definition nearly_zero (v : Q) : bool := Qle_bool (Qabs v) ((1 # 100000000) + (1 # 100000) * Qabs v).
(** tools/plot_utils.py L87-91 *)
Definition default_z_max (hist : list (list (option Q))) : Q :=
  match entries hist with
  | [] => 1
  | v :: l => if forallb nearly_zero (v :: l) then 1 else inject_Z (Qceiling (fold_left Qmax l v))
  end.
(** tools/plot_utils.py L87-91, L98-100: the limits of the colours *)
Definition colour_limits (hist : list (list (option Q))) (z_min : Q) (z_max : option Q) : Q * Q :=
  let hi := match z_max with Some z => z | None => default_z_max hist end in
  ((if Qeq_bool hi z_min then 0 else z_min), hi).
(** an index of a slice: negative ones count from the end [for tools/plot_utils.py L107-108] *)
Definition slice_index (n : nat) (i : Z) : nat := if (i <? 0)%Z then Z.to_nat (i + Z.of_nat n) else Nat.min (Z.to_nat i) n.
(** l[a:b] [for tools/plot_utils.py L107-108] *)
Definition slice {A} (l : list A) (a b : Z) : list A := let i := slice_index (length l) a in firstn (slice_index (length l) b - i) (skipn i l).
(** np.mean of entries which are not masked; None: masked [for tools/plot_utils.py L107-108] *)
Definition mean (l : list (option Q)) : option Q :=
  match flat_map (fun o => match o with Some v => [v] | None => [] end) l with [] => None | v => Some (fold_right Qplus 0 v / inject_Z (Z.of_nat (length v))) end.
(** the first index and the one after the last of the averaged bins of an axis with n bins [for tools/plot_utils.py L103-106] *)
Definition central (n n_projection : nat) : Z * Z := (Z.of_nat (n / 2) - Z.of_nat (n_projection / 2), Z.of_nat (n / 2) + Z.of_nat (n_projection / 2))%Z.
(** np.linspace(a, b, n + 1) and the middles of neighbours [for tools/plot_utils.py L113-114] *)
Definition middles (a b : Q) (n : nat) : list Q := map (fun k => a + (inject_Z (Z.of_nat k) + (1 # 2)) * ((b - a) / inject_Z (Z.of_nat n))) (seq 0 n).
(** tools/plot_utils.py L103-115: the points of the projection above the image, x positions and means; columns is shape[1] *)
Definition top_projection (hist : list (list (option Q))) (columns : nat) (x0 x1 : Q) (n_projection : nat) : list (Q * option Q) :=
  let '(a, b) := central columns n_projection in combine (middles x0 x1 (length hist)) (map (fun row => mean (slice row a b)) hist).
