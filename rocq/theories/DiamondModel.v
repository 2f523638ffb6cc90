(** Model of telescope/dut.py Diamond3DpCVD (L581-698) and DiamondPseudo3DpCVD (L701-809): FE-I4 sensors (80 columns, 336 rows, 250 um x 50 um), where the sensor connects
    the pixels of 12 x 62 indices to electrodes elsewhere.
    Simplifications: exact arithmetic instead of doubles.  One element of the arrays; an index is k/d with an integer k and a fixed denominator d (fractional indices are
    those of clusters), and positions are integers in units of nm/d.  The local z position is always 0 and left out. *)
From Coq Require Import ZArith QArith Bool List.
Import ListNotations.
Local Open Scope Z_scope.

Section Sensor.
Variable d : positive.
Notation D := (Zpos d).

(** dut.py L285-302 RectangularPixelDut.index_to_local_position with the sizes of FEI4 (L405-409); None: ValueError *)
Definition fei4_position (column row : Z) : option (Z * Z) :=
  if (D <=? 2 * column) && (2 * column <=? 161 * D) && (D <=? 2 * row) && (2 * row <=? 673 * D)
  then Some (125000 * (2 * column - 81 * D), 25000 * (2 * row - 337 * D)) else None.

(** dut.py L304-324 RectangularPixelDut.local_position_to_index with the sizes of FEI4, inherited by both classes; None: ValueError *)
Definition fei4_index (x y : Z) : option (Q * Q) :=
  if (- 10000000 * D <=? x) && (x <=? 10000000 * D) && (- 8400000 * D <=? y) && (y <=? 8400000 * D)
  then Some ((x + 10125000 * D) # (250000 * d), (y + 8425000 * D) # (50000 * d))%Q else None.

(** x[selection] += dx, y[selection] += dy [for dut.py L601-697], dx and dy in nm *)
Definition move (selected : bool) (dx dy : Z) (p : Z * Z) : Z * Z :=
  if selected then (fst p + dx * D, snd p + dy * D) else p.

(** index - offset modulo n is equal to i [for dut.py L601, L613, L614] *)
Definition residue (index offset n i : Z) : bool := (index - offset * D) mod (n * D) =? i * D.
(** lo <= index - offset < hi [for dut.py L606, L608] *)
Definition within (index offset lo hi : Z) : bool := ((offset + lo) * D <=? index) && (index <? (offset + hi) * D).
(** index == offset + i [for dut.py L608, L644] *)
Definition equals (index offset i : Z) : bool := index =? (offset + i) * D.

(** One row of a table: (column modulo 4, row modulo m, dx, dy), applied to the selected elements [for dut.py L613-640, L646-697] *)
Definition apply_table (m : Z) (table : list (Z * Z * Z * Z)) (selected : bool) (a0 b0 : Z) (column row : Z) (p : Z * Z) : Z * Z :=
  fold_left (fun p e => match e with (i, j, dx, dy) => move (selected && residue column a0 4 i && residue row b0 m j) dx dy p end) table p.

(** dut.py L613-640 *)
Definition square_3d : list (Z * Z * Z * Z) :=
  [(0, 0, 100000, 25000); (0, 1, 225000, -25000); (1, 1, -100000, -25000); (2, 1, 100000, -25000); (3, 0, -100000, 25000); (3, 1, -225000, -25000)].
(** dut.py L727-754 *)
Definition square_pseudo : list (Z * Z * Z * Z) :=
  [(0, 0, 100000, 25000); (0, 1, 225000, -25000); (1, 1, -100000, -25000); (2, 0, 100000, 25000); (3, 0, -100000, 25000); (3, 1, -225000, -25000)].
(** dut.py L646-697 and, the same again, L757-808 *)
Definition hexagonal : list (Z * Z * Z * Z) :=
  [(0, 0, 167265, 75000); (0, 1, 51785, 25000); (0, 2, 109525, 75000);
   (1, 0, -167265, 75000); (1, 1, -51785, 25000); (1, 2, -109525, 75000); (1, 3, -225000, 25000);
   (2, 0, 167265, 75000); (2, 1, 51785, 25000); (2, 2, 109525, 75000); (2, 3, 225000, 25000);
   (3, 0, -167265, 75000); (3, 1, -51785, 25000); (3, 2, -109525, 75000)].

(** dut.py L606, L726; (p, q) is the sensor position *)
Definition in_square (p q column row : Z) : bool := within column p 0 12 && within row q 0 30.
(** dut.py L642, L756 *)
Definition in_hexagonal (p q column row : Z) : bool := within column p 0 12 && within row q 30 62.
(** dut.py L608-612 *)
Definition square_defects (p q column row : Z) : bool :=
  (equals column p 1 && within row q 8 12) || (equals column p 4 && within row q 12 16) || (equals column p 3 && within row q 24 30) ||
  (equals column p 8 && within row q 0 8) || (within column p 10 12 && within row q 8 18).
(** dut.py L644-645 *)
Definition hexagonal_defects (p q column row : Z) : bool :=
  (within column p 10 12 && equals row q 30) || (within column p 10 12 && within row q 32 35).

(** Both classes; pseudo is true for DiamondPseudo3DpCVD (no defects and another table of square pixels).
    dut.py L596-698 and L716-809: index_to_local_position *)
Definition diamond_position (pseudo : bool) (p q column row : Z) : option (Z * Z) :=
  match fei4_position column row with
  | None => None
  | Some xy =>
      let xy := move (residue column 0 2 1) (-100000) 0 xy in
      let xy := move (residue column 0 2 0) 100000 0 xy in
      let sel := in_square p q column row && (pseudo || negb (square_defects p q column row)) in
      let xy := apply_table 2 (if pseudo then square_pseudo else square_3d) sel p q column row xy in
      let sel := in_hexagonal p q column row && (pseudo || negb (hexagonal_defects p q column row)) in
      Some (apply_table 4 hexagonal sel p (q + 30) column row xy)
  end.
End Sensor.
