(** Averages of points, and the cells and boxes they are to lie in. Independent of the map. *)
From Coq Require Import QArith.
From Verif Require Import Base IndexSpec SampleSpec MapModel LocalSpec.
Open Scope Z_scope.

(** Average of a coordinate over a list of points. *)
Definition average (pts : list (list Q)) (a : nat) : Q :=
  (qsum (map (fun p => nth a p 0%Q) pts) / inject_Z (Z.of_nat (length pts)))%Q.
(** Borders on axis [a] of cell [j] of the grid number [k]: intervals of length [2 * h], displaced by [h]
    if bit [a] of [k] is set. *)
Definition cell_from (h : Q) (k a : nat) (j : idx) : Q := (inject_Z (2 * nth a j 0%Z - displaced k a) * h)%Q.
Definition cell_to (h : Q) (k a : nat) (j : idx) : Q := (cell_from h k a j + 2 * h)%Q.
(** The points of cell [j] of grid [k]. *)
Definition points_at (h : Q) (k : nat) (j : idx) (pts : list (list Q)) : list (list Q) :=
  filter (fun p => idx_eqb (cell_of h k p) j) pts.
(** Third coordinate of a point after a rotation with third row [row] and a translation by [tz] upwards. *)
Definition elevation (row : list Q) (tz : Q) (p : nat -> Q) : Q :=
  (qsum (map (fun d => nth d row 0%Q * p d)%Q (seq 0 3)) + tz)%Q.
