(** What the scoring properties mean, independent of the implementation. *)
From Coq Require Import QArith Qabs Qminmax.
From Verif Require Import Base OctreeSpec MapModel SysModel.
Open Scope Z_scope.

Definition qsum (l : list Q) : Q := fold_right Qplus 0%Q l.
Definition qprod (l : list Q) : Q := fold_right Qmult 1%Q l.
Definition unit_interval (x : Q) : Prop := (0 <= x /\ x <= 1)%Q.

(** Tent of height 1 and half-width 1. *)
Definition hat (x : Q) : Q := Qmax 0 (1 - Qabs x).

(** Centre of cell [j] of family [k] along axis [d], measured in bundles: the cell covers
    [2j-s, 2j-s+2) with [s] = 1 if the family is displaced on this axis. *)
Definition cell_centre (k d : nat) (j : Z) : Q := inject_Z (2 * j - (if Nat.testbit k d then 1 else 0) + 1).

(** Product of tents centred on the cell; [u] is the point measured in bundles. *)
Definition cell_hat (k : nat) (j : idx) (u : list Q) : Q :=
  qprod (map (fun d => hat (nth d u 0%Q - cell_centre k d (nth d j 0))) (seq 0 (length j))).

(** Distance of two points measured in bundles (sum over the axes). *)
Definition distance (n : nat) (u v : list Q) : Q :=
  qsum (map (fun d => Qabs (nth d u 0 - nth d v 0)%Q) (seq 0 n)).

Section Place.
Context {P : Type}.
Variable c : config P.
(** Indices that do not overflow the octree's key. *)
Definition addressable (bi : idx) : Prop :=
  length bi = dimc c /\ (kindc c = Dynamic -> key_computable (dimc c) bi).
(** The bundle index the storage looks at (the octree keeps 16 bits per component, C06). *)
Definition place (bi : idx) : idx := match kindc c with Static => bi | Dynamic => wrap16 bi end.
End Place.
