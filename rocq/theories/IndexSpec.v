(** What the index properties mean, independent of the implementation model. *)
From Coq Require Import QArith Qround.
From Verif Require Import Base.
Open Scope Z_scope.

(** Family [k] of overlapping cells is displaced by half a cell on the axes whose bit is set. *)
Definition displaced (k d : nat) : Z := if Nat.testbit k d then 1 else 0.

(** Position [x] lies in bundle [b] of edge length [h] (half the map resolution). *)
Definition in_bundle (h : Q) (b : Z) (x : Q) : Prop :=
  (inject_Z b * h <= x)%Q /\ (x < inject_Z (b + 1) * h)%Q.

(** Position [x] lies in cell [j] (edge length [2*h]) of a family displaced by [s] bundles. *)
Definition in_cell (h : Q) (s j : Z) (x : Q) : Prop :=
  (inject_Z (2 * j - s) * h <= x)%Q /\ (x < inject_Z (2 * j - s + 2) * h)%Q.

(** Componentwise versions for points of any dimension. *)
Definition point_in_bundle (h : Q) (bi : idx) (p : list Q) : Prop :=
  length p = length bi /\
  forall d, (d < length bi)%nat -> in_bundle h (nth d bi 0) (nth d p 0%Q).
Definition point_in_cell (h : Q) (k : nat) (j : idx) (p : list Q) : Prop :=
  length p = length j /\
  forall d, (d < length j)%nat -> in_cell h (displaced k d) (nth d j 0) (nth d p 0%Q).

(** All components fit a C++ int. *)
Definition all_int (i : idx) : Prop := Forall (fun z => INT_MIN <= z <= INT_MAX) i.
