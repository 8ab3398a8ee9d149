(** What the score of a point should depend on: the inserted points near it. Independent of bundles,
    storages and histories. *)
From Coq Require Import QArith Qround.
From Verif Require Import Base IndexSpec MapModel SysModel InsertModel SampleSpec.
Open Scope Z_scope.

(** Number of the interval of length [h] that contains [x]. *)
Definition bundle_number (h x : Q) : Z := Qfloor (x / h).
(** Number of the interval of length [2 * h], displaced by [s] times [h] to the left, that contains [x]. *)
Definition cell_number (h : Q) (s : Z) (x : Q) : Z := Qfloor ((x / h + inject_Z s) / 2).

Definition same_bundle (h : Q) (p q : list Q) : bool :=
  forallb (fun d => bundle_number h (nth d p 0%Q) =? bundle_number h (nth d q 0%Q)) (seq 0 (length p)).
(** Same cell of the grid number [k] (displaced on the axes whose bit is set in [k]). *)
Definition same_cell (h : Q) (k : nat) (p q : list Q) : bool :=
  forallb (fun d => cell_number h (displaced k d) (nth d p 0%Q) =? cell_number h (displaced k d) (nth d q 0%Q))
    (seq 0 (length p)).
(** The cell of grid [k] that contains [p]. *)
Definition cell_of (h : Q) (k : nat) (p : list Q) : idx :=
  map (fun d => cell_number h (displaced k d) (nth d p 0%Q)) (seq 0 (length p)).

Section Points.
Context {Pose X W P : Type}.
Variable geo : geometry Pose X W (list Q).
Variable c : config P.
Variable h : Q.
Notation gop := (grid_op (Pose:=Pose) (X:=X)).

(** The points of a cloud in map coordinates, without those that are not normal. [check]: occupancy
    maps look at the sensor point as well. *)
Definition cloud (check : bool) (o : Pose) (xs : list X) : list (list Q) :=
  map (to_map geo) (filter (normal_world geo) (map (transform geo o) (if check then filter (normal_in geo) xs else xs))).

(** A static map takes points from [minimum * h] to [(minimum + 2 * size - 1) * h] (C08). *)
Definition covered (p : list Q) : bool :=
  match kindc c with
  | Dynamic => true
  | Static => forallb (fun d =>
      Qle_bool (inject_Z (nth d (minc c) 0) * h) (nth d p 0%Q) &&
      negb (Qle_bool (inject_Z (nth d (minc c) 0 + 2 * nth d (sizec c) 0 - 1) * h) (nth d p 0%Q)))%bool (seq 0 (dimc c))
  end.

(** All points inserted by a history that the map takes. *)
Definition inserted (check : bool) (ops : list gop) : list (list Q) :=
  flat_map (fun op => match op with GInsert o xs => filter covered (cloud check o xs) | _ => [] end) ops.

(** The coordinates stay inside of what the map can address, with room for [k] rings of neighbours. *)
Definition in_reach (k : Z) (p : list Q) : Prop :=
  length p = dimc c /\
  forall d, (d < dimc c)%nat ->
    match kindc c with
    | Dynamic => (inject_Z (-32768 + k) * h <= nth d p 0 /\ nth d p 0 < inject_Z (32768 - k) * h)%Q
    | Static => (inject_Z INT_MIN * h <= nth d p 0 /\ nth d p 0 < inject_Z (INT_MAX + 1) * h)%Q
    end.
Definition index_in_reach (k : Z) (bi : idx) : Prop :=
  length bi = dimc c /\ (kindc c = Dynamic -> Forall (fun z => -32768 + k <= z <= 32767 - k) bi).
Fixpoint expands (ops : list gop) : Z :=
  match ops with [] => 0 | GExpand :: ops' => 1 + expands ops' | _ :: ops' => expands ops' end.
Definition all_in_reach (check : bool) (ops : list gop) : Prop :=
  Forall (fun op => match op with
    | GInsert o xs => Forall (in_reach (expands ops)) (cloud check o xs)
    | GTouch bi => index_in_reach (expands ops) bi
    | GExpand => True
    end) ops.
End Points.

(** Mean over the 2^n displaced grids of the values [f] of the cells that contain the point, and the
    mean weighted by tents centred on these cells. *)
Definition mean_score (n : nat) (f : nat -> Q) : Q :=
  (qsum (map f (seq 0 (2 ^ n))) / inject_Z (2 ^ Z.of_nat n))%Q.
Definition tent_score (n : nat) (h : Q) (q : list Q) (f : nat -> Q) : Q :=
  qsum (map (fun k => cell_hat k (cell_of h k q) (map (fun x => x * / h) q) * f k)%Q (seq 0 (2 ^ n))).

(** Bundles visited by rays as misses. *)
Section Rays.
Context {Pose X S : Type}.
Variable ray : Pose -> S -> list idx.
Notation gop := (grid_op (Pose:=Pose) (X:=X)).
Definition rays_in_reach {P : Type} (c : config P) (ops : list gop) : Prop :=
  Forall (fun op => match op with
    | GInsert o _ => forall s bi, In bi (ray o s) -> index_in_reach c (expands ops) bi
    | _ => True
    end) ops.
End Rays.
