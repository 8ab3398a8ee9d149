(** Specification of points in the grid map with one distribution per cell in floating-point arithmetic. *)
From Coq Require Import QArith Floats.SpecFloat.
From Verif Require Import Base RoundModel FloatModel FloatFacts ExtentModel MonoModel MonoSpec.
Open Scope Z_scope.

(** A point with two finite coordinates at most 2^30 cells of width [r] from the origin of the map. *)
Definition float_point (prec emax : Z) (r : Q) (p : list spec_float) : Prop :=
  length p = 2%nat /\ Forall (fun x => good_float prec emax x /\ (- inject_Z (2 ^ 30) * r <= float_value x <= inject_Z (2 ^ 30) * r)%Q) p.
(** Coordinate [x] lies in interval [k] of width [r], or is at most [tol] * [r] away from it. *)
Definition near_interval (r tol x : Q) (k : Z) : Prop :=
  ((inject_Z k - tol) * r <= x /\ x < (inject_Z k + 1 + tol) * r)%Q.
(** What a history leaves in cell [i] if point [p] belongs to [cell p]. *)
Definition point_history {V W : Type} (default : V) (add : V -> W -> V) (cell : W -> idx) (ops : list (mono_op (V:=V) (W:=W))) (i : idx) : option V :=
  fold_left (fun o op =>
    let v := match o with Some v => v | None => default end in
    match op with
    | MInsert p => if idx_eqb (cell p) i then Some (add v p) else o
    | MModify j f => if idx_eqb j i then Some (f v) else o
    end) ops None.
(** A history whose points are usable and not one step beyond the last row or column, and that changes existing cells. *)
Definition points_off_border {V W : Type} (usable : W -> Prop) (cell : W -> idx) (size : list Z) (mn : idx) (ops : list (mono_op (V:=V) (W:=W))) : Prop :=
  Forall (fun o => match o with
    | MInsert p => usable p /\ ~ on_border size mn (cell p)
    | MModify i _ => in_cells size mn i
    end) ops.
