(** Vocabulary for the single-distribution grid map, independent of its code. *)
From Coq Require Import QArith Qround.
From Verif Require Import Base SeqModel IndexModel OctreeSpec MapModel BackendModel SysModel ExtentModel MonoModel.
Open Scope Z_scope.

(** The cell of a point in map coordinates. *)
Definition cell_of (res : Q) (p : list Q) : idx := map (fun x => Qfloor (x / res)) p.
(** The cells of a map with [size] cells per axis, the first one being [min]. *)
Definition in_cells (size : list Z) (min i : idx) : Prop :=
  length i = 2%nat /\ forall d, (d < 2)%nat -> nth d min 0 <= nth d i 0 < nth d min 0 + nth d size 0.
(** Construction arguments for which all indices are of type [int]. *)
Definition mono_args (res : Q) (size : list Z) (min : idx) : Prop :=
  (0 < res)%Q /\ length size = 2%nat /\ length min = 2%nat /\
  forall d, (d < 2)%nat -> 0 <= nth d size 0 <= INT_MAX /\ INT_MIN <= nth d min 0 /\ nth d min 0 + nth d size 0 <= INT_MAX.
(** A point with two coordinates whose cell index is of type [int]. *)
Definition has_cell (res : Q) (p : list Q) : Prop :=
  length p = 2%nat /\ Forall (fun z => INT_MIN <= z <= INT_MAX) (cell_of res p).
(** One step beyond the last row or column, both axes within one step. *)
Definition on_border (size : list Z) (min i : idx) : Prop :=
  (forall d, (d < 2)%nat -> nth d min 0 <= nth d i 0 <= nth d min 0 + nth d size 0) /\
  exists d, (d < 2)%nat /\ nth d i 0 = nth d min 0 + nth d size 0.

(** A history that stays off the border, and what it does to one cell. *)
Definition off_border {V W : Type} (to_m : W -> list Q) (res : Q) (size : list Z) (min : idx) (ops : list (mono_op (V:=V) (W:=W))) : Prop :=
  Forall (fun o => match o with
    | MInsert p => has_cell res (to_m p) /\ ~ on_border size min (cell_of res (to_m p))
    | MModify i _ => in_cells size min i
    end) ops.
Definition cell_history {V W : Type} (default : V) (to_m : W -> list Q) (add : V -> W -> V) (res : Q)
  (ops : list (mono_op (V:=V) (W:=W))) (i : idx) : option V :=
  fold_left (fun o op =>
    let v := match o with Some v => v | None => default end in
    match op with
    | MInsert p => if idx_eqb (cell_of res (to_m p)) i then Some (add v p) else o
    | MModify j f => if idx_eqb j i then Some (f v) else o
    end) ops None.

(** Number of elements of a list of cells that family [i] maps to the same cell as [b]. *)
Definition sharing (bs : list idx) (i : nat) (b : idx) : nat :=
  length (filter (fun b' => idx_eqb (generate_index b' i) (generate_index b i)) bs).
(** Sum over the elements of a list. *)
Definition sum_over {A : Type} (f : A -> Z) (l : list A) : Z := fold_right Z.add 0 (map f l).
(** Scores outside of [0, 1] are dropped. *)
Definition probability (s : Q) : Q := if Qle_bool 0 s && Qle_bool s 1 then s else 0%Q.
