(** What the octree properties mean: a history of insertions seen as a plain map. *)
From Verif Require Import Base.
Open Scope Z_scope.

(** Index with [dims] components in the range the octree can tell apart. *)
Definition in_tree_range (dims : nat) (i : idx) : Prop :=
  length i = dims /\ Forall (fun z => -32768 <= z <= 32767) i.

(** Index with [dims] components for which computing the key does not overflow an int. *)
Definition key_computable (dims : nat) (i : idx) : Prop :=
  length i = dims /\ Forall (fun z => INT_MIN <= z + 32768 <= INT_MAX) i.

(** The octree's notion of the same place: components agree modulo 2^16. *)
Definition same_place (i j : idx) : Prop :=
  length i = length j /\
  forall d, (d < length i)%nat -> (nth d i 0) mod 65536 = (nth d j 0) mod 65536.

(** The client's operations: insertion, and writing through the pointer obtained for an index. *)
Inductive map_op (V : Type) : Type :=
| Insert (i : idx) (v : V)
| Write (i : idx) (f : V -> V).
Arguments Insert {V} i v.
Arguments Write {V} i f.
Definition op_index {V : Type} (o : map_op V) : idx := match o with Insert i _ => i | Write i _ => i end.

(** Abstract map: a function from indices to stored values. Inserting at a free index stores the
    value, at an occupied one combines it; writing through a null pointer is undefined. *)
Definition abs_map (V : Type) : Type := idx -> option V.
Definition abs_empty {V : Type} : abs_map V := fun _ => None.
Definition abs_set {V : Type} (m : abs_map V) (i : idx) (v : V) : abs_map V :=
  fun j => if idx_eqb i j then Some v else m j.
Definition abs_step {V : Type} (merge : V -> V -> V) (m : abs_map V) (o : map_op V)
  : outcome (abs_map V) :=
  match o with
  | Insert i v => Ok (abs_set m i (match m i with None => v | Some w => merge w v end))
  | Write i f => match m i with None => UB | Some w => Ok (abs_set m i (f w)) end
  end.
Definition abs_run {V : Type} (merge : V -> V -> V) (ops : list (map_op V)) : outcome (abs_map V) :=
  ofold (abs_step merge) ops abs_empty.

(** Index with every component brought to [-32768, 32767] modulo 2^16. *)
Definition wrap16 (i : idx) : idx := map (fun z => (z + 32768) mod 65536 - 32768) i.
Definition wrap_op {V : Type} (o : map_op V) : map_op V :=
  match o with Insert i v => Insert (wrap16 i) v | Write i f => Write (wrap16 i) f end.

(** Bit-interleaved (Morton) code of an index: bit [r*dims + d] of the code is bit [r] of
    component [d] counted from the smallest representable component -32768. *)
Fixpoint column (i : idx) (d r : nat) : Z :=
  match i with
  | [] => 0
  | x :: i' => (if Z.testbit (x + 32768) (Z.of_nat r) then 2 ^ Z.of_nat d else 0) + column i' (S d) r
  end.
Fixpoint morton (bits : nat) (i : idx) : Z :=
  match bits with
  | O => 0
  | S r => column i 0 r * 2 ^ (Z.of_nat (length i) * Z.of_nat r) + morton r i
  end.
