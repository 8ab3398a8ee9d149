(** Model of the compile-time sequences and variadic merges. Definitions only. *)
From Verif Require Import Base.
Open Scope nat_scope.

(** cslibs_ndt/utility/integer_sequence.hpp:15-21 [merge_and_renumber]:
    [I1..., (sizeof...(I1) + I2)...]. *)
Definition merge_and_renumber (s1 s2 : list nat) : list nat :=
  s1 ++ map (fun i => length s1 + i) s2.

(** cslibs_ndt/utility/integer_sequence.hpp:23-30 [integer_sequence_maker]:
    specialisations for 0 and 1, otherwise split into [N>>1] and [N-(N>>1)].
    The template recursion depth is the fuel; [None] = instantiation depth exhausted. *)
Fixpoint integer_sequence_maker (fuel : nat) (n : nat) : option (list nat) :=
  match fuel with
  | O => None
  | S fuel' =>
      match n with
      | 0 => Some []
      | 1 => Some [0]
      | _ =>
          match integer_sequence_maker fuel' (Nat.shiftr n 1),
                integer_sequence_maker fuel' (n - Nat.shiftr n 1) with
          | Some a, Some b => Some (merge_and_renumber a b)
          | _, _ => None
          end
      end
  end.

(** cslibs_ndt/utility/integer_sequence.hpp:32-33 [make_integer_sequence]. The fuel
    [S n] always suffices (proved in SeqFacts.v), the default is never used. *)
Definition make_integer_sequence (n : nat) : list nat :=
  match integer_sequence_maker (S n) n with Some l => l | None => [] end.

(** cslibs_ndt/utility/for_each.hpp:9-27: calls [function(From)], ..., [function(To-1)]
    in order; the model returns the list of arguments. [fuel] = To - From. *)
Fixpoint for_each_from (from fuel : nat) : list nat :=
  match fuel with O => [] | S f => from :: for_each_from (S from) f end.
Definition for_each_args (to : nat) : list nat := for_each_from 0 to.

(** cslibs_ndt/utility/merge.hpp:7-17 [merge<Fn>(values...)]. *)
Fixpoint merge {A : Type} (apply : A -> A -> A) (default_value : A) (values : list A) : A :=
  match values with
  | [] => default_value
  | v :: values' => apply v (merge apply default_value values')
  end.
(** cslibs_ndt/utility/merge.hpp:20-40 [bool_and], [bool_or]. *)
Definition merge_and (l : list bool) : bool := merge andb true l.
Definition merge_or (l : list bool) : bool := merge orb false l.

(** cslibs_ndt/utility/to_point.hpp:12-25 [to_point] from a vector of dimension
    [length p] to a point of dimension [n]: missing coordinates become 0. *)
Definition to_point_pad {T : Type} (zero : T) (n : nat) (p : list T) : list T :=
  map (fun c => if length p <=? c then zero else nth c p zero) (make_integer_sequence n).
(** cslibs_ndt/utility/to_point.hpp:27-40 and 42-55 [to_point]/[to_index] from a function. *)
Definition to_array {T : Type} (n : nat) (f : nat -> T) : list T :=
  map f (make_integer_sequence n).
