(** Model of cslibs_ndt/utility/binary_indices.hpp. Definitions only. *)
From Verif Require Import Base SeqModel.
Open Scope Z_scope.

(** binary_indices.hpp:14-17 [two_pow]. *)
Fixpoint two_pow (dim : nat) : nat :=
  match dim with O => 1%nat | S d => Nat.shiftl (two_pow d) 1 end.

(** [(counter / two_pow(dimension)) & 1] used as a condition
    (binary_indices.hpp:21, bilinear_interpolation.hpp:42). *)
Definition counter_bit (counter dimension : nat) : bool :=
  negb (Nat.eqb (Nat.land (counter / two_pow dimension) 1) 0).

(** binary_indices.hpp:19-24 [get_index_inner]. [>>] on a negative [int] is the
    arithmetic shift (implementation-defined before C++20, true of gcc/clang). *)
Definition get_index_inner (bi_dim : Z) (counter dimension : nat) : Z :=
  if counter_bit counter dimension
  then Z.shiftr bi_dim 1 + Z.land bi_dim 1
  else Z.shiftr bi_dim 1.

(** binary_indices.hpp:26-43 [get_index], [generate_index]. *)
Definition generate_index (bi : idx) (counter : nat) : idx :=
  map (fun dimension => get_index_inner (nth dimension bi 0) counter dimension)
      (make_integer_sequence (length bi)).

(** binary_indices.hpp:45-58 [generate_indices]. *)
Definition generate_indices (bi : idx) (count : nat) : list idx :=
  map (generate_index bi) (make_integer_sequence count).

(** binary_indices.hpp:60-89 [apply_indices]: the list of calls [function(i, index)]. *)
Fixpoint apply_indices_from (bi : idx) (from fuel : nat) : list (nat * idx) :=
  match fuel with
  | O => []
  | S f => (from, generate_index bi from) :: apply_indices_from bi (S from) f
  end.
Definition apply_indices (bin_count : nat) (bi : idx) : list (nat * idx) :=
  apply_indices_from bi 0 bin_count.

(** abstract_map.hpp:43 [bin_count = two_pow(Dim)]. *)
Definition bin_count (dim : nat) : nat := two_pow dim.
