(** C01, C02, C03: index arithmetic. Only property theorems and their non-vacuity examples. *)
From Coq Require Import QArith Qround.
From Verif Require Import Base SeqModel SeqFacts IndexModel IndexSpec IndexFacts IndexGeo.
Open Scope Z_scope.

(** C01: the k-th cell of a bundle is floor/ceil of half the bundle index, never overflows an
    int, and contains every point of the bundle. *)
Theorem C01_bundle_cells (bi : idx) (k : nat) :
  length (generate_index bi k) = length bi /\
  (forall d, (d < length bi)%nat ->
     nth d (generate_index bi k) 0 =
     if Nat.testbit k d then Qceiling (nth d bi 0 # 2) else Qfloor (nth d bi 0 # 2)) /\
  (all_int bi -> all_int (generate_index bi k)) /\
  (forall h p, (0 < h)%Q -> point_in_bundle h bi p -> point_in_cell h k (generate_index bi k) p).
Proof. exact (C01_full bi k). Qed.
Print Assumptions C01_bundle_cells.

Example C01_example :
  generate_index [-3; 4] 1 = [-1; 2] /\ generate_index [-3; 4] 2 = [-2; 2] /\
  generate_index [-3; 5] 3 = [-1; 3] /\
  point_in_bundle (1#2) [-3; 5] [-(11#10); 26#10]%Q.
Proof.
  repeat split; try (vm_compute; reflexivity).
  all: destruct d as [|[|d]]; cbn in *; [| |exfalso; lia]; unfold Qle, Qlt; cbn; lia.
Qed.

(** C01, second form: for a point of the bundle, cell j of family k contains the point iff it is
    the one the code refers to; and the bundle is exactly the intersection of its 2^D cells. *)
Theorem C01_cell_of_point (h : Q) (k : nat) (bi j : idx) (p : list Q) :
  (0 < h)%Q -> point_in_bundle h bi p ->
  (point_in_cell h k j p <-> generate_index bi k = j).
Proof. exact (point_in_cell_iff h k bi j p). Qed.
Print Assumptions C01_cell_of_point.

Theorem C01_bundle_is_intersection (h : Q) (bi : idx) (p : list Q) :
  (0 < h)%Q -> length p = length bi ->
  (point_in_bundle h bi p <->
   forall k, (k < 2 ^ length bi)%nat -> point_in_cell h k (generate_index bi k) p).
Proof. exact (bundle_is_intersection h bi p). Qed.
Print Assumptions C01_bundle_is_intersection.

(** C01: the callback of [apply_indices] is called for the families 0..bin_count-1 in this
    order with the index of the family ([generate_indices] is the same list). *)
Theorem C01_apply_indices (bi : idx) (n : nat) :
  apply_indices n bi = combine (seq 0 n) (map (generate_index bi) (seq 0 n)) /\
  generate_indices bi n = map (generate_index bi) (seq 0 n) /\
  bin_count (length bi) = (2 ^ length bi)%nat.
Proof.
  exact (conj (eq_trans (apply_indices_order bi n) (f_equal _ (generate_indices_spec bi n)))
          (conj (generate_indices_spec bi n) (two_pow_spec (length bi)))).
Qed.
Print Assumptions C01_apply_indices.

Example C01_apply_example :
  apply_indices (bin_count 2) [5; -1] =
  [(0%nat, [2; -1]); (1%nat, [3; -1]); (2%nat, [2; 0]); (3%nat, [3; 0])].
Proof. vm_compute; reflexivity. Qed.

(** C02: the bundles that refer to cell (k,j) are exactly 2^D explicitly given ones. *)
Theorem C02_cell_bundles (k : nat) (j : idx) :
  exists bundles : list idx,
    NoDup bundles /\ length bundles = (2 ^ length j)%nat /\
    (forall bi, In bi bundles <-> generate_index bi k = j) /\
    (forall bi, In bi bundles <->
       length bi = length j /\
       forall d, (d < length j)%nat ->
         nth d bi 0 = 2 * nth d j 0 - displaced k d \/
         nth d bi 0 = 2 * nth d j 0 - displaced k d + 1).
Proof. exact (C02_full k j). Qed.
Print Assumptions C02_cell_bundles.

Example C02_example :
  Forall (fun bi => generate_index bi 1 = [-1; 3]) [[-3; 6]; [-2; 6]; [-3; 7]; [-2; 7]] /\
  generate_index [-1; 6] 1 <> [-1; 3].
Proof. split; [repeat constructor|vm_compute; discriminate]. Qed.

(** C03: the halving construction gives 0..N-1, for_each calls 0..N-1, merges are and/or. *)
Theorem C03_make_integer_sequence (n : nat) :
  make_integer_sequence n = seq 0 n /\
  (forall fuel, (n < fuel)%nat -> integer_sequence_maker fuel n = Some (seq 0 n)) /\
  for_each_args n = seq 0 n.
Proof.
  exact (conj (make_integer_sequence_spec n)
          (conj (fun fuel H => maker_spec fuel n H) (for_each_args_spec n))).
Qed.
Print Assumptions C03_make_integer_sequence.

Theorem C03_merge (l : list bool) :
  (merge_and l = true <-> forall b, In b l -> b = true) /\ (merge_or l = true <-> In true l).
Proof. exact (conj (merge_and_true l) (merge_or_true l)). Qed.
Print Assumptions C03_merge.

Theorem C03_to_point {T : Type} (zero : T) (n : nat) (p : list T) (f : nat -> T) (d : nat) :
  (d < n)%nat ->
  nth d (to_point_pad zero n p) zero = nth d p zero /\ nth d (to_array n f) zero = f d.
Proof. exact (fun H => conj (to_point_pad_nth zero n p d H) (to_array_nth n f d zero H)). Qed.
Print Assumptions C03_to_point.

Example C03_example :
  make_integer_sequence 7 = [0; 1; 2; 3; 4; 5; 6]%nat /\
  to_point_pad 0 3 [8; 9] = [8; 9; 0] /\ merge_and [true; false] = false /\ merge_or [] = false.
Proof. repeat split; vm_compute; reflexivity. Qed.
