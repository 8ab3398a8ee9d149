(** C42, C48: the nested ordered index set. *)
From Coq Require Import Sorted.
From Verif Require Import Base IndexSetModel IndexSetSpec IndexSetFacts.
Open Scope Z_scope.

Notation filled dim l := (fold_left (iset_insert dim) l (iset_empty dim)).

(** C42: after any insertions the set contains exactly the inserted indices. *)
Theorem C42_contains_inserted (dim : nat) (l : list idx) (x : idx) :
  (0 < dim)%nat -> Forall (fun i => length i = dim) l -> length x = dim ->
  (iset_find dim (filled dim l) x = true <-> In x l).
Proof. exact (fun Hd HF Hx => proj2 (insert_all dim l Hd HF) x Hx). Qed.
Print Assumptions C42_contains_inserted.

(** C42: the box query returns exactly the inserted indices in the box of the two corners, given in
    any order, ascending (so each once). *)
Theorem C42_box_query (dim : nat) (l : list idx) (p q : idx) :
  (0 < dim)%nat -> Forall (fun i => length i = dim) l -> length p = dim -> length q = dim ->
  StronglySorted lex_less (iset_between dim (filled dim l) p q) /\
  forall x, In x (iset_between dim (filled dim l) p q) <-> In x l /\ in_box p q x.
Proof. exact (box_query dim l p q). Qed.
Print Assumptions C42_box_query.

Definition stored3 : list idx := [[3; -1; 2]; [0; 0; 0]; [3; -1; -2]; [1; 5; 2]; [3; -1; 2]; [2; -1; 0]].
Example C42_example :
  Forall (fun i => length i = 3%nat) stored3 /\
  iset_between 3 (filled 3 stored3) [3; 0; -1] [0; -1; 2] = [[0; 0; 0]; [2; -1; 0]; [3; -1; 2]] /\
  map (iset_find 3 (filled 3 stored3)) [[3; -1; -2]; [3; -1; 0]] = [true; false].
Proof. split; [repeat constructor|vm_compute; split; reflexivity]. Qed.

(** C48 refuted: an inserted index in the middle of the segment is not returned by the line query. *)
Theorem C48_line_query_refuted :
  exists l p q x, Forall (fun i => length i = 2%nat) l /\ In x l /\ in_box p q x /\ near_segment p q x /\
    get_between 2 (filled 2 l) p q = Ok [].
Proof.
  exists [[5; 0]], [0; 0], [10; 0], [5; 0]. split; [repeat constructor|]. split; [left; reflexivity|].
  split; [intros [|[|d]] H; cbn in *; lia|]. split; [|vm_compute; reflexivity].
  exists 1, 2. split; [lia|]. vm_compute. reflexivity.
Qed.
Print Assumptions C48_line_query_refuted.

(** C48, what holds for every set and segment: the result is sound (only inserted indices), but it
    is the start corner if inserted, and nothing else. *)
Theorem C48_only_start_partial (dim : nat) (l : list idx) (p q : idx) :
  (0 < dim)%nat -> Forall (fun i => length i = dim) l -> length p = dim -> length q = dim ->
  Forall (fun z => -2 ^ 30 <= z < 2 ^ 30) p -> Forall (fun z => -2 ^ 30 <= z < 2 ^ 30) q ->
  (In p l -> get_between dim (filled dim l) p q = Ok [(p, 0)]) /\
  (~ In p l -> get_between dim (filled dim l) p q = Ok []).
Proof. exact (only_start dim l p q). Qed.
Print Assumptions C48_only_start_partial.

Example C48_example :
  get_between 2 (filled 2 [[0; 0]; [5; 0]; [10; 0]]) [0; 0] [10; 0] = Ok [([0; 0], 0)] /\
  get_between 2 (filled 2 [[0; 0]; [5; 0]; [10; 0]]) [1; 1] [10; -3] = Ok [].
Proof. split; vm_compute; reflexivity. Qed.
