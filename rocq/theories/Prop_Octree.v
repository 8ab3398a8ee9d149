(** C04, C05, C06, C44: the octree storage. *)
From Coq Require Import Sorted.
From Verif Require Import Base OctreeModel OctreeSpec OctreeFacts OctreeHist OctreeSize.
Open Scope Z_scope.

(** C04: any history of insertions and writes through returned pointers behaves as on a plain
    map; the only undefined behaviour is writing where nothing was inserted. *)
Theorem C04_octree_is_map {V : Type} (merge : V -> V -> V) (dims : nat) (garbage : Z)
  (ops : list (map_op V)) :
  Forall (fun o => in_tree_range dims (op_index o)) ops ->
  match abs_run merge ops with
  | Ok m => exists t, octree_run merge dims ops (octree_new garbage) = Ok t /\
              forall i, in_tree_range dims i -> octree_get t i = Ok (m i)
  | UB => octree_run merge dims ops (octree_new garbage) = UB
  | Throw => False
  end.
Proof. exact (octree_refines_map merge dims garbage ops). Qed.
Print Assumptions C04_octree_is_map.

Example C04_example :
  let ops := [Insert [0; 0] [1]; Insert [-32768; 5] [2]; Insert [0; 0] [3];
              Write [0; 0] (fun l => 9 :: l); Insert [0; 1] [4]] in
  Forall (fun o => in_tree_range 2 (op_index o)) ops /\
  (let* t := octree_run (@app Z) 2 ops (octree_new 77) in
   let* a := octree_get t [0; 0] in let* b := octree_get t [-32768; 5] in
   let* c := octree_get t [1; 0] in Ok (a, b, c)) = Ok (Some [9; 1; 3], Some [2], None) /\
  octree_run (@app Z) 2 (ops ++ [Write [1; 0] (fun l => l)]) (octree_new 77) = UB.
Proof.
  split; [|split; vm_compute; reflexivity].
  repeat constructor; cbn; lia.
Qed.

(** C05: traversal calls the function exactly once for each stored pair, with its index, in
    increasing bit-interleaved order, and nothing else. *)
Theorem C05_traverse {V : Type} (merge : V -> V -> V) (dims : nat) (garbage : Z)
  (ops : list (map_op V)) (m : abs_map V) :
  Forall (fun o => in_tree_range dims (op_index o)) ops ->
  abs_run merge ops = Ok m ->
  exists t es, octree_run merge dims ops (octree_new garbage) = Ok t /\
    octree_traverse t = Ok es /\
    (forall i v, In (i, v) es <-> in_tree_range dims i /\ m i = Some v) /\
    StronglySorted (fun a b => morton 16 (fst a) < morton 16 (fst b)) es.
Proof. exact (octree_traverse_hist merge dims garbage ops m). Qed.
Print Assumptions C05_traverse.

(** C05: sorted strictly by code implies no index is visited twice. *)
Theorem C05_visits_once {V : Type} (es : list (idx * V)) :
  StronglySorted (fun a b => morton 16 (fst a) < morton 16 (fst b)) es -> NoDup (map fst es).
Proof. exact (sorted_morton_nodup es). Qed.
Print Assumptions C05_visits_once.

(** C05: the visiting sequence depends only on the stored content, not on the history. *)
Theorem C05_order_is_canonical {V : Type} (merge : V -> V -> V) (dims : nat) (g1 g2 : Z)
  (ops1 ops2 : list (map_op V)) (m1 m2 : abs_map V) :
  Forall (fun o => in_tree_range dims (op_index o)) ops1 ->
  Forall (fun o => in_tree_range dims (op_index o)) ops2 ->
  abs_run merge ops1 = Ok m1 -> abs_run merge ops2 = Ok m2 ->
  (forall i, in_tree_range dims i -> m1 i = m2 i) ->
  exists t1 t2 es, octree_run merge dims ops1 (octree_new g1) = Ok t1 /\
    octree_run merge dims ops2 (octree_new g2) = Ok t2 /\
    octree_traverse t1 = Ok es /\ octree_traverse t2 = Ok es.
Proof. exact (octree_traverse_canonical merge dims g1 g2 ops1 ops2 m1 m2). Qed.
Print Assumptions C05_order_is_canonical.

Example C05_example :
  let a := [Insert [1; 0] 10; Insert [-3; 7] 20; Insert [0; 1] 30; Insert [1; 0] 5] in
  let b := [Insert [0; 1] 30; Insert [1; 0] 15; Insert [-3; 7] 20] in
  (let* t := octree_run Z.add 2 a (octree_new 0) in octree_traverse t) =
    Ok [([-3; 7], 20); ([1; 0], 15); ([0; 1], 30)] /\
  (let* t := octree_run Z.add 2 b (octree_new 5) in octree_traverse t) =
    Ok [([-3; 7], 20); ([1; 0], 15); ([0; 1], 30)].
Proof. split; vm_compute; reflexivity. Qed.

(** C06: false in general: the dynamic map accepts every int index, but two of them share a slot. *)
Theorem C06_distinct_indices_collide_refuted :
  exists (i j : idx) (t : octree Z),
    i <> j /\ key_computable 1 i /\ key_computable 1 j /\
    octree_run Z.add 1 [Insert i 3; Insert j 4] (octree_new 0) = Ok t /\
    octree_get t i = Ok (Some 7) /\ octree_traverse t = Ok [(i, 7)].
Proof.
  exists [0], [65536]. eexists. split; [discriminate|].
  split; [split; [reflexivity|forall_lia]|].
  split; [split; [reflexivity|forall_lia]|].
  split; [vm_compute; reflexivity|]. split; vm_compute; reflexivity.
Qed.
Print Assumptions C06_distinct_indices_collide_refuted.

(** C06: and an index near INT_MAX is undefined behaviour. *)
Theorem C06_large_index_ub_refuted :
  exists i : idx, Forall (fun z => INT_MIN <= z <= INT_MAX) i /\
    octree_run Z.add 1 [Insert i 3] (octree_new 0) = UB.
Proof.
  exists [INT_MAX]. split; [forall_lia|vm_compute; reflexivity].
Qed.
Print Assumptions C06_large_index_ub_refuted.

(** C06 (partial): the exact law. For every index whose key does not overflow, the octree is a
    map on indices modulo 2^16 per component. *)
Theorem C06_map_modulo_partial {V : Type} (merge : V -> V -> V) (dims : nat) (garbage : Z)
  (ops : list (map_op V)) :
  Forall (fun o => key_computable dims (op_index o)) ops ->
  match abs_run merge (map wrap_op ops) with
  | Ok m => exists t, octree_run merge dims ops (octree_new garbage) = Ok t /\
              forall i, key_computable dims i -> octree_get t i = Ok (m (wrap16 i))
  | UB => octree_run merge dims ops (octree_new garbage) = UB
  | Throw => False
  end.
Proof. exact (octree_refines_wrapped merge dims garbage ops). Qed.
Print Assumptions C06_map_modulo_partial.

(** C06 (partial): hence within [-32768, 32767] different indices never share a slot, and in
    general two indices share one iff all components agree modulo 2^16. *)
Theorem C06_no_collision_partial (dims : nat) (i j : idx) :
  length i = dims -> length j = dims ->
  (wrap16 i = wrap16 j <-> same_place i j) /\
  (in_tree_range dims i -> in_tree_range dims j -> (same_place i j <-> i = j)).
Proof.
  exact (fun Hi Hj => conj (wrap16_same_place i j (eq_trans Hi (eq_sym Hj))) (same_place_range dims i j)).
Qed.
Print Assumptions C06_no_collision_partial.

Example C06_example : wrap16 [40000; -5] = [-25536; -5] /\ in_tree_range 2 [-32768; 32767].
Proof. split; [reflexivity|split; [reflexivity|forall_lia]]. Qed.

(** C44: [size()] is not the number of stored elements, even if the counter started at 0. *)
Theorem C44_size_counts_nodes_refuted :
  exists (ops : list (map_op Z)) (t : octree Z) (es : list (idx * Z)),
    octree_run Z.add 2 ops (octree_new 0) = Ok t /\ octree_traverse t = Ok es /\
    length es = 2%nat /\ octree_size t = 19.
Proof.
  exists [Insert [0; 0] 1; Insert [2; 3] 1]. do 2 eexists.
  split; [vm_compute; reflexivity|]. split; [vm_compute; reflexivity|].
  split; vm_compute; reflexivity.
Qed.
Print Assumptions C44_size_counts_nodes_refuted.

(** C44 (partial): it is the arbitrary initial value of the uninitialised counter plus the
    number of tree nodes. *)
Theorem C44_size_partial {V : Type} (merge : V -> V -> V) (dims : nat) (garbage : Z)
  (ops : list (map_op V)) (t : octree V) :
  octree_run merge dims ops (octree_new garbage) = Ok t -> octree_size t = garbage + all_nodes t.
Proof. exact (octree_size_nodes merge dims garbage ops t). Qed.
Print Assumptions C44_size_partial.
