(** C68: memory reports; C44: the counter of the octree. *)
From Coq Require Import Permutation.
From Verif Require Import Base IndexModel OctreeSpec OctreeModel OctreeFacts OctreeSize MapModel BackendModel SysModel
  SysSpec SysFacts BytesSpec BytesModel BytesFacts BytesMapFacts Samples.
Open Scope Z_scope.

(** C44 (partial): [size()] is the arbitrary initial value plus the number of occupied blocks of
    every side 1, 2, 4, ..., 65536; it depends on the history only through the stored indices. *)
Theorem C44_size_of_contents_partial {V : Type} (merge : V -> V -> V) (dims : nat) (garbage : Z)
  (ops : list (map_op V)) (m : abs_map V) (keys : list idx) :
  Forall (fun o => in_tree_range dims (op_index o)) ops -> abs_run merge ops = Ok m ->
  (forall i, In i keys <-> in_tree_range dims i /\ m i <> None) ->
  exists t, octree_run merge dims ops (octree_new garbage) = Ok t /\
    octree_size t = garbage + blocks_from 0 keys.
Proof.
  intros H Hm Hk. destruct (hist_tree merge dims garbage ops m H Hm) as [t [es [E [Et [W [_ Hin]]]]]].
  exists t. split; [exact E|]. rewrite (octree_size_nodes merge dims garbage ops t E), (all_nodes_blocks dims t es W Et).
  f_equal. apply blocks_from_set. intros i. rewrite Hk, in_map_iff. split.
  - intros [[j v] [<- Hi]]. apply Hin in Hi. cbn [fst]. split; [apply Hi|]. destruct Hi as [_ ->]. discriminate.
  - intros [Hr Hv]. destruct (m i) as [v|] eqn:Ev; [|contradiction]. exists (i, v). split; [reflexivity|].
    apply Hin. auto.
Qed.
Print Assumptions C44_size_of_contents_partial.

Example C44_contents_example :
  let ops := [Insert [0; 0] 1; Insert [2; 3] 1; Insert [0; 0] 5] in
  Forall (fun o => in_tree_range 2 (op_index o)) ops /\
  (let* t := octree_run Z.add 2 ops (octree_new 100) in Ok (octree_size t)) = Ok 119 /\
  blocks_from 0 [[0; 0]; [2; 3]] = 19.
Proof. split; [repeat constructor; cbn; lia|]. split; vm_compute; reflexivity. Qed.

(** C68: [byte_size()] of the octree is what its contents cost: one node for each occupied block,
    one array of pointers for each occupied block above the cells, index and value of each pair. *)
Theorem C68_octree_bytes {V : Type} (sz : sizes) (vbytes : V -> Z) (merge : V -> V -> V) (dims : nat)
  (garbage : Z) (ops : list (map_op V)) (m : abs_map V) (es : list (idx * V)) :
  Forall (fun o => in_tree_range dims (op_index o)) ops -> abs_run merge ops = Ok m ->
  NoDup (map fst es) -> (forall i v, In (i, v) es <-> in_tree_range dims i /\ m i = Some v) ->
  exists t, octree_run merge dims ops (octree_new garbage) = Ok t /\
    octree_bytes sz dims vbytes t =
      Ok (tree_cost (sz_tree sz) (sz_node sz) (sz_ptr sz) (sz_index sz) dims vbytes es).
Proof.
  intros H Hm Hn He. destruct (hist_tree merge dims garbage ops m H Hm) as [t [es' [E [Et [W [Hn' Hin]]]]]].
  exists t. split; [exact E|]. rewrite (octree_bytes_spec sz dims vbytes t es' W Et). f_equal.
  apply tree_cost_perm. exact (pairs_perm _ _ _ _ Hn' Hn Hin He).
Qed.
Print Assumptions C68_octree_bytes.

(** sizeof of a 64 bit build: [Node] and pointers 8 bytes, a 2D index 8 bytes. *)
Definition sizes64 : sizes := {| sz_map := 200; sz_tree := 40; sz_node := 8; sz_ptr := 8; sz_index := 8 |}.

Example C68_octree_example :
  let ops := [Insert [0; 0] 1; Insert [2; 3] 1; Insert [0; 0] 5] in
  (let* t := octree_run Z.add 2 ops (octree_new 100) in octree_bytes sizes64 2 (fun v => 2 * v) t) =
    Ok (40 + 19 * 8 + 17 * 32 + (8 + 12) + (8 + 2)) /\
  tree_cost 40 8 8 8 2 (fun v => 2 * v) [([2; 3], 1); ([0; 0], 6)] = 40 + 19 * 8 + 17 * 32 + (8 + 12) + (8 + 2).
Proof. split; vm_compute; reflexivity. Qed.

(** C68: [getByteSize()] of a dynamic map after any history is the map object plus what the listed
    bundles and the listed distributions of each storage cost. *)
Theorem C68_map_bytes {P : Type} (c : config P) (sz : sizes) (vbytes : P -> Z) (bbytes : bundle -> Z)
  (adist : arr P -> Z) (abund : arr bundle -> Z) (l : list (map_action (P:=P))) :
  config_ok c -> kindc c = Dynamic -> fits c l ->
  let cost {V : Type} (f : V -> Z) es :=
    tree_cost (sz_tree sz) (sz_node sz) (sz_ptr sz) (sz_index sz) (dimc c) f es in
  exists m bs ds, cact_all c l (new_map c) = Ok m /\ cbundles c m = Ok bs /\
    length ds = bin_count (dimc c) /\
    (forall i, (i < bin_count (dimc c))%nat -> cdists c m i = Ok (nth i ds [])) /\
    getByteSize c sz vbytes bbytes adist abund m =
      Ok (sz_map sz + (cost bbytes bs + fold_right Z.add 0 (map (cost vbytes) ds))).
Proof.
  intros Hc HD Hf cost. destruct (run_spec c Hc l Hf) as [m [E [HI _]]].
  destruct (map_bytes c sz vbytes bbytes adist abund m HD HI) as [bs [ds [A [B [D F]]]]].
  exists m, bs, ds. auto.
Qed.
Print Assumptions C68_map_bytes.

(** C68: for distributions of fixed size the report depends only on which bundles exist; it does
    not depend on order, repetition or on what was added to the cells. *)
Theorem C68_same_bundles_same_bytes {P : Type} (c : config P) (sz : sizes) (s_dist s_bundle : Z)
  (adist : arr P -> Z) (abund : arr bundle -> Z) (l1 l2 : list (map_action (P:=P))) :
  config_ok c -> kindc c = Dynamic -> fits c l1 -> fits c l2 ->
  exists m1 m2 bs1 bs2 n1 n2,
    cact_all c l1 (new_map c) = Ok m1 /\ cact_all c l2 (new_map c) = Ok m2 /\
    cbundles c m1 = Ok bs1 /\ cbundles c m2 = Ok bs2 /\
    getByteSize c sz (fixed_bytes s_dist) (fixed_bytes s_bundle) adist abund m1 = Ok n1 /\
    getByteSize c sz (fixed_bytes s_dist) (fixed_bytes s_bundle) adist abund m2 = Ok n2 /\
    ((forall bi, In bi (map fst bs1) <-> In bi (map fst bs2)) -> n1 = n2) /\
    (0 <= sz_node sz -> 0 <= sz_ptr sz -> 0 <= sz_index sz -> 0 <= s_dist -> 0 <= s_bundle ->
     (forall bi, In bi (map fst bs1) -> In bi (map fst bs2)) -> n1 <= n2).
Proof.
  intros Hc HD F1 F2.
  destruct (run_spec c Hc l1 F1) as [m1 [E1 [I1 _]]]. destruct (run_spec c Hc l2 F2) as [m2 [E2 [I2 _]]].
  destruct (map_bytes c sz (fixed_bytes s_dist) (fixed_bytes s_bundle) adist abund m1 HD I1) as [bs1 [d1 [B1 [_ [_ N1]]]]].
  destruct (map_bytes c sz (fixed_bytes s_dist) (fixed_bytes s_bundle) adist abund m2 HD I2) as [bs2 [d2 [B2 [_ [_ N2]]]]].
  eexists m1, m2, bs1, bs2, _, _. do 4 (split; [eassumption|]). split; [exact N1|]. split; [exact N2|]. split.
  - intros H. pose proof (same_bundles_bytes c sz s_dist s_bundle adist abund m1 m2 bs1 bs2 HD I1 I2 B1 B2 H) as S.
    rewrite N1, N2 in S. injection S as S. exact S.
  - intros Z1 Z2 Z3 Z4 Z5 H.
    exact (more_bundles_bytes c sz s_dist s_bundle adist abund m1 m2 bs1 bs2 _ _ HD I1 I2 B1 B2 Z1 Z2 Z3 Z4 Z5 H N1 N2).
Qed.
Print Assumptions C68_same_bundles_same_bytes.

Example C68_map_example :
  let l1 := [Touch [3; -4]; Modify [-2; 9] (cons 1); Touch [3; -4]] in
  let l2 := [Modify [3; -4] (cons 2); Modify [3; -4] (cons 7); Touch [-2; 9]] in
  let bytes l := let* m := cact_all log_dynamic l (new_map log_dynamic) in
                 getByteSize log_dynamic sizes64 (fixed_bytes 72) (fixed_bytes 40) (fun _ => 0) (fun _ => 0) m in
  config_ok log_dynamic /\ fits log_dynamic l1 /\ fits log_dynamic l2 /\
  bytes l1 = bytes l2 /\ bytes l1 = Ok 7416 /\ bytes [] = Ok 400.
Proof.
  split; [exact log_dynamic_ok|]. split; [fits_2d|]. split; [fits_2d|]. vm_compute. auto.
Qed.

(** C68: an occupancy map reports as much as if its cells had no distributions, plus one
    distribution for each cell that has one. *)
Theorem C68_occupancy_bytes {P : Type} (c : config P) (sz : sizes) (s_self s_distribution : Z) (owns : P -> bool)
  (bbytes : bundle -> Z) (adist : arr P -> Z) (abund : arr bundle -> Z) (l : list (map_action (P:=P))) :
  config_ok c -> kindc c = Dynamic -> fits c l ->
  exists m ds n, cact_all c l (new_map c) = Ok m /\ length ds = bin_count (dimc c) /\
    (forall i, (i < bin_count (dimc c))%nat -> cdists c m i = Ok (nth i ds [])) /\
    getByteSize c sz (fixed_bytes s_self) bbytes adist abund m = Ok n /\
    getByteSize c sz (occupancy_bytes s_self s_distribution owns) bbytes adist abund m =
      Ok (n + Z.of_nat (length (filter (fun e => owns (snd e)) (concat ds))) * s_distribution).
Proof.
  intros Hc HD Hf. destruct (run_spec c Hc l Hf) as [m [E [HI _]]].
  destruct (map_bytes c sz (fixed_bytes s_self) bbytes adist abund m HD HI) as [bs [ds [A [B [D F]]]]].
  destruct (map_bytes c sz (occupancy_bytes s_self s_distribution owns) bbytes adist abund m HD HI) as [bs' [ds' [A' [B' [D' F']]]]].
  rewrite A in A'. injection A' as <-.
  assert (ds' = ds) as ->.
  { apply (nth_ext _ _ [] []); [congruence|]. intros i Hi. rewrite B' in Hi. specialize (D i Hi). specialize (D' i Hi). congruence. }
  eexists m, ds, _. split; [exact E|]. split; [exact B|]. split; [exact D|]. split; [exact F|].
  rewrite F'. f_equal. rewrite (occupancy_sum sz (dimc c) s_self s_distribution owns ds). ring.
Qed.
Print Assumptions C68_occupancy_bytes.

(** The cells of the sample map "own a distribution" if something was written to them. *)
Example C68_occupancy_example :
  let l := [Touch [3; -4]; Modify [-2; 9] (cons 1); Touch [3; -4]] in
  let bytes v := let* m := cact_all log_dynamic l (new_map log_dynamic) in
                 getByteSize log_dynamic sizes64 v (fixed_bytes 40) (fun _ => 0) (fun _ => 0) m in
  fits log_dynamic l /\ bytes (fixed_bytes 72) = Ok 7416 /\
  bytes (occupancy_bytes 72 100 (fun v => negb (Nat.eqb (length v) 0))) = Ok (7416 + 4 * 100).
Proof. split; [fits_2d|]. split; vm_compute; reflexivity. Qed.
