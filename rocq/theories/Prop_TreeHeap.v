(** C74, C75, C76: octrees in memory: pointers to elements, copies, released memory. *)
From Coq Require Import Sorted.
From Verif Require Import Base OctreeModel OctreeSpec OctreeFacts TreeHeapSpec TreeHeapModel TreeHeapFacts TreeHeapHist.
Open Scope Z_scope.

(** C74: in any program that creates, copies, destroys, fills and reads octrees and writes through
    the pointers they returned, every pointer ever returned stays valid, denotes the element (content
    and index) it was returned for and shows its present value; two pointers are equal exactly if
    they denote the same element; lookups return null exactly where nothing is stored; traversals
    see each element of the octree once, in the order of the codes. The only undefined behaviour is
    using a destroyed octree or a null pointer. *)
Theorem C74_pointers_denote_elements {V : Type} (merge : V -> V -> V) (dims : nat) (ops : list (tree_op V)) :
  Forall (op_in_range dims) ops ->
  match elements_run merge ops with
  | Ok w => exists s, client_run merge dims ops = Ok s /\
      length (pointers s) = length (denotes w) /\
      (forall k, nth_error (pointers s) k = Some None <-> nth_error (denotes w) k = Some None) /\
      (forall k d, nth_error (pointers s) k = Some (Some d) ->
         exists e v, nth_error (denotes w) k = Some (Some e) /\ value w e = Some v /\
           data_of (objects s) d = Ok (snd e, v)) /\
      (forall k l d1 d2 e1 e2,
         nth_error (pointers s) k = Some (Some d1) -> nth_error (denotes w) k = Some (Some e1) ->
         nth_error (pointers s) l = Some (Some d2) -> nth_error (denotes w) l = Some (Some e2) ->
         (d1 = d2 <-> e1 = e2)) /\
      (forall t x, nth_error (octrees s) t = Some (Some x) ->
         exists u es, nth_error (uses w) t = Some (Some u) /\ tree_traverse dims (objects s) x = Ok es /\
           StronglySorted (fun a b => morton 16 (fst a) < morton 16 (fst b)) es /\
           forall i v, In (i, v) es <-> in_tree_range dims i /\ exists c, u = Some c /\ value w (c, i) = Some v)
  | UB => client_run merge dims ops = UB
  | Throw => False
  end.
Proof.
  intros H. pose proof (inv_run merge dims ops client_new no_elements (inv_new dims) H) as R.
  unfold elements_run. destruct (ofold (elements_step merge) ops no_elements) as [w| |]; [|exact R|exact R].
  destruct R as [s [E HI]]. exists s. split; [exact E|]. exact (inv_observed dims s w HI).
Qed.
Print Assumptions C74_pointers_denote_elements.

Definition program : list (tree_op Z) :=
  [NewTree 7; InsertAt 0 [3; -4] 10; NewTree 0; InsertAt 0 [3; 5] 20; GetAt 0 [3; -4]; InsertAt 0 [3; -4] 1;
   GetAt 1 [3; -4]; CopyTree 0; InsertAt 2 [0; 0] 5; WriteTo 0 (Z.mul 100); GetAt 0 [0; 0]; DestroyTree 0;
   WriteTo 2 Z.opp; InsertAt 1 [3; -4] 2].
Example C74_example :
  Forall (op_in_range 2) program /\
  (let* w := elements_run Z.add program in
   Ok (denotes w, uses w, map (fun e => match e with Some e => value w e | None => None end) (denotes w))) =
    Ok ([Some (0%nat, [3; -4]); Some (0%nat, [3; 5]); Some (0%nat, [3; -4]); Some (0%nat, [3; -4]); None;
         Some (0%nat, [0; 0]); Some (0%nat, [0; 0]); Some (1%nat, [3; -4])],
        [None; Some (Some 1%nat); Some (Some 0%nat)],
        [Some (-1100); Some 20; Some (-1100); Some (-1100); None; Some 5; Some 5; Some 2]) /\
  (let* s := client_run Z.add 2 program in
   Ok (map (fun p => match p with Some d => match data_of (objects s) d with Ok e => Some (d, e) | _ => None end | None => None end) (pointers s))) =
    Ok [Some (33%nat, ([3; -4], -1100)); Some (65%nat, ([3; 5], 20)); Some (33%nat, ([3; -4], -1100));
        Some (33%nat, ([3; -4], -1100)); None; Some (71%nat, ([0; 0], 5)); Some (71%nat, ([0; 0], 5));
        Some (105%nat, ([3; -4], 2))].
Proof.
  split; [repeat constructor; cbn; lia|]. split; vm_compute; reflexivity.
Qed.

(** C74: the octree in memory is the octree of OctreeModel.v, for any indices for which the key can
    be computed: the same undefined behaviour, reported size, calls during traversal and values
    behind the pointers that lookups return. *)
Theorem C74_memory_implements_octree {V : Type} (merge : V -> V -> V) (dims : nat) (garbage : Z)
  (ops : list (map_op V)) :
  Forall (fun o => key_computable dims (op_index o)) ops ->
  match octree_run merge dims ops (octree_new garbage) with
  | Ok t => exists h x, tree_run merge dims garbage ops = Ok (h, x) /\
      tree_size_ x = octree_size t /\ tree_traverse dims h x = octree_traverse t /\
      forall i, key_computable dims i ->
        (let* p := tree_get h x i in
         match p with None => Ok None | Some d => let* e := data_of h d in Ok (Some (snd e)) end) = octree_get t i
  | UB => tree_run merge dims garbage ops = UB
  | Throw => False
  end.
Proof.
  intros H. pose proof (tree_run_spec merge dims (fun _ => True) ops [] {| root_ := None; tree_size_ := garbage |} (octree_new garbage)) as R.
  specialize (R (conj eq_refl I)). unfold tree_run.
  destruct (octree_run merge dims ops (octree_new garbage)) as [t| |].
  - destruct R as [h [x [E HR]]]; [eapply Forall_impl; [|exact H]; cbn; auto|].
    exists h, x. split; [exact E|]. exact (holds_observed dims _ h x t HR).
  - apply R. eapply Forall_impl; [|exact H]; cbn; auto.
  - apply R. eapply Forall_impl; [|exact H]; cbn; auto.
Qed.
Print Assumptions C74_memory_implements_octree.

Example C74_memory_example :
  let ops := [Insert [0] 1; Insert [9] 2; Insert [65536] 10; Write [9] (Z.add 5)] in
  Forall (fun o => key_computable 1 (op_index o)) ops /\
  (let* s := tree_run Z.add 1 100 ops in
   let* es := tree_traverse 1 (fst s) (snd s) in Ok (tree_size_ (snd s), es, length (fst s))) =
    Ok (121, [([0], 11); ([9], 7)], 42%nat).
Proof.
  split; [repeat (apply Forall_cons; [split; [reflexivity|forall_lia]|]); apply Forall_nil|].
  vm_compute. reflexivity.
Qed.

(** C75: a copy of an octree that holds something uses the same nodes ever after: both find the same
    elements. A copy of an empty octree never shares an element with its original. *)
Theorem C75_copy_partial {V : Type} (merge : V -> V -> V) (dims : nat) (ops ops' : list (tree_op V))
  (t : nat) (s1 s : client V) (x y y' : tree) :
  Forall (op_in_range dims) (ops ++ CopyTree t :: ops') ->
  client_run merge dims ops = Ok s1 -> nth_error (octrees s1) t = Some (Some x) ->
  client_run merge dims (ops ++ CopyTree t :: ops') = Ok s ->
  nth_error (octrees s) t = Some (Some y) -> nth_error (octrees s) (length (octrees s1)) = Some (Some y') ->
  (root_ x <> None ->
     tree_traverse dims (objects s) y = tree_traverse dims (objects s) y' /\
     forall i, tree_get (objects s) y i = tree_get (objects s) y' i) /\
  (root_ x = None -> forall i j d, in_tree_range dims i -> in_tree_range dims j ->
     tree_get (objects s) y i = Ok (Some d) -> tree_get (objects s) y' j = Ok (Some d) -> False).
Proof.
  intros Hr H1 Hx H Hy Hy'. destruct (copy_partial merge dims ops ops' t s1 s x y y' Hr H1 Hx H Hy Hy') as [A B].
  split; [|exact B]. intros Hn. specialize (A Hn). unfold tree_traverse, tree_get. rewrite A. split; reflexivity.
Qed.
Print Assumptions C75_copy_partial.

Example C75_example :
  (let* s := client_run Z.add 2 [NewTree 0; CopyTree 0; InsertAt 0 [1; 1] 5; InsertAt 1 [1; 1] 6; CopyTree 1; InsertAt 2 [1; 2] 7] in
   Ok (map (fun t => match t with Some x => tree_traverse 2 (objects s) x | None => UB end) (octrees s))) =
  Ok [Ok [([1; 1], 5)]; Ok [([1; 1], 6); ([1; 2], 7)]; Ok [([1; 1], 6); ([1; 2], 7)]].
Proof. vm_compute. reflexivity. Qed.

(** C75: false in general: what is inserted into a copy appears in the original, whose size does not
    count it. *)
Theorem C75_copy_independent_refuted :
  exists (ops : list (tree_op Z)) (t : nat) (i : idx) (v : Z) (s s' : client Z) (x y : tree) (es es' : list (idx * Z)),
    client_run Z.add 2 (ops ++ [CopyTree t]) = Ok s /\ nth_error (octrees s) t = Some (Some x) /\
    client_run Z.add 2 (ops ++ [CopyTree t] ++ [InsertAt (length (octrees s) - 1) i v]) = Ok s' /\
    nth_error (octrees s') t = Some (Some y) /\
    tree_traverse 2 (objects s) x = Ok es /\ tree_traverse 2 (objects s') y = Ok es' /\
    es <> es' /\ tree_size_ x = tree_size_ y.
Proof.
  exists [NewTree 0; InsertAt 0 [3; 4] 10], 0%nat, [3; 5], 20.
  do 6 eexists. split; [vm_compute; reflexivity|]. split; [reflexivity|].
  split; [vm_compute; reflexivity|]. split; [reflexivity|].
  split; [vm_compute; reflexivity|]. split; [vm_compute; reflexivity|]. split; [discriminate|reflexivity].
Qed.
Print Assumptions C75_copy_independent_refuted.

(** C76: no operation, destruction included, returns memory. *)
Theorem C76_memory_partial {V : Type} (merge : V -> V -> V) (dims : nat) (ops ops' : list (tree_op V)) (s s' : client V) :
  client_run merge dims ops = Ok s -> client_run merge dims (ops ++ ops') = Ok s' ->
  (length (objects s) <= length (objects s'))%nat.
Proof.
  unfold client_run. intros H H'. rewrite ofold_app, H in H'. cbn [obind] in H'. exact (run_length merge dims ops' s s' H').
Qed.
Print Assumptions C76_memory_partial.

(** C76: destroying every octree leaves all objects allocated. *)
Theorem C76_memory_released_refuted :
  exists (ops : list (tree_op Z)) (s : client Z),
    client_run Z.add 2 ops = Ok s /\ octrees s = [None] /\ length (objects s) = 36%nat.
Proof.
  exists [NewTree 0; InsertAt 0 [3; 4] 10; InsertAt 0 [3; 5] 20; DestroyTree 0]. eexists.
  split; [vm_compute; reflexivity|]. split; reflexivity.
Qed.
Print Assumptions C76_memory_released_refuted.
