(** C86, C87: maps and storages used by several threads. *)
From Coq Require Import Sorted.
From Verif Require Import Base IndexModel OctreeSpec OctreeModel TreeHeapSpec TreeHeapModel ShareModel ShareFacts ShareTop ShareLookup.
Open Scope Z_scope.

(** C86 (partial): any number of threads that sample a map or look up bundles that are there, under
    every schedule: nothing changes, no two accesses conflict, and every thread gets the answers it
    would get alone, after a number of turns that does not depend on the others. Missing: bundles
    that are not there yet, see below. *)
Theorem C86_queries_partial {D : Type} (d_new : D) (d_merge : D -> D -> D) (dims : nat)
  (s : shared (content D)) (threads : list (list query)) :
  Forall (Forall (fun q => match q with LookUp bi _ => exists b, alone (p_get 0 bi) s = Ok (s, Some b) | Sample _ => True end)) threads ->
  (forall l, In l threads -> exists s' r, alone (p_queries d_new d_merge dims l) s = Ok (s', r)) ->
  exists needed : nat -> nat, forall schedule,
  exists ps, interleave schedule s (map (p_queries d_new d_merge dims) threads) = Ok (s, ps) /\
    length ps = length threads /\ race_free ps /\
    forall t l r s', nth_error threads t = Some l -> alone (p_queries d_new d_merge dims l) s = Ok (s', r) ->
      ((needed t <= count_occ Nat.eq_dec schedule t)%nat -> nth_error ps t = Some (Ret r)) /\
      (forall r', nth_error ps t = Some (Ret r') -> r' = r).
Proof. exact (queries_together d_new d_merge dims s threads). Qed.
Print Assumptions C86_queries_partial.

(** A one-dimensional map with two families of cells, empty and with two bundles. *)
Definition bundle_at (b : Z) : query := LookUp [b] [[b / 2]; [(b + 1) / 2]].
Definition no_map : shared (content Z) := empty_trees [0; 0; 0].
Definition two_bundles : shared (content Z) :=
  match alone (p_queries 7 Z.add 1 [bundle_at 0; bundle_at 5]) no_map with Ok r => fst r | _ => no_map end.
Example C86_example :
  let threads := [[bundle_at 5; Sample [0]]; [Sample [3]]; [bundle_at 5; bundle_at 0]] in
  Forall (Forall (fun q => match q with LookUp bi _ => exists b, alone (p_get 0 bi) two_bundles = Ok (two_bundles, Some b) | Sample _ => True end)) threads /\
  (forall l, In l threads -> exists s' r, alone (p_queries 7 Z.add 1 l) two_bundles = Ok (s', r)) /\
  (let* w := interleave (concat (repeat [0; 2; 1; 2]%nat 300)) two_bundles (map (p_queries 7 Z.add 1) threads) in
   Ok (map stopped (snd w))) =
  Ok [Some [Found 107; Sampled (Some [Some 7; Some 7])]; Some [Sampled None]; Some [Found 107; Found 33]].
Proof.
  split; [repeat constructor; eexists; vm_compute; reflexivity|]. split.
  - intros l [<-|[<-|[<-|[]]]]; eexists; eexists; vm_compute; reflexivity.
  - vm_compute. reflexivity.
Qed.

(** C86: what one thread gets from a new map, in any number of lookups and scores: every bundle looked up
    is in the map afterwards, at the address all its lookups returned, each of its entries being the
    distribution of that family and index; bundles never looked up are not there; scores see new
    distributions of exactly the bundles looked up before. *)
Theorem C86_one_thread {D : Type} (d_new : D) (d_merge : D -> D -> D) (dims : nat) (garbage : list Z) (qs : list query) :
  length garbage = (1 + 2 ^ dims)%nat ->
  Forall (fun q => match q with
                   | LookUp bi indices => in_tree_range dims bi /\ indices = map (generate_index bi) (seq 0 (2 ^ dims))
                   | Sample bi => in_tree_range dims bi
                   end) qs ->
  exists s r, alone (p_queries d_new d_merge dims qs) (empty_trees garbage) = Ok (s, r) /\ length r = length qs /\
    (forall k bi indices a, nth_error qs k = Some (LookUp bi indices) -> nth_error r k = Some a ->
       exists b l, a = Found b /\ alone (p_get 0 bi) s = Ok (s, Some b) /\ data_of (mem s) b = Ok (bi, Bundle l) /\ length l = (2 ^ dims)%nat /\
         forall f, (f < 2 ^ dims)%nat -> exists d, nth_error l f = Some (Some d) /\
           alone (p_get (1 + f) (generate_index bi f)) s = Ok (s, Some d) /\ data_of (mem s) d = Ok (generate_index bi f, Dist d_new)) /\
    (forall bi, in_tree_range dims bi -> (forall indices, ~ In (LookUp bi indices) qs) -> alone (p_get 0 bi) s = Ok (s, None)) /\
    (forall k bi a, nth_error qs k = Some (Sample bi) -> nth_error r k = Some a ->
       ((exists indices, In (LookUp bi indices) (firstn k qs)) /\ a = Sampled (Some (repeat (Some d_new) (2 ^ dims)))) \/
       ((forall indices, ~ In (LookUp bi indices) (firstn k qs)) /\ a = Sampled None)).
Proof. exact (one_after_another d_new d_merge dims garbage qs). Qed.
Print Assumptions C86_one_thread.

(** The bundles 4 and 5 share the distribution of index 2 of family 0. *)
Example C86_one_thread_example :
  let qs := [bundle_at 4; Sample [5]; bundle_at 5; Sample [5]; bundle_at 4] in
  Forall (fun q => match q with
                   | LookUp bi indices => in_tree_range 1 bi /\ indices = map (generate_index bi) (seq 0 (2 ^ 1))
                   | Sample bi => in_tree_range 1 bi
                   end) qs /\
  (let* w := alone (p_queries 7 Z.add 1 qs) no_map in
   let* x := data_of (mem (fst w)) 33 in
   let* y := data_of (mem (fst w)) 103 in
   Ok (snd w, x, y)) =
  Ok ([Found 33; Sampled None; Found 103; Sampled (Some [Some 7; Some 7]); Found 33],
      ([4], Bundle [Some 67%nat; Some 101%nat]), ([5], Bundle [Some 67%nat; Some 105%nat])).
Proof.
  split; [|vm_compute; reflexivity].
  repeat constructor; cbn; lia.
Qed.

(** C86 is false of lookups through a const map of bundles that are not there: they allocate. Two
    threads look up different bundles of an empty map; both get one, but in the map the bundle of
    the second thread does not exist, nor do the distributions it refers to. One after the other
    the two lookups work. *)
Theorem C86_lost_bundle_refuted :
  exists (schedule : list nat) (s : shared (content Z)) (a b : nat),
    interleave schedule no_map (map (p_queries 7 Z.add 1) [[bundle_at 0]; [bundle_at 5]]) =
      Ok (s, [Ret [Found a]; Ret [Found b]]) /\
    alone (p_get 0 [0]) s = Ok (s, Some a) /\ alone (p_get 0 [5]) s = Ok (s, None) /\
    (let* w := interleave (repeat 0%nat 1000 ++ repeat 1%nat 1000) no_map
                 (map (p_queries 7 Z.add 1) [[bundle_at 0]; [bundle_at 5]]) in
     let* x := alone (p_get 0 [0]) (fst w) in
     let* y := alone (p_get 0 [5]) (fst w) in
     Ok (map stopped (snd w), snd x, snd y)) =
    Ok ([Some [Found 33]; Some [Found 107]], Some 33%nat, Some 107%nat).
Proof.
  exists (repeat 0%nat 2 ++ repeat 1%nat 1000 ++ repeat 0%nat 1000).
  eexists. eexists. eexists. split; [vm_compute; reflexivity|].
  split; [vm_compute; reflexivity|]. split; vm_compute; reflexivity.
Qed.
Print Assumptions C86_lost_bundle_refuted.

(** C86: already the first accesses conflict: one thread is about to set the root of the storage of
    bundles, the other is about to read it, which C++ leaves undefined. *)
Theorem C86_conflict_refuted :
  exists (schedule : list nat) (s : shared (content Z)) (p q : prog (content Z) (list (answer Z))),
    interleave schedule no_map (map (p_queries 7 Z.add 1) [[bundle_at 0]; [bundle_at 5]]) = Ok (s, [p; q]) /\
    access p = Some (LRoot 0, true) /\ access q = Some (LRoot 0, false) /\ race p q /\ race q p /\ ~ race_free [p; q].
Proof.
  exists [0; 0; 0]%nat. eexists. eexists. eexists. split; [vm_compute; reflexivity|]. split; [reflexivity|]. split; [reflexivity|].
  assert (R : forall V A (p q : prog V A), access p = Some (LRoot 0, true) -> access q = Some (LRoot 0, false) -> race p q /\ race q p).
  { intros V A p q Hp Hq. split; eexists; eexists; eexists; repeat split; eassumption || reflexivity. }
  match goal with |- race ?p ?q /\ _ => destruct (R _ _ p q eq_refl eq_refl) as [R1 R2] end. split; [exact R1|]. split; [exact R2|].
  intros F. eapply (F 0%nat 1%nat); [discriminate|reflexivity|reflexivity|exact R1].
Qed.
Print Assumptions C86_conflict_refuted.

(** C86: two threads that look up the same missing bundle may also dereference a null pointer: one of
    them replaces the array of children that the other has just allocated. *)
Theorem C86_crash_refuted :
  exists (schedule : list nat),
    interleave schedule no_map (map (p_queries 7 Z.add 1) [[bundle_at 0]; [bundle_at 0]]) = UB /\
    (exists first rest, schedule = first ++ rest /\
       (let* w := interleave first no_map (map (p_queries 7 Z.add 1) [[bundle_at 0]; [bundle_at 0]]) in
        Ok (map access (snd w))) = Ok [Some (LWord 0, true); Some (LWord 0, true)]).
Proof.
  exists (repeat 0%nat 10 ++ repeat 1%nat 10 ++ repeat 0%nat 2 ++ repeat 1%nat 100 ++ repeat 0%nat 100).
  split; [vm_compute; reflexivity|].
  exists (repeat 0%nat 10 ++ repeat 1%nat 7), (repeat 1%nat 3 ++ repeat 0%nat 2 ++ repeat 1%nat 100 ++ repeat 0%nat 100).
  split; [reflexivity|]. vm_compute. reflexivity.
Qed.
Print Assumptions C86_crash_refuted.

(** C87: storages filled by threads, one thread for each: under every schedule nothing is undefined
    and no two accesses conflict; a thread is done after a number of turns that does not depend on
    the others, and its storage then is what filling it alone gives: the same reported size, and
    lookups and traversals show exactly the content that the operations have on a plain map. *)
Theorem C87_storages_filled_in_parallel {V : Type} (merge : V -> V -> V) (dims : nat)
  (garbage : list Z) (work : list (list (map_op V))) :
  length garbage = length work ->
  (forall t ops, nth_error work t = Some ops ->
     Forall (fun o => in_tree_range dims (op_index o)) ops /\ exists m, abs_run merge ops = Ok m) ->
  exists needed : nat -> nat, forall schedule,
  exists s ps, interleave schedule (empty_trees garbage) (fill_threads merge dims work) = Ok (s, ps) /\
    length ps = length work /\ race_free ps /\
    forall t g ops m, nth_error garbage t = Some g -> nth_error work t = Some ops -> abs_run merge ops = Ok m ->
      ((needed t <= count_occ Nat.eq_dec schedule t)%nat -> nth_error ps t = Some (Ret tt)) /\
      (nth_error ps t = Some (Ret tt) ->
         exists h x0 x es, tree_run merge dims g ops = Ok (h, x0) /\ nth_error (trees s) t = Some x /\
           tree_size_ x = tree_size_ x0 /\ tree_traverse dims (mem s) x = Ok es /\
           StronglySorted (fun a b => morton 16 (fst a) < morton 16 (fst b)) es /\
           (forall i v, In (i, v) es <-> in_tree_range dims i /\ m i = Some v) /\
           (forall i, in_tree_range dims i ->
              (let* p := tree_get (mem s) x i in
               match p with None => Ok None | Some d => let* e := data_of (mem s) d in Ok (Some (snd e)) end) = Ok (m i))).
Proof. exact (fill_correct merge dims garbage work). Qed.
Print Assumptions C87_storages_filled_in_parallel.

Example C87_example :
  let work := [[Insert [3; 4] 10; Insert [3; 4] 1; Insert [-2; 0] 5]; [Insert [3; 4] 20; Write [3; 4] Z.opp]; []] in
  (forall t ops, nth_error work t = Some ops ->
     Forall (fun o => in_tree_range 2 (op_index o)) ops /\ exists m, abs_run Z.add ops = Ok m) /\
  (let* w := interleave (concat (repeat [1; 0; 0; 2]%nat 500)) (empty_trees [9; 0; 5]) (fill_threads Z.add 2 work) in
   Ok (map stopped (snd w), map (fun x => (tree_size_ x, tree_traverse 2 (mem (fst w)) x)) (trees (fst w)))) =
  Ok ([Some tt; Some tt; Some tt],
      [(42, Ok [([-2; 0], 5); ([3; 4], 11)]); (17, Ok [([3; 4], -20)]); (5, Ok [])]).
Proof.
  split.
  - intros [|[|[|t]]] ops H; cbn in H; try (destruct t; discriminate); injection H as <-;
      (split; [repeat constructor; cbn; lia|eexists; reflexivity]).
  - vm_compute. reflexivity.
Qed.
