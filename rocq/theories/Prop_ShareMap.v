(** C86, C87: maps with any history queried by several threads, storages filled and then saved by
    several threads. *)
From Coq Require Import Sorted.
From Verif Require Import Base IndexModel OctreeSpec OctreeModel MapModel SysModel SysSpec TreeHeapSpec TreeHeapModel PtrMapModel
  ShareModel ShareFacts ShareTop ShareMap Samples.
Open Scope Z_scope.

(** C86 (partial): take a dynamic map with any history [l] within range and any number of threads
    that sample it or look up bundles the history has named. Under every schedule the map does not
    change, no two accesses conflict, and after a number of turns that does not depend on the
    others every thread has its answers: samples see, in every family of cells, the result of
    exactly the changes [l] made to the cell; a bundle never named and not due to an expansion is
    absent. Missing: lookups of bundles not named yet, see C86_lost_bundle_refuted. *)
Theorem C86_any_history_partial {P : Type} (c : config P) (l : list (map_action (P:=P))) (threads : list (list query)) :
  config_ok c -> kindc c = Dynamic -> fits c l ->
  let named bi := In (Touch bi) l \/ exists f, In (Modify bi f) l in
  Forall (Forall (fun q => match q with LookUp bi _ => usable c 0 bi /\ named bi | Sample bi => usable c 0 bi end)) threads ->
  exists m (needed : nat -> nat), hrun c l = Ok m /\ forall schedule,
  exists ps, interleave schedule (one_memory m) (map (p_queries (defaultc c) (mergec c) (dimc c)) threads) = Ok (one_memory m, ps) /\
    length ps = length threads /\ race_free ps /\
    forall t qs, nth_error threads t = Some qs ->
      exists r, Forall2 (fun q a => match q, a with
          | LookUp bi _, Found b => bundle_pointer m bi = Ok (Some b)
          | Sample bi, Sampled (Some vs) =>
              vs = map (fun i => Some (apply_changes (changes l i (generate_index bi i)) (defaultc c))) (seq 0 (2 ^ dimc c)) /\
              (named bi \/ In ExpandAll l)
          | Sample bi, Sampled None => ~ named bi
          | _, _ => False
          end) qs r /\
        ((needed t <= count_occ Nat.eq_dec schedule t)%nat -> nth_error ps t = Some (Ret r)) /\
        (forall r', nth_error ps t = Some (Ret r') -> r' = r).
Proof. intros Hc Hk Hf named HQ. exact (map_queries c Hc Hk l threads Hf HQ). Qed.
Print Assumptions C86_any_history_partial.

Definition logged : list (map_action (P:=list Z)) :=
  [Modify [0; 0] (cons 1); Modify [1; 0] (cons 2); Touch [5; -3]; Modify [0; 0] (cons 3)].
Example C86_any_history_example :
  let threads := [[Sample [1; 0]; LookUp [0; 0] []]; [Sample [7; 7]; Sample [5; -3]]; [LookUp [1; 0] []]] in
  config_ok log_dynamic /\ fits log_dynamic logged /\
  Forall (Forall (fun q => match q with
     | LookUp bi _ => usable log_dynamic 0 bi /\ (In (Touch bi) logged \/ exists f, In (Modify bi f) logged)
     | Sample bi => usable log_dynamic 0 bi end)) threads /\
  (let* m := hrun log_dynamic logged in
   let* w := interleave (concat (repeat [0; 2; 1; 2]%nat 300)) (one_memory m) (map (p_queries [] (@app Z) 2) threads) in
   Ok (map stopped (snd w))) =
  Ok [Some [Sampled (Some [Some [3; 2; 1]; Some [2]; Some [3; 2; 1]; Some [2]]); Found 33];
      Some [Sampled None; Sampled (Some [Some []; Some []; Some []; Some []])];
      Some [Found 35]].
Proof.
  split; [exact log_dynamic_ok|]. split; [repeat constructor; cbn; lia|]. split.
  - assert (H : forall x y, -100 <= x <= 100 -> -100 <= y <= 100 -> usable log_dynamic 0 [x; y]).
    { intros x y Hx Hy. split; [reflexivity|]. repeat constructor; lia. }
    repeat (apply Forall_cons || apply Forall_nil); try (apply H; lia); (split; [apply H; lia|]).
    + right. eexists. left. reflexivity.
    + right. eexists. right. left. reflexivity.
  - vm_compute. reflexivity.
Qed.

(** C87: storages filled by threads, one for each, are then saved by threads, one for each. Take
    any schedule that lets the filling threads finish. Under every schedule of the saving threads
    the storages do not change, no two accesses conflict, and every thread is done after a number
    of turns that does not depend on the others. The records it has then written are exactly the
    content the operations of its storage have on a plain map, every index once, in the order of
    the octree. *)
Theorem C87_storages_saved_in_parallel {V : Type} (merge : V -> V -> V) (dims : nat)
  (garbage : list Z) (work : list (list (map_op V))) :
  length garbage = length work ->
  (forall t ops, nth_error work t = Some ops ->
     Forall (fun o => in_tree_range dims (op_index o)) ops /\ exists m, abs_run merge ops = Ok m) ->
  forall filling s done,
  interleave filling (empty_trees garbage) (fill_threads merge dims work) = Ok (s, done) ->
  (forall p, In p done -> p = Ret tt) ->
  exists needed : nat -> nat, forall saving,
  exists ps, interleave saving s (map (p_traverse dims) (seq 0 (length work))) = Ok (s, ps) /\
    length ps = length work /\ race_free ps /\
    forall t ops m, nth_error work t = Some ops -> abs_run merge ops = Ok m ->
      exists es, ((needed t <= count_occ Nat.eq_dec saving t)%nat -> nth_error ps t = Some (Ret es)) /\
        (forall r, nth_error ps t = Some (Ret r) -> r = es) /\
        StronglySorted (fun a b => morton 16 (fst a) < morton 16 (fst b)) es /\
        (forall i v, In (i, v) es <-> in_tree_range dims i /\ m i = Some v).
Proof. exact (saved_correct merge dims garbage work). Qed.
Print Assumptions C87_storages_saved_in_parallel.

Example C87_saved_example :
  let work := [[Insert [3; 4] 10; Insert [3; 4] 1; Insert [-2; 0] 5]; [Insert [3; 4] 20; Write [3; 4] Z.opp]; []] in
  (let* w := interleave (concat (repeat [1; 0; 0; 2]%nat 500)) (empty_trees [9; 0; 5]) (fill_threads Z.add 2 work) in
   let* v := interleave (concat (repeat [2; 1; 0; 1]%nat 600)) (fst w) (map (p_traverse 2) (seq 0 3)) in
   Ok (map stopped (snd w), map stopped (snd v))) =
  Ok ([Some tt; Some tt; Some tt], [Some [([-2; 0], 5); ([3; 4], 11)]; Some [([3; 4], -20)]; Some []]).
Proof. vm_compute. reflexivity. Qed.
