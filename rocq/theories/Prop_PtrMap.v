(** C77: dynamic maps with their octrees in memory and raw pointers in their bundles. *)
From Verif Require Import Base SeqModel IndexModel OctreeSpec OctreeModel MapModel BackendModel SysModel SysSpec Samples.
From Verif Require Import TreeHeapModel PtrMapModel PtrMapHist PtrMapTop.
Open Scope Z_scope.

(** C77: the map with pointers behaves as the map the other properties are about, in which bundles
    name cells by index: for any history (indices of the right length, however large) both are
    undefined alike, and otherwise agree on the bundle range, the listed bundles, the storages, the
    existence of bundles and every distribution read through a bundle. *)
Theorem C77_memory_implements_map {P : Type} (c : config P) (l : list (map_action (P:=P))) :
  kindc c = Dynamic -> Forall (fun o => length o = dimc c) (offsetsc c) ->
  Forall (fun a => match a with Modify bi _ | Touch bi => length bi = dimc c | ExpandAll => True end) l ->
  match cact_all c l (new_map c) with
  | Ok m => exists s, hrun c l = Ok s /\
      hmin s = min_bi m /\ hmax s = max_bi m /\
      bundle_indices (dimc c) s = (let* bs := cbundles c m in Ok (map fst bs)) /\
      (forall i j, length j = dimc c -> in_storage s i j = cstored c m i j) /\
      (forall bi, length bi = dimc c ->
         match cbundle c m bi with
         | Ok (Some bu) => exists b, bundle_pointer s bi = Ok (Some b) /\
             forall k, behind s b k =
               match nth_error (slots bu) k with Some q => slot_value (bdc c) (bbc c) m k q | None => UB end
         | Ok None => bundle_pointer s bi = Ok None
         | UB => bundle_pointer s bi = UB
         | Throw => bundle_pointer s bi = Throw
         end)
  | UB => hrun c l = UB
  | Throw => hrun c l = Throw
  end.
Proof.
  intros Hk Ho Hl. pose proof (run_seen c l Hk Ho Hl) as H.
  destruct (cact_all c l (new_map c)) as [m| |]; [|exact H|exact H]. destruct H as [s [E [H _]]]. exists s. split; [exact E|exact H].
Qed.
Print Assumptions C77_memory_implements_map.

(** A history with shared cells, growth, and bundles used again. *)
Definition visits : list (map_action (P:=list Z)) :=
  [Modify [0; 0] (cons 1); Modify [1; 0] (cons 2); Touch [5; -3]; Modify [0; 0] (cons 3)].
Definition revisits : list (map_action (P:=list Z)) := [ExpandAll; Modify [-1; 0] (cons 4); Modify [1; 0] (cons 5)].

Example C77_memory_example :
  Forall (fun a => match a with Modify bi _ | Touch bi => length bi = 2%nat | ExpandAll => True end) (visits ++ revisits) /\
  (let* s := hrun log_dynamic (visits ++ revisits) in
   let* bis := bundle_indices 2 s in
   let* v := in_storage s 0 [0; 0] in
   Ok (length bis, hmin s, hmax s, v)) = Ok (13%nat, [-1; -3], [5; 1], Some [5; 3; 2; 1]) /\
  hrun log_dynamic [Touch [INT_MAX; 0]] = UB.
Proof. split; [repeat constructor|]. split; vm_compute; reflexivity. Qed.

(** C77: take any history [l1 ++ l2] within range. Every pointer to a bundle held after [l1], and
    every pointer to a distribution held in such a bundle, is unchanged after [l2]. Two bundles
    have distinct addresses. A slot holds the same address as another exactly if both are of the
    same family and name the same cell. Through the pointers one reads the result of all changes
    made to the cell so far, through whichever bundle. *)
Theorem C77_pointers_denote_cells {P : Type} (c : config P) (l1 l2 : list (map_action (P:=P))) :
  config_ok c -> kindc c = Dynamic -> fits c (l1 ++ l2) ->
  exists s1 s2, hrun c l1 = Ok s1 /\ hrun c (l1 ++ l2) = Ok s2 /\
    forall bi b, usable c 0 bi -> bundle_pointer s1 bi = Ok (Some b) ->
      bundle_pointer s2 bi = Ok (Some b) /\
      (forall bi', usable c 0 bi' -> bundle_pointer s2 bi' = Ok (Some b) -> bi' = bi) /\
      forall i, (i < 2 ^ dimc c)%nat ->
        behind s2 b i = Ok (Some (apply_changes (changes (l1 ++ l2) i (generate_index bi i)) (defaultc c))) /\
        exists d, slot_at (bmem s1) b i = Ok (Some d) /\ slot_at (bmem s2) b i = Ok (Some d) /\
          forall bi' b' i', usable c 0 bi' -> bundle_pointer s2 bi' = Ok (Some b') -> (i' < 2 ^ dimc c)%nat ->
            (slot_at (bmem s2) b' i' = Ok (Some d) <-> i' = i /\ generate_index bi' i' = generate_index bi i).
Proof. intros Hc Hk. exact (pointers_denote c Hc Hk l1 l2). Qed.
Print Assumptions C77_pointers_denote_cells.

Example C77_pointers_example :
  config_ok log_dynamic /\ fits log_dynamic (visits ++ revisits) /\
  (let* s1 := hrun log_dynamic visits in
   let* s2 := hrun log_dynamic (visits ++ revisits) in
   let* p1 := bundle_pointer s1 [0; 0] in let* p2 := bundle_pointer s2 [0; 0] in
   let* q1 := bundle_pointer s1 [1; 0] in let* q2 := bundle_pointer s2 [1; 0] in
   match p1, q1 with
   | Some b, Some b' =>
       let* d1 := slot_at (bmem s1) b 0 in let* d2 := slot_at (bmem s2) b 0 in
       let* e1 := slot_at (bmem s1) b' 0 in let* e2 := slot_at (bmem s2) b' 1 in
       let* v := behind s2 b 0 in let* v' := behind s2 b' 1 in
       Ok (p1, p2, q1, q2, (d1, d2, e1, e2), v, v')
   | _, _ => UB
   end) =
  Ok (Some 33%nat, Some 33%nat, Some 35%nat, Some 35%nat,
      (Some 33%nat, Some 33%nat, Some 33%nat, Some 137%nat), Some [5; 3; 2; 1], Some [5; 2]).
Proof. split; [exact log_dynamic_ok|]. split; [unfold visits, revisits; fits_2d|]. vm_compute. reflexivity. Qed.
