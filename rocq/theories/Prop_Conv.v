(** C22: converting maps between the dynamic and the static kind. *)
From Verif Require Import Base IndexModel OctreeSpec MapModel BackendModel SysModel SysSpec
  InsertModel ConvModel ConvSpec ConvFacts Samples.
Open Scope Z_scope.

(** C22, maps of [Distribution]: whatever the history, a non-empty dynamic map converts to a static
    map that accepts every bundle index of the source and has exactly the same bundles and
    distributions; converting back gives a dynamic map with the same bundles, distributions and
    index range, whatever the uninitialised memory [g] of its octrees. *)
Theorem C22_distribution_map {P : Type} (c : config P) (l : list (map_action (P:=P))) (g : nat -> Z) :
  config_ok c -> kindc c = Dynamic -> aminc c = cw_min -> amaxc c = cw_max -> (0 < dimc c)%nat -> fits c l ->
  exists m, cact_all c l (new_map c) = Ok m /\
  (map_empty c m = false ->
   exists size min m' m'',
    to_static convert_distribution c m = Ok (existT _ (size, min) m') /\
    same_content c (static_like c size min) m m' /\
    to_dynamic convert_distribution (static_like c size min) g m' = Ok m'' /\
    same_content c (dynamic_like (static_like c size min) g) m m'' /\
    min_bi m'' = min_bi m /\ max_bi m'' = max_bi m).
Proof. exact (distribution_trip c l g). Qed.
Print Assumptions C22_distribution_map.

(** C22, maps of [OccupancyDistribution]: only cells with a positive counter are copied; with the
    updates occupancy maps make, the others are default-constructed on both sides. *)
Theorem C22_occupancy_map {S : Type} (amount : S -> Z) (s_merge : S -> S -> S) (c : config (occ Z S))
  (l : list (map_action (P:=occ Z S))) (g : nat -> Z) :
  (forall a b, amount (s_merge a b) = amount a + amount b) ->
  config_ok c -> kindc c = Dynamic -> aminc c = cw_min -> amaxc c = cw_max -> (0 < dimc c)%nat ->
  defaultc c = Build_occ 0 None -> fits c l -> Forall (occupancy_action amount s_merge) l ->
  exists m, cact_all c l (new_map c) = Ok m /\
  (map_empty c m = false ->
   let conv := convert_occupancy 0 (fun n => 0 <? n) amount in
   exists size min m' m'',
    to_static conv c m = Ok (existT _ (size, min) m') /\
    same_content c (static_like c size min) m m' /\
    to_dynamic conv (static_like c size min) g m' = Ok m'' /\
    same_content c (dynamic_like (static_like c size min) g) m m'' /\
    min_bi m'' = min_bi m /\ max_bi m'' = max_bi m).
Proof. exact (occupancy_trip amount s_merge c l g). Qed.
Print Assumptions C22_occupancy_map.

(** The hypotheses on a concrete history, and what the conversions compute: the static map holds
    5 x 3 cells from bundle [-4; 2]. *)
Definition conv_actions : list (map_action (P:=list Z)) :=
  [Modify [-3; 2] (fun d => d ++ [1]); Touch [2; 5]; Modify [1; 4] (fun d => d ++ [2; 3; 4]); ExpandAll].
Example C22_example_distribution :
  config_ok log_dynamic /\ fits log_dynamic conv_actions /\
  (let* m := cact_all log_dynamic conv_actions (new_map log_dynamic) in
   let* r := to_static convert_distribution log_dynamic m in
   let (b, m') := r in
   let* a := cstored (static_like log_dynamic (fst b) (snd b)) m' 3 [1; 2] in
   let* m'' := to_dynamic convert_distribution (static_like log_dynamic (fst b) (snd b)) (fun _ => 0) m' in
   let* a' := cstored (dynamic_like (static_like log_dynamic (fst b) (snd b)) (fun _ => 0)) m'' 3 [1; 2] in
   Ok (map_empty log_dynamic m, b, a, a', min_bi m, min_bi m'', max_bi m, max_bi m'')) =
  Ok (false, ([5; 3], [-4; 2]), Some [2; 3; 4], Some [2; 3; 4], [-3; 2], [-3; 2], [3; 6], [3; 6]).
Proof.
  split; [exact log_dynamic_ok|]. split; [unfold conv_actions; fits_2d|]. vm_compute; reflexivity.
Qed.

Definition occ_dynamic : config (occ Z (list Z)) :=
  {| dimc := 2; kindc := Dynamic; sizec := []; minc := []; garbagec := fun _ => 5;
     aminc := cw_min; amaxc := cw_max; offsetsc := offsets2; defaultc := Build_occ 0 None;
     mergec := fun a _ => a; expandc := fun o => match hits o with Some l => (2 <? length l)%nat | None => false end |}.
Definition occ_actions : list (map_action (P:=occ Z (list Z))) :=
  [Modify [-3; 2] (update_free Z.add 4); Touch [2; 5]; Modify [1; 4] (update_occupied (@app Z) [2; 3; 4]); ExpandAll;
   Modify [1; 5] (update_occupied (@app Z) [7])].
Example C22_example_occupancy :
  config_ok occ_dynamic /\ fits occ_dynamic occ_actions /\
  Forall (occupancy_action (fun s => Z.of_nat (length s)) (@app Z)) occ_actions /\
  (let conv := convert_occupancy 0 (fun n => 0 <? n) (fun s : list Z => Z.of_nat (length s)) in
   let* m := cact_all occ_dynamic occ_actions (new_map occ_dynamic) in
   let* r := to_static conv occ_dynamic m in
   let (b, m') := r in
   let* a := cstored (static_like occ_dynamic (fst b) (snd b)) m' 0 [0; 2] in
   let* f := cstored (static_like occ_dynamic (fst b) (snd b)) m' 0 [-2; 1] in
   let* d := cstored (static_like occ_dynamic (fst b) (snd b)) m' 0 [1; 2] in
   Ok (a, f, d)) =
  Ok (Some (Build_occ 0 (Some [2; 3; 4; 7])), Some (Build_occ 4 None), Some (Build_occ 0 None)).
Proof.
  split; [constructor; cbn; try discriminate; try reflexivity; [exact offsets2_sound|exact offsets2_complete]|].
  split; [unfold occ_actions; fits_2d|]. split; [|vm_compute; reflexivity].
  unfold occ_actions. repeat (first [apply Forall_nil | apply Forall_cons]); cbn [occupancy_action]; try exact I.
  - left. exists 4. split; [lia|reflexivity].
  - right. exists [2; 3; 4]. split; [cbn; lia|reflexivity].
  - right. exists [7]. split; [cbn; lia|reflexivity].
Qed.

(** An empty dynamic map cannot be converted: the index range it was initialised with overflows. *)
Theorem C22_empty_map_overflows {P : Type} (conv : option P -> outcome (P -> P)) (c : config P) :
  kindc c = Dynamic -> (0 < dimc c)%nat -> to_static conv c (new_map c) = UB.
Proof. exact (empty_overflow conv c). Qed.
Print Assumptions C22_empty_map_overflows.

(** Conversion of any static map whose box has 16-bit indices; static to static as well. *)
Theorem C22_static_map {P : Type} (c : config P) (l : list (map_action (P:=P))) (g : nat -> Z) :
  config_ok c -> kindc c = Static -> fits c l ->
  (forall d, (d < dimc c)%nat -> -32768 <= nth d (minc c) 0 /\ nth d (minc c) 0 + 2 * nth d (sizec c) 0 - 2 <= 32767) ->
  exists m m', cact_all c l (new_map c) = Ok m /\ to_dynamic convert_distribution c g m = Ok m' /\
    same_content c (dynamic_like c g) m m'.
Proof. exact (static_to_dynamic c l g). Qed.
Print Assumptions C22_static_map.

Example C22_example_static :
  config_ok (log_static [4; 3] [-4; 2]) /\ fits (log_static [4; 3] [-4; 2]) conv_actions /\
  (forall d, (d < 2)%nat -> -32768 <= nth d [-4; 2] 0 /\ nth d [-4; 2] 0 + 2 * nth d [4; 3] 0 - 2 <= 32767).
Proof.
  split; [apply log_static_ok|]. split; [unfold conv_actions; fits_2d|].
  intros [|[|d]] H; cbn; lia.
Qed.
