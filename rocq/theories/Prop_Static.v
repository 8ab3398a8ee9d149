(** C07, C08, C26: static maps stay inside their arrays. *)
From Verif Require Import Base IndexModel OctreeSpec MapModel BackendModel SysModel SysSpec
  LoaderModel StaticFacts Samples.
Open Scope Z_scope.

(** C07: an accepted index has a slot in the bundle array and in each family's array. *)
Theorem C07_accepted_index_in_bounds {P : Type} (mergeP : P -> P -> P) (dim : nat) (size : list Z) (min bi : idx) :
  length size = dim -> length min = dim -> length bi = dim ->
  let m := static_new mergeP dim size min in
  valid _ _ dim Static m bi = true ->
  bget (bundle_backend dim Static) (bundles m) bi <> UB /\
  forall i, (i < 2 ^ dim)%nat ->
    exists s, nth_error (stores m) i = Some s /\
      bget (dist_backend mergeP dim Static) s (generate_index bi i) <> UB.
Proof. exact (static_accepted_inside mergeP dim size min bi). Qed.
Print Assumptions C07_accepted_index_in_bounds.

(** The arrays are not simply large enough for everything. *)
Example C07_example_bounds :
  let m := static_new (@app Z) 2 [2; 3] [-3; 4] in
  valid _ _ 2 Static m [-1; 8] = true /\ valid _ _ 2 Static m [0; 8] = false /\
  bget (bundle_backend 2 Static) (bundles m) [1; 8] = UB /\
  (exists s, nth_error (stores m) 3 = Some s /\
     bget (dist_backend (@app Z) 2 Static) s (generate_index [-1; 8] 3) = Ok None /\
     bget (dist_backend (@app Z) 2 Static) s [1; 4] = UB).
Proof. repeat (split; [vm_compute; reflexivity|]). eexists; compute_all. Qed.

(** C07: no operation history ever leaves the arrays; any index may be asked for at the end, it
    yields a bundle if accepted and is refused otherwise. *)
Theorem C07_history_in_bounds {P : Type} (c : config P) (l : list (map_action (P:=P))) (bi : idx) :
  config_ok c -> kindc c = Static -> fits c l -> length bi = dimc c ->
  exists m m', cact_all c l (new_map c) = Ok m /\ cact c m (Touch bi) = Ok m' /\
    (cvalid c m bi = true -> exists b, cbundle c m' bi = Ok (Some b)) /\
    (cvalid c m bi = false -> m' = m /\ cbundle c m bi = Ok None).
Proof. exact (fun Hc Hk => static_touch c Hc Hk l bi). Qed.
Print Assumptions C07_history_in_bounds.

Example C07_example_history :
  let c := log_static [2; 3] [-3; 4] in
  let l := [Modify [-3; 4] (cons 1); Touch [99; 99]; Modify [-1; 8] (fun v => 5 :: 6 :: 7 :: v); ExpandAll] in
  config_ok c /\ fits c l /\
  exists m, cact_all c l (new_map c) = Ok m /\ cvalid c m [-1; 8] = true /\ cvalid c m [0; 8] = false /\
    cstored c m 1 [0; 4] = Ok (Some [5; 6; 7]).
Proof.
  split; [apply log_static_ok|]. split.
  - fits_2d.
  - eexists. compute_all.
Qed.

(** C08, full statement: every index of the advertised box is accepted. *)
Definition C08_statement : Prop :=
  forall (size : list Z) (min bi : idx), length min = length size -> length bi = length size ->
    Forall (fun n => 0 < n) size ->
    let m := static_new (@app Z) (length size) size min in
    (forall d, (d < length size)%nat -> nth d (min_bi m) 0 <= nth d bi 0 <= nth d (max_bi m) 0) ->
    valid _ _ (length size) Static m bi = true.

(** C08 is false: the last bundle of each axis is inside the advertised range, yet refused. *)
Theorem C08_whole_extent_refuted :
  exists (size : list Z) (min bi : idx),
    length min = length size /\ length bi = length size /\ Forall (fun n => 0 < n) size /\
    let m := static_new (@app Z) (length size) size min in
    (forall d, (d < length size)%nat -> nth d (min_bi m) 0 <= nth d bi 0 <= nth d (max_bi m) 0) /\
    valid _ _ (length size) Static m bi = false.
Proof.
  exists [4; 3], [0; -2], [7; 0]. repeat split; try reflexivity.
  - repeat constructor; lia.
  - destruct d as [|[|d]]; cbn in *; lia.
  - destruct d as [|[|d]]; cbn in *; lia.
Qed.
Print Assumptions C08_whole_extent_refuted.

(** C08, what holds: exactly the indices below the maximum are accepted. *)
Theorem C08_extent_partial {P : Type} (c : config P) (bi : idx) :
  config_ok c -> kindc c = Static -> length bi = dimc c ->
  let m := new_map c in
  (cvalid c m bi = true <->
   forall d, (d < dimc c)%nat ->
     nth d (minc c) 0 <= nth d bi 0 < nth d (minc c) 0 + 2 * nth d (sizec c) 0 - 1).
Proof. exact (static_accepts c bi). Qed.
Print Assumptions C08_extent_partial.

(** C26, full statement: whatever map was saved, its records fit the loader's arrays. *)
Definition C26_statement : Prop :=
  forall (c : config (list Z)) l i, config_ok c -> kindc c = Static -> fits c l -> (i < 2 ^ dimc c)%nat ->
  exists m es s, cact_all c l (new_map c) = Ok m /\ cdists c m i = Ok es /\
    load_records (mergec c) (loader_store (sizec c) (minc c) i) es = Ok s.

(** C26 is false: family 1 gets an array one cell too small on every axis; with an odd minimum
    index a saved record lies outside of it. *)
Theorem C26_static_loader_refuted :
  exists (c : config (list Z)) l m es,
    config_ok c /\ kindc c = Static /\ fits c l /\
    cact_all c l (new_map c) = Ok m /\ cdists c m 1 = Ok es /\
    load_records (mergec c) (loader_store (sizec c) (minc c) 1) es = UB.
Proof.
  exists (log_static [2; 2] [-3; 0]), [Modify [-1; 1] (cons 8)].
  eexists. eexists. split; [apply log_static_ok|]. split; [reflexivity|]. split.
  - fits_2d.
  - compute_all.
Qed.
Print Assumptions C26_static_loader_refuted.

(** C26, what holds: every other family always loads; family 1 too if the minimum index of axis 0
    is even. *)
Theorem C26_static_loader_partial {P : Type} (c : config P) (l : list (map_action (P:=P))) (i : nat) :
  config_ok c -> kindc c = Static -> fits c l -> (i < 2 ^ dimc c)%nat ->
  i <> 1%nat \/ Z.even (nth 0 (minc c) 0) = true ->
  exists m es s, cact_all c l (new_map c) = Ok m /\ cdists c m i = Ok es /\
    load_records (mergec c) (loader_store (sizec c) (minc c) i) es = Ok s /\
    (forall j v, In (j, v) es -> bget (array_backend (mergec c)) s j = Ok (Some v)) /\
    (forall j, arr_inside (a_size s) (a_offset s) j = true -> ~ In j (map fst es) ->
       bget (array_backend (mergec c)) s j = Ok None).
Proof. exact (static_load_history c l i). Qed.
Print Assumptions C26_static_loader_partial.

Example C26_example :
  let c := log_static [2; 2] [-3; 0] in
  let l := [Modify [-1; 1] (cons 8); Modify [-3; 2] (cons 9)] in
  config_ok c /\ fits c l /\
  exists m es s, cact_all c l (new_map c) = Ok m /\ cdists c m 3 = Ok es /\
    load_records (mergec c) (loader_store (sizec c) (minc c) 3) es = Ok s /\ length es = 2%nat.
Proof.
  split; [apply log_static_ok|]. split.
  - fits_2d.
  - eexists; eexists; eexists; compute_all.
Qed.
