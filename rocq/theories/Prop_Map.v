(** C09, C10, C11, C12, C14, C46: gridmaps over whole operation histories. *)
From Coq Require Import Permutation QArith.
From Verif Require Import Base IndexModel OctreeSpec MapModel BackendModel SysModel SysSpec
  InsertModel InsertSpec MapPropFacts OrderFacts MapLifeFacts ExtentModel ExtentFacts RangeSpec RangeFacts Samples.
Open Scope Z_scope.

(** C09: after any history each cell holds the accumulation, insertion by insertion and bundle by
    bundle, of the accepted points of that cell; a cell no accepted point reached has no samples. *)
Theorem C09_cells_aggregate_their_points {Pose X W Pt S P : Type} (geo : geometry Pose X W Pt)
  (sta : statistics Pt S) (c : config P) (upd_d : P -> S -> P) (ops : list (grid_op (Pose:=Pose) (X:=X))) :
  config_ok c -> grid_fits geo c (usable c) ops ->
  exists m, grid_run geo sta c upd_d ops (new_map c) = Ok m /\
    forall i j, cell_exists c i j ->
      exists o, cstored c m i j = Ok o /\
        match o with
        | Some d => d = fold_left (fun d ps => upd_d d (fold_left (s_add sta) ps (s_empty sta)))
                          (history_groups geo c ops i j) (defaultc c)
        | None => history_groups geo c ops i j = []
        end /\
        (only_inserts ops -> history_groups geo c ops i j = [] -> o = None).
Proof. exact (fun Hc => grid_cells geo sta c Hc upd_d ops). Qed.
Print Assumptions C09_cells_aggregate_their_points.

(** C09: the groups together are exactly the accepted points whose bundle lies in the cell, each
    once. *)
Theorem C09_groups_are_the_points {Pose X W Pt P : Type} (geo : geometry Pose X W Pt) (c : config P)
  (ops : list (grid_op (Pose:=Pose) (X:=X))) (i : nat) (j : idx) :
  Permutation (concat (history_groups geo c ops i j))
    (map snd (filter (fun e => idx_eqb (generate_index (fst e) i) j) (history_points geo c ops))).
Proof. exact (history_groups_points geo c ops i j). Qed.
Print Assumptions C09_groups_are_the_points.

(** C09: a bundle exists exactly if an accepted point lies in it (only insertions). *)
Theorem C09_bundles_of_points {Pose X W Pt S P : Type} (geo : geometry Pose X W Pt)
  (sta : statistics Pt S) (c : config P) (upd_d : P -> S -> P) (ops : list (grid_op (Pose:=Pose) (X:=X))) :
  config_ok c -> grid_fits geo c (usable c) ops -> only_inserts ops ->
  exists m, grid_run geo sta c upd_d ops (new_map c) = Ok m /\
    forall bi, usable c 0 bi -> exists ob, cbundle c m bi = Ok ob /\
      (ob <> None <-> exists p, In (bi, p) (history_points geo c ops)).
Proof. exact (fun Hc => grid_bundles geo sta c Hc upd_d ops). Qed.
Print Assumptions C09_bundles_of_points.

Definition sample_ops : list (grid_op (Pose := list Z) (X := list Z)) :=
  [GInsert [0; 0] [[1; 2]; [12; 2]; [3; 4]; [2000; 0]; [5; 15]]; GTouch [7; 7];
   GInsert [10; -10] [[1; 12]; [-25; 3]; [4; 13]]; GExpand].

Example C09_example_dynamic :
  config_ok log_dynamic /\ grid_fits shift_geometry log_dynamic (usable log_dynamic) sample_ops /\
  history_groups shift_geometry log_dynamic sample_ops 0 [0; 0] =
    [[[1; 2]; [3; 4]]; [[5; 15]]; [[12; 2]]; [[11; 2]; [14; 3]]] /\
  history_groups shift_geometry log_dynamic sample_ops 1 [1; 0] = [[[12; 2]]; [[11; 2]; [14; 3]]] /\
  (let* m := grid_run shift_geometry log_statistics log_dynamic (@app Z) sample_ops (new_map log_dynamic) in
   let* a := cstored log_dynamic m 0 [0; 0] in
   let* b := cstored log_dynamic m 1 [1; 0] in
   let* d := cstored log_dynamic m 0 [5; 5] in Ok (a, b, d)) =
  Ok (Some [1; 3; 5; 12; 11; 14], Some [12; 11; 14], None).
Proof.
  split; [exact log_dynamic_ok|]. split; [|split; [vm_compute; reflexivity|split; vm_compute; reflexivity]].
  unfold sample_ops. grid_fits_2d.
Qed.

(** C10: with a commutative accumulation the stored distributions and the set of bundles depend
    only on the multiset of (pose, sensor point) pairs inserted. *)
Theorem C10_order_and_batching {Pose X W Pt S P : Type} (geo : geometry Pose X W Pt)
  (sta : statistics Pt S) (c : config P) (upd_d : P -> S -> P) (addP : P -> Pt -> P)
  (ops1 ops2 : list (grid_op (Pose:=Pose) (X:=X))) :
  config_ok c ->
  (forall d ps, upd_d d (fold_left (s_add sta) ps (s_empty sta)) = fold_left addP ps d) ->
  (forall d p q, addP (addP d p) q = addP (addP d q) p) ->
  only_inserts ops1 -> only_inserts ops2 -> grid_fits geo c (usable c) ops1 ->
  Permutation (raw_points ops1) (raw_points ops2) ->
  exists m1 m2, grid_run geo sta c upd_d ops1 (new_map c) = Ok m1 /\
    grid_run geo sta c upd_d ops2 (new_map c) = Ok m2 /\
    (forall i j, cell_exists c i j -> cstored c m1 i j = cstored c m2 i j) /\
    (forall bi, usable c 0 bi -> exists o1 o2, cbundle c m1 bi = Ok o1 /\ cbundle c m2 bi = Ok o2 /\
       (o1 <> None <-> o2 <> None)).
Proof. exact (fun Hc Hb Hx => grid_order_raw geo sta c Hc upd_d addP Hb Hx ops1 ops2). Qed.
Print Assumptions C10_order_and_batching.

(** Exact moments meet the hypotheses. *)
Lemma moment_batch (ps : list (list Z)) : forall d : Z * Z,
  moment_add d (fold_left (s_add moment_statistics) ps (s_empty moment_statistics)) =
  fold_left (s_add moment_statistics) ps d.
Proof.
  assert (G : forall ps d s, moment_add d (fold_left (s_add moment_statistics) ps s) =
                             fold_left (s_add moment_statistics) ps (moment_add d s)).
  { clear. induction ps as [|p ps IH]; intros d s; [reflexivity|]. cbn [fold_left]. rewrite IH. f_equal.
    unfold moment_add; cbn; f_equal; lia. }
  intros d. rewrite G. f_equal. destruct d; unfold moment_add; cbn; f_equal; lia.
Qed.
Example C10_example :
  let c := moment_map Dynamic [0; 0] [0; 0] in
  let ops1 : list (grid_op (Pose := list Z) (X := list Z)) := [GInsert [0; 0] [[1; 2]; [12; 2]; [3; 4]]; GInsert [5; 5] [[0; 0]; [1; 1]]] in
  let ops2 : list (grid_op (Pose := list Z) (X := list Z)) := [GInsert [5; 5] [[1; 1]]; GInsert [0; 0] [[3; 4]; [1; 2]]; GInsert [5; 5] [[0; 0]]; GInsert [0; 0] [[12; 2]]] in
  config_ok c /\
  (forall d ps, moment_add d (fold_left (s_add moment_statistics) ps (s_empty moment_statistics)) =
                fold_left (s_add moment_statistics) ps d) /\
  (forall d p q, s_add moment_statistics (s_add moment_statistics d p) q =
                 s_add moment_statistics (s_add moment_statistics d q) p) /\
  only_inserts ops1 /\ only_inserts ops2 /\ grid_fits shift_geometry c (usable c) ops1 /\
  Permutation (raw_points ops1) (raw_points ops2) /\
  (let* m := grid_run shift_geometry moment_statistics c moment_add ops1 (new_map c) in cstored c m 0 [0; 0]) = Ok (Some (5, 27)) /\
  (let* m := grid_run shift_geometry moment_statistics c moment_add ops2 (new_map c) in cstored c m 0 [0; 0]) = Ok (Some (5, 27)).
Proof.
  intros c ops1 ops2. split; [apply moment_map_ok|]. split; [intros; apply moment_batch|].
  split; [intros; cbn; f_equal; lia|]. split; [repeat constructor|]. split; [repeat constructor|].
  split; [unfold ops1; grid_fits_2d|]. split; [|split; vm_compute; reflexivity].
  cbn. change (Permutation ([([0;0],[1;2]);([0;0],[12;2]);([0;0],[3;4]);([5;5],[0;0])] ++ ([5;5],[1;1]) :: [])
    (([5;5],[1;1]) :: [([0;0],[3;4]);([0;0],[1;2]);([5;5],[0;0]);([0;0],[12;2])])).
  symmetry. apply Permutation_cons_app. rewrite app_nil_r.
  change (Permutation (([0;0],[3;4]) :: [([0;0],[1;2]);([5;5],[0;0]);([0;0],[12;2])])
     ([([0;0],[1;2]);([0;0],[12;2])] ++ ([0;0],[3;4]) :: [([5;5],[0;0])])).
  apply Permutation_cons_app. cbn. apply perm_skip. apply perm_swap.
Qed.

(** C11: in every family the counts add up to the number of accepted points, and each bundle of an
    accepted point sees a count of at least the number of points inserted into it. *)
Theorem C11_counts_conserved {Pose X W Pt S P : Type} (geo : geometry Pose X W Pt)
  (sta : statistics Pt S) (c : config P) (upd_d : P -> S -> P) (countP : P -> Z) (countS : S -> Z)
  (ops : list (grid_op (Pose:=Pose) (X:=X))) :
  config_ok c ->
  countP (defaultc c) = 0 -> (forall d s, countP (upd_d d s) = countP d + countS s) ->
  countS (s_empty sta) = 0 -> (forall s p, countS (s_add sta s p) = countS s + 1) ->
  grid_fits geo c (usable c) ops ->
  exists m, grid_run geo sta c upd_d ops (new_map c) = Ok m /\
    (forall i, (i < 2 ^ dimc c)%nat ->
       exists es, cdists c m i = Ok es /\ NoDup (map fst es) /\
         fold_right Z.add 0 (map (fun e => countP (snd e)) es) = Z.of_nat (length (history_points geo c ops))) /\
    (forall bi p, In (bi, p) (history_points geo c ops) ->
       exists b, cbundle c m bi = Ok (Some b) /\
         forall i, (i < 2 ^ dimc c)%nat -> exists d,
           slot_value (bdc c) (bbc c) m i (nth i (slots b) None) = Ok (Some d) /\
           Z.of_nat (length (points_in bi (history_points geo c ops))) <= countP d).
Proof. exact (fun Hc H1 H2 H3 H4 => grid_counts geo sta c Hc upd_d countP countS H1 H2 H3 H4 ops). Qed.
Print Assumptions C11_counts_conserved.

Example C11_example :
  let c := moment_map Static [4; 4] [-3; -3] in
  config_ok c /\ fst (defaultc c) = 0 /\ (forall d s, fst (moment_add d s) = fst d + fst s) /\
  (forall s p, fst (s_add moment_statistics s p) = fst s + 1) /\
  grid_fits shift_geometry c (usable c) sample_ops /\
  (* one point is not normal, one is outside of the static map *)
  length (history_points shift_geometry c sample_ops) = 7%nat /\
  (let* m := grid_run shift_geometry moment_statistics c moment_add sample_ops (new_map c) in
   let* es := cdists c m 3 in Ok (map (fun e => (fst e, fst (snd e))) (filter (fun e => 0 <? fst (snd e)) es))) =
  Ok [([0; 0], 2); ([0; 1], 1); ([1; 0], 3); ([-1; 0], 1)].
Proof.
  intros c. split; [apply moment_map_ok|]. split; [reflexivity|]. split; [reflexivity|]. split; [reflexivity|].
  split; [unfold sample_ops; grid_fits_2d|]. split; vm_compute; reflexivity.
Qed.

(** C12, with the componentwise minimum/maximum: the index range is the tight bounding box of the
    allocated bundles and [empty] says whether there are any. *)
Theorem C12_index_range {P : Type} (c : config P) (l : list (map_action (P:=P))) :
  config_ok c -> aminc c = cw_min -> amaxc c = cw_max -> kindc c = Dynamic -> fits c l ->
  exists m bs, cact_all c l (new_map c) = Ok m /\ cbundles c m = Ok bs /\
    (bs <> [] -> bounds (dimc c) (map fst bs) (min_bi m) (max_bi m)) /\
    (bs = [] -> min_bi m = repeat INT_MAX (dimc c) /\ max_bi m = repeat INT_MIN (dimc c)) /\
    ((0 < dimc c)%nat -> (map_empty c m = true <-> bs = [])).
Proof. exact (fun Hc => range_history c Hc l). Qed.
Print Assumptions C12_index_range.

(** C12: the metric extent of a non-empty map is the tight box of its bundles; width/height are its
    side lengths; [getSize] is one less than the number of bundles per axis. *)
Theorem C12_metric_extent {P : Type} (c : config P) (bres : Q) (l : list (map_action (P:=P))) :
  config_ok c -> (0 < bres)%Q -> aminc c = cw_min -> amaxc c = cw_max -> kindc c = Dynamic -> fits c l ->
  exists m bs, cact_all c l (new_map c) = Ok m /\ cbundles c m = Ok bs /\
    (bs <> [] ->
       exists hi, getMax c bres m = Ok hi /\ length hi = dimc c /\ length (getMin c bres m) = dimc c /\
       (forall d, (d < dimc c)%nat ->
          (forall b, In b (map fst bs) ->
             (nth d (getMin c bres m) 0 <= inject_Z (nth d b 0%Z) * bres /\
              (inject_Z (nth d b 0%Z) + 1) * bres <= nth d hi 0)%Q) /\
          (exists b, In b (map fst bs) /\ (nth d (getMin c bres m) 0 == inject_Z (nth d b 0%Z) * bres)%Q) /\
          (exists b, In b (map fst bs) /\ (nth d hi 0 == (inject_Z (nth d b 0%Z) + 1) * bres)%Q) /\
          exists w n, getExtent c bres m d = Ok w /\ (w == nth d hi 0 - nth d (getMin c bres m) 0)%Q /\
            getSize c m d = Ok n /\ (w == (inject_Z n + 1) * bres)%Q)).
Proof. exact (fun Hc => extent_history c Hc bres l). Qed.
Print Assumptions C12_metric_extent.

Example C12_example :
  let l := [Touch [3; -4]; Modify [-2; 9] (cons 1); Touch [0; 0]] in
  config_ok log_dynamic /\ fits log_dynamic l /\
  (let* m := cact_all log_dynamic l (new_map log_dynamic) in
   let* hi := getMax log_dynamic (1 # 2) m in
   let* w := getExtent log_dynamic (1 # 2) m 0 in
   Ok (min_bi m, max_bi m, getMin log_dynamic (1 # 2) m, hi, w, map_empty log_dynamic m)) =
  Ok ([-2; -4], [3; 9], [-2 # 2; -4 # 2]%Q, [4 # 2; 10 # 2]%Q, (6 # 2)%Q, false).
Proof. split; [exact log_dynamic_ok|]. split; [fits_2d|vm_compute; reflexivity]. Qed.

(** C12 is false if [std::min]/[std::max] resolve to the lexicographic standard templates. *)
Definition lex_config : config (list Z) :=
  {| dimc := 2; kindc := Dynamic; sizec := []; minc := []; garbagec := fun _ => 0;
     aminc := lex_min; amaxc := lex_max; offsetsc := offsets2; defaultc := [];
     mergec := @app Z; expandc := fun l => (2 <? length l)%nat |}.
Theorem C12_lexicographic_range_refuted :
  exists l bi, config_ok lex_config /\ fits lex_config l /\
    exists lo hi, (let* m := cact_all lex_config l (new_map lex_config) in
                   let* b := cbundle lex_config m bi in
                   Ok (match b with Some _ => true | None => false end, min_bi m, max_bi m)) = Ok (true, lo, hi) /\
      ~ nth 1 lo 0 <= nth 1 bi 0.
Proof.
  exists [Touch [0; 5]; Touch [1; 0]], [1; 0].
  split; [constructor; cbn; try discriminate; try reflexivity; [exact offsets2_sound|exact offsets2_complete]|].
  split; [fits_2d|]. exists [0; 5], [1; 0]. split; [vm_compute; reflexivity|cbn; lia].
Qed.
Print Assumptions C12_lexicographic_range_refuted.

(** C12, what holds with the lexicographic templates: the range consists of the lexicographically first and
    last allocated bundle, so it is tight on the first axis only; [empty] still tells whether there are
    bundles. Missing: the other axes (refuted above). *)
Theorem C12_lexicographic_range_partial {P : Type} (c : config P) (l : list (map_action (P:=P))) :
  config_ok c -> aminc c = lex_min -> amaxc c = lex_max -> kindc c = Dynamic -> (0 < dimc c)%nat -> fits c l ->
  exists m bs, cact_all c l (new_map c) = Ok m /\ cbundles c m = Ok bs /\
    (bs <> [] ->
       In (min_bi m) (map fst bs) /\ In (max_bi m) (map fst bs) /\
       forall b, In b (map fst bs) ->
         (b = min_bi m \/ comes_before (min_bi m) b) /\ (b = max_bi m \/ comes_before b (max_bi m)) /\
         nth 0 (min_bi m) 0 <= nth 0 b 0 <= nth 0 (max_bi m) 0) /\
    (bs = [] -> min_bi m = repeat INT_MAX (dimc c) /\ max_bi m = repeat INT_MIN (dimc c)) /\
    (map_empty c m = true <-> bs = []).
Proof. exact (lex_range c l). Qed.
Print Assumptions C12_lexicographic_range_partial.

(** C12, for any minimum and maximum of indices: the range is theirs over the allocated bundles in some order,
    each bundle once. *)
Theorem C12_range_of_allocations {P : Type} (c : config P) (l : list (map_action (P:=P))) :
  config_ok c -> kindc c = Dynamic -> fits c l ->
  exists m bs order, cact_all c l (new_map c) = Ok m /\ cbundles c m = Ok bs /\ Permutation order (map fst bs) /\
    min_bi m = fold_left (aminc c) order (repeat INT_MAX (dimc c)) /\
    max_bi m = fold_left (amaxc c) order (repeat INT_MIN (dimc c)).
Proof.
  intros Hc Hk Hf. destruct (range_folded c Hc Hk l Hf) as [m [bs [o [A [B [C [D [E _]]]]]]]].
  exists m, bs, o. auto.
Qed.
Print Assumptions C12_range_of_allocations.

(** The bundles (2, -3), (0, 5), (2, 1), (0, 7): first (0, 5), last (2, 1). *)
Example C12_lexicographic_example :
  let l := [Touch [2; -3]; Touch [0; 5]; Touch [2; 1]; Touch [0; 7]] in
  fits lex_config l /\
  (let* m := cact_all lex_config l (new_map lex_config) in Ok (min_bi m, max_bi m, map_empty lex_config m)) =
  Ok ([0; 5], [2; 1], false).
Proof. split; [fits_2d|vm_compute; reflexivity]. Qed.

(** C46, full statement: the extent queries are defined for every dynamic map. False for the empty
    map: [max - min] overflows [int]. *)
Theorem C46_empty_extent_refuted :
  exists (c : config (list Z)) (d : nat), config_ok c /\ kindc c = Dynamic /\ (d < dimc c)%nat /\
    map_empty c (new_map c) = true /\
    getExtent c 1 (new_map c) d = UB /\ getSize c (new_map c) d = UB.
Proof.
  exists log_dynamic, 0%nat. split; [exact log_dynamic_ok|]. split; [reflexivity|].
  split; [cbn; lia|]. split; [reflexivity|]. split; vm_compute; reflexivity.
Qed.
Print Assumptions C46_empty_extent_refuted.

(** C46: so it is for every empty dynamic map. *)
Theorem C46_empty_extent_is_ub {P : Type} (c : config P) (bres : Q) (d : nat) :
  kindc c = Dynamic -> (d < dimc c)%nat ->
  getExtent c bres (new_map c) d = UB /\ getSize c (new_map c) d = UB.
Proof. exact (extent_empty c bres d). Qed.
Print Assumptions C46_empty_extent_is_ub.

(** C46, what holds: as soon as one bundle exists they are defined. *)
Theorem C46_extent_defined_partial {P : Type} (c : config P) (bres : Q) (l : list (map_action (P:=P))) (d : nat) :
  config_ok c -> (0 < bres)%Q -> aminc c = cw_min -> amaxc c = cw_max -> kindc c = Dynamic -> fits c l ->
  (d < dimc c)%nat ->
  exists m bs, cact_all c l (new_map c) = Ok m /\ cbundles c m = Ok bs /\
    (bs <> [] -> exists w n, getExtent c bres m d = Ok w /\ getSize c m d = Ok n).
Proof.
  exact (fun Hc Hb H1 H2 Hk Hf Hd =>
    match extent_history c Hc bres l Hb H1 H2 Hk Hf with
    | ex_intro _ m (ex_intro _ bs (conj E (conj Eb H))) =>
        ex_intro _ m (ex_intro _ bs (conj E (conj Eb (fun Hne =>
          match H Hne with
          | ex_intro _ hi (conj _ (conj _ (conj _ Hd'))) =>
              match Hd' d Hd with
              | conj _ (conj _ (conj _ (ex_intro _ w (ex_intro _ n (conj Ew (conj _ (conj En _))))))) =>
                  ex_intro _ w (ex_intro _ n (conj Ew En))
              end
          end))))
    end).
Qed.
Print Assumptions C46_extent_defined_partial.

(** C14: after any history, completing partially allocated bundles keeps every distribution and
    every bundle, afterwards every bundle overlapping a valid distribution exists, after two calls a
    third changes nothing, and a bundle appears only beside a bundle with a valid distribution. *)
Theorem C14_allocate_partially {P : Type} (c : config P) (l : list (map_action (P:=P))) :
  config_ok c -> fits c (l ++ [ExpandAll; ExpandAll; ExpandAll]) ->
  exists m m1 m2, cact_all c l (new_map c) = Ok m /\
    cact c m ExpandAll = Ok m1 /\ cact c m1 ExpandAll = Ok m2 /\ cact c m2 ExpandAll = Ok m2 /\
    (forall i j d, cell_exists c i j -> cstored c m i j = Ok (Some d) -> cstored c m1 i j = Ok (Some d)) /\
    (forall i j, cell_exists c i j -> cstored c m i j = Ok None ->
       cstored c m1 i j = Ok None \/ cstored c m1 i j = Ok (Some (defaultc c))) /\
    (forall bi b, usable c 0 bi -> cbundle c m bi = Ok (Some b) ->
       exists b', cbundle c m1 bi = Ok (Some b') /\ slots b' = slots b) /\
    (forall i j d, cell_exists c i j -> cstored c m i j = Ok (Some d) -> expandc c d = true ->
       forall bi, length bi = dimc c -> generate_index bi i = j ->
         (kindc c = Static -> usable c 0 bi) -> exists b, cbundle c m1 bi = Ok (Some b)) /\
    (forall bi b, usable c 0 bi -> cbundle c m bi = Ok None -> cbundle c m1 bi = Ok (Some b) ->
       exists bi0 b0 i d, usable c 0 bi0 /\ cbundle c m bi0 = Ok (Some b0) /\
         Forall2 (fun x y => -1 <= x - y <= 1) bi bi0 /\
         (i < 2 ^ dimc c)%nat /\ cstored c m i (generate_index bi0 i) = Ok (Some d) /\ expandc c d = true).
Proof. exact (fun Hc => expand_history c Hc l). Qed.
Print Assumptions C14_allocate_partially.

(** Completion does allocate something, and two calls are needed in general: the new neighbours can
    themselves overlap a valid distribution. *)
Example C14_example :
  let l := [Modify [0; 0] (fun v => 1 :: 2 :: 3 :: v); Touch [5; 5]] in
  config_ok log_dynamic /\ fits log_dynamic (l ++ [ExpandAll; ExpandAll; ExpandAll]) /\
  (let* m := cact_all log_dynamic l (new_map log_dynamic) in
   let* m1 := cact log_dynamic m ExpandAll in
   let* m2 := cact log_dynamic m1 ExpandAll in
   let* b := cbundles log_dynamic m in let* b1 := cbundles log_dynamic m1 in
   let* b2 := cbundles log_dynamic m2 in
   Ok (length b, length b1, length b2)) = Ok (2, 10, 26)%nat.
Proof. split; [exact log_dynamic_ok|]. split; [fits_2d|vm_compute; reflexivity]. Qed.
