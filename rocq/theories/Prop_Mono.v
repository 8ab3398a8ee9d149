(** C34, C35, C53, C54: the grid map with one distribution per cell. *)
From Coq Require Import QArith Qround Permutation.
From Verif Require Import Base SeqModel IndexModel OctreeSpec MapModel BackendModel SysModel SysSpec
  InsertModel InsertSpec ExtentModel GridModel MonoModel MonoSpec MonoFacts Samples.
Open Scope Z_scope.

(** C34 for every map and every point: a point whose cell is one of the [size] cells is accepted and
    all accesses work, giving what the history left in this cell; a point whose cell is exactly one step
    beyond the last row or column is accepted as well and every access is out of bounds; all other points
    are rejected. *)
Theorem C34_points_partial {V W : Type} (default : V) (merge : V -> V -> V) (to_m : W -> list Q)
  (add : V -> W -> V) (dsample : V -> W -> Q) (res : Q) (size : list Z) (min : idx) (ops : list (mono_op (V:=V) (W:=W))) :
  mono_args res size min -> off_border to_m res size min ops ->
  exists m0 m, mono_new res size min = Ok m0 /\ mono_run default merge to_m add ops m0 = Ok m /\
    forall p, has_cell res (to_m p) ->
      let i := cell_of res (to_m p) in
      (in_cells size min i ->
         mono_toIndex to_m m p = Ok (Some i) /\ mono_get merge to_m m p = Ok (cell_history default to_m add res ops i) /\
         mono_sample merge to_m dsample m p =
           Ok (match cell_history default to_m add res ops i with Some d => dsample d p | None => 0%Q end) /\
         exists m', mono_insert default merge to_m add m p = Ok m') /\
      (on_border size min i ->
         mono_toIndex to_m m p = Ok (Some i) /\ mono_get merge to_m m p = UB /\
         mono_sample merge to_m dsample m p = UB /\ mono_insert default merge to_m add m p = UB) /\
      (~ in_cells size min i -> ~ on_border size min i ->
         mono_toIndex to_m m p = Ok None /\ mono_get merge to_m m p = Ok None /\
         mono_sample merge to_m dsample m p = Ok 0%Q /\ mono_insert default merge to_m add m p = Ok m).
Proof. exact (fun Ha => mono_points default merge to_m add dsample res size min Ha ops). Qed.
Print Assumptions C34_points_partial.

(** C34 is false: every map, whatever its size and contents, accepts a point that has no cell. *)
Theorem C34_border_refuted {V W : Type} (default : V) (merge : V -> V -> V) (to_m : W -> list Q) (from_m : list Q -> W)
  (add : V -> W -> V) (dsample : V -> W -> Q) (res : Q) (size : list Z) (min : idx) (ops : list (mono_op (V:=V) (W:=W))) (m0 m : mono V) :
  mono_args res size min -> (forall q, length q = 2%nat -> Forall2 Qeq (to_m (from_m q)) q) -> off_border to_m res size min ops ->
  mono_new res size min = Ok m0 -> mono_run default merge to_m add ops m0 = Ok m ->
  exists p i, mono_toIndex to_m m p = Ok (Some i) /\ ~ in_cells size min i /\
    mono_get merge to_m m p = UB /\ mono_sample merge to_m dsample m p = UB /\
    mono_insert default merge to_m add m p = UB.
Proof. exact (mono_border default merge to_m from_m add dsample res size min ops m0 m). Qed.
Print Assumptions C34_border_refuted.

(** Cells count their points; a map of 3 by 2 cells of width 1/2 beginning at cell (-1, 0). *)
Definition count_point (n : Z) (_ : list Q) : Z := n + 1.
Definition shifted (p : list Q) : list Q := [nth 0 p 0 - 1; nth 1 p 0]%Q.
Definition mono_sample_ops : list (mono_op (V:=Z) (W:=list Q)) :=
  [MInsert [1 # 2; 1 # 4]%Q; MInsert [3 # 4; 1 # 8]%Q; MModify [1; 1] (fun n => n + 10); MInsert [7 # 4; 3 # 4]%Q;
   MInsert [5; 5]%Q; MInsert [-3; 0]%Q].
Lemma off_cell (res : Q) (size min : list Z) (a b : Z) (p : list Q) :
  length p = 2%nat -> cell_of res p = [a; b] -> -1000 <= a <= 1000 -> -1000 <= b <= 1000 ->
  a < nth 0 min 0 \/ nth 0 min 0 + nth 0 size 0 < a \/ b < nth 1 min 0 \/ nth 1 min 0 + nth 1 size 0 < b \/
    (a <> nth 0 min 0 + nth 0 size 0 /\ b <> nth 1 min 0 + nth 1 size 0) ->
  has_cell res p /\ ~ on_border size min (cell_of res p).
Proof.
  intros L E Ha Hb H. unfold has_cell. rewrite E. split.
  - split; [exact L|]. unfold INT_MIN, INT_MAX. constructor; [lia|]. constructor; [lia|constructor].
  - intros [A [d [Hd A']]]. pose proof (A 0%nat ltac:(lia)) as A0. pose proof (A 1%nat ltac:(lia)) as A1. cbn [nth] in A0, A1.
    destruct d as [|[|d]]; cbn [nth] in A'; lia.
Qed.
Example C34_example :
  mono_args (1 # 2) [3; 2] [-1; 0] /\ off_border shifted (1 # 2) [3; 2] [-1; 0] mono_sample_ops /\
  (let* m0 := mono_new (1 # 2) [3; 2] [-1; 0] in
   let* m := mono_run 0 Z.add shifted count_point mono_sample_ops m0 in
   let* a := mono_get Z.add shifted m [5 # 8; 3 # 8]%Q in
   let* b := mono_get Z.add shifted m [13 # 8; 5 # 8]%Q in
   let* d := mono_get Z.add shifted m [9 # 8; 5 # 8]%Q in Ok (a, b, d)) = Ok (Some 2, Some 11, None) /\
  (let* m0 := mono_new (1 # 2) [3; 2] [-1; 0] in
   let* m := mono_run 0 Z.add shifted count_point mono_sample_ops m0 in
   mono_toIndex shifted m [17 # 8; 5 # 8]%Q) = Ok (Some [2; 1]) /\
  (let* m0 := mono_new (1 # 2) [3; 2] [-1; 0] in
   let* m := mono_run 0 Z.add shifted count_point mono_sample_ops m0 in
   mono_get Z.add shifted m [17 # 8; 5 # 8]%Q) = UB.
Proof.
  split. { split; [reflexivity|]. split; [reflexivity|]. split; [reflexivity|].
    intros [|[|d]] Hd; unfold INT_MIN, INT_MAX; cbn [nth]; lia. }
  split; [|split; [vm_compute; reflexivity|split; vm_compute; reflexivity]].
  unfold off_border, mono_sample_ops.
  constructor; [apply (off_cell _ _ _ (-1) 0); [reflexivity|vm_compute; reflexivity|cbn [nth]; lia..]|].
  constructor; [apply (off_cell _ _ _ (-1) 0); [reflexivity|vm_compute; reflexivity|cbn [nth]; lia..]|].
  constructor; [split; [reflexivity|intros [|[|d]] Hd; [cbn [nth]; lia|cbn [nth]; lia|lia]]|].
  constructor; [apply (off_cell _ _ _ 1 1); [reflexivity|vm_compute; reflexivity|cbn [nth]; lia..]|].
  constructor; [apply (off_cell _ _ _ 8 10); [reflexivity|vm_compute; reflexivity|cbn [nth]; lia..]|].
  constructor; [apply (off_cell _ _ _ (-8) 0); [reflexivity|vm_compute; reflexivity|cbn [nth]; lia..]|].
  constructor.
Qed.

Example C34_border_example : forall q, length q = 2%nat -> Forall2 Qeq (shifted [nth 0 q 0 + 1; nth 1 q 0]%Q) q.
Proof.
  intros [|x [|y [|? ?]]] H; try discriminate H. unfold shifted. cbn [nth]. constructor; [ring|]. constructor; [ring|constructor].
Qed.

(** C35, what holds: merging any non-empty map is defined, the merged map has exactly the cells of the
    allocated bundles, and its total count is the number of inserted points, each counted once per family
    and allocated bundle it shares a cell of that family with: between 4 and 16 times. *)
Theorem C35_total_partial {P Pose X W Pt S : Type} (c : config P) (bres : Q) (plus : P -> P -> P)
  (geo : geometry Pose X W Pt) (sta : statistics Pt S) (upd_d : P -> S -> P) (countP : P -> Z) (countS : S -> Z)
  (ops : list (grid_op (Pose:=Pose) (X:=X))) :
  config_ok c -> dimc c = 2%nat -> kindc c = Dynamic -> aminc c = cw_min -> amaxc c = cw_max -> (0 < bres)%Q ->
  countP (defaultc c) = 0 -> (forall d s, countP (upd_d d s) = countP d + countS s) ->
  countS (s_empty sta) = 0 -> (forall s p, countS (s_add sta s p) = countS s + 1) ->
  (forall a b, countP (plus a b) = countP a + countP b) ->
  grid_fits geo c (usable c) ops ->
  exists m es, grid_run geo sta c upd_d ops (new_map c) = Ok m /\ cbundles c m = Ok es /\
    (es <> [] ->
     exists dst cells, merge_map c bres plus m = Ok dst /\ mono_cells (mergec c) dst = Ok cells /\
       NoDup (map fst cells) /\ Permutation (map fst cells) (map fst es) /\
       let pts := history_points geo c ops in
       sum_over (fun e => countP (snd e)) cells =
         sum_over (fun e => sum_over (fun i => Z.of_nat (sharing (map fst es) i (fst e))) (seq 0 4)) pts /\
       4 * Z.of_nat (length pts) <= sum_over (fun e => countP (snd e)) cells <= 16 * Z.of_nat (length pts)) /\
    (es = [] -> merge_map c bres plus m = UB).
Proof.
  exact (fun Hc Hd Hk Hmin Hmax Hb H1 H2 H3 H4 H5 =>
    merge_counts c Hc Hd Hk Hmin Hmax bres Hb plus geo sta upd_d countP countS H1 H2 H3 H4 H5 ops).
Qed.
Print Assumptions C35_total_partial.

(** C35 is false: one point is counted four times; after its neighbourhood has been completed, sixteen
    times (first component: points, second: total count of the merged map). *)
Definition merged_total (ops : list (grid_op (Pose := list Z) (X := list Z))) : outcome (Z * Z) :=
  let c := moment_map Dynamic [0; 0] [0; 0] in
  let* m := grid_run shift_geometry moment_statistics c moment_add ops (new_map c) in
  let* dst := merge_map c 1 moment_add m in
  let* cells := mono_cells moment_add dst in
  Ok (Z.of_nat (length (history_points shift_geometry c ops)), sum_over (fun e => fst (snd e)) cells).
Theorem C35_counts_once_refuted : exists ops1 ops2 : list (grid_op (Pose := list Z) (X := list Z)),
  let c := moment_map Dynamic [0; 0] [0; 0] in
  config_ok c /\ grid_fits shift_geometry c (usable c) ops1 /\ grid_fits shift_geometry c (usable c) ops2 /\
  merged_total ops1 = Ok (1, 4) /\ merged_total ops2 = Ok (3, 48).
Proof.
  exists [GInsert [0; 0] [[1; 2]]], [GInsert [0; 0] [[1; 2]; [3; 4]; [5; 6]]; GExpand]. intros c.
  split; [apply moment_map_ok|]. split; [grid_fits_2d|]. split; [grid_fits_2d|].
  split; vm_compute; reflexivity.
Qed.
Print Assumptions C35_counts_once_refuted.

Example C35_example :
  let c := moment_map Dynamic [0; 0] [0; 0] in
  let ops := [GInsert [0; 0] [[1; 2]; [12; 2]; [3; 4]; [25; 13]]; GTouch [1; 1]] in
  config_ok c /\ dimc c = 2%nat /\ aminc c = cw_min /\ amaxc c = cw_max /\
  fst (defaultc c) = 0 /\ (forall d s, fst (moment_add d s) = fst d + fst s) /\
  (forall s p, fst (s_add moment_statistics s p) = fst s + 1) /\
  grid_fits shift_geometry c (usable c) ops /\ merged_total ops = Ok (4, 30) /\
  (* a map without bundles *)
  merged_total [] = UB.
Proof.
  intros c ops. split; [apply moment_map_ok|]. do 6 (split; [reflexivity|]). split; [unfold ops; grid_fits_2d|].
  split; vm_compute; reflexivity.
Qed.

(** C53, what holds: the conversion of any map to a probability grid reads existing cells only and covers
    the whole map; every pixel whose position the map's transform maps back to [getMin + (u, v) * sres]
    (true of all pixels if the origin is not rotated) has the map's own score at that position, or 0 if
    this is not a probability. [from_grid] is [getOrigin() * p]. *)
Theorem C53_scores_partial {V : Type} (default : V) (merge : V -> V -> V) (dsample : V -> list Q -> Q) (add : V -> list Q -> V)
  (to_m from_grid : list Q -> list Q) (res sres : Q) (size : list Z) (mn : idx) (ops : list (mono_op (V:=V) (W:=list Q))) :
  mono_args res size mn -> (0 < sres)%Q -> off_border to_m res size mn ops ->
  let ext d := Qceiling (inject_Z (nth d size 0%Z) * res / sres) in
  ext 0%nat < 2 ^ 64 -> ext 1%nat < 2 ^ 64 ->
  exists m0 m g, mono_new res size mn = Ok m0 /\ mono_run default merge to_m add ops m0 = Ok m /\
    mono_to_grid merge dsample from_grid sres m = Ok g /\ g_width g = ext 0%nat /\ g_height g = ext 1%nat /\
    forall u v, 0 <= u < g_width g -> 0 <= v < g_height g ->
      let p := [inject_Z u * sres; inject_Z v * sres]%Q in
      Forall2 Qeq (to_m (from_grid p)) [inject_Z (nth 0 mn 0%Z) * res + inject_Z u * sres; inject_Z (nth 1 mn 0%Z) * res + inject_Z v * sres]%Q ->
      exists s, mono_sample merge to_m dsample m (from_grid p) = Ok s /\ (g_at g u v == probability s)%Q.
Proof. exact (mono_grid_history default merge dsample add to_m from_grid res sres size mn ops). Qed.
Print Assumptions C53_scores_partial.

(** [getOrigin() * p] for an unrotated map: [p + t + getMin]. Here [t] = (1, 0), [getMin] = (-1/2, 0); pixels of 1/4. *)
Example C53_example :
  let from_grid p := [nth 0 p 0 + 1 + (-1 # 2); nth 1 p 0]%Q in
  (forall p, length p = 2%nat -> Forall2 Qeq (shifted (from_grid p)) [inject_Z (-1) * (1 # 2) + nth 0 p 0; inject_Z 0 * (1 # 2) + nth 1 p 0]%Q) /\
  (let* m0 := mono_new (1 # 2) [3; 2] [-1; 0] in
   let* m := mono_run 0 Z.add shifted count_point mono_sample_ops m0 in
   let* g := mono_to_grid Z.add (fun n p => inject_Z n * nth 1 p 0)%Q from_grid (1 # 4) m in
   Ok (g_width g, g_height g, map Qred [g_at g 0 1; g_at g 1 0; g_at g 4 2; g_at g 2 1])) =
  Ok (6, 4, [1 # 2; 0; 0; 0]%Q).
Proof.
  intros from_grid. split; [|vm_compute; reflexivity].
  intros [|x [|y [|? ?]]] H; try discriminate H. unfold from_grid, shifted. cbn [nth].
  constructor; [ring|]. constructor; [ring|constructor].
Qed.

(** C53 is false of rotated maps: with a quarter turn a pixel shows 1/2 where the score of the map is 0. *)
Theorem C53_rotated_refuted : exists (from_grid to_m : list Q -> list Q) (s x : Q),
  (* rotation by a quarter turn: [to_m] is its inverse; [getMin] = (3, 0) is added unrotated *)
  (forall p, from_grid p = [3 - nth 1 p 0; nth 0 p 0]%Q) /\ (forall w, to_m w = [nth 1 w 0; - nth 0 w 0]%Q) /\
  (let* m0 := mono_new 1 [2; 2] [3; 0] in
   let* m := mono_run tt (fun a _ => a) to_m (fun a _ => a) [MModify [3; 0] (fun a => a)] m0 in
   let* g := mono_to_grid (fun a _ => a) (fun _ _ => 1 # 2) from_grid 1 m in
   let* v := mono_sample (fun a _ => a) to_m (fun _ _ => 1 # 2) m (from_grid [0; 0]%Q) in
   Ok (v, g_at g 0 0)) = Ok (s, x) /\ ~ (x == probability s)%Q.
Proof.
  exists (fun p => [3 - nth 1 p 0; nth 0 p 0]%Q), (fun w => [nth 1 w 0; - nth 0 w 0]%Q). eexists. eexists.
  split; [reflexivity|]. split; [reflexivity|]. split; [vm_compute; reflexivity|]. vm_compute. discriminate.
Qed.
Print Assumptions C53_rotated_refuted.

(** C54, what holds for every non-empty source: a point in an allocated bundle is scored with the sum of
    the four distributions of this bundle, evaluated at the world point [p]; other points up to the maximum
    index have score 0. With an identity origin ([to_m p = p]) this is the score in map coordinates. *)
Theorem C54_merged_score_partial {P : Type} (c : config P) (bres : Q) (plus : P -> P -> P) (to_m : list Q -> list Q)
  (dsample : P -> list Q -> Q) (l : list (map_action (P:=P))) :
  config_ok c -> dimc c = 2%nat -> kindc c = Dynamic -> aminc c = cw_min -> amaxc c = cw_max -> (0 < bres)%Q -> fits c l ->
  exists m es, cact_all c l (new_map c) = Ok m /\ cbundles c m = Ok es /\
    (es <> [] -> exists dst, merge_map c bres plus m = Ok dst /\
       forall p, has_cell bres (to_m p) ->
       let bi := cell_of bres (to_m p) in
       (In bi (map fst es) -> exists vs, length vs = 4%nat /\
          (forall i, (i < 4)%nat -> cstored c m i (generate_index bi i) = Ok (Some (nth i vs (defaultc c)))) /\
          mono_sample (mergec c) to_m dsample dst p = Ok (dsample (fold_left plus vs (defaultc c)) p)) /\
       (~ In bi (map fst es) -> (forall d, (d < 2)%nat -> nth d bi 0 <= nth d (max_bi m) 0) ->
          mono_sample (mergec c) to_m dsample dst p = Ok 0%Q)).
Proof.
  exact (fun Hc Hd Hk Hmin Hmax Hb => merged_sample c Hc Hd Hk Hmin Hmax bres Hb plus to_m dsample l).
Qed.
Print Assumptions C54_merged_score_partial.

(** C54 is false with a displaced origin: the distributions are kept in map coordinates but evaluated at
    the world point. [s] is the score of the merged map at the world point, [x] the value of the merged
    distribution at the same point in map coordinates. *)
Definition hit_value (v : list Z) (p : list Q) : Q := if (0 <? length v)%nat then nth 0 p 0%Q else 0%Q.
Theorem C54_displaced_origin_refuted : exists (t : Q) (l : list (map_action (P:=list Z))) (p : list Q) (s x : Q),
  let to_m q := [nth 0 q 0 - t; nth 1 q 0]%Q in
  fits log_dynamic l /\
  (let* m := cact_all log_dynamic l (new_map log_dynamic) in
   let* dst := merge_map log_dynamic 1 (@app Z) m in
   let* s := mono_sample (mergec log_dynamic) to_m hit_value dst p in
   let* o := mono_get (mergec log_dynamic) to_m dst p in
   Ok (s, match o with Some d => hit_value d (to_m p) | None => 0%Q end)) = Ok (s, x) /\ ~ (s == x)%Q.
Proof.
  exists 5%Q, [Modify [0; 0] (fun v => v ++ [7])], [11 # 2; 0]%Q. eexists. eexists. intros to_m.
  split; [fits_2d|]. split; [vm_compute; reflexivity|]. vm_compute. discriminate.
Qed.
Print Assumptions C54_displaced_origin_refuted.

Example C54_example :
  let l := [Modify [3; -4] (fun v => v ++ [5; 6; 7]); Modify [4; -4] (fun v => v ++ [8])] in
  config_ok log_dynamic /\ fits log_dynamic l /\
  (let* m := cact_all log_dynamic l (new_map log_dynamic) in
   let* dst := merge_map log_dynamic 1 (@app Z) m in
   let* o := mono_get (mergec log_dynamic) (fun p => p) dst [7 # 2; - 7 # 2]%Q in
   let* s := mono_sample (mergec log_dynamic) (fun p => p) hit_value dst [7 # 2; - 7 # 2]%Q in
   Ok (o, s)) = Ok (Some [5; 6; 7; 5; 6; 7; 8; 5; 6; 7; 5; 6; 7; 8], 7 # 2).
Proof. intros l. split; [exact log_dynamic_ok|]. split; [unfold l; fits_2d|]. vm_compute. reflexivity. Qed.
