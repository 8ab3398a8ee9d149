(** C81: means lie in their cells and in the extent of the map; heights handed to the colour scale. *)
From Coq Require Import QArith Qround Permutation Lqa.
From Verif Require Import Base SeqModel IndexModel IndexSpec OctreeSpec MapModel BackendModel SysModel SysSpec ExtentModel
  SampleSpec InsertModel InsertSpec LocalSpec HeightModel HeightSpec HeightFacts Prop_Lookup.
Open Scope Z_scope.

(** C81: after every history of insertions, lookups and expansions, the mean of every stored distribution
    is the average of the points of its cell, lies inside of this cell, and lies between [getMin] and
    [getMax]. A distribution without points is a new one. [mean] of the statistics library is assumed to
    be the average of the points that were added in groups. *)
Theorem C81_means_in_cells {Pose X W S P : Type} (geo : geometry Pose X W (list Q)) (sta : statistics (list Q) S)
  (c : config P) (h : Q) (upd_d : P -> S -> P) (mean : P -> list Q) (ops : list (grid_op (Pose:=Pose) (X:=X))) :
  config_ok c -> (0 < h)%Q -> (forall p, locate geo p = toBundleIndex (/ h) p) -> aminc c = cw_min -> amaxc c = cw_max ->
  (forall gs a, (a < dimc c)%nat -> concat gs <> [] ->
     nth a (mean (fold_left (fun d ps => upd_d d (fold_left (s_add sta) ps (s_empty sta))) gs (defaultc c))) 0 == average (concat gs) a)%Q ->
  all_in_reach geo c h false ops ->
  let pts := inserted geo c h false ops in
  exists m, grid_run geo sta c upd_d ops (new_map c) = Ok m /\
    (forall i j v es, (i < 2 ^ dimc c)%nat -> cdists c m i = Ok es -> In (j, v) es ->
      (points_at h i j pts = [] -> v = defaultc c) /\
      (points_at h i j pts <> [] -> forall a, (a < dimc c)%nat ->
         (nth a (mean v) 0 == average (points_at h i j pts) a /\
          cell_from h i a j <= nth a (mean v) 0 /\ nth a (mean v) 0 < cell_to h i a j /\
          nth a (getMin c h m) 0 <= nth a (mean v) 0)%Q /\
         forall hi, getMax c h m = Ok hi -> (nth a (mean v) 0 < nth a hi 0)%Q)).
Proof. exact (fun Hc Hh Hl H1 H2 => grid_means geo sta c Hc h Hh Hl H1 H2 upd_d mean ops). Qed.
Print Assumptions C81_means_in_cells.

(** C81 for occupancy maps (both kinds), where the distribution of a cell exists only if a scan ended in it. *)
Theorem C81_occupancy_means_in_cells {Pose X W S A : Type} (geo : geometry Pose X W (list Q)) (sta : statistics (list Q) S)
  (c : config (occ A S)) (h : Q) (zero : A) (plus : A -> A -> A) (amount : S -> A) (s_merge : S -> S -> S)
  (ray : Pose -> S -> list idx) (order : list (idx * A) -> list (idx * A)) (weighted : bool)
  (mean : S -> list Q) (ops : list (grid_op (Pose:=Pose) (X:=X))) :
  config_ok c -> (0 < h)%Q -> (forall p, locate geo p = toBundleIndex (/ h) p) -> aminc c = cw_min -> amaxc c = cw_max ->
  (forall a, plus zero a = a) -> (forall a b, plus a b = plus b a) -> (forall a b d, plus a (plus b d) = plus (plus a b) d) ->
  (forall l, Permutation (order l) l) -> defaultc c = Build_occ zero None ->
  (forall gs s a, (a < dimc c)%nat -> concat gs <> [] -> merged sta s_merge gs = Some s -> nth a (mean s) 0 == average (concat gs) a)%Q ->
  all_in_reach geo c h true ops -> rays_in_reach ray c ops ->
  let pts := inserted geo c h true ops in
  exists m, occ_run geo sta c zero plus amount s_merge ray order weighted ops (new_map c) = Ok m /\
    (forall i j v es, (i < 2 ^ dimc c)%nat -> cdists c m i = Ok es -> In (j, v) es ->
      (points_at h i j pts = [] -> hits v = None) /\
      (points_at h i j pts <> [] -> exists s, hits v = Some s /\ forall a, (a < dimc c)%nat ->
         (nth a (mean s) 0 == average (points_at h i j pts) a /\
          cell_from h i a j <= nth a (mean s) 0 /\ nth a (mean s) 0 < cell_to h i a j /\
          nth a (getMin c h m) 0 <= nth a (mean s) 0)%Q /\
         forall hi, getMax c h m = Ok hi -> (nth a (mean s) 0 < nth a hi 0)%Q)).
Proof.
  intros Hc Hh Hl H1 H2 P0 P1 P2 Ho Hd Hm HA HR.
  destruct (occ_means geo sta c Hc h Hh Hl H1 H2 zero plus amount s_merge ray order P0 P1 P2 Ho weighted Hd mean Hm ops HA HR)
    as [m [E [_ [_ H]]]]. exists m. split; [exact E|exact H].
Qed.
Print Assumptions C81_occupancy_means_in_cells.

(** C81, what holds of the colours of the 3D markers: if the third row of the rotation has no negative
    coefficient (no tilt: 0, 0, 1), every height lies between [min_height] and [max_height], which
    differ; it is the height of the average of the points of a cell. Nothing is drawn for a distribution without points ([shape]). *)
Theorem C81_heights_partial {Pose X W S P : Type} (geo : geometry Pose X W (list Q)) (sta : statistics (list Q) S)
  (c : config P) (h : Q) (upd_d : P -> S -> P) (mean : P -> list Q) (shape : P -> bool) (row : list Q) (tz : Q)
  (ops : list (grid_op (Pose:=Pose) (X:=X))) :
  config_ok c -> (0 < h)%Q -> (forall p, locate geo p = toBundleIndex (/ h) p) -> aminc c = cw_min -> amaxc c = cw_max ->
  dimc c = 3%nat ->
  (forall gs a, (a < dimc c)%nat -> concat gs <> [] ->
     nth a (mean (fold_left (fun d ps => upd_d d (fold_left (s_add sta) ps (s_empty sta))) gs (defaultc c))) 0 == average (concat gs) a)%Q ->
  shape (defaultc c) = false -> all_in_reach geo c h false ops ->
  Forall (fun x => 0 <= x)%Q row -> Exists (fun x => 0 < x)%Q row -> (length row <= 3)%nat ->
  exists m, grid_run geo sta c upd_d ops (new_map c) = Ok m /\
    (kindc c = Dynamic -> exists calls, colour_calls c h (show_cell mean shape) row tz m = Ok calls) /\
    forall calls x, colour_calls c h (show_cell mean shape) row tz m = Ok calls -> In x calls ->
      (from_height x <= at_height x /\ at_height x <= to_height x /\ from_height x < to_height x /\ alpha x == 1)%Q /\
      exists i j, (i < 8)%nat /\ let cell := points_at h i j (inserted geo c h false ops) in cell <> [] /\ (at_height x == elevation row tz (average cell))%Q.
Proof. exact (fun Hc Hh Hl H1 H2 Hd => grid_colours geo sta c Hc h Hh Hl H1 H2 Hd upd_d mean shape row tz ops). Qed.
Print Assumptions C81_heights_partial.

(** The same for occupancy maps; what is drawn is at least as opaque as the threshold. *)
Theorem C81_occupancy_heights_partial {Pose X W S A : Type} (geo : geometry Pose X W (list Q)) (sta : statistics (list Q) S)
  (c : config (occ A S)) (h : Q) (zero : A) (plus : A -> A -> A) (amount : S -> A) (s_merge : S -> S -> S)
  (ray : Pose -> S -> list idx) (order : list (idx * A) -> list (idx * A)) (weighted : bool)
  (mean : S -> list Q) (shape : S -> bool) (occupancy : occ A S -> Q) (threshold : Q) (row : list Q) (tz : Q)
  (ops : list (grid_op (Pose:=Pose) (X:=X))) :
  config_ok c -> (0 < h)%Q -> (forall p, locate geo p = toBundleIndex (/ h) p) -> aminc c = cw_min -> amaxc c = cw_max ->
  (forall a, plus zero a = a) -> (forall a b, plus a b = plus b a) -> (forall a b d, plus a (plus b d) = plus (plus a b) d) ->
  (forall l, Permutation (order l) l) -> defaultc c = Build_occ zero None ->
  (forall gs s a, (a < dimc c)%nat -> concat gs <> [] -> merged sta s_merge gs = Some s -> nth a (mean s) 0 == average (concat gs) a)%Q ->
  dimc c = 3%nat -> all_in_reach geo c h true ops -> rays_in_reach ray c ops ->
  Forall (fun x => 0 <= x)%Q row -> Exists (fun x => 0 < x)%Q row -> (length row <= 3)%nat ->
  exists m, occ_run geo sta c zero plus amount s_merge ray order weighted ops (new_map c) = Ok m /\
    (kindc c = Dynamic -> exists calls, colour_calls c h (show_occ mean shape occupancy threshold) row tz m = Ok calls) /\
    forall calls x, colour_calls c h (show_occ mean shape occupancy threshold) row tz m = Ok calls -> In x calls ->
      (from_height x <= at_height x /\ at_height x <= to_height x /\ from_height x < to_height x /\ threshold <= alpha x)%Q /\
      exists i j, (i < 8)%nat /\ let cell := points_at h i j (inserted geo c h true ops) in cell <> [] /\ (at_height x == elevation row tz (average cell))%Q.
Proof.
  exact (fun Hc Hh Hl H1 H2 P0 P1 P2 Ho Hd Hm =>
    occ_colours geo sta c Hc h Hh Hl H1 H2 zero plus amount s_merge ray order P0 P1 P2 Ho weighted Hd mean Hm shape occupancy threshold row tz ops).
Qed.
Print Assumptions C81_occupancy_heights_partial.

(** Sums of points in space. *)
Definition sums : Type := Z * list Q.
Definition sums_zero : sums := (0, [0; 0; 0]%Q).
Definition sums_plus (a b : sums) : sums := (fst a + fst b, map (fun d => nth d (snd a) 0 + nth d (snd b) 0)%Q [0; 1; 2]%nat).
Definition sums_statistics : statistics (list Q) sums := {| s_empty := sums_zero; s_add := fun a p => sums_plus a (1, p) |}.
Definition sums_mean (a : sums) : list Q := map (fun d => nth d (snd a) 0 / inject_Z (fst a))%Q [0; 1; 2]%nat.
Definition space : geometry (list Q) (list Q) (list Q) (list Q) :=
  {| transform := fun o x => map (fun d => nth d o 0 + nth d x 0)%Q [0; 1; 2]%nat;
     normal_in := fun _ => true; normal_world := fun _ => true; to_map := fun x => x; locate := toBundleIndex (/ (1 # 2)) |}.
Definition space_map (kd : kind) : config sums :=
  {| dimc := 3; kindc := kd; sizec := [4; 4; 4]; minc := [-2; -2; -2]; garbagec := fun _ => -1;
     aminc := cw_min; amaxc := cw_max; offsetsc := offsets3; defaultc := sums_zero; mergec := sums_plus; expandc := fun _ => false |}.
Lemma space_map_ok (kd : kind) : config_ok (space_map kd).
Proof.
  destruct shelf_ok as [_ _ _ E1 E2]. constructor; cbn [dimc kindc sizec minc space_map offsetsc]; try reflexivity; assumption.
Qed.

Lemma sums_point (s : sums) (p : list Q) (a : nat) : (a < 3)%nat ->
  fst (s_add sums_statistics s p) = fst s + 1 /\ (nth a (snd (s_add sums_statistics s p)) 0 == nth a (snd s) 0 + nth a p 0)%Q.
Proof. intros Ha. split; [reflexivity|]. destruct a as [|[|[|a]]]; [reflexivity..|lia]. Qed.

Lemma sums_scan (ps : list (list Q)) (a : nat) (s : sums) : (a < 3)%nat ->
  fst (fold_left (s_add sums_statistics) ps s) = fst s + Z.of_nat (length ps) /\
  (nth a (snd (fold_left (s_add sums_statistics) ps s)) 0 == nth a (snd s) 0 + qsum (map (fun p => nth a p 0) ps))%Q.
Proof.
  intros Ha. revert s. induction ps as [|p ps IH]; intros s.
  - cbn [fold_left length map]. unfold qsum. cbn [fold_right]. split; [lia|ring].
  - cbn [fold_left length map]. destruct (IH (s_add sums_statistics s p)) as [E1 E2]. destruct (sums_point s p a Ha) as [F1 F2].
    rewrite E1, E2, F1, F2. split; [lia|]. unfold qsum. cbn [fold_right]. ring.
Qed.

Lemma sums_groups (gs : list (list (list Q))) (a : nat) (s : sums) : (a < 3)%nat ->
  let r := fold_left (fun d ps => sums_plus d (fold_left (s_add sums_statistics) ps (s_empty sums_statistics))) gs s in
  fst r = fst s + Z.of_nat (length (concat gs)) /\
  (nth a (snd r) 0 == nth a (snd s) 0 + qsum (map (fun p => nth a p 0) (concat gs)))%Q.
Proof.
  intros Ha. revert s. induction gs as [|ps gs IH]; intros s r; unfold r; clear r.
  - cbn [fold_left concat length map]. unfold qsum. cbn [fold_right]. split; [lia|ring].
  - cbn [fold_left concat]. rewrite map_app, app_length.
    set (t := fold_left (s_add sums_statistics) ps (s_empty sums_statistics)).
    destruct (IH (sums_plus s t)) as [E1 E2]. rewrite E1, E2.
    destruct (sums_scan ps a (s_empty sums_statistics) Ha) as [F1 F2]. fold t in F1, F2.
    assert (Q0 : (nth a (snd (s_empty sums_statistics)) 0 == 0)%Q) by (destruct a as [|[|[|a]]]; [reflexivity..|lia]).
    assert (Q1 : (nth a (snd (sums_plus s t)) 0 == nth a (snd s) 0 + nth a (snd t) 0)%Q) by (destruct a as [|[|[|a]]]; [reflexivity..|lia]).
    assert (Q2 : forall l l' : list Q, (qsum (l ++ l') == qsum l + qsum l')%Q).
    { intros l l'. induction l as [|x l IHl]; unfold qsum in *; cbn [app fold_right]; [ring|rewrite IHl; ring]. }
    rewrite Q1, F2, Q0, Q2. split; [|ring]. cbn [fst sums_plus]. rewrite F1. cbn [fst s_empty sums_statistics sums_zero]. lia.
Qed.

Lemma sums_mean_average (kd : kind) (gs : list (list (list Q))) (a : nat) : (a < dimc (space_map kd))%nat -> concat gs <> [] ->
  (nth a (sums_mean (fold_left (fun d ps => sums_plus d (fold_left (s_add sums_statistics) ps (s_empty sums_statistics)))
     gs (defaultc (space_map kd)))) 0 == average (concat gs) a)%Q.
Proof.
  intros Ha _. cbn [dimc space_map] in Ha. destruct (sums_groups gs a sums_zero Ha) as [E1 E2].
  cbn [defaultc space_map]. unfold average. set (r := fold_left _ gs sums_zero) in *.
  replace (nth a (sums_mean r) 0)%Q with (nth a (snd r) 0 / inject_Z (fst r))%Q by (destruct a as [|[|[|a]]]; [reflexivity..|lia]).
  rewrite E1, E2. replace (fst sums_zero + Z.of_nat (length (concat gs))) with (Z.of_nat (length (concat gs))) by (cbn; lia).
  assert (Q0 : (nth a (snd sums_zero) 0 == 0)%Q) by (destruct a as [|[|[|a]]]; [reflexivity..|lia]).
  rewrite Q0, Qplus_0_l. reflexivity.
Qed.

(** Two scans with an expansion in between: points at the heights 1/4, 3/4 and -3/4. *)
Definition space_ops : list (grid_op (Pose:=list Q) (X:=list Q)) :=
  [GInsert [0; 0; 0]%Q [[1 # 4; 1 # 4; 1 # 4]; [1 # 8; 1 # 4; 3 # 4]]%Q; GExpand;
   GInsert [1; 0; 0]%Q [[- 3 # 4; 1 # 4; 1 # 4]; [- 3 # 2; - 3 # 4; - 3 # 4]]%Q].
Definition space_shape (s : sums) : bool := 1 <=? fst s.
Ltac reach_3d :=
  repeat (first [apply Forall_nil | apply Forall_cons]); try exact I;
  try (split; [reflexivity|]; intros d Hd; destruct d as [|[|[|d]]]; [| | |cbn in Hd; lia];
       vm_compute; split; first [reflexivity | discriminate]).

(** The cell of grid 0 at the origin holds three points; its mean is their average. *)
Example C81_example (kd : kind) :
  config_ok (space_map kd) /\ all_in_reach space (space_map kd) (1 # 2) false space_ops /\
  space_shape (defaultc (space_map kd)) = false /\
  (let pts := inserted space (space_map kd) (1 # 2) false space_ops in
   length pts = 4%nat /\ length (points_at (1 # 2) 0 [0; 0; 0] pts) = 3%nat /\
   map (fun a => Qred (average (points_at (1 # 2) 0 [0; 0; 0] pts) a)) [0; 1; 2]%nat = [5 # 24; 1 # 4; 5 # 12]%Q) /\
  (let* m := grid_run space sums_statistics (space_map kd) sums_plus space_ops (new_map (space_map kd)) in
   let* calls := colour_calls (space_map kd) (1 # 2) (show_cell sums_mean space_shape) [0; 0; 1]%Q 2 m in
   Ok (existsb (fun x => Qeq_bool (at_height x) (29 # 12)) calls, (8 <=? length calls)%nat)) = Ok (true, true).
Proof.
  split; [apply space_map_ok|].
  split; [destruct kd; unfold all_in_reach, space_ops; reach_3d|].
  split; [reflexivity|]. split; [destruct kd; vm_compute; repeat split|destruct kd; vm_compute; reflexivity].
Qed.

(** C81, full statement: the heights lie between [min_height] and [max_height] for every transform.
    False: the corners that give the two heights are those of the map, not those of the transformed map.
    If the map is turned by a quarter about the y axis (third row -1, 0, 0), the range is upside down and
    no height of any marker lies in it. *)
Theorem C81_tilted_refuted :
  exists (row : list Q) (ops : list (grid_op (Pose:=list Q) (X:=list Q))),
    (nth 0 row 0 * nth 0 row 0 + nth 1 row 0 * nth 1 row 0 + nth 2 row 0 * nth 2 row 0 == 1)%Q /\
    forall kd, all_in_reach space (space_map kd) (1 # 2) false ops /\
      exists m calls, grid_run space sums_statistics (space_map kd) sums_plus ops (new_map (space_map kd)) = Ok m /\
        colour_calls (space_map kd) (1 # 2) (show_cell sums_mean space_shape) row 0 m = Ok calls /\
        (8 <= length calls)%nat /\ forall x, In x calls -> (to_height x < from_height x)%Q /\ ~ (from_height x <= at_height x /\ at_height x <= to_height x)%Q.
Proof.
  exists [-1; 0; 0]%Q, space_ops. split; [reflexivity|]. intros kd.
  destruct (C81_example kd) as [Hc [HA [Hs _]]]. split; [exact HA|].
  assert (G : exists m, grid_run space sums_statistics (space_map kd) sums_plus space_ops (new_map (space_map kd)) = Ok m).
  { destruct (C81_means_in_cells space sums_statistics (space_map kd) (1 # 2) sums_plus sums_mean space_ops Hc ltac:(reflexivity)
      (fun p => eq_refl) eq_refl eq_refl (sums_mean_average kd) HA) as [m [E _]]. exists m. exact E. }
  destruct G as [m E].
  assert (G : match (let* m := grid_run space sums_statistics (space_map kd) sums_plus space_ops (new_map (space_map kd)) in
                     colour_calls (space_map kd) (1 # 2) (show_cell sums_mean space_shape) [-1; 0; 0]%Q 0 m) with
              | Ok calls => ((8 <=? length calls)%nat && forallb (fun x => negb (Qle_bool (from_height x) (to_height x))) calls)%bool
              | _ => false end = true) by (destruct kd; vm_compute; reflexivity).
  rewrite E in G. cbn [obind] in G.
  destruct (colour_calls (space_map kd) (1 # 2) (show_cell sums_mean space_shape) [-1; 0; 0]%Q 0 m) as [calls| |] eqn:EC; try discriminate G.
  apply andb_prop in G. destruct G as [G1 G2]. exists m, calls. split; [exact E|]. split; [exact EC|].
  split; [apply Nat.leb_le; exact G1|]. intros x Hx. rewrite forallb_forall in G2. specialize (G2 x Hx).
  apply Bool.negb_true_iff in G2.
  assert (L : (to_height x < from_height x)%Q).
  { apply Qnot_le_lt. intros H. apply Qle_bool_iff in H. congruence. }
  split; [exact L|]. intros [A B]. lra.
Qed.
Print Assumptions C81_tilted_refuted.

(** An occupancy map of the same points; rays along the x axis. *)
Definition space_occ (kd : kind) : config (occ Z sums) :=
  {| dimc := 3; kindc := kd; sizec := [4; 4; 4]; minc := [-2; -2; -2]; garbagec := fun _ => -1;
     aminc := cw_min; amaxc := cw_max; offsetsc := offsets3; defaultc := Build_occ 0 None;
     mergec := fun a b => Build_occ (missed a + missed b) (match hits a with None => hits b | h => h end);
     expandc := fun d => match hits d with None => false | _ => true end |}.
Definition space_ray (o : list Q) (s : sums) : list idx := [[-1; 0; 0]; [0; 0; 0]; [1; 0; 0]].
Definition space_occupancy (d : occ Z sums) : Q :=
  match hits d with None => 0%Q | Some s => (inject_Z (fst s) / inject_Z (fst s + missed d))%Q end.

Lemma merged_mean_average (kd : kind) (gs : list (list (list Q))) (s : sums) (a : nat) :
  (a < dimc (space_occ kd))%nat -> concat gs <> [] -> merged sums_statistics sums_plus gs = Some s ->
  (nth a (sums_mean s) 0 == average (concat gs) a)%Q.
Proof.
  intros Ha Hne Hm. cbn [dimc space_occ] in Ha. destruct gs as [|ps gs]; [discriminate Hm|]. unfold merged in Hm. assert (Es := f_equal (fun o => match o with Some x => x | None => s end) Hm). cbv beta iota in Es. subst s. clear Hm.
  set (t := fold_left (s_add sums_statistics) ps (s_empty sums_statistics)).
  destruct (sums_groups gs a t Ha) as [E1 E2]. set (r := fold_left _ gs t) in *.
  destruct (sums_scan ps a (s_empty sums_statistics) Ha) as [F1 F2]. fold t in F1, F2.
  pose proof (sums_mean_average kd (ps :: gs) a Ha Hne) as G. rewrite <- G. clear G.
  destruct (sums_groups (ps :: gs) a sums_zero Ha) as [G1 G2]. cbn [defaultc space_map]. set (u := fold_left _ (ps :: gs) sums_zero) in *.
  assert (HN : forall v : sums, (nth a (sums_mean v) 0 == nth a (snd v) 0 / inject_Z (fst v))%Q) by (intros v; destruct a as [|[|[|a]]]; [reflexivity..|lia]).
  assert (Q0 : (nth a (snd (s_empty sums_statistics)) 0 == 0)%Q) by (destruct a as [|[|[|a]]]; [reflexivity..|lia]).
  assert (Q2 : forall l l' : list Q, (qsum (l ++ l') == qsum l + qsum l')%Q).
  { intros l l'. induction l as [|x l IHl]; unfold qsum in *; cbn [app fold_right]; [ring|rewrite IHl; ring]. }
  rewrite !HN, E1, E2, G1, G2, F1, F2, Q0. cbn [concat]. rewrite map_app, app_length, Q2.
  assert (Q3 : (nth a (snd sums_zero) 0 == 0)%Q) by (destruct a as [|[|[|a]]]; [reflexivity..|lia]).
  rewrite Q3. replace (fst (s_empty sums_statistics) + Z.of_nat (length ps) + Z.of_nat (length (concat gs)))
    with (fst sums_zero + Z.of_nat (length ps + length (concat gs))) by (cbn; lia).
  unfold Qdiv. ring.
Qed.

Example C81_occupancy_example (kd : kind) :
  config_ok (space_occ kd) /\ all_in_reach space (space_occ kd) (1 # 2) true space_ops /\
  rays_in_reach space_ray (space_occ kd) space_ops /\
  (let pts := inserted space (space_occ kd) (1 # 2) true space_ops in length (points_at (1 # 2) 0 [0; 0; 0] pts) = 3%nat) /\
  (let* m := occ_run space sums_statistics (space_occ kd) 0 Z.add fst sums_plus space_ray (@rev _) false space_ops (new_map (space_occ kd)) in
   let* calls := colour_calls (space_occ kd) (1 # 2) (show_occ sums_mean space_shape space_occupancy (1 # 5)) [0; 0; 1]%Q 2 m in
   Ok (existsb (fun x => Qeq_bool (at_height x) (29 # 12)) calls, (4 <=? length calls)%nat)) = Ok (true, true).
Proof.
  destruct (space_map_ok kd) as [_ _ _ H1 H2].
  split; [constructor; cbn [dimc kindc sizec minc space_occ offsetsc]; try reflexivity; assumption|].
  split; [destruct kd; unfold all_in_reach, space_ops; reach_3d|].
  split; [unfold rays_in_reach, space_ops; repeat (first [apply Forall_nil | apply Forall_cons]); try exact I;
          intros s bi [<-|[<-|[<-|[]]]]; (split; [reflexivity|intros _; repeat constructor; cbn; lia])|].
  split; [destruct kd; vm_compute; reflexivity|destruct kd; vm_compute; reflexivity].
Qed.
