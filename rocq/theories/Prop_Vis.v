(** C32: visibility-checked insertion. *)
From Coq Require Import Permutation QArith.
From Verif Require Import Base IndexModel OctreeSpec MapModel BackendModel SysModel SysSpec
  InsertModel InsertSpec VisModel VisSpec VisFacts Samples.
Open Scope Z_scope.

(** C32, what holds: a scan records nothing but its own hits and misses. Every group whose line was
    followed is judged on its own line ([fate]); hits of visible groups are recorded. If no line was
    blocked, all misses are recorded. Missing: a blocked line ([stopped]) ends the whole scan, the
    groups after it and all misses are lost (see the refutation). *)
Theorem C32_outcome_partial {Pose X W Pt S A V : Type} (geo : geometry Pose X W Pt) (sta : statistics Pt S)
  (c : config (occ A S)) (zero : A) (plus : A -> A -> A) (amount : S -> A) (s_merge : S -> S -> S)
  (ray : Pose -> S -> list idx) (order : list (idx * A) -> list (idx * A)) (num : numbers V)
  (sen : sensor (occ A S) V) (start : Pose -> outcome idx)
  (fallback_weighted : bool) (fallback : Pose -> S -> list idx)
  (l : list (map_action (P:=occ A S))) (m : cmap c) (o : Pose) (xs : list X) (s : idx) :
  config_ok c ->
  (forall a, plus zero a = a) -> (forall a b, plus a b = plus b a) ->
  (forall a b d, plus a (plus b d) = plus (plus a b) d) -> (forall l, Permutation (order l) l) ->
  fits c l -> cact_all c l (new_map c) = Ok m -> vis_fits geo c ray o xs -> start o = Ok s ->
  exists m' sn (stopped : bool),
    insertVisible geo sta c zero plus amount s_merge ray order num sen start true fallback_weighted fallback m o xs = Ok m' /\
    part_of sn (ends geo c o xs) /\
    cell_result geo sta c zero plus amount s_merge ray true m m' o xs sn stopped /\
    let stat ps := fold_left (s_add sta) ps (s_empty sta) in
    if stopped then
      exists pre g post, ends geo c o xs = pre ++ g :: post /\ part_of sn pre /\
        (forall look, shows c m' look -> blocked c num sen look s (ray o (stat (snd g)))) /\
        forall g', In g' pre -> fate c num sen stat s_merge ray o s m sn g'
    else forall g, In g (ends geo c o xs) -> fate c num sen stat s_merge ray o s m sn g.
Proof.
  exact (fun Hc H0 H1 H2 Ho => visible_outcome geo sta c Hc zero plus amount s_merge ray order num sen start H0 H1 H2 Ho l m o xs s).
Qed.
Print Assumptions C32_outcome_partial.

(** C32, what holds: if no line is blocked and every line reaches its end whatever the map shows, the
    scan is recorded like a plain insertion that spares the bundles it hits. *)
Theorem C32_all_visible_partial {Pose X W Pt S A V : Type} (geo : geometry Pose X W Pt) (sta : statistics Pt S)
  (c : config (occ A S)) (zero : A) (plus : A -> A -> A) (amount : S -> A) (s_merge : S -> S -> S)
  (ray : Pose -> S -> list idx) (order : list (idx * A) -> list (idx * A)) (num : numbers V)
  (sen : sensor (occ A S) V) (start : Pose -> outcome idx)
  (fallback_weighted : bool) (fallback : Pose -> S -> list idx)
  (l : list (map_action (P:=occ A S))) (m : cmap c) (o : Pose) (xs : list X) (s : idx) :
  config_ok c -> fits c l -> cact_all c l (new_map c) = Ok m -> vis_fits geo c ray o xs -> start o = Ok s ->
  (let stat ps := fold_left (s_add sta) ps (s_empty sta) in
   forall look g, In g (ends geo c o xs) ->
     ~ blocked c num sen look s (ray o (stat (snd g))) /\ reaches c num sen look s (ray o (stat (snd g))) (fst g)) ->
  insertVisible geo sta c zero plus amount s_merge ray order num sen start true fallback_weighted fallback m o xs =
  occ_insert geo sta c zero plus amount s_merge ray order true m o xs.
Proof.
  exact (fun Hc => all_visible geo sta c Hc zero plus amount s_merge ray order num sen start l m o xs s).
Qed.
Print Assumptions C32_all_visible_partial.

(** C32, what fails, for every map and scan: if the line of the first group (in index order) is
    blocked, the scan leaves the map as it was, whatever the other points are. *)
Theorem C32_first_blocked_loses_scan {Pose X W Pt S A V : Type} (geo : geometry Pose X W Pt) (sta : statistics Pt S)
  (c : config (occ A S)) (zero : A) (plus : A -> A -> A) (amount : S -> A) (s_merge : S -> S -> S)
  (ray : Pose -> S -> list idx) (order : list (idx * A) -> list (idx * A)) (num : numbers V)
  (sen : sensor (occ A S) V) (start : Pose -> outcome idx)
  (fallback_weighted : bool) (fallback : Pose -> S -> list idx)
  (l : list (map_action (P:=occ A S))) (m : cmap c) (o : Pose) (xs : list X) (s : idx)
  (look : view) (g : idx * list Pt) (gs : list (idx * list Pt)) :
  config_ok c -> fits c l -> cact_all c l (new_map c) = Ok m -> vis_fits geo c ray o xs -> start o = Ok s ->
  shows c m look -> ends geo c o xs = g :: gs ->
  blocked c num sen look s (ray o (fold_left (s_add sta) (snd g) (s_empty sta))) ->
  insertVisible geo sta c zero plus amount s_merge ray order num sen start true fallback_weighted fallback m o xs = Ok m.
Proof.
  exact (fun Hc => first_blocked geo sta c Hc zero plus amount s_merge ray order num sen start l m o xs s look g gs).
Qed.
Print Assumptions C32_first_blocked_loses_scan.

(** C32, without a model ([ivm] or [ivm_visibility] null) the scan is recorded like a plain insertion:
    every accepted point is a hit, every bundle on the lines of the default iterator a miss (the
    weighted map spares the bundles it hits), whatever stands in the way. *)
Theorem C32_without_models {Pose X W Pt S A V : Type} (geo : geometry Pose X W Pt) (sta : statistics Pt S)
  (c : config (occ A S)) (zero : A) (plus : A -> A -> A) (amount : S -> A) (s_merge : S -> S -> S)
  (ray : Pose -> S -> list idx) (order : list (idx * A) -> list (idx * A)) (num : numbers V)
  (sen : sensor (occ A S) V) (start : Pose -> outcome idx)
  (fallback_weighted : bool) (fallback : Pose -> S -> list idx)
  (l : list (map_action (P:=occ A S))) (m : cmap c) (o : Pose) (xs : list X) :
  config_ok c ->
  (forall a, plus zero a = a) -> (forall a b, plus a b = plus b a) ->
  (forall a b d, plus a (plus b d) = plus (plus a b) d) -> (forall l, Permutation (order l) l) ->
  fits c l -> cact_all c l (new_map c) = Ok m -> vis_fits geo c fallback o xs ->
  exists m',
    insertVisible geo sta c zero plus amount s_merge ray order num sen start false fallback_weighted fallback m o xs = Ok m' /\
    cell_result geo sta c zero plus amount s_merge fallback fallback_weighted m m' o xs (ends geo c o xs) false.
Proof.
  exact (fun Hc H0 H1 H2 Ho => plain_outcome geo sta c Hc zero plus amount s_merge fallback order H0 H1 H2 Ho
                                 fallback_weighted l m o xs).
Qed.
Print Assumptions C32_without_models.

(** A map in which a wall stands left of the sensor. Exact rationals for probabilities. *)
Definition vis_map : config (occ Z (list Z)) :=
  {| dimc := 2; kindc := Dynamic; sizec := []; minc := []; garbagec := fun _ => 5;
     aminc := cw_min; amaxc := cw_max; offsetsc := offsets2; defaultc := Build_occ 0 None;
     mergec := fun a _ => a; expandc := fun o => match hits o with Some l => (2 <? length l)%nat | None => false end |}.
Lemma vis_map_ok : config_ok vis_map.
Proof. constructor; cbn; try discriminate; try reflexivity; [exact offsets2_sound|exact offsets2_complete]. Qed.
Definition rational : numbers Q :=
  {| v_zero := 0; v_one := 1; v_add := Qplus; v_sub := Qminus; v_mul := Qmult;
     v_lt := fun a b => negb (Qle_bool b a); v_ge := fun a b => Qle_bool b a |}%Q.
Definition hit_prob (d : occ Z (list Z)) : Q :=
  match hits d with Some _ => 9 # 10 | None => if missed d =? 0 then 1 # 2 else 1 # 10 end.
Definition sonar : sensor (occ Z (list Z)) Q :=
  {| prob_occupied := hit_prob; share := 1 # 4; vis_free := 1 # 10; vis_occupied := 99 # 100; vis_prior := 1 # 2 |}.
(** The line along the first axis from bundle 0 to the first point's bundle, excluded. *)
Definition axis_ray (o s : list Z) : list idx :=
  match s with
  | [] => []
  | x :: _ => let n := Z.max (-50) (Z.min 50 (x / 10)) in
              map (fun k => [if n <? 0 then - Z.of_nat k else Z.of_nat k; 0]) (seq 0 (Z.to_nat (Z.abs n)))
  end.
Lemma axis_ray_near (o s : list Z) (bi : idx) : In bi (axis_ray o s) ->
  length bi = dimc vis_map /\ (kindc vis_map = Dynamic -> usable vis_map 1 bi).
Proof.
  intros H. unfold axis_ray in H. destruct s as [|x s]; [destruct H|]. apply in_map_iff in H.
  destruct H as [k [<- H]]. apply in_seq in H. split; [reflexivity|]. intros _. split; [reflexivity|].
  cbn [kindc vis_map]. repeat constructor; try lia; destruct (Z.max (-50) (Z.min 50 (x / 10)) <? 0); lia.
Qed.
Definition wall : list (map_action (P:=occ Z (list Z))) :=
  [Modify [-2; 0] (update_occupied (@app Z) [-15]); Modify [-3; 1] (update_occupied (@app Z) [-25])].
Lemma wall_fits : fits vis_map wall.
Proof. fits_2d. Qed.
Definition scan (xs : list (list Z)) : outcome (cmap vis_map) :=
  let* m := cact_all vis_map wall (new_map vis_map) in
  insertVisible shift_geometry log_statistics vis_map 0 Z.add (fun s => Z.of_nat (length s)) (@app Z) axis_ray (@rev _)
    rational sonar (fun _ => Ok [0; 0]) true false axis_ray m [0; 0] xs.
Definition left_point : list Z := [-45; 3].
Definition right_point : list Z := [35; 3].

Example C32_points_fit : vis_fits shift_geometry vis_map axis_ray [0; 0] [left_point; right_point].
Proof.
  split; [cloud_fits_2d|]. intros s bi H. exact (axis_ray_near [0; 0] s bi H).
Qed.

(** C32 refuted: alone, the right point is recorded with the free bundles before it; together with a
    point behind the wall on the other side, nothing is recorded: neither the right point nor its
    free bundles; and of the left point alone not even the bundles before the wall. *)
Theorem C32_blocked_line_ends_scan_refuted :
  exists (l : list (map_action (P:=occ Z (list Z)))) (blocked_point free_point : list Z),
    config_ok vis_map /\ fits vis_map l /\
    vis_fits shift_geometry vis_map axis_ray [0; 0] [blocked_point; free_point] /\
    let insert xs :=
      let* m := cact_all vis_map l (new_map vis_map) in
      insertVisible shift_geometry log_statistics vis_map 0 Z.add (fun s => Z.of_nat (length s)) (@app Z) axis_ray (@rev _)
        rational sonar (fun _ => Ok [0; 0]) true false axis_ray m [0; 0] xs in
    let hit m := cstored vis_map m 0 [1; 0] in
    let free_before m := cstored vis_map m 0 [0; 0] in
    (let* m := insert [free_point] in let* h := hit m in let* f := free_before m in Ok (h, f)) =
      Ok (Some (Build_occ 1 (Some [35])), Some (Build_occ 2 None)) /\
    (let* m := insert [free_point; blocked_point] in let* h := hit m in let* f := free_before m in Ok (h, f)) =
      Ok (None, None) /\
    axis_ray [0; 0] [nth 0 blocked_point 0] = [[0; 0]; [-1; 0]; [-2; 0]; [-3; 0]; [-4; 0]] /\
    (let* m := insert [blocked_point] in let* f := free_before m in let* b := cbundle vis_map m [-1; 0] in Ok (f, b)) =
      Ok (None, None).
Proof.
  exists wall, left_point, right_point. split; [exact vis_map_ok|]. split; [exact wall_fits|].
  split; [exact C32_points_fit|]. cbn zeta. compute_all.
Qed.
Print Assumptions C32_blocked_line_ends_scan_refuted.

(** Without models both points are recorded, also the one behind the wall. *)
Example C32_without_models_example :
  vis_fits shift_geometry vis_map axis_ray [0; 0] [left_point; right_point] /\
  (let* m := cact_all vis_map wall (new_map vis_map) in
   let* m := insertVisible shift_geometry log_statistics vis_map 0 Z.add (fun s => Z.of_nat (length s)) (@app Z) axis_ray (@rev _)
     rational sonar (fun _ => Ok [0; 0]) false false axis_ray m [0; 0] [left_point; right_point] in
   let* a := cstored vis_map m 0 [1; 0] in let* b := cstored vis_map m 0 [0; 0] in
   let* d := cstored vis_map m 0 [-3; 0] in Ok (a, b, d)) =
  Ok (Some (Build_occ 1 (Some [35])), Some (Build_occ 3 None), Some (Build_occ 0 (Some [-45]))).
Proof. split; [exact C32_points_fit|vm_compute; reflexivity]. Qed.

(** A case of the universal failure: what the wall map shows blocks the left line. *)
Definition wall_view : view (D:=occ Z (list Z)) := fun bi =>
  match (let* m := cact_all vis_map wall (new_map vis_map) in
         let* b := cbundle vis_map m bi in
         match b with
         | None => Ok None
         | Some _ => let* vs := ofold (fun r i => let* v := cstored vis_map m i (generate_index bi i) in
                       match v with Some v => Ok (r ++ [v]) | None => UB end) (seq 0 4) [] in Ok (Some vs)
         end) with
  | Ok r => r
  | _ => None
  end.
Example C32_blocked_example :
  ends shift_geometry vis_map [0; 0] [right_point; left_point] =
    [([-5; 0], [[-45; 3]]); ([3; 0], [[35; 3]])] /\
  blocked vis_map rational sonar wall_view [0; 0] (axis_ray [0; 0] [-45]) /\
  reaches vis_map rational sonar wall_view [0; 0] (axis_ray [0; 0] [35]) [3; 0].
Proof.
  split; [vm_compute; reflexivity|]. split; [|vm_compute; reflexivity].
  exists [[0; 0]; [-1; 0]; [-2; 0]], [-3; 0], [[-4; 0]]. split; [reflexivity|vm_compute; reflexivity].
Qed.

(** A sensor whose visibility never falls: the hypotheses of [C32_all_visible_partial] hold. *)
Definition clear_sensor : sensor (occ Z (list Z)) Q :=
  {| prob_occupied := hit_prob; share := 1 # 4; vis_free := 1%Q; vis_occupied := 1%Q; vis_prior := 1 # 2 |}.
Lemma clear_seen (look : view) (s : idx) (path : list idx) :
  (seen_through vis_map rational clear_sensor look s path == 1)%Q.
Proof.
  unfold seen_through. assert (H : (v_one rational == 1)%Q) by reflexivity. revert H. generalize (v_one rational).
  induction path as [|b path IH]; intros v Hv; [exact Hv|]. cbn [fold_left]. apply IH.
  unfold visibility. cbn [rational v_add v_mul v_sub v_one clear_sensor vis_free vis_occupied]. rewrite Hv. ring.
Qed.
Example C32_all_visible_example :
  let xs := [left_point; right_point] in
  vis_fits shift_geometry vis_map axis_ray [0; 0] xs /\
  (forall look g, In g (ends shift_geometry vis_map [0; 0] xs) ->
     let path := axis_ray [0; 0] (fold_left (s_add log_statistics) (snd g) (s_empty log_statistics)) in
     ~ blocked vis_map rational clear_sensor look [0; 0] path /\ reaches vis_map rational clear_sensor look [0; 0] path (fst g)) /\
  (let* m := cact_all vis_map wall (new_map vis_map) in
   let* m := insertVisible shift_geometry log_statistics vis_map 0 Z.add (fun s => Z.of_nat (length s)) (@app Z) axis_ray (@rev _)
     rational clear_sensor (fun _ => Ok [0; 0]) true false axis_ray m [0; 0] xs in
   let* a := cstored vis_map m 0 [1; 0] in let* b := cstored vis_map m 0 [0; 0] in
   let* d := cstored vis_map m 0 [-3; 0] in Ok (a, b, d)) =
  Ok (Some (Build_occ 1 (Some [35])), Some (Build_occ 3 None), Some (Build_occ 0 (Some [-45]))).
Proof.
  split; [exact C32_points_fit|]. split; [|vm_compute; reflexivity].
  intros look g _ path. split.
  - intros [pre [bi [post [_ H]]]]. cbn [rational v_lt] in H. apply negb_true_iff in H.
    assert (Hle : Qle_bool (vis_prior clear_sensor) (seen_through vis_map rational clear_sensor look [0; 0] (pre ++ [bi])) = true).
    { apply Qle_bool_iff. rewrite clear_seen. discriminate. }
    congruence.
  - apply Qle_bool_iff. rewrite clear_seen. discriminate.
Qed.
