(** C70: scores as a function of the inserted points; geometry, insertion, storage and sampling together. *)
From Coq Require Import QArith Qround Qcanon Permutation.
From Verif Require Import Base SeqModel IndexModel IndexSpec OctreeSpec MapModel BackendModel SysModel SysSpec ExtentModel
  InsertModel InsertSpec SampleModel SampleSpec Samples LocalSpec LocalFacts MapPropFacts InterpFacts.
Open Scope Z_scope.

(** C70, gridmaps. Take any history of insertions, lookups and growth whose coordinates stay in reach.
    Let [f k] be the density, at the query [q], of the distribution of exactly those inserted points
    that lie in the same cell of grid [k] as [q]. Both scores are those computed from [f] if one of
    the inserted points lies in the bundle of [q]. Otherwise they may be 0, and are 0 if the history
    has insertions only. The batch law says that adding the points of a cloud one by one equals adding
    their collected statistics; it holds for exact moments (C12). *)
Theorem C70_score_of_points_partial {Pose X W S P : Type} (geo : geometry Pose X W (list Q)) (sta : statistics (list Q) S)
  (c : config P) (h : Q) (upd_d : P -> S -> P) (addP : P -> list Q -> P) (density : P -> list Q -> Q)
  (ops : list (grid_op (Pose:=Pose) (X:=X))) (q : list Q) :
  config_ok c -> (0 < h)%Q -> (forall p, locate geo p = toBundleIndex (/ h) p) ->
  (forall d ps, upd_d d (fold_left (s_add sta) ps (s_empty sta)) = fold_left addP ps d) ->
  (forall d p p', addP (addP d p) p' = addP (addP d p') p) ->
  all_in_reach geo c h false ops -> in_reach c h 0 q -> covered c h q = true ->
  let pts := inserted geo c h false ops in
  let f := fun k => density (fold_left addP (filter (same_cell h k q) pts) (defaultc c)) q in
  exists m s t, grid_run geo sta c upd_d ops (new_map c) = Ok m /\
    sampleNonNormalized c (/ h) density m q = Ok s /\ sampleNonNormalizedBilinear c (/ h) density m q = Ok t /\
    ((s == mean_score (dimc c) f /\ t == tent_score (dimc c) h q f)%Q \/ (s == 0 /\ t == 0)%Q) /\
    (existsb (same_bundle h q) pts = true -> (s == mean_score (dimc c) f /\ t == tent_score (dimc c) h q f)%Q) /\
    (only_inserts ops -> existsb (same_bundle h q) pts = false -> (s == 0 /\ t == 0)%Q).
Proof.
  intros Hc Hh Hl Hb Ha. exact (grid_local geo sta c Hc upd_d h Hh Hl addP Hb Ha density ops q).
Qed.
Print Assumptions C70_score_of_points_partial.

(** A concrete 2D setting: bundles half a unit wide, a pose is a shift, distributions are the number of
    points and the exact sums of their coordinates, the density falls with the distance from the mean. *)
Definition plane : geometry (list Q) (list Q) (list Q) (list Q) :=
  {| transform := fun o x => map (fun d => nth d o 0 + nth d x 0)%Q [0; 1]%nat;
     normal_in := fun _ => true; normal_world := fun x => Qle_bool (nth 0 x 0%Q) 100;
     to_map := fun x => x; locate := toBundleIndex (/ (1 # 2)) |}.
Definition moments : Type := Z * Qc * Qc.
Definition moments_zero : moments := (0, Q2Qc 0, Q2Qc 0).
Definition moments_plus (a b : moments) : moments :=
  let '(n, x, y) := a in let '(n', x', y') := b in (n + n', (x + x')%Qc, (y + y')%Qc).
Definition moments_add (a : moments) (p : list Q) : moments :=
  let '(n, x, y) := a in (n + 1, (x + Q2Qc (nth 0 p 0%Q))%Qc, (y + Q2Qc (nth 1 p 0%Q))%Qc).
Definition moments_statistics : statistics (list Q) moments := {| s_empty := moments_zero; s_add := moments_add |}.
Definition moments_density (a : moments) (q : list Q) : Q :=
  let '(n, x, y) := a in
  if n =? 0 then 0%Q
  else let dx := (nth 0 q 0 - x / inject_Z n)%Q in let dy := (nth 1 q 0 - y / inject_Z n)%Q in
       (1 / (1 + dx * dx + dy * dy))%Q.
Definition plane_map (kd : kind) : config moments :=
  {| dimc := 2; kindc := kd; sizec := [4; 4]; minc := [-2; -2]; garbagec := fun _ => -1;
     aminc := cw_min; amaxc := cw_max; offsetsc := offsets2; defaultc := moments_zero;
     mergec := moments_plus; expandc := fun d => 2 <? fst (fst d) |}.
Lemma plane_map_ok (kd : kind) : config_ok (plane_map kd).
Proof. constructor; cbn; try reflexivity; [exact offsets2_sound|exact offsets2_complete]. Qed.
Lemma moments_batch (d : moments) (ps : list (list Q)) :
  moments_plus d (fold_left moments_add ps moments_zero) = fold_left moments_add ps d.
Proof.
  assert (G : forall ps e, moments_plus d (fold_left moments_add ps e) = fold_left moments_add ps (moments_plus d e)).
  { clear. induction ps as [|p ps IH]; intros e; [reflexivity|]. cbn [fold_left]. rewrite IH. f_equal.
    destruct d as [[n x] y], e as [[n' x'] y']. cbn. f_equal; [f_equal|]; ring. }
  rewrite G. f_equal. destruct d as [[n x] y]. cbn. f_equal; [f_equal|]; ring.
Qed.
Lemma moments_comm (d : moments) (p q : list Q) : moments_add (moments_add d p) q = moments_add (moments_add d q) p.
Proof. destruct d as [[n x] y]. cbn. f_equal; [f_equal|]; ring. Qed.

(** Three scans from two poses, a growth and a lookup between them; one point is not normal, two lie far
    away. *)
Definition plane_ops : list (grid_op (Pose:=list Q) (X:=list Q)) :=
  [GInsert [0; 0]%Q [[1 # 10; 2 # 10]; [3 # 10; 1 # 10]; [200; 0]]%Q;
   GTouch [2; 0];
   GInsert [1; 1]%Q [[-(6 # 10); -(7 # 10)]; [7 # 10; -(6 # 10)]]%Q;
   GExpand;
   GInsert [0; 0]%Q [[1 # 10; 6 # 10]]%Q].
Definition plane_query : list Q := [2 # 10; 3 # 10]%Q.

Ltac reach_2d :=
  repeat (first [apply Forall_nil | apply Forall_cons]); try exact I;
  try (split; [reflexivity|]; intros d Hd; destruct d as [|[|d]]; [| |cbn in Hd; lia];
       vm_compute; split; first [reflexivity | discriminate]).

Example C70_example (kd : kind) :
  (forall p, locate plane p = toBundleIndex (/ (1 # 2)) p) /\
  all_in_reach plane (plane_map kd) (1 # 2) false plane_ops /\
  in_reach (plane_map kd) (1 # 2) 0 plane_query /\ covered (plane_map kd) (1 # 2) plane_query = true /\
  let pts := inserted plane (plane_map kd) (1 # 2) false plane_ops in
  existsb (same_bundle (1 # 2) plane_query) pts = true /\
  map (fun k => length (filter (same_cell (1 # 2) k plane_query) pts)) (seq 0 4) = [4; 4; 3; 3]%nat /\
  (let* m := grid_run plane moments_statistics (plane_map kd) moments_plus plane_ops (new_map (plane_map kd)) in
   let* s := sampleNonNormalized (plane_map kd) (/ (1 # 2)) moments_density m plane_query in
   Ok (Qle_bool (9 # 10) s && Qle_bool s 1)%bool) = Ok true.
Proof.
  split; [reflexivity|]. split; [|split; [|split; [|split; [|split]]]].
  - destruct kd; unfold all_in_reach, plane_ops; reach_2d;
      try (split; [reflexivity|]; intros Hk; try discriminate Hk; repeat constructor; cbn; lia).
  - destruct kd; reach_2d.
  - destruct kd; vm_compute; reflexivity.
  - destruct kd; vm_compute; reflexivity.
  - destruct kd; vm_compute; reflexivity.
  - destruct kd; vm_compute; reflexivity.
Qed.

(** C70, full statement: the score is always that of the points in the cells of [q]. False: if no point
    fell into the bundle of [q] itself the score is 0, though its cells hold points close by. *)
Theorem C70_score_of_points_refuted :
  exists (ops : list (grid_op (Pose:=list Q) (X:=list Q))) (q : list Q),
    let c := plane_map Dynamic in
    all_in_reach plane c (1 # 2) false ops /\ in_reach c (1 # 2) 0 q /\ covered c (1 # 2) q = true /\
    let f := fun k => moments_density (fold_left moments_add (filter (same_cell (1 # 2) k q)
                        (inserted plane c (1 # 2) false ops)) moments_zero) q in
    (1 # 10 < mean_score 2 f)%Q /\ (1 # 10 < tent_score 2 (1 # 2) q f)%Q /\
    exists m s t, grid_run plane moments_statistics c moments_plus ops (new_map c) = Ok m /\
      sampleNonNormalized c (/ (1 # 2)) moments_density m q = Ok s /\
      sampleNonNormalizedBilinear c (/ (1 # 2)) moments_density m q = Ok t /\ (s == 0)%Q /\ (t == 0)%Q.
Proof.
  set (ops := [GInsert [0; 0]%Q [[45 # 100; 2 # 10]; [48 # 100; 3 # 10]]%Q] : list (grid_op (Pose:=list Q) (X:=list Q))).
  set (q := [52 # 100; 25 # 100]%Q).
  assert (HA : all_in_reach plane (plane_map Dynamic) (1 # 2) false ops) by (unfold all_in_reach, ops; reach_2d).
  assert (HR : in_reach (plane_map Dynamic) (1 # 2) 0 q) by reach_2d.
  exists ops, q. intros c. split; [exact HA|]. split; [exact HR|]. split; [reflexivity|]. intros f.
  split; [vm_compute; reflexivity|]. split; [vm_compute; reflexivity|].
  destruct (C70_score_of_points_partial plane moments_statistics c (1 # 2) moments_plus moments_add moments_density ops q
    (plane_map_ok Dynamic) ltac:(reflexivity) (fun p => eq_refl) moments_batch moments_comm HA HR eq_refl)
    as [m [s [t [E [Es [Et [_ [_ V]]]]]]]].
  exists m, s, t. split; [exact E|]. split; [exact Es|]. split; [exact Et|]. apply V; [repeat constructor|vm_compute; reflexivity].
Qed.
Print Assumptions C70_score_of_points_refuted.

(** C70, consequence: two histories (other scans, other order, other poses, other growth) that put the
    same points into the cells of [q], one of them into its bundle, give [q] the same scores, whatever
    else was inserted elsewhere. *)
Theorem C70_far_points_do_not_matter {Pose X W S P : Type} (geo : geometry Pose X W (list Q)) (sta : statistics (list Q) S)
  (c : config P) (h : Q) (upd_d : P -> S -> P) (addP : P -> list Q -> P) (density : P -> list Q -> Q)
  (ops ops' : list (grid_op (Pose:=Pose) (X:=X))) (q : list Q) :
  config_ok c -> (0 < h)%Q -> (forall p, locate geo p = toBundleIndex (/ h) p) ->
  (forall d ps, upd_d d (fold_left (s_add sta) ps (s_empty sta)) = fold_left addP ps d) ->
  (forall d p p', addP (addP d p) p' = addP (addP d p') p) ->
  all_in_reach geo c h false ops -> all_in_reach geo c h false ops' -> in_reach c h 0 q -> covered c h q = true ->
  (forall k, (k < 2 ^ dimc c)%nat -> Permutation (filter (same_cell h k q) (inserted geo c h false ops))
                                       (filter (same_cell h k q) (inserted geo c h false ops'))) ->
  existsb (same_bundle h q) (inserted geo c h false ops) = true ->
  existsb (same_bundle h q) (inserted geo c h false ops') = true ->
  exists m m' s s' t t', grid_run geo sta c upd_d ops (new_map c) = Ok m /\ grid_run geo sta c upd_d ops' (new_map c) = Ok m' /\
    sampleNonNormalized c (/ h) density m q = Ok s /\ sampleNonNormalized c (/ h) density m' q = Ok s' /\ (s == s')%Q /\
    sampleNonNormalizedBilinear c (/ h) density m q = Ok t /\ sampleNonNormalizedBilinear c (/ h) density m' q = Ok t' /\ (t == t')%Q.
Proof.
  intros Hc Hh Hl Hb Ha H H' Hr Hv HP HB HB'.
  destruct (C70_score_of_points_partial geo sta c h upd_d addP density ops q Hc Hh Hl Hb Ha H Hr Hv)
    as [m [s [t [E [Es [Et [_ [V _]]]]]]]].
  destruct (C70_score_of_points_partial geo sta c h upd_d addP density ops' q Hc Hh Hl Hb Ha H' Hr Hv)
    as [m' [s' [t' [E' [Es' [Et' [_ [V' _]]]]]]]].
  destruct (V HB) as [V1 V2]. destruct (V' HB') as [V1' V2'].
  exists m, m', s, s', t, t'. repeat (split; [assumption|]).
  assert (EF : forall k, (k < 2 ^ dimc c)%nat ->
    fold_left addP (filter (same_cell h k q) (inserted geo c h false ops)) (defaultc c) =
    fold_left addP (filter (same_cell h k q) (inserted geo c h false ops')) (defaultc c)).
  { intros k Hk. apply fold_comm_perm; [exact Ha|exact (HP k Hk)]. }
  split; [|split; [exact Et|split; [exact Et'|]]].
  - rewrite V1, V1'. unfold mean_score. apply Qmult_comp; [|reflexivity].
    apply qsum_ext. intros k Hk. apply in_seq in Hk. rewrite EF by lia. reflexivity.
  - rewrite V2, V2'. unfold tent_score. apply qsum_ext. intros k Hk. apply in_seq in Hk. rewrite EF by lia. reflexivity.
Qed.
Print Assumptions C70_far_points_do_not_matter.

(** C70, occupancy maps: the same with the misses of the rays through the cell; a cell without inserted
    points adds nothing. The bundle of [q] may also have been made by a ray. *)
Theorem C70_occupancy_score_of_points_partial {Pose X W S A M : Type} (geo : geometry Pose X W (list Q))
  (sta : statistics (list Q) S) (c : config (occ A S)) (h : Q) (zero : A) (plus : A -> A -> A) (amount : S -> A)
  (s_merge : S -> S -> S) (ray : Pose -> S -> list idx) (order : list (idx * A) -> list (idx * A)) (weighted : bool)
  (density : S -> list Q -> Q) (occupancy : M -> occ A S -> Q) (model : M)
  (ops : list (grid_op (Pose:=Pose) (X:=X))) (q : list Q) :
  config_ok c -> (0 < h)%Q -> (forall p, locate geo p = toBundleIndex (/ h) p) ->
  (forall a, plus zero a = a) -> (forall a b, plus a b = plus b a) -> (forall a b d, plus a (plus b d) = plus (plus a b) d) ->
  (forall l, Permutation (order l) l) -> defaultc c = Build_occ zero None ->
  (forall s ps, s_merge s (fold_left (s_add sta) ps (s_empty sta)) = fold_left (s_add sta) ps s) ->
  (forall s p p', s_add sta (s_add sta s p) p' = s_add sta (s_add sta s p') p) ->
  all_in_reach geo c h true ops -> rays_in_reach ray c ops -> in_reach c h 0 q -> covered c h q = true ->
  let pts := inserted geo c h true ops in
  let misses := fun k => total zero plus (cell_misses geo sta c amount ray weighted ops k (cell_of h k q)) in
  let f := fun k => match filter (same_cell h k q) pts with
                    | [] => 0
                    | l => let s := fold_left (s_add sta) l (s_empty sta) in
                           density s q * occupancy model (Build_occ (misses k) (Some s))
                    end%Q in
  exists m s t, occ_run geo sta c zero plus amount s_merge ray order weighted ops (new_map c) = Ok m /\
    occ_sampleNonNormalized c (/ h) hits density occupancy m q (Some model) = Ok s /\
    occ_sampleNonNormalizedBilinear c (/ h) hits density occupancy m q (Some model) = Ok t /\
    ((s == mean_score (dimc c) f /\ t == tent_score (dimc c) h q f)%Q \/ (s == 0 /\ t == 0)%Q) /\
    (existsb (same_bundle h q) pts = true -> (s == mean_score (dimc c) f /\ t == tent_score (dimc c) h q f)%Q) /\
    (only_inserts ops -> existsb (same_bundle h q) pts = false ->
     (forall o xs a, In (GInsert o xs) ops ->
        ~ In (map (fun x => bundle_number h x) q, a) (scan_misses geo sta c amount ray weighted o xs)) ->
     (s == 0 /\ t == 0)%Q).
Proof.
  intros Hc Hh Hl Z1 Z2 Z3 Ho Hd Hb Ha.
  exact (occ_local geo sta c Hc h Hh Hl zero plus amount s_merge ray order Z1 Z2 Z3 Ho weighted Hd Hb Ha density occupancy model ops q).
Qed.
Print Assumptions C70_occupancy_score_of_points_partial.

(** A row of bundles between two scan positions; misses counted per ray, model-free occupancy hits per
    hits and misses. *)
Definition occ_plane : config (occ Z moments) :=
  {| dimc := 2; kindc := Dynamic; sizec := []; minc := []; garbagec := fun _ => -1;
     aminc := cw_min; amaxc := cw_max; offsetsc := offsets2; defaultc := Build_occ 0 None;
     mergec := fun a b => Build_occ (missed a + missed b) (match hits a with None => hits b | h => h end);
     expandc := fun d => match hits d with None => false | _ => true end |}.
Definition row_ray (o : list Q) (s : moments) : list idx := [[-1; 0]; [0; 0]; [1; 0]].
Definition hit_ratio (_ : unit) (d : occ Z moments) : Q :=
  match hits d with None => 0%Q | Some (n, _, _) => (inject_Z n / inject_Z (n + missed d))%Q end.
Definition occ_plane_ops : list (grid_op (Pose:=list Q) (X:=list Q)) :=
  [GInsert [0; 0]%Q [[1 # 10; 2 # 10]; [3 # 10; 1 # 10]; [200; 0]]%Q; GInsert [1; 1]%Q [[-(6 # 10); -(7 # 10)]; [7 # 10; -(6 # 10)]]%Q].

Example C70_occupancy_example :
  config_ok occ_plane /\ all_in_reach plane occ_plane (1 # 2) true occ_plane_ops /\ rays_in_reach row_ray occ_plane occ_plane_ops /\
  in_reach occ_plane (1 # 2) 0 plane_query /\
  let pts := inserted plane occ_plane (1 # 2) true occ_plane_ops in
  existsb (same_bundle (1 # 2) plane_query) pts = true /\
  map (fun k => total 0 Z.add (cell_misses plane moments_statistics occ_plane (fun s => fst (fst s)) row_ray false occ_plane_ops k
                                 (cell_of (1 # 2) k plane_query))) (seq 0 4) = [8; 8; 8; 8] /\
  (let* m := occ_run plane moments_statistics occ_plane 0 Z.add (fun s => fst (fst s)) moments_plus row_ray (@rev _) false
               occ_plane_ops (new_map occ_plane) in
   let* s := occ_sampleNonNormalized occ_plane (/ (1 # 2)) hits moments_density hit_ratio m plane_query (Some tt) in
   Ok (Qle_bool (26 # 100) s && Qle_bool s (28 # 100))%bool) = Ok true.
Proof.
  split; [constructor; cbn; try discriminate; try reflexivity; [exact offsets2_sound|exact offsets2_complete]|].
  split; [unfold all_in_reach, occ_plane_ops; reach_2d|].
  split; [unfold rays_in_reach, occ_plane_ops; repeat (first [apply Forall_nil | apply Forall_cons]);
          intros s bi [<-|[<-|[<-|[]]]]; (split; [reflexivity|intros _; repeat constructor; cbn; lia])|].
  split; [reach_2d|]. split; [vm_compute; reflexivity|]. split; vm_compute; reflexivity.
Qed.
