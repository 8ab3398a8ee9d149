(** C71 to C73: lookups by point and pose, sizes of static maps. *)
From Coq Require Import QArith Qround Qcanon Permutation.
From Verif Require Import Base SeqModel IndexModel IndexSpec OctreeSpec MapModel BackendModel SysModel SysSpec ExtentModel
  InsertModel InsertSpec SampleSpec Samples LocalSpec LookupModel LookupFacts LookupOccFacts Prop_Local.
Open Scope Z_scope.

(** C71: after any history a lookup by point outside of a static map returns null and changes nothing.
    Inside, [get] returns null only if no inserted point lies in the bundle of [q] (and does so after
    insertions only); [getDistributionBundle] never returns null, returns what [get] returns afterwards,
    and changes nothing if [get] had found the bundle. Distribution [k] of a returned bundle is that of
    exactly the inserted points that share the cell of grid [k] with [q]; no pointer is null or
    dangling. The laws are those of C70. *)
Theorem C71_lookup_by_point {Pose X W S P : Type} (geo : geometry Pose X W (list Q)) (sta : statistics (list Q) S)
  (c : config P) (h : Q) (upd_d : P -> S -> P) (addP : P -> list Q -> P)
  (ops : list (grid_op (Pose:=Pose) (X:=X))) (q : list Q) :
  config_ok c -> (0 < h)%Q -> (forall p, locate geo p = toBundleIndex (/ h) p) ->
  (forall d ps, upd_d d (fold_left (s_add sta) ps (s_empty sta)) = fold_left addP ps d) ->
  (forall d p p', addP (addP d p) p' = addP (addP d p') p) ->
  all_in_reach geo c h false ops -> in_reach c h 0 q ->
  let pts := inserted geo c h false ops in
  let value := fun k => fold_left addP (filter (same_cell h k q) pts) (defaultc c) in
  exists m, grid_run geo sta c upd_d ops (new_map c) = Ok m /\
    (covered c h q = false ->
       getDistributionBundle_at c (/ h) m q = Ok (m, None) /\ get_at c (/ h) m q = Ok None) /\
    (covered c h q = true ->
       (exists ob, get_at c (/ h) m q = Ok ob /\
          (existsb (same_bundle h q) pts = true -> ob <> None) /\
          (only_inserts ops -> existsb (same_bundle h q) pts = false -> ob = None) /\
          forall b, ob = Some b -> forall k, (k < 2 ^ dimc c)%nat -> at_slot c m b k = Ok (value k)) /\
       (exists m' b, getDistributionBundle_at c (/ h) m q = Ok (m', Some b) /\ get_at c (/ h) m' q = Ok (Some b) /\
          (get_at c (/ h) m q <> Ok None -> m' = m) /\
          forall k, (k < 2 ^ dimc c)%nat -> at_slot c m' b k = Ok (value k))).
Proof.
  intros Hc Hh Hl Hb Ha. exact (grid_lookup geo sta c Hc upd_d h Hh Hl addP Hb Ha ops q).
Qed.
Print Assumptions C71_lookup_by_point.

(** The history of C70: the numbers of points and exact sums in the four cells of the query; a point of
    a bundle that no point fell into; one beyond a static map. *)
Definition beyond : list Q := [30; 0]%Q.
Definition seen (kd : kind) (q : list Q) : outcome (option (list (Z * Q))) :=
  let* m := grid_run plane moments_statistics (plane_map kd) moments_plus plane_ops (new_map (plane_map kd)) in
  let* ob := get_at (plane_map kd) (/ (1 # 2)) m q in
  match ob with
  | None => Ok None
  | Some b => let* l := omap (fun k => let* v := at_slot (plane_map kd) m b k in Ok (fst (fst v), this (snd (fst v)))) (seq 0 4) in
              Ok (Some l)
  end.
Example C71_example :
  seen Dynamic plane_query = Ok (Some [(4, (9 # 10)%Q); (4, (9 # 10)%Q); (3, (4 # 5)%Q); (3, (4 # 5)%Q)]) /\
  seen Static beyond = Ok None /\ seen Dynamic beyond = Ok None /\
  covered (plane_map Static) (1 # 2) beyond = false /\ in_reach (plane_map Static) (1 # 2) 0 beyond /\
  (let* m := grid_run plane moments_statistics (plane_map Dynamic) moments_plus plane_ops (new_map (plane_map Dynamic)) in
   let* r := getDistributionBundle_at (plane_map Dynamic) (/ (1 # 2)) m beyond in
   match snd r with
   | None => UB
   | Some b => omap (fun k => let* v := at_slot (plane_map Dynamic) (fst r) b k in Ok (fst (fst v))) (seq 0 4)
   end) = Ok [0; 0; 0; 0].
Proof.
  split; [vm_compute; reflexivity|]. split; [vm_compute; reflexivity|]. split; [vm_compute; reflexivity|].
  split; [vm_compute; reflexivity|]. split; [reach_2d|vm_compute; reflexivity].
Qed.

(** C71, occupancy maps: likewise; the bundle of [q] is found if a point fell into it or a ray crossed it
    (after insertions only then), and distribution [k] holds the misses of the rays through the cell of
    [q] in grid [k] and the statistic of exactly the inserted points in it, none without points. *)
Theorem C71_occupancy_lookup {Pose X W S A : Type} (geo : geometry Pose X W (list Q)) (sta : statistics (list Q) S)
  (c : config (occ A S)) (h : Q) (zero : A) (plus : A -> A -> A) (amount : S -> A)
  (s_merge : S -> S -> S) (ray : Pose -> S -> list idx) (order : list (idx * A) -> list (idx * A)) (weighted : bool)
  (ops : list (grid_op (Pose:=Pose) (X:=X))) (q : list Q) :
  config_ok c -> (0 < h)%Q -> (forall p, locate geo p = toBundleIndex (/ h) p) ->
  (forall a, plus zero a = a) -> (forall a b, plus a b = plus b a) -> (forall a b d, plus a (plus b d) = plus (plus a b) d) ->
  (forall l, Permutation (order l) l) -> defaultc c = Build_occ zero None ->
  (forall s ps, s_merge s (fold_left (s_add sta) ps (s_empty sta)) = fold_left (s_add sta) ps s) ->
  (forall s p p', s_add sta (s_add sta s p) p' = s_add sta (s_add sta s p') p) ->
  all_in_reach geo c h true ops -> rays_in_reach ray c ops -> in_reach c h 0 q ->
  let pts := inserted geo c h true ops in
  let crossed := exists o xs a, In (GInsert o xs) ops /\
                   In (map (bundle_number h) q, a) (scan_misses geo sta c amount ray weighted o xs) in
  let misses := fun k => total zero plus (cell_misses geo sta c amount ray weighted ops k (cell_of h k q)) in
  let value := fun k => Build_occ (misses k)
                 (match filter (same_cell h k q) pts with
                  | [] => None
                  | l => Some (fold_left (s_add sta) l (s_empty sta))
                  end) in
  exists m, occ_run geo sta c zero plus amount s_merge ray order weighted ops (new_map c) = Ok m /\
    (covered c h q = false ->
       getDistributionBundle_at c (/ h) m q = Ok (m, None) /\ get_at c (/ h) m q = Ok None) /\
    (covered c h q = true ->
       (exists ob, get_at c (/ h) m q = Ok ob /\
          (existsb (same_bundle h q) pts = true -> ob <> None) /\ (crossed -> ob <> None) /\
          (only_inserts ops -> existsb (same_bundle h q) pts = false -> ~ crossed -> ob = None) /\
          forall b, ob = Some b -> forall k, (k < 2 ^ dimc c)%nat -> at_slot c m b k = Ok (value k)) /\
       (exists m' b, getDistributionBundle_at c (/ h) m q = Ok (m', Some b) /\ get_at c (/ h) m' q = Ok (Some b) /\
          (get_at c (/ h) m q <> Ok None -> m' = m) /\
          forall k, (k < 2 ^ dimc c)%nat -> at_slot c m' b k = Ok (value k))).
Proof.
  intros Hc Hh Hl Z1 Z2 Z3 Ho Hd Hb Ha HA HRay HR pts crossed misses value.
  destruct (occ_lookup geo sta c Hc h Hh Hl zero plus amount s_merge ray order Z1 Z2 Z3 Ho weighted Hd Hb Ha ops q HA HRay HR)
    as [m [E [H0 H1]]].
  exists m. split; [exact E|]. split; [exact H0|]. intros HC.
  destruct (H1 HC) as [[ob [Eo [P1 [P2 [P3 P4]]]]] P5]. split; [|exact P5].
  exists ob. split; [exact Eo|]. split; [exact P1|]. split; [|split; [|exact P4]].
  - intros [o [xs [a [Hop Hin]]]]. exact (P2 o xs a Hop Hin).
  - intros Hon Hex Hn. apply P3; [exact Hon|exact Hex|]. intros o xs a Hop Hin. apply Hn. exists o, xs, a. split; assumption.
Qed.
Print Assumptions C71_occupancy_lookup.

(** The history of C70 with rays along a row of bundles: misses and numbers of points in the four cells
    of the query, of a bundle with points but crossed by no ray, of one only crossed (a point lies in two
    of its cells), and of one neither hit nor crossed. *)
Definition occ_seen (q : list Q) : outcome (option (list (Z * option Z))) :=
  let* m := occ_run plane moments_statistics occ_plane 0 Z.add (fun s => fst (fst s)) moments_plus row_ray (@rev _) false
               occ_plane_ops (new_map occ_plane) in
  let* ob := get_at occ_plane (/ (1 # 2)) m q in
  match ob with
  | None => Ok None
  | Some b => let* l := omap (fun k => let* v := at_slot occ_plane m b k in
                                       Ok (missed v, option_map (fun s => fst (fst s)) (hits v))) (seq 0 4) in
              Ok (Some l)
  end.
Example C71_occupancy_example :
  occ_seen plane_query = Ok (Some [(8, Some 3); (8, Some 3); (8, Some 3); (8, Some 3)]) /\
  occ_seen [17 # 10; 4 # 10]%Q = Ok (Some [(0, Some 1); (0, Some 1); (0, Some 1); (0, Some 1)]) /\
  occ_seen [-(4 # 10); 2 # 10]%Q = Ok (Some [(4, None); (8, Some 3); (4, None); (8, Some 3)]) /\
  occ_seen [-(11 # 10); 12 # 10]%Q = Ok None.
Proof. repeat split; vm_compute; reflexivity. Qed.

(** C71: [getBundleIndices] lists, without repetition, exactly the bundles that [get] finds; [usable]
    bounds the listed indices. *)
Theorem C71_bundle_indices {P : Type} (c : config P) (h : Q) (l : list (map_action (P:=P))) :
  config_ok c -> (0 < h)%Q -> fits c l ->
  exists m is, cact_all c l (new_map c) = Ok m /\ getBundleIndices c m = Ok is /\ NoDup is /\
    (forall bi, In bi is -> usable c 0 bi) /\
    forall q, in_reach c h 0 q -> exists ob, get_at c (/ h) m q = Ok ob /\
      (ob <> None <-> In (map (bundle_number h) q) is).
Proof. intros Hc Hh. exact (indices_found c Hc h Hh l). Qed.
Print Assumptions C71_bundle_indices.

Example C71_indices_example :
  (let* m := grid_run plane moments_statistics (plane_map Static) moments_plus plane_ops (new_map (plane_map Static)) in
   let* is := getBundleIndices (plane_map Static) m in
   Ok (existsb (idx_eqb (map (bundle_number (1 # 2)) plane_query)) is, existsb (idx_eqb (map (bundle_number (1 # 2)) beyond)) is,
       (3 <=? length is)%nat)) = Ok (true, false, true).
Proof. vm_compute. reflexivity. Qed.

(** C72, what holds: [validate] tells whether the map takes points at the translation of the pose, on
    height 0 of the world if the map is three-dimensional; [covered] is the box of a static map without
    its last row of bundles (C08). *)
Theorem C72_validate_partial {P : Type} (c : config P) (h : Q) (to_m : list Q -> list Q)
  (l : list (map_action (P:=P))) (t : list Q) (p : list Q) :
  config_ok c -> (0 < h)%Q -> fits c l ->
  length p = dimc c -> (forall d, (d < dimc c)%nat -> nth d p 0%Q = nth d t 0%Q) -> in_reach c h 0 (to_m p) ->
  exists m, cact_all c l (new_map c) = Ok m /\ validate c (/ h) to_m m t = Ok (covered c h (to_m p)).
Proof.
  intros Hc Hh Hf HL Hp HR. assert (E : p = to_point (dimc c) t).
  { apply (nth_ext _ _ 0%Q 0%Q); [rewrite to_point_length; exact HL|]. intros d Hd. rewrite to_point_nth by congruence.
    apply Hp. congruence. }
  rewrite E in HR |- *. exact (validate_covered c Hc h Hh to_m l t Hf HR).
Qed.
Print Assumptions C72_validate_partial.

(** The shelf: a 3D static map of the heights 2 to 4. *)
Definition offsets3 : list idx :=
  flat_map (fun z => flat_map (fun y => flat_map (fun x =>
    if (x =? 0) && (y =? 0) && (z =? 0) then [] else [[x; y; z]]) [-1; 0; 1]) [-1; 0; 1]) [-1; 0; 1].
Definition shelf : config Z :=
  {| dimc := 3; kindc := Static; sizec := [4; 4; 2]; minc := [-4; -4; 4]; garbagec := fun _ => 0;
     aminc := cw_min; amaxc := cw_max; offsetsc := offsets3; defaultc := 0; mergec := Z.add; expandc := fun _ => false |}.
Lemma shelf_ok : config_ok shelf.
Proof.
  constructor; cbn [dimc kindc sizec minc shelf offsetsc]; try reflexivity.
  - intros o H. cbn in H. repeat (destruct H as [<-|H]; [split; [reflexivity|repeat constructor; lia]|]). contradiction.
  - intros [|x [|y [|z [|]]]] HL HF HE; try discriminate HL.
    inversion HF as [|? ? Hx HF1]; subst. inversion HF1 as [|? ? Hy HF2]; subst. inversion HF2 as [|? ? Hz _]; subst.
    assert (Cx : x = -1 \/ x = 0 \/ x = 1) by lia. assert (Cy : y = -1 \/ y = 0 \/ y = 1) by lia.
    assert (Cz : z = -1 \/ z = 0 \/ z = 1) by lia.
    assert (HN : ~ (x = 0 /\ y = 0 /\ z = 0)).
    { intros [-> [-> ->]]. inversion HE as [? ? H|? ? H]; subst; [lia|]. inversion H as [? ? H'|? ? H']; subst; [lia|].
      inversion H' as [? ? H''|? ? H'']; subst; [lia|]. inversion H''. }
    clear - Cx Cy Cz HN. cbn.
    destruct Cx as [->|[->| ->]]; destruct Cy as [->|[->| ->]]; destruct Cz as [->|[->| ->]]; try tauto; exfalso; apply HN; auto.
Qed.

(** C72, full statement: a pose validates iff the map covers its position. False in three dimensions:
    a map that does not reach height 0 validates no pose, though it takes points above (x, y). *)
Theorem C72_validate_3d_refuted :
  exists (c : config Z) (h : Q), config_ok c /\ (0 < h)%Q /\
    (exists p, in_reach c h 0 p /\ covered c h p = true) /\
    forall x y, (-1000 < x < 1000)%Q -> (-1000 < y < 1000)%Q ->
      validate c (/ h) (fun p => p) (new_map c) [x; y] = Ok false.
Proof.
  exists shelf, (1 # 2). split; [exact shelf_ok|]. split; [reflexivity|]. split.
  - exists [0; 0; 5 # 2]%Q. split; [|vm_compute; reflexivity]. split; [reflexivity|].
    intros d Hd. destruct d as [|[|[|d]]]; [| | |cbn in Hd; lia]; vm_compute; split; first [reflexivity | discriminate].
  - intros x y Hx Hy.
    destruct (C72_validate_partial shelf (1 # 2) (fun p => p) [] [x; y] [x; y; 0]%Q shelf_ok) as [m [E V]].
    + reflexivity.
    + constructor.
    + reflexivity.
    + intros d Hd. destruct d as [|[|[|d]]]; try reflexivity. cbn in Hd. lia.
    + split; [reflexivity|]. intros d Hd. cbn [kindc shelf]. unfold INT_MIN, INT_MAX.
      assert (B : (inject_Z (-2147483648) * (1 # 2) == -1073741824)%Q) by reflexivity.
      assert (B' : (inject_Z (2147483647 + 1) * (1 # 2) == 1073741824)%Q) by reflexivity.
      rewrite B, B'. destruct d as [|[|[|d]]]; cbn [nth]; try (cbn in Hd; lia); split; Lqa.lra.
    + injection E as <-. rewrite V. f_equal. unfold covered. cbn [kindc shelf dimc seq forallb nth minc sizec].
      rewrite !Bool.andb_false_iff. right. right. left. left. reflexivity.
Qed.
Print Assumptions C72_validate_3d_refuted.

Example C72_example :
  validate (plane_map Static) 2 (fun p => p) (new_map (plane_map Static)) [6 # 10; -(3 # 10)]%Q = Ok true /\
  validate (plane_map Static) 2 (fun p => p) (new_map (plane_map Static)) [26 # 10; -(3 # 10)]%Q = Ok false /\
  validate shelf 2 (fun p => map (fun d => nth d p 0 + nth d [0; 0; 3] 0)%Q (seq 0 3)) (new_map shelf) [1; 1]%Q = Ok true.
Proof. split; [|split]; vm_compute; reflexivity. Qed.

(** C73, what holds of static maps, after any history: the reported corners, width/height and numbers of
    cells and bundles agree; the metric size [getSizeM] is always one resolution ([2 * h]) larger. *)
Theorem C73_sizes_partial {P : Type} (c : config P) (h : Q) (l : list (map_action (P:=P))) :
  config_ok c -> kindc c = Static -> fits c l ->
  (forall d, (d < dimc c)%nat -> 1 <= nth d (sizec c) 0 /\ 2 * nth d (sizec c) 0 <= INT_MAX /\
     INT_MIN <= nth d (minc c) 0 /\ nth d (minc c) 0 + 2 * nth d (sizec c) 0 <= INT_MAX) ->
  exists m hi, cact_all c l (new_map c) = Ok m /\ getMax c h m = Ok hi /\
    forall d, (d < dimc c)%nat ->
      exists w, getExtent c h m d = Ok w /\
        (w == nth d hi 0 - nth d (getMin c h m) 0)%Q /\
        (w == inject_Z (static_getSize c d) * (2 * h))%Q /\
        (w == inject_Z (static_getBundleSize c d) * h)%Q /\
        (static_getSizeM c (2 * h) d == w + 2 * h)%Q.
Proof. intros Hc Hk. exact (static_sizes c Hc Hk h l). Qed.
Print Assumptions C73_sizes_partial.

(** C73, full statement: [getSizeM] is the difference of the reported corners. False. *)
Theorem C73_size_in_metres_refuted :
  exists (c : config moments) (h : Q) (hi : list Q), config_ok c /\ kindc c = Static /\ (0 < h)%Q /\
    getMax c h (new_map c) = Ok hi /\
    forall d, (d < dimc c)%nat -> ~ (static_getSizeM c (2 * h) d == nth d hi 0 - nth d (getMin c h (new_map c)) 0)%Q.
Proof.
  exists (plane_map Static), (1 # 2), [6 # 2; 6 # 2]%Q. split; [apply plane_map_ok|]. split; [reflexivity|]. split; [reflexivity|].
  split; [vm_compute; reflexivity|]. intros d Hd. destruct d as [|[|d]]; [| |cbn in Hd; lia]; vm_compute; discriminate.
Qed.
Print Assumptions C73_size_in_metres_refuted.

Example C73_example :
  getExtent (plane_map Static) (1 # 2) (new_map (plane_map Static)) 0 = Ok (8 # 2)%Q /\
  static_getSizeM (plane_map Static) 1 0 = 5%Q.
Proof. split; vm_compute; reflexivity. Qed.
