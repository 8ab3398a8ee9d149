(** C33: conversion of 2D maps to grids. *)
From Coq Require Import QArith Qround Qabs.
From Verif Require Import Base SeqModel IndexModel OctreeSpec MapModel BackendModel SysModel SysSpec ExtentModel SampleModel SampleSpec
  GridModel GridFacts Samples.
Open Scope Z_scope.

(** C33, first half, for every reachable map whose extents give at most INT_MAX pixels per axis:
    each allocated bundle writes its chunk inside of the grid, different chunk pixels are different
    pixels of the grid, a written pixel has the score at the point the loop computes, and every
    other pixel keeps the default value. *)
Theorem C33_chunks_partial {P : Type} (c : config P) (bres sres : Q) (dsample : P -> list Q -> Q)
  (allocate_all bilinear : bool) (default_value : Q) (l : list (map_action (P:=P))) :
  config_ok c -> dimc c = 2%nat -> (kindc c = Dynamic -> aminc c = cw_min /\ amaxc c = cw_max) ->
  (0 < bres)%Q -> (0 < sres)%Q ->
  let l' := l ++ (if allocate_all then [ExpandAll] else []) in
  fits c l' ->
  exists m0 m es, cact_all c l (new_map c) = Ok m0 /\ cact_all c l' (new_map c) = Ok m /\ cbundles c m = Ok es /\
    forall w0 w1, getExtent c bres m 0 = Ok w0 -> getExtent c bres m 1 = Ok w1 ->
    (0 <= w0 /\ w0 <= inject_Z INT_MAX * sres)%Q -> (0 <= w1 /\ w1 <= inject_Z INT_MAX * sres)%Q ->
    (bres <= inject_Z INT_MAX * sres)%Q ->
    let cs := Qfloor (bres / sres) in
    let pixel (bi : idx) (k n : Z) := ((nth 0 bi 0 - nth 0 (min_bi m) 0) * cs + k, (nth 1 bi 0 - nth 1 (min_bi m) 0) * cs + n) in
    let chunk (bi : idx) (k n : Z) := In bi (map fst es) /\ 0 <= k < cs /\ 0 <= n < cs in
    exists g, to_grid c bres sres dsample allocate_all bilinear default_value m0 = Ok (m, g) /\
      g_width g = Qceiling (w0 / sres) /\ g_height g = Qceiling (w1 / sres) /\
      (forall bi k n, chunk bi k n ->
         0 <= fst (pixel bi k n) < g_width g /\ 0 <= snd (pixel bi k n) < g_height g) /\
      (forall bi k n bi' k' n', chunk bi k n -> chunk bi' k' n' -> pixel bi k n = pixel bi' k' n' ->
         bi = bi' /\ k = k' /\ n = n') /\
      (forall bi k n, bilinear = false -> chunk bi k n ->
         sample_at c dsample m [inject_Z (nth 0 bi 0%Z) * bres + inject_Z k * sres; inject_Z (nth 1 bi 0%Z) * bres + inject_Z n * sres]%Q bi =
           Ok (g_at g (fst (pixel bi k n)) (snd (pixel bi k n)))) /\
      (forall u v, (forall bi k n, chunk bi k n -> pixel bi k n <> (u, v)) -> g_at g u v = default_value).
Proof. exact (fun Hc Hd Hcw Hb Hs Hf => grid_chunks c Hc Hd Hcw bres sres Hb Hs dsample allocate_all bilinear default_value l Hf). Qed.
Print Assumptions C33_chunks_partial.

(** C33, second half, if a bundle is a whole number of pixels wide: the grid covers the map exactly
    and pixel (u, v), which represents the map position [getMin + (u, v) * sampling_resolution],
    has the plain or bilinear score at this position if its bundle is allocated; otherwise the score
    is 0 and the pixel has the default value. *)
Theorem C33_position_partial {P : Type} (c : config P) (bres sres : Q) (dsample : P -> list Q -> Q)
  (allocate_all bilinear : bool) (default_value : Q) (l : list (map_action (P:=P))) (n : Z) :
  config_ok c -> dimc c = 2%nat -> (kindc c = Dynamic -> aminc c = cw_min /\ amaxc c = cw_max) ->
  (0 < bres)%Q -> (0 < sres)%Q ->
  (forall v p q, Forall2 Qeq p q -> (dsample v p == dsample v q)%Q) ->
  0 < n -> (bres == inject_Z n * sres)%Q ->
  let l' := l ++ (if allocate_all then [ExpandAll] else []) in
  fits c l' ->
  exists m0 m es, cact_all c l (new_map c) = Ok m0 /\ cact_all c l' (new_map c) = Ok m /\ cbundles c m = Ok es /\
    forall w0 w1, getExtent c bres m 0 = Ok w0 -> getExtent c bres m 1 = Ok w1 ->
    (0 <= w0 /\ w0 <= inject_Z INT_MAX * sres)%Q -> (0 <= w1 /\ w1 <= inject_Z INT_MAX * sres)%Q ->
    (bres <= inject_Z INT_MAX * sres)%Q ->
    (forall d, (d < 2)%nat -> INT_MIN <= nth d (min_bi m) 0 /\ nth d (max_bi m) 0 <= INT_MAX) ->
    exists g, to_grid c bres sres dsample allocate_all bilinear default_value m0 = Ok (m, g) /\
      (inject_Z (g_width g) * sres == w0)%Q /\ (inject_Z (g_height g) * sres == w1)%Q /\
      forall u v, 0 <= u < g_width g -> 0 <= v < g_height g ->
        let p := [nth 0 (getMin c bres m) 0 + inject_Z u * sres; nth 1 (getMin c bres m) 0 + inject_Z v * sres]%Q in
        exists bi s, toBundleIndex (/ bres) p = Ok bi /\
          (if bilinear then sampleNonNormalizedBilinear c (/ bres) dsample m p
           else sampleNonNormalized c (/ bres) dsample m p) = Ok s /\
          (In bi (map fst es) -> (g_at g u v == s)%Q) /\
          (~ In bi (map fst es) -> s = 0%Q /\ g_at g u v = default_value).
Proof.
  exact (fun Hc Hd Hcw Hb Hs Hp Hn Hdiv Hf =>
    grid_scores c Hc Hd Hcw bres sres Hb Hs dsample allocate_all bilinear default_value l Hf n Hp Hn Hdiv).
Qed.
Print Assumptions C33_position_partial.

(** Two bundles of 4 pixels, completed by [allocate_all] to five by four. *)
Definition hits_at (v : list Z) (p : list Q) : Q := if (0 <? length v)%nat then nth 0 p 0%Q else 0%Q.
Lemma hits_at_proper : forall v p q, Forall2 Qeq p q -> (hits_at v p == hits_at v q)%Q.
Proof. intros v p q H. unfold hits_at. destruct (0 <? length v)%nat; [|reflexivity]. destruct H; [reflexivity|exact H]. Qed.
Example C33_example :
  let l := [Modify [3; -4] (fun v => v ++ [5; 6; 7]); Modify [4; -4] (fun v => v ++ [7])] in
  config_ok log_dynamic /\ fits log_dynamic (l ++ [ExpandAll]) /\ (1 == inject_Z 4 * (1 # 4))%Q /\
  (let* m0 := cact_all log_dynamic l (new_map log_dynamic) in
   let* r := to_grid log_dynamic 1 (1 # 4) hits_at true false (-1)%Q m0 in
   let g := snd r in
   let* w := getExtent log_dynamic 1 (fst r) 0 in
   Ok (Qred w, g_width g, g_height g, Qred (g_at g 4 4), Qred (g_at g 9 5), Qred (g_at g 0 0), Qred (g_at g 15 11), Qred (g_at g 16 11))) =
  Ok (4%Q, 16, 12, 3%Q, (17 # 4)%Q, (1 # 2)%Q, (23 # 16)%Q, (-1)%Q).
Proof.
  intros l. split; [exact log_dynamic_ok|]. split; [unfold l; fits_2d|]. split; [reflexivity|].
  vm_compute. reflexivity.
Qed.

(** C33, full statement: false if the resolutions do not divide. The chunks are narrower than the
    bundles, so pixels of later bundles show the score of another position. *)
Theorem C33_position_refuted :
  exists (l : list (map_action (P:=list Z))) (bres sres : Q) (u v : Z),
    fits log_dynamic l /\ (0 < sres)%Q /\ (sres < bres)%Q /\
    exists x s,
      (let* m := cact_all log_dynamic l (new_map log_dynamic) in
       let* r := to_grid log_dynamic bres sres hits_at false false 0 m in
       let p := [nth 0 (getMin log_dynamic bres m) 0 + inject_Z u * sres; nth 1 (getMin log_dynamic bres m) 0 + inject_Z v * sres]%Q in
       let* s := sampleNonNormalized log_dynamic (/ bres) hits_at m p in
       Ok ((0 <=? u) && (u <? g_width (snd r)) && (0 <=? v) && (v <? g_height (snd r)), Qred (g_at (snd r) u v), Qred s)) = Ok (true, x, s) /\
      ~ (x == s)%Q.
Proof.
  exists [Modify [0; 0] (fun v => v ++ [5]); Modify [1; 0] (fun v => v ++ [7])], 1%Q, (2 # 5)%Q, 2, 0.
  split; [fits_2d|]. split; [reflexivity|]. split; [reflexivity|]. do 2 eexists.
  split; [vm_compute; reflexivity|]. vm_compute. discriminate.
Qed.
Print Assumptions C33_position_refuted.

(** The same happens for the doubles closest to 0.3 and 0.1: the quotient is truncated to 2, the grid
    is 3 pixels wide, and the last column is never written. *)
Definition double_03 : Q := 5404319552844595 # (2 ^ 54).
Definition double_01 : Q := 3602879701896397 # (2 ^ 55).
Theorem C33_decimal_resolutions_refuted :
  (Qabs (double_03 - (3 # 10)) <= 1 # (2 ^ 55))%Q /\ (Qabs (double_01 - (1 # 10)) <= 1 # (2 ^ 57))%Q /\
  exists l, fits log_dynamic l /\
    (let* m := cact_all log_dynamic l (new_map log_dynamic) in
     let* r := to_grid log_dynamic double_03 double_01 (fun _ _ => 1%Q) false false (-1)%Q m in
     Ok (g_width (snd r), map (fun u => Qred (g_at (snd r) u 0)) [0; 1; 2])) = Ok (3, [1; 1; -1]%Q).
Proof.
  split; [vm_compute; discriminate|]. split; [vm_compute; discriminate|].
  exists [Touch [0; 0]]. split; [fits_2d|]. vm_compute. reflexivity.
Qed.
Print Assumptions C33_decimal_resolutions_refuted.

(** A sampling resolution above the bundle resolution leaves the whole grid at its default. *)
Theorem C33_coarse_grid_is_default {P : Type} (c : config P) (bres sres : Q) (dsample : P -> list Q -> Q)
  (allocate_all bilinear : bool) (default_value : Q) (l : list (map_action (P:=P))) (m0 m : cmap c) (g : grid) :
  config_ok c -> dimc c = 2%nat -> (0 < bres)%Q -> (bres < sres)%Q ->
  fits c (l ++ if allocate_all then [ExpandAll] else []) ->
  cact_all c l (new_map c) = Ok m0 ->
  to_grid c bres sres dsample allocate_all bilinear default_value m0 = Ok (m, g) ->
  forall u v, g_at g u v = default_value.
Proof. exact (fun Hc => grid_coarse c Hc bres sres dsample allocate_all bilinear default_value l m0 m g). Qed.
Print Assumptions C33_coarse_grid_is_default.

Example C33_coarse_example :
  (let* m := cact_all log_dynamic [Modify [0; 0] (cons 1); Modify [5; 7] (cons 2)] (new_map log_dynamic) in
   let* r := to_grid log_dynamic 1 2 (fun _ _ => 1%Q) true true (-1)%Q m in
   Ok (g_width (snd r), g_height (snd r), map (fun u => g_at (snd r) u u) [0; 1; 2])) = Ok (3, 4, [-1; -1; -1]%Q).
Proof. vm_compute. reflexivity. Qed.

(** C33 in world coordinates: for a rotated map the grid is put in the wrong place, because
    [getOrigin] does not rotate the corner (C45). [w_T_m] is a rotation by 90 degrees; the pixel's
    world position is [origin + R * (u, v) * sres], brought back to the map by the inverse. *)
Definition rotate90 (p : list Q) : list Q := match p with [x; y] => [- y; x]%Q | _ => p end.
Definition rotate_back (p : list Q) : list Q := match p with [x; y] => [y; - x]%Q | _ => p end.
Theorem C33_rotated_map_refuted :
  (forall x y, rotate_back (rotate90 [x; y]) = [x; - - y]%Q) /\
  exists l, fits log_dynamic l /\
    exists x s,
      (let* m := cact_all log_dynamic l (new_map log_dynamic) in
       let* r := to_grid log_dynamic 1 1 hits_at false false 0 m in
       let world := qadd (getOrigin log_dynamic 1 [0; 0]%Q m) (rotate90 [0; 0]%Q) in
       let* s := sampleNonNormalized log_dynamic (/ 1) hits_at m (rotate_back world) in
       Ok (Qred (g_at (snd r) 0 0), Qred s)) = Ok (x, s) /\ ~ (x == s)%Q.
Proof.
  split; [reflexivity|]. exists [Modify [2; 3] (cons 1)]. split; [fits_2d|]. do 2 eexists.
  split; [vm_compute; reflexivity|]. vm_compute. discriminate.
Qed.
Print Assumptions C33_rotated_map_refuted.

(** Without inverse model the occupancy conversions do nothing at all; with one they are the
    conversion above of "sample times occupancy". *)
Lemma occupancy_grid {P D M : Type} (c : config P) (bres sres : Q) (inner : P -> option D) (sample : D -> list Q -> Q)
  (occupancy : M -> P -> Q) (allocate_all bilinear : bool) (default_value : Q) (m m' : cmap c) (g : grid) (model : M) :
  occ_to_grid c bres sres inner sample occupancy None allocate_all bilinear default_value m = Ok (m, None) /\
  (occ_to_grid c bres sres inner sample occupancy (Some model) allocate_all bilinear default_value m = Ok (m', Some g) <->
   to_grid c bres sres (fun d p => match inner d with Some s => sample s p * occupancy model d | None => 0 end)%Q
     allocate_all bilinear default_value m = Ok (m', g)).
Proof.
  split; [reflexivity|]. unfold occ_to_grid.
  change (fun d p => match inner d with Some s => (sample s p * occupancy model d)%Q | None => 0%Q end)
    with (occ_contribution inner sample occupancy model).
  destruct to_grid as [[a b]| |]; cbn; split; intros H; first [discriminate H|congruence].
Qed.
