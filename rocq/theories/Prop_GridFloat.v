(** C95: conversion of 2D maps to grids in floating-point arithmetic. *)
From Coq Require Import QArith Qabs Qround Floats.SpecFloat.
From Verif Require Import Base SeqModel IndexModel OctreeSpec MapModel BackendModel SysModel SysSpec ExtentModel SampleModel SampleSpec
  RoundModel FloatModel FloatFacts FloatScoreFacts FloatBoundFacts FloatIndexFacts GridModel GridFloatModel GridFloatSpec GridFloatFacts GridFloatMap Samples.
Open Scope Z_scope.

(** [standard_format]: [float] or [double]; [float_good_resolution]: between 2^-100 and 2^100; [fits_pixels]: the
    map spans at most 2^22 ([float]) or 2^30 ([double]) pixels along the axis. [h] and [s] are the exact bundle and
    sampling resolutions. *)

(** C95, the part that holds: for every reachable map within these sizes and all resolutions, also such that do
    not divide, the conversion writes inside of the grid only, different chunk pixels are different pixels of the
    grid, every other pixel keeps the default value; without interpolation a written pixel has the score of the
    distributions of its bundle at the point the loop computes. The chunk width and the size of the grid are those
    of exact arithmetic up to a relative error of 2^-prec and 2^(3-prec) before rounding to an integer. *)
Theorem C95_inside_partial (prec emax : Z) {P : Type} (c : config P) (resolution sres : spec_float)
  (dsample : P -> list spec_float -> spec_float) (allocate_all bilinear : bool) (default_value : spec_float)
  (l : list (map_action (P:=P))) :
  standard_format prec emax -> config_ok c -> dimc c = 2%nat -> (kindc c = Dynamic -> aminc c = cw_min /\ amaxc c = cw_max) ->
  float_good_resolution prec emax resolution -> float_good_resolution prec emax sres ->
  let l' := l ++ (if allocate_all then [ExpandAll] else []) in
  fits c l' ->
  let bres := float_resolution prec emax resolution in
  let h := (float_value resolution * (1 # 2))%Q in
  let s := float_value sres in
  let tiny := ((2 # 1) ^ (2 - emax - prec))%Q in
  exists m0 m es, cact_all c l (new_map c) = Ok m0 /\ cact_all c l' (new_map c) = Ok m /\ cbundles c m = Ok es /\
    let count d := nth d (max_bi m) 0 - nth d (min_bi m) 0 + 1 in
    ((forall d, (d < 2)%nat -> fits_pixels prec (count d) h s /\ count d <= INT_MAX) ->
    exists cs g,
      float_to_grid prec emax c bres sres dsample allocate_all bilinear default_value m0 = Ok (m, g) /\
      0 <= cs /\ (inject_Z cs * s <= h * (1 + (2 # 1) ^ (- prec)) + tiny * s)%Q /\
      (h * (1 - (2 # 1) ^ (- prec)) - tiny * s < (inject_Z cs + 1) * s)%Q /\
      (forall d, (d < 2)%nat -> let w := if Nat.eqb d 0 then fg_width g else fg_height g in
         (inject_Z (count d) * h * (1 - (2 # 1) ^ (3 - prec)) - tiny * s <= inject_Z w * s)%Q /\
         ((inject_Z w - 1) * s < inject_Z (count d) * h * (1 + (2 # 1) ^ (3 - prec)) + tiny * s)%Q) /\
      let pixel (bi : idx) (k n : Z) := ((nth 0 bi 0 - nth 0 (min_bi m) 0) * cs + k, (nth 1 bi 0 - nth 1 (min_bi m) 0) * cs + n) in
      let chunk (bi : idx) (k n : Z) := In bi (map fst es) /\ 0 <= k < cs /\ 0 <= n < cs in
      (forall bi k n, chunk bi k n ->
         0 <= fst (pixel bi k n) < fg_width g /\ 0 <= snd (pixel bi k n) < fg_height g) /\
      (forall bi k n bi' k' n', chunk bi k n -> chunk bi' k' n' -> pixel bi k n = pixel bi' k' n' ->
         bi = bi' /\ k = k' /\ n = n') /\
      (forall bi k n, bilinear = false -> chunk bi k n ->
         float_sample_at prec emax c dsample m
             [float_chunk_coordinate prec emax bres sres (nth 0 bi 0) k; float_chunk_coordinate prec emax bres sres (nth 1 bi 0) n] bi =
           Ok (fg_at g (fst (pixel bi k n)) (snd (pixel bi k n)))) /\
      (forall u v, (forall bi k n, chunk bi k n -> pixel bi k n <> (u, v)) -> fg_at g u v = default_value)).
Proof.
  exact (fun Hf Hc Hd Hcw Hr Hs Hl =>
    float_grid_inside prec emax Hf c Hc Hd Hcw resolution sres Hr Hs dsample allocate_all bilinear default_value l Hl).
Qed.
Print Assumptions C95_inside_partial.

(** C95: the point the loop computes for pixel [k] of bundle [b] is the exact position [b * h + k * s] up to four
    roundings. *)
Theorem C95_position (prec emax : Z) (resolution sres : spec_float) (b k : Z) : standard_format prec emax ->
  float_good_resolution prec emax resolution -> float_good_resolution prec emax sres ->
  Z.abs b <= 2 ^ 31 -> 0 <= k <= 2 ^ 31 ->
  let h := (float_value resolution * (1 # 2))%Q in
  let s := float_value sres in
  (inject_Z (Z.abs b) * h <= (2 # 1) ^ 110)%Q -> (inject_Z k * s <= (2 # 1) ^ 110)%Q ->
  let x := float_chunk_coordinate prec emax (float_resolution prec emax resolution) sres b k in
  good_float prec emax x /\
  (Qabs (float_value x - (inject_Z b * h + inject_Z k * s)) <=
     (inject_Z (Z.abs b) * h + inject_Z k * s) * (2 # 1) ^ (2 - prec) + (2 # 1) ^ (2 - emax - prec))%Q.
Proof. exact (fun Hf Hr Hs => float_position prec emax Hf resolution sres Hr Hs b k). Qed.
Print Assumptions C95_position.

(** C95: with distributions that score in [0,1], every written pixel has, up to 56 roundings, the mean of the
    scores of the distributions of its bundle at that point, or their mean by the bilinear weights of the pixel
    within the bundle ([share]). *)
Theorem C95_scores (prec emax : Z) {P : Type} (c : config P) (resolution sres : spec_float)
  (dsample : P -> list spec_float -> spec_float) (allocate_all bilinear : bool) (default_value : spec_float)
  (l : list (map_action (P:=P))) :
  standard_format prec emax -> config_ok c -> dimc c = 2%nat -> (kindc c = Dynamic -> aminc c = cw_min /\ amaxc c = cw_max) ->
  float_good_resolution prec emax resolution -> float_good_resolution prec emax sres ->
  let l' := l ++ (if allocate_all then [ExpandAll] else []) in
  fits c l' ->
  let bres := float_resolution prec emax resolution in
  exists m0 m es, cact_all c l (new_map c) = Ok m0 /\ cact_all c l' (new_map c) = Ok m /\ cbundles c m = Ok es /\
    let count d := nth d (max_bi m) 0 - nth d (min_bi m) 0 + 1 in
    ((forall d, (d < 2)%nat -> fits_pixels prec (count d) (float_value resolution * (1 # 2)) (float_value sres) /\ count d <= INT_MAX) ->
    exists cs g,
      float_to_grid prec emax c bres sres dsample allocate_all bilinear default_value m0 = Ok (m, g) /\
      float_chunk_step prec emax bres sres = Ok cs /\
      forall bi k n, In bi (map fst es) -> 0 <= k < cs -> 0 <= n < cs ->
        let p := [float_chunk_coordinate prec emax bres sres (nth 0 bi 0) k; float_chunk_coordinate prec emax bres sres (nth 1 bi 0) n] in
        (forall i j v, cstored c m i j = Ok (Some v) -> unit_float prec emax (dsample v p)) ->
        let x := fg_at g ((nth 0 bi 0 - nth 0 (min_bi m) 0) * cs + k) ((nth 1 bi 0 - nth 1 (min_bi m) 0) * cs + n) in
        exists b t, cbundle c m bi = Ok (Some b) /\
          weighted_sum c (fun v _ => float_value (dsample v p)) m b
            (if bilinear then to_bilinear_interpolation_weight [share (nth 0 bi 0) k cs; share (nth 1 bi 0) n cs] else fun _ => (1 # 4)%Q)
            (map float_value p) = Ok t /\
          good_float prec emax x /\ (Qabs (float_value x - t) <= (56 # 1) * (2 # 1) ^ (- prec))%Q).
Proof.
  exact (fun Hf Hc Hd Hcw Hr Hs Hl =>
    float_grid_scores prec emax Hf c Hc Hd Hcw resolution sres Hr Hs dsample allocate_all bilinear default_value l Hl).
Qed.
Print Assumptions C95_scores.

(** C95 for occupancy maps: without inverse sensor model there is neither a grid nor a change of the map; with one, the
    pixels are those means of the products of sample and occupancy, each of them rounded once. *)
Theorem C95_occupancy (prec emax : Z) {P D M : Type} (c : config P) (resolution sres : spec_float) (inner : P -> option D)
  (sample : D -> list spec_float -> spec_float) (occupancy : M -> P -> spec_float) (model : M)
  (allocate_all bilinear : bool) (default_value : spec_float) (l : list (map_action (P:=P))) :
  standard_format prec emax -> config_ok c -> dimc c = 2%nat -> (kindc c = Dynamic -> aminc c = cw_min /\ amaxc c = cw_max) ->
  float_good_resolution prec emax resolution -> float_good_resolution prec emax sres ->
  (forall d p, unit_float prec emax (sample d p)) -> (forall v, unit_float prec emax (occupancy model v)) ->
  let l' := l ++ (if allocate_all then [ExpandAll] else []) in
  fits c l' ->
  let bres := float_resolution prec emax resolution in
  let convert ivm := float_occ_to_grid prec emax c bres sres inner sample occupancy ivm allocate_all bilinear default_value in
  exists m0 m es, cact_all c l (new_map c) = Ok m0 /\ cact_all c l' (new_map c) = Ok m /\ cbundles c m = Ok es /\
    convert None m0 = Ok (m0, None) /\
    let count d := nth d (max_bi m) 0 - nth d (min_bi m) 0 + 1 in
    ((forall d, (d < 2)%nat -> fits_pixels prec (count d) (float_value resolution * (1 # 2)) (float_value sres) /\ count d <= INT_MAX) ->
    exists cs g, convert (Some model) m0 = Ok (m, Some g) /\ float_chunk_step prec emax bres sres = Ok cs /\
      forall bi k n, In bi (map fst es) -> 0 <= k < cs -> 0 <= n < cs ->
        let p := [float_chunk_coordinate prec emax bres sres (nth 0 bi 0) k; float_chunk_coordinate prec emax bres sres (nth 1 bi 0) n] in
        let x := fg_at g ((nth 0 bi 0 - nth 0 (min_bi m) 0) * cs + k) ((nth 1 bi 0 - nth 1 (min_bi m) 0) * cs + n) in
        exists b t product, cbundle c m bi = Ok (Some b) /\
          (forall v, (Qabs (product v - match inner v with Some d => float_value (sample d p) * float_value (occupancy model v) | None => 0 end)
                        <= (2 # 1) ^ (- prec))%Q) /\
          weighted_sum c (fun v _ => product v) m b
            (if bilinear then to_bilinear_interpolation_weight [share (nth 0 bi 0) k cs; share (nth 1 bi 0) n cs] else fun _ => (1 # 4)%Q)
            (map float_value p) = Ok t /\
          good_float prec emax x /\ (Qabs (float_value x - t) <= (56 # 1) * (2 # 1) ^ (- prec))%Q).
Proof.
  intros Hf Hc Hd Hcw Hr Hs Us Uo l' Hl bres convert.
  destruct (C95_scores prec emax c resolution sres (float_contribution prec emax inner sample occupancy model) allocate_all bilinear default_value l
              Hf Hc Hd Hcw Hr Hs Hl) as [m0 [m [es [E0 [E [Ees K]]]]]].
  exists m0, m, es. split; [exact E0|]. split; [exact E|]. split; [exact Ees|]. split; [reflexivity|]. intros count Hfit.
  destruct (K Hfit) as [cs [g [Eg [Ecs G]]]]. exists cs, g.
  split; [unfold convert, float_occ_to_grid; unfold bres; rewrite Eg; reflexivity|]. split; [exact Ecs|].
  intros bi k n Hb Hk Hn p x.
  destruct (G bi k n Hb Hk Hn (fun _ _ v _ => contribution_unit prec emax inner sample occupancy model v p Hf (fun d => Us d p) Uo)) as [b [t [B [W X]]]].
  exists b, t, (fun v => float_value (float_contribution prec emax inner sample occupancy model v p)).
  split; [exact B|]. split; [|split; [exact W|exact X]]. intros v. exact (contribution_near prec emax inner sample occupancy model v p Hf (fun d => Us d p) Uo).
Qed.
Print Assumptions C95_occupancy.

(** A [float] map with resolution 0.6 and two bundles, sampled every 0.1: three pixels per bundle. The second
    grid interpolates. *)
Definition float_0_6 : spec_float := S754_finite false 10066330 (-24).
Definition float_0_1 : spec_float := S754_finite false 13421773 (-27).
Definition quarter_hits (v : list Z) (_ : list spec_float) : spec_float := match v with [] => float_zero | _ => S754_finite false 8388608 (-25) end.
Example C95_example :
  let l := [Modify [3; -4] (fun v => v ++ [5; 6; 7]); Modify [4; -4] (fun v => v ++ [7])] in
  let grid bilinear :=
    let* m0 := cact_all log_dynamic l (new_map log_dynamic) in
    let* r := float_to_grid 24 128 log_dynamic (float_resolution 24 128 float_0_6) float_0_1 quarter_hits true bilinear
                (float_one 24 128) m0 in
    Ok (map (fun d => nth d (max_bi (fst r)) 0 - nth d (min_bi (fst r)) 0 + 1) [0; 1]%nat, fg_width (snd r), fg_height (snd r),
        map (fun u => Qred (float_value (fg_at (snd r) (fst u) (snd u)))) [(3, 3); (4, 3); (8, 8); (0, 0)]) in
  config_ok log_dynamic /\ fits log_dynamic (l ++ [ExpandAll]) /\
  float_good_resolution 24 128 float_0_6 /\ float_good_resolution 24 128 float_0_1 /\
  fits_pixels 24 4 (float_value float_0_6 * (1 # 2)) (float_value float_0_1) /\
  (forall v p, unit_float 24 128 (quarter_hits v p)) /\
  grid false = Ok ([4; 3], 12, 9, [1 # 4; 1 # 4; 1 # 8; 1 # 16]%Q) /\
  grid true = Ok ([4; 3], 12, 9, [1 # 4; 1 # 4; 5592405 # 67108864; 0]%Q).
Proof.
  intros l grid. split; [exact log_dynamic_ok|]. split; [unfold l; fits_2d|].
  split; [split; [split; reflexivity|split; vm_compute; discriminate]|]. split; [split; [split; reflexivity|split; vm_compute; discriminate]|].
  split; [split; [lia|vm_compute; discriminate]|].
  split; [intros [|z v] p; (split; [split; reflexivity|split; vm_compute; discriminate])|].
  split; [vm_compute; reflexivity|]. vm_compute. reflexivity.
Qed.

(** The same map with occupancy 1/4 of the cells with points. *)
Example C95_occupancy_example :
  let l := [Modify [3; -4] (fun v => v ++ [5; 6; 7]); Modify [4; -4] (fun v => v ++ [7])] in
  let quarter := S754_finite false 8388608 (-25) in
  (forall v : list Z, unit_float 24 128 ((fun (_ : unit) (_ : list Z) => quarter) tt v)) /\
  (let* m0 := cact_all log_dynamic l (new_map log_dynamic) in
   let* r := float_occ_to_grid 24 128 log_dynamic (float_resolution 24 128 float_0_6) float_0_1
               (fun v => match v with [] => None | _ => Some v end) quarter_hits (fun (_ : unit) _ => quarter) (Some tt) true false
               (float_one 24 128) m0 in
   Ok match snd r with
      | Some g => map (fun u => Qred (float_value (fg_at g (fst u) (snd u)))) [(3, 3); (4, 3); (8, 8); (0, 0)]
      | None => []
      end) = Ok [1 # 16; 1 # 16; 1 # 32; 1 # 64]%Q.
Proof. split; [intros v; split; [split; reflexivity|split; vm_compute; discriminate]|]. vm_compute. reflexivity. Qed.

(** C95, full statement, is false beyond these sizes: a [float] map with resolution 0.9 that spans 55932
    bundles, sampled every 0.003. The chunks are 150 pixels wide, but the quotient of the rounded width of the map makes the
    grid one pixel too narrow, and the conversion cannot finish without writing
    outside of it. *)
Definition float_0_9 : spec_float := S754_finite false 15099494 (-24).
Definition float_0_003 : spec_float := S754_finite false 12884902 (-32).
Theorem C95_large_map_refuted :
  exists l, fits log_dynamic l /\ float_good_resolution 24 128 float_0_9 /\ float_good_resolution 24 128 float_0_003 /\
    let bres := float_resolution 24 128 float_0_9 in
    (let* m := cact_all log_dynamic l (new_map log_dynamic) in
     let* w := float_extent 24 128 log_dynamic bres m 0 in
     let* n := float_pixels 24 128 w float_0_003 in
     let* cs := float_chunk_step 24 128 bres float_0_003 in
     Ok (cs, n, (nth 0 (max_bi m) 0 - nth 0 (min_bi m) 0 + 1) * cs)) = Ok (150, 8389799, 8389800) /\
    forall m0 r, cact_all log_dynamic l (new_map log_dynamic) = Ok m0 ->
      float_to_grid 24 128 log_dynamic bres float_0_003 quarter_hits false false float_zero m0 <> Ok r.
Proof.
  exists [Touch [-27966; 0]; Touch [27965; 0]]. split; [fits_2d|].
  split; [split; [split; reflexivity|split; vm_compute; discriminate]|]. split; [split; [split; reflexivity|split; vm_compute; discriminate]|].
  split; [vm_compute; reflexivity|]. intros m0 [m g] E0 E.
  destruct (float_to_grid_inside _ _ _ _ _ _ _ _ _ _ _ _ E) as [-> [W K]]; [|reflexivity].
  assert (X : (let* m := cact_all log_dynamic [Touch [-27966; 0]; Touch [27965; 0]] (new_map log_dynamic) in
               let* es := cbundles log_dynamic m in
               let* w := (let* w := float_extent 24 128 log_dynamic (float_resolution 24 128 float_0_9) m 0 in float_pixels 24 128 w float_0_003) in
               Ok (map fst es, nth 0 (min_bi m) 0, w)) = Ok ([[-27966; 0]; [27965; 0]], -27966, 8389799)) by (vm_compute; reflexivity).
  rewrite E0 in X. cbn [obind] in X. destruct (cbundles log_dynamic m0) as [es| |] eqn:Ees; try discriminate X. cbn [obind] in X.
  rewrite W in X. cbn [obind] in X. injection X as X1 X2 X3.
  assert (Y : float_chunk_step 24 128 (float_resolution 24 128 float_0_9) float_0_003 = Ok 150) by (vm_compute; reflexivity).
  pose proof (K 150 es Y eq_refl [27965; 0] 149 0 ltac:(rewrite X1; right; left; reflexivity) ltac:(lia) ltac:(lia)) as B.
  unfold GridFacts.pix in B. cbn [nth] in B. rewrite X2, X3 in B. lia.
Qed.
Print Assumptions C95_large_map_refuted.

(** C95, that the grid covers the map exactly, is false for [float] even where the resolutions divide in decimal: three
    bundles of 0.1 sampled every 0.01 are 30 pixels, the grid has 31 columns and the last one keeps the default. *)
Definition float_0_01 : spec_float := S754_finite false 10737418 (-30).
Theorem C95_extra_column_refuted :
  exists l resolution sres, fits log_dynamic l /\ float_good_resolution 24 128 resolution /\ float_good_resolution 24 128 sres /\
    (Qabs (float_value resolution - (1 # 5)) <= 1 # 2 ^ 26)%Q /\ (Qabs (float_value sres - (1 # 100)) <= 1 # 2 ^ 31)%Q /\
    (let* m := cact_all log_dynamic l (new_map log_dynamic) in
     let* r := float_to_grid 24 128 log_dynamic (float_resolution 24 128 resolution) sres quarter_hits false false (float_one 24 128) m in
     Ok (nth 0 (max_bi m) 0 - nth 0 (min_bi m) 0 + 1, fg_width (snd r), map (fun u => Qred (float_value (fg_at (snd r) u 0))) [0; 29; 30])) =
    Ok (3, 31, [0; 0; 1]%Q).
Proof.
  exists [Touch [0; 0]; Touch [1; 0]; Touch [2; 0]], (S754_finite false 13421773 (-26)), float_0_01. split; [fits_2d|].
  split; [split; [split; reflexivity|split; vm_compute; discriminate]|]. split; [split; [split; reflexivity|split; vm_compute; discriminate]|].
  split; [vm_compute; discriminate|]. split; [vm_compute; discriminate|]. vm_compute. reflexivity.
Qed.
Print Assumptions C95_extra_column_refuted.
