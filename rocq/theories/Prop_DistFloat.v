(** C99: distance maps and likelihood fields from scores in floating point. *)
From Coq Require Import QArith Qabs Qreals Reals Lra Floats.SpecFloat.
From Verif Require Import Base SeqModel IndexModel OctreeSpec MapModel BackendModel SysModel SysSpec ExtentModel SampleModel SampleSpec
  RoundModel RoundFacts FloatModel FloatFacts FloatScoreFacts FloatBoundFacts FloatIndexFacts GridModel GridFloatModel GridFloatSpec GridFloatFacts GridFloatMap MonoFloatMap
  LikelihoodModel LikelihoodSpec LikelihoodFacts DistFloatModel DistFloatSpec DistFloatFacts Samples.
Open Scope Z_scope.

(** C99, for every reachable map and every correct distance transform [transform]. [score u v t]: the pixel (u, v) was
    written and [t] is the exact mean, or the exact bilinear mean, of the scores of its bundle. The distance map has the size of
    the grid of C95; every distance is between 0 and the maximum; it is at most the distance to any pixel whose exact score is
    at least 56 roundings above the threshold, and it is the maximum or the distance to a pixel whose exact score is at most 56
    roundings below. The likelihood field shows exp(-d^2 / (2 sigma^2)) of this distance [d] and is 1 at the pixels surely above.
    Partial: scores closer to the threshold may fall on either side; the distances themselves are exact reals. *)
Theorem C99_field_partial (prec emax : Z) {P : Type} (c : config P) (resolution sres : spec_float)
  (dsample : P -> list spec_float -> spec_float) (transform : spec_float -> spec_float -> spec_float -> float_grid -> Z -> Z -> R)
  (far threshold : spec_float) (sigma : R) (allocate_all bilinear : bool) (l : list (map_action (P:=P))) :
  standard_format prec emax -> config_ok c -> dimc c = 2%nat -> (kindc c = Dynamic -> aminc c = cw_min /\ amaxc c = cw_max) ->
  float_good_resolution prec emax resolution -> float_good_resolution prec emax sres ->
  (forall v p, unit_float prec emax (dsample v p)) -> float_transforms prec emax transform ->
  (0 < float_value far)%Q -> (0 < float_value threshold <= 1)%Q -> (0 < sigma)%R ->
  let l' := l ++ (if allocate_all then [ExpandAll] else []) in
  fits c l' ->
  let bres := float_resolution prec emax resolution in
  let tol := ((56 # 1) * (2 # 1) ^ (- prec))%Q in
  exists m0 m es, cact_all c l (new_map c) = Ok m0 /\ cact_all c l' (new_map c) = Ok m /\ cbundles c m = Ok es /\
    let count d := nth d (max_bi m) 0 - nth d (min_bi m) 0 + 1 in
    ((forall d, (d < 2)%nat -> fits_pixels prec (count d) (float_value resolution * (1 # 2)) (float_value sres) /\ count d <= INT_MAX) ->
    exists cs g D F, float_chunk_step prec emax bres sres = Ok cs /\
      float_to_grid prec emax c bres sres dsample allocate_all bilinear float_zero m0 = Ok (m, g) /\
      f_width D = fg_width g /\ f_height D = fg_height g /\ f_width F = fg_width g /\ f_height F = fg_height g /\
      float_to_distances prec emax c bres sres dsample transform far threshold allocate_all bilinear m0 = Ok (m, D) /\
      float_to_likelihoods prec emax c bres sres dsample transform far sigma threshold allocate_all bilinear m0 = Ok (m, F) /\
      let score (u v : Z) (t : Q) := exists bi k n b, In bi (map fst es) /\ 0 <= k < cs /\ 0 <= n < cs /\
        u = (nth 0 bi 0 - nth 0 (min_bi m) 0) * cs + k /\ v = (nth 1 bi 0 - nth 1 (min_bi m) 0) * cs + n /\
        cbundle c m bi = Ok (Some b) /\
        let p := [float_chunk_coordinate prec emax bres sres (nth 0 bi 0) k; float_chunk_coordinate prec emax bres sres (nth 1 bi 0) n] in
        weighted_sum c (fun v _ => float_value (dsample v p)) m b
          (if bilinear then to_bilinear_interpolation_weight [share (nth 0 bi 0) k cs; share (nth 1 bi 0) n cs] else fun _ => (1 # 4)%Q)
          (map float_value p) = Ok t in
      let sure u v := exists t, score u v t /\ (float_value threshold + tol <= t)%Q in
      let possible u v := exists t, score u v t /\ (float_value threshold - tol <= t)%Q in
      (forall u v t, score u v t -> inside (f_width D) (f_height D) u v) /\
      forall u v, inside (f_width D) (f_height D) u v ->
        nearest_between (float_value sres) (Q2R (float_value far)) sure possible u v (f_at D u v) /\
        f_at F u v = exp (- (f_at D u v * f_at D u v / (2 * (sigma * sigma)))) /\
        (sure u v -> f_at D u v = 0%R /\ f_at F u v = 1%R) /\
        (f_at F u v = 1%R -> possible u v)).
Proof.
  intros Hf Hc Hd Hcw Hr Hs Hu Ht Hfar [Hth Hth1] Hsig l' Hl bres tol.
  destruct (float_distances prec emax Hf c Hc Hd Hcw resolution sres Hr Hs dsample Hu transform Ht far threshold Hfar Hth allocate_all bilinear l Hl)
    as [m0 [m [es [E0 [E [Ees K]]]]]].
  exists m0, m, es. split; [exact E0|]. split; [exact E|]. split; [exact Ees|]. intros count Hfit.
  destruct (K Hfit) as [cs [g [D [Ecs [Eg [Dw [Dh [ED [Sc N]]]]]]]]].
  exists cs, g, D, {| f_width := f_width D; f_height := f_height D; f_at := fun u v => likelihood sigma (f_at D u v) |}.
  split; [exact Ecs|]. split; [exact Eg|]. split; [exact Dw|]. split; [exact Dh|]. split; [exact Dw|]. split; [exact Dh|]. split; [exact ED|].
  split.
  { unfold float_to_likelihoods. pose proof (Qlt_le_weak _ _ Hth) as Hth0. apply Qle_bool_iff in Hth0, Hth1. rewrite Hth0, Hth1. unfold bres. rewrite ED. reflexivity. }
  intros score sure possible. split; [exact Sc|]. intros u v Hi. cbn [f_at].
  assert (Ps : (0 < float_value sres)%Q) by apply (res_bounds prec emax sres Hs).
  destruct (N u v Hi) as [B [N1 N2]]. split; [exact (conj B (conj N1 N2))|]. split; [apply likelihood_value, Hsig|].
  destruct (likelihood_one sigma (f_at D u v) Hsig (proj1 B)) as [_ L]. split.
  - intros X. assert (f_at D u v = 0%R).
    { pose proof (N1 u v X) as Y. rewrite (proj2 (distance_zero _ u v u v Ps)) in Y by (split; reflexivity). lra. }
    split; [assumption|]. apply L. assumption.
  - intros X. apply L in X. assert (F0 : (0 < Q2R (float_value far))%R) by (apply Qlt_Rlt in Hfar; rewrite RMicromega.Q2R_0 in Hfar; exact Hfar).
    destruct N2 as [N2|[a [b [Y N2]]]]; [lra|]. rewrite X in N2. symmetry in N2. apply (distance_zero _ _ _ _ _ Ps) in N2. destruct N2 as [-> ->]. exact Y.
Qed.
Print Assumptions C99_field_partial.

(** C99 for occupancy maps: without inverse sensor model there is no field and the map is unchanged; with one, the same holds for
    the means of the products of sample and occupancy, each of them rounded once ([product]). *)
Theorem C99_occupancy_partial (prec emax : Z) {P D M : Type} (c : config P) (resolution sres : spec_float) (inner : P -> option D)
  (sample : D -> list spec_float -> spec_float) (occupancy : M -> P -> spec_float) (model : M)
  (transform : spec_float -> spec_float -> spec_float -> float_grid -> Z -> Z -> R)
  (far threshold : spec_float) (sigma : R) (allocate_all bilinear : bool) (l : list (map_action (P:=P))) :
  standard_format prec emax -> config_ok c -> dimc c = 2%nat -> (kindc c = Dynamic -> aminc c = cw_min /\ amaxc c = cw_max) ->
  float_good_resolution prec emax resolution -> float_good_resolution prec emax sres ->
  (forall d p, unit_float prec emax (sample d p)) -> (forall v, unit_float prec emax (occupancy model v)) ->
  float_transforms prec emax transform ->
  (0 < float_value far)%Q -> (0 < float_value threshold <= 1)%Q -> (0 < sigma)%R ->
  let l' := l ++ (if allocate_all then [ExpandAll] else []) in
  fits c l' ->
  let bres := float_resolution prec emax resolution in
  let tol := ((56 # 1) * (2 # 1) ^ (- prec))%Q in
  let to_distances ivm := float_occ_to_distances prec emax c bres sres inner sample occupancy transform ivm far threshold allocate_all bilinear in
  let to_likelihoods ivm := float_occ_to_likelihoods prec emax c bres sres inner sample occupancy transform ivm far sigma threshold allocate_all bilinear in
  exists m0 m es, cact_all c l (new_map c) = Ok m0 /\ cact_all c l' (new_map c) = Ok m /\ cbundles c m = Ok es /\
    to_distances None m0 = Ok (m0, None) /\ to_likelihoods None m0 = Ok (m0, None) /\
    let count d := nth d (max_bi m) 0 - nth d (min_bi m) 0 + 1 in
    ((forall d, (d < 2)%nat -> fits_pixels prec (count d) (float_value resolution * (1 # 2)) (float_value sres) /\ count d <= INT_MAX) ->
    exists cs D F product, float_chunk_step prec emax bres sres = Ok cs /\
      to_distances (Some model) m0 = Ok (m, Some D) /\ to_likelihoods (Some model) m0 = Ok (m, Some F) /\
      f_width F = f_width D /\ f_height F = f_height D /\
      (forall v p, (Qabs (product v p - match inner v with Some d => float_value (sample d p) * float_value (occupancy model v) | None => 0 end)
                      <= (2 # 1) ^ (- prec))%Q) /\
      let score (u v : Z) (t : Q) := exists bi k n b, In bi (map fst es) /\ 0 <= k < cs /\ 0 <= n < cs /\
        u = (nth 0 bi 0 - nth 0 (min_bi m) 0) * cs + k /\ v = (nth 1 bi 0 - nth 1 (min_bi m) 0) * cs + n /\
        cbundle c m bi = Ok (Some b) /\
        let p := [float_chunk_coordinate prec emax bres sres (nth 0 bi 0) k; float_chunk_coordinate prec emax bres sres (nth 1 bi 0) n] in
        weighted_sum c (fun v _ => product v p) m b
          (if bilinear then to_bilinear_interpolation_weight [share (nth 0 bi 0) k cs; share (nth 1 bi 0) n cs] else fun _ => (1 # 4)%Q)
          (map float_value p) = Ok t in
      let sure u v := exists t, score u v t /\ (float_value threshold + tol <= t)%Q in
      let possible u v := exists t, score u v t /\ (float_value threshold - tol <= t)%Q in
      (forall u v t, score u v t -> inside (f_width D) (f_height D) u v) /\
      forall u v, inside (f_width D) (f_height D) u v ->
        nearest_between (float_value sres) (Q2R (float_value far)) sure possible u v (f_at D u v) /\
        f_at F u v = exp (- (f_at D u v * f_at D u v / (2 * (sigma * sigma)))) /\
        (sure u v -> f_at D u v = 0%R /\ f_at F u v = 1%R) /\
        (f_at F u v = 1%R -> possible u v)).
Proof.
  intros Hf Hc Hd Hcw Hr Hs Us Uo Ht Hfar Hth Hsig l' Hl bres tol td tl.
  destruct (C99_field_partial prec emax c resolution sres (float_contribution prec emax inner sample occupancy model) transform far threshold sigma
              allocate_all bilinear l Hf Hc Hd Hcw Hr Hs
              (fun v p => contribution_unit prec emax inner sample occupancy model v p Hf (fun d => Us d p) Uo) Ht Hfar Hth Hsig Hl)
    as [m0 [m [es [E0 [E [Ees K]]]]]].
  exists m0, m, es. split; [exact E0|]. split; [exact E|]. split; [exact Ees|]. split; [reflexivity|]. split; [reflexivity|]. intros count Hfit.
  destruct (K Hfit) as [cs [g [D' [F [Ecs [_ [Dw [Dh [Fw [Fh [ED [EF S]]]]]]]]]]]].
  exists cs, D', F, (fun v p => float_value (float_contribution prec emax inner sample occupancy model v p)). split; [exact Ecs|].
  split; [unfold td, float_occ_to_distances, bres; rewrite ED; reflexivity|].
  split; [unfold tl, float_occ_to_likelihoods, bres; rewrite EF; reflexivity|].
  split; [congruence|]. split; [congruence|].
  split; [intros v p; exact (contribution_near prec emax inner sample occupancy model v p Hf (fun d => Us d p) Uo)|]. exact S.
Qed.
Print Assumptions C99_occupancy_partial.

(** A [double] map with resolution 0.2 sampled every 0.1, one pixel per bundle. Cells with three values score 0.12, cells
    with two 0.1; bundle (0, 0) has two of each, so its mean is 0.11. *)
Definition double_0_2 : spec_float := S754_finite false 7205759403792794 (-55).
Definition double_0_1 : spec_float := S754_finite false 7205759403792794 (-56).
Definition double_0_11 : spec_float := S754_finite false 7926335344172073 (-56).
Definition double_0_12 : spec_float := S754_finite false 8646911284551352 (-56).
Definition two : spec_float := S754_finite false 4503599627370496 (-51).
Definition by_length (v : list Z) (_ : list spec_float) : spec_float :=
  match length v with 3%nat => double_0_12 | 2%nat => double_0_1 | _ => float_zero end.
Definition edge_actions : list (map_action (P:=list Z)) := [Modify [0; 0] (fun v => v ++ [5; 6]); Modify [1; 0] (fun v => v ++ [8])].
Definition edge_map : outcome (cmap log_dynamic) := cact_all log_dynamic edge_actions (new_map log_dynamic).
Definition edge_grid (m0 : cmap log_dynamic) :=
  float_to_grid 53 1024 log_dynamic (float_resolution 53 1024 double_0_2) double_0_1 by_length false false float_zero m0.

Definition edge_distances (transform : spec_float -> spec_float -> spec_float -> float_grid -> Z -> Z -> R) (threshold : spec_float) : outcome field :=
  let* m0 := edge_map in
  let* r := float_to_distances 53 1024 log_dynamic (float_resolution 53 1024 double_0_2) double_0_1 by_length transform two threshold false false m0 in
  Ok (snd r).

Lemma edge_pixels : match (let* m0 := edge_map in edge_grid m0) with
  | Ok r => fg_width (snd r) = 2 /\ fg_height (snd r) = 1 /\
            fg_at (snd r) 0 0 = S754_finite false 7926335344172072 (-56) /\ fg_at (snd r) 1 0 = S754_finite false 8646911284551352 (-57)
  | _ => False end.
Proof. vm_compute. auto. Qed.
Lemma edge_nearest (transform : spec_float -> spec_float -> spec_float -> float_grid -> Z -> Z -> R) (threshold : spec_float) :
  float_transforms 53 1024 transform ->
  exists D, edge_distances transform threshold = Ok D /\ f_width D = 2 /\ f_height D = 1 /\
    forall u, 0 <= u < 2 -> nearest (float_value double_0_1) (Q2R (float_value two))
      (fun a b => b = 0 /\ (a = 0 /\ (float_value threshold <= float_value (S754_finite false 7926335344172072 (-56)))%Q \/
                            a = 1 /\ (float_value threshold <= float_value (S754_finite false 8646911284551352 (-57)))%Q)) u 0 (f_at D u 0).
Proof.
  intros Ht. pose proof edge_pixels as H. unfold edge_distances, float_to_distances. destruct edge_map as [m0| |]; [|contradiction H..].
  cbn [obind] in *. unfold edge_grid in H.
  destruct (float_to_grid 53 1024 log_dynamic (float_resolution 53 1024 double_0_2) double_0_1 by_length false false float_zero m0) as [[m g]| |]; [|contradiction H..].
  cbn [obind fst snd] in *. destruct H as [Hw [Hh [G0 G1]]]. eexists. split; [reflexivity|]. cbn [f_width f_height f_at]. split; [exact Hw|]. split; [exact Hh|].
  intros u Hu. eapply nearest_ext; [|apply (Ht double_0_1 two threshold g u 0)]; rewrite ?Hw, ?Hh.
  - intros a b. unfold inside. split.
    + intros [[A B] C]. assert (b = 0) as -> by lia. split; [reflexivity|]. assert (a = 0 \/ a = 1) as [-> | ->] by lia;
        [left; rewrite G0 in C|right; rewrite G1 in C]; (split; [reflexivity|exact C]).
    + intros [-> [[-> C]|[-> C]]]; (split; [lia|]); rewrite ?G0, ?G1; exact C.
  - reflexivity.
  - reflexivity.
  - intros a b [A B]. assert (b = 0) as -> by lia. assert (a = 0 \/ a = 1) as [-> | ->] by lia; rewrite ?G0, ?G1; (split; reflexivity).
  - split; lia.
Qed.

(** The exact mean 0.11 of the written pixel (0, 0) is the threshold, yet every correct distance transform gives this pixel the
    maximum distance: the sum of the rounded products is below the threshold. *)
Theorem C99_threshold_refuted :
  exists (l : list (map_action (P:=list Z))) (dsample : list Z -> list spec_float -> spec_float) (threshold far : spec_float),
    fits log_dynamic l /\ (forall v p, unit_float 53 1024 (dsample v p)) /\ (0 < float_value threshold <= 1)%Q /\ (0 < float_value far)%Q /\
    match (let* m := cact_all log_dynamic l (new_map log_dynamic) in
           let* b := cbundle log_dynamic m [0; 0] in
           match b with
           | Some b => weighted_sum log_dynamic (fun v _ => float_value (dsample v [float_zero; float_zero])) m b (fun _ => (1 # 4)%Q) [0; 0]%Q
           | None => Throw
           end) with Ok t => (t == float_value threshold)%Q | _ => False end /\
    forall transform, float_transforms 53 1024 transform ->
      exists D, (let* m := cact_all log_dynamic l (new_map log_dynamic) in
                 let* r := float_to_distances 53 1024 log_dynamic (float_resolution 53 1024 double_0_2) double_0_1 dsample transform far threshold false false m in
                 Ok (snd r)) = Ok D /\
        inside (f_width D) (f_height D) 0 0 /\ f_at D 0 0 = Q2R (float_value far).
Proof.
  exists edge_actions, by_length, double_0_11, two. split; [unfold edge_actions; fits_2d|].
  split; [intros v p; unfold by_length; destruct (length v) as [|[|[|[|]]]]; (split; [split; reflexivity|split; vm_compute; discriminate])|].
  split; [split; [reflexivity|vm_compute; discriminate]|]. split; [reflexivity|]. split; [vm_compute; reflexivity|].
  intros transform Ht. destruct (edge_nearest transform double_0_11 Ht) as [D [ED [Dw [Dh N]]]]. exists D. split; [exact ED|].
  rewrite Dw, Dh. split; [split; lia|]. destruct (N 0 ltac:(lia)) as [_ [_ [X|[a [b [[_ [[_ X]|[_ X]]] _]]]]]]; [exact X|exfalso..];
    vm_compute in X; apply X; reflexivity.
Qed.
Print Assumptions C99_threshold_refuted.

(** The same map with threshold 0.1: the pixel (0, 0) hits, and (1, 0) with the mean 0.06 is one pixel away from it. *)
Example C99_example :
  standard_format 53 1024 /\ config_ok log_dynamic /\ fits log_dynamic edge_actions /\
  float_good_resolution 53 1024 double_0_2 /\ float_good_resolution 53 1024 double_0_1 /\
  (forall v p, unit_float 53 1024 (by_length v p)) /\ float_transforms 53 1024 (lift_transform brute_transform) /\
  (0 < float_value two)%Q /\ (0 < float_value double_0_1 <= 1)%Q /\
  (let* m := edge_map in Ok (min_bi m, max_bi m)) = Ok ([0; 0], [1; 0]) /\
  fits_pixels 53 2 (float_value double_0_2 * (1 # 2)) (float_value double_0_1) /\
  fits_pixels 53 1 (float_value double_0_2 * (1 # 2)) (float_value double_0_1) /\
  exists D, edge_distances (lift_transform brute_transform) double_0_1 = Ok D /\ f_width D = 2 /\ f_height D = 1 /\
    f_at D 0 0 = 0%R /\ f_at D 1 0 = Q2R (float_value double_0_1).
Proof.
  split; [right; split; reflexivity|]. split; [exact log_dynamic_ok|]. split; [unfold edge_actions; fits_2d|].
  split; [split; [split; reflexivity|split; vm_compute; discriminate]|]. split; [split; [split; reflexivity|split; vm_compute; discriminate]|].
  split; [intros v p; unfold by_length; destruct (length v) as [|[|[|[|]]]]; (split; [split; reflexivity|split; vm_compute; discriminate])|].
  assert (Ht : float_transforms 53 1024 (lift_transform brute_transform)) by apply lift_transforms, brute_transforms.
  split; [exact Ht|]. split; [reflexivity|]. split; [split; [reflexivity|vm_compute; discriminate]|]. split; [vm_compute; reflexivity|].
  split; [split; [lia|vm_compute; discriminate]|]. split; [split; [lia|vm_compute; discriminate]|].
  destruct (edge_nearest _ double_0_1 Ht) as [D [ED [Dw [Dh N]]]]. exists D. split; [exact ED|]. split; [exact Dw|]. split; [exact Dh|].
  assert (H0 : (float_value double_0_1 <= float_value (S754_finite false 7926335344172072 (-56)))%Q) by (vm_compute; discriminate).
  assert (H1 : ~ (float_value double_0_1 <= float_value (S754_finite false 8646911284551352 (-57)))%Q) by (intros X; vm_compute in X; apply X; reflexivity).
  assert (Ps : (0 < float_value double_0_1)%Q) by reflexivity.
  assert (Z0 : pixel_distance (float_value double_0_1) 1 0 0 0 = Q2R (float_value double_0_1)).
  { unfold pixel_distance. replace ((IZR 1 - IZR 0) * (IZR 1 - IZR 0) + (IZR 0 - IZR 0) * (IZR 0 - IZR 0))%R with 1%R by ring. rewrite sqrt_1. ring. }
  assert (Far : (Q2R (float_value double_0_1) < Q2R (float_value two))%R) by (apply Qlt_Rlt; reflexivity).
  assert (F0 : (0 < Q2R (float_value two))%R) by (rewrite <- RMicromega.Q2R_0; apply Qlt_Rlt; reflexivity).
  split.
  - apply (nearest_bounds _ _ _ _ _ _ Ps F0 (N 0 ltac:(lia))). auto.
  - destruct (N 1 ltac:(lia)) as [_ [A [B|[a [b [[-> [[-> _]|[-> X]]] B]]]]]].
    + specialize (A 0 0 ltac:(auto)). rewrite Z0 in A. lra.
    + rewrite B. exact Z0.
    + contradiction (H1 X).
Qed.

(** The hypotheses on occupancy maps: cells with an even number of values have no distribution, the others score 0.12 and
    are occupied with certainty or with probability 0.1. *)
Example C99_occupancy_example :
  let inner (v : list Z) := if Nat.even (length v) then None else Some v in
  let sample (_ : list Z) (_ : list spec_float) := double_0_12 in
  let occupancy (_ : unit) (v : list Z) := match length v with 1%nat => double_0_1 | _ => float_one 53 1024 end in
  (forall d p, unit_float 53 1024 (sample d p)) /\ (forall v, unit_float 53 1024 (occupancy tt v)) /\
  match (let* m0 := edge_map in
         let* r := float_occ_to_distances 53 1024 log_dynamic (float_resolution 53 1024 double_0_2) double_0_1 inner sample occupancy
                     (fun _ _ _ g u v => Q2R (float_value (fg_at g u v))) (Some tt) two double_0_1 false false m0 in
         Ok (snd r)) with
  | Ok (Some D) => f_width D = 2 /\ f_height D = 1 /\ f_at D 0 0 = Q2R (float_value (S754_finite false 8646911284551352 (-57)))
  | _ => False end.
Proof.
  intros inner sample occupancy. split; [intros d p; split; [split; reflexivity|split; vm_compute; discriminate]|].
  split; [intros v; unfold occupancy; destruct (length v) as [|[|]]; (split; [split; reflexivity|split; vm_compute; discriminate])|].
  unfold float_occ_to_distances, float_to_distances.
  assert (H : match (let* m0 := edge_map in float_to_grid 53 1024 log_dynamic (float_resolution 53 1024 double_0_2) double_0_1
                       (float_contribution 53 1024 inner sample occupancy tt) false false float_zero m0) with
              | Ok r => fg_width (snd r) = 2 /\ fg_height (snd r) = 1 /\ fg_at (snd r) 0 0 = S754_finite false 8646911284551352 (-57)
              | _ => False end) by (vm_compute; auto).
  destruct edge_map as [m0| |]; [|contradiction H..]. cbn [obind] in *.
  destruct (float_to_grid 53 1024 log_dynamic (float_resolution 53 1024 double_0_2) double_0_1
              (float_contribution 53 1024 inner sample occupancy tt) false false float_zero m0) as [[m g]| |]; [|contradiction H..].
  cbn [obind fst snd f_width f_height f_at] in *. destruct H as [-> [-> ->]]. auto.
Qed.
