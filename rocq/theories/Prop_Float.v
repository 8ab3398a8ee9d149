(** C57 for either precision and C67: index and scores in floating-point arithmetic. *)
From Coq Require Import QArith Qabs Floats.SpecFloat.
From Verif Require Import Base IndexModel OctreeSpec MapModel BackendModel SysModel SysSpec ExtentModel
  SampleModel SampleSpec ResidualModel RoundModel FloatModel FloatFacts FloatScoreFacts FloatBoundFacts FloatIndexFacts Samples.
Open Scope Z_scope.

(** [standard_format]: [prec] and [emax] are those of [float] or [double]. [good_float]: a number of this format,
    neither infinite nor NaN. [unit_float]: in [0,1] besides. [float_value] is the exact number. *)

(** C57 for either format ([float_good_resolution]: between 2^-100 and 2^100), the part that holds: for points
    within [M] bundles of the origin the box of the index contains the point up to [M] * 2^(2-prec) (+ 2^(2-emax-prec))
    of the width of a bundle; the index is undefined only for points that far from the ends of [int]. *)
Theorem C57_either_format_distance_partial (prec emax : Z) (resolution x : spec_float) (M : Q) : standard_format prec emax ->
  float_good_resolution prec emax resolution -> good_float prec emax x -> (0 <= M <= (2 # 1) ^ 100)%Q ->
  let h := (float_value resolution * (1 # 2))%Q in
  (- M * h <= float_value x <= M * h)%Q ->
  let tol := (M * (2 # 1) ^ (2 - prec) + (2 # 1) ^ (2 - emax - prec))%Q in
  match float_index prec emax (float_resolution_inv prec emax resolution) x with
  | Ok k => ((inject_Z k - tol) * h <= float_value x /\ float_value x < (inject_Z k + 1 + tol) * h)%Q /\
            INT_MIN <= k <= INT_MAX
  | UB => (float_value x < (inject_Z INT_MIN + tol) * h \/ (inject_Z INT_MAX + 1 - tol) * h <= float_value x)%Q
  | Throw => False
  end.
Proof. exact (float_near prec emax resolution x M). Qed.
Print Assumptions C57_either_format_distance_partial.

(** C57 for either format, the part that holds: a point further than that from the border of its bundle gets
    the index of its bundle. *)
Theorem C57_either_format_inside_partial (prec emax : Z) (resolution : spec_float) (p : list spec_float) (bi : idx) (M : Q) :
  standard_format prec emax ->
  float_good_resolution prec emax resolution -> Forall (good_float prec emax) p -> length bi = length p ->
  Forall (fun z => INT_MIN <= z <= INT_MAX) bi -> (0 <= M <= (2 # 1) ^ 100)%Q ->
  let h := (float_value resolution * (1 # 2))%Q in
  let tol := (M * (2 # 1) ^ (2 - prec) + (2 # 1) ^ (2 - emax - prec))%Q in
  (forall d, (d < length p)%nat ->
     (- M * h <= float_value (nth d p S754_nan) <= M * h /\
      (inject_Z (nth d bi 0%Z) + tol) * h <= float_value (nth d p S754_nan) /\
      float_value (nth d p S754_nan) < (inject_Z (nth d bi 0%Z) + 1 - tol) * h)%Q) ->
  float_bundle_index prec emax (float_resolution_inv prec emax resolution) p = Ok bi.
Proof. exact (float_inside prec emax resolution p bi M). Qed.
Print Assumptions C57_either_format_inside_partial.

(** C57 is false for [T = float]: with resolution 0.01 the point 0.13 lies in bundle 25 but gets the index 26;
    and for large coordinates even the neighbourhood claim of C57 (true of [double]) is false: with resolution 0.15
    the point 7609863.5 lies in bundle 101464842 and gets the index 101464848. *)
Theorem C57_float_refuted :
  exists resolution x resolution' x' : spec_float,
    float_good_resolution 24 128 resolution /\ good_float 24 128 x /\
    toBundleIndex (/ (float_value resolution * (1 # 2))) [float_value x] = Ok [25] /\
    float_bundle_index 24 128 (float_resolution_inv 24 128 resolution) [x] = Ok [26] /\
    float_good_resolution 24 128 resolution' /\ good_float 24 128 x' /\
    toBundleIndex (/ (float_value resolution' * (1 # 2))) [float_value x'] = Ok [101464842] /\
    float_bundle_index 24 128 (float_resolution_inv 24 128 resolution') [x'] = Ok [101464848].
Proof.
  exists (S754_finite false 10737418 (-30)), (S754_finite false 8724152 (-26)), (S754_finite false 10066330 (-26)), (S754_finite false 15219727 (-1)).
  repeat split; try (vm_compute; reflexivity); vm_compute; discriminate.
Qed.
Print Assumptions C57_float_refuted.

(** C57, points that are not finite have no index: casting the floor of an infinity or a NaN is undefined, for
    every resolution. [insert] drops such points, the score and lookup functions do not (impl/gridmap.hpp:100-105). *)
Theorem C57_not_finite_undefined (prec emax : Z) (inv : spec_float) (p q : list spec_float) (x : spec_float) (s : list Z) :
  float_finite x = false -> float_bundle_index prec emax inv p = Ok s ->
  float_bundle_index prec emax inv (p ++ x :: q) = UB.
Proof.
  intros Hx. unfold float_bundle_index. revert s. induction p as [|y p IH]; intros s Ep; cbn [app omap] in *.
  - replace (float_index prec emax inv x) with (@UB Z); [reflexivity|].
    destruct x as [| | |sx mx ex], inv; try discriminate Hx; reflexivity.
  - destruct (float_index prec emax inv y) as [k| |]; cbn [obind] in *; try discriminate.
    destruct (omap (float_index prec emax inv) p) as [ks| |]; cbn [obind] in *; try discriminate.
    rewrite (IH ks eq_refl). reflexivity.
Qed.
Print Assumptions C57_not_finite_undefined.
Example C57_not_finite_example :
  float_finite S754_nan = false /\ float_bundle_index 53 1024 (S754_finite false 4503599627370496 (-52)) [S754_zero false] = Ok [0].
Proof. split; vm_compute; reflexivity. Qed.

(** A point of bundle (3, -1) of the map of resolution 0.2 in [float]: (0.35, -0.05), within 4 bundles of the origin. *)
Definition float_0_2 : spec_float := S754_finite false 13421773 (-26).
Definition float_point : list spec_float := [S754_finite false 11744051 (-25); S754_finite true 13421773 (-28)].
Example C57_float_example :
  float_good_resolution 24 128 float_0_2 /\ Forall (good_float 24 128) float_point /\
  (let h := (float_value float_0_2 * (1 # 2))%Q in
   let tol := (4 * (2 # 1) ^ (2 - 24) + (2 # 1) ^ (2 - 128 - 24))%Q in
   forall d, (d < 2)%nat ->
     (- (4) * h <= float_value (nth d float_point S754_nan) <= 4 * h /\
      (inject_Z (nth d [3; -1]%Z 0%Z) + tol) * h <= float_value (nth d float_point S754_nan) /\
      float_value (nth d float_point S754_nan) < (inject_Z (nth d [3; -1]%Z 0%Z) + 1 - tol) * h)%Q) /\
  float_bundle_index 24 128 (float_resolution_inv 24 128 float_0_2) float_point = Ok [3; -1].
Proof.
  split; [split; [split; reflexivity|split; vm_compute; discriminate]|]. split; [repeat constructor|]. split.
  - intros h tol d Hd. destruct d as [|[|d]]; [| |lia]; (split; [split|split]); vm_compute; try discriminate; reflexivity.
  - vm_compute. reflexivity.
Qed.

(** C67: if every stored distribution scores in [0,1], the plain score exists and is in [0,1], and it differs
    from the exact mean (C15) by at most 2^(D+1) times 2^-prec. *)
Theorem C67_plain_scores (prec emax : Z) {P : Type} (c : config P) (Hc : config_ok c)
  (dsample : P -> list spec_float -> spec_float) (inv : spec_float)
  (l : list (map_action (P:=P))) (m : cmap c) (p : list spec_float) (bi : idx) :
  standard_format prec emax -> (dimc c <= 8)%nat ->
  fits c l -> cact_all c l (new_map c) = Ok m ->
  float_bundle_index prec emax inv p = Ok bi -> addressable c bi ->
  (forall i j v, cstored c m i j = Ok (Some v) -> unit_float prec emax (dsample v p)) ->
  exists s t,
    float_sampleNonNormalized prec emax c inv dsample m p = Ok s /\
    sample_at c (fun v _ => float_value (dsample v p)) m (map float_value p) bi = Ok t /\
    unit_float prec emax s /\
    (Qabs (float_value s - t) <= 2 * inject_Z (2 ^ Z.of_nat (dimc c)) * (2 # 1) ^ (- prec))%Q.
Proof.
  intros Hf HD Hl Em Eb Ha Hu. unfold float_sampleNonNormalized. rewrite Eb. cbn [obind].
  exact (plain_history prec emax Hf c Hc HD l m Hl Em dsample p Hu bi Ha).
Qed.
Print Assumptions C67_plain_scores.

(** C67: the same for the occupancy maps, whose cells score sample times occupancy (C67_contribution);
    without inverse model they throw. *)
Theorem C67_occupancy_plain_scores (prec emax : Z) {P D M : Type} (c : config P) (Hc : config_ok c)
  (inner : P -> option D) (sample : D -> list spec_float -> spec_float) (occupancy : M -> P -> spec_float) (inv : spec_float)
  (l : list (map_action (P:=P))) (m : cmap c) (p : list spec_float) (bi : idx) (ivm : M) :
  standard_format prec emax -> (dimc c <= 8)%nat ->
  fits c l -> cact_all c l (new_map c) = Ok m ->
  float_bundle_index prec emax inv p = Ok bi -> addressable c bi ->
  (forall d, unit_float prec emax (sample d p)) -> (forall v, unit_float prec emax (occupancy ivm v)) ->
  (exists s t,
     float_occ_sampleNonNormalized prec emax c inv inner sample occupancy m p (Some ivm) = Ok s /\
     sample_at c (fun v _ => float_value (float_contribution prec emax inner sample occupancy ivm v p)) m (map float_value p) bi = Ok t /\
     unit_float prec emax s /\
     (Qabs (float_value s - t) <= 2 * inject_Z (2 ^ Z.of_nat (dimc c)) * (2 # 1) ^ (- prec))%Q) /\
  float_occ_sampleNonNormalized prec emax c inv inner sample occupancy m p None = Throw.
Proof.
  intros Hf HD Hl Em Eb Ha Hs Ho. unfold float_occ_sampleNonNormalized. rewrite Eb. cbn [obind]. split; [|reflexivity].
  exact (plain_history prec emax Hf c Hc HD l m Hl Em (float_contribution prec emax inner sample occupancy ivm) p
           (fun _ _ v _ => contribution_unit prec emax inner sample occupancy ivm v p Hf Hs Ho) bi Ha).
Qed.
Print Assumptions C67_occupancy_plain_scores.

(** C67: what a cell of an occupancy map contributes is in [0,1] and the product up to one rounding. *)
Theorem C67_contribution (prec emax : Z) {P D M : Type} (inner : P -> option D) (sample : D -> list spec_float -> spec_float)
  (occupancy : M -> P -> spec_float) (ivm : M) (v : P) (p : list spec_float) : standard_format prec emax ->
  (forall d, unit_float prec emax (sample d p)) -> (forall x, unit_float prec emax (occupancy ivm x)) ->
  unit_float prec emax (float_contribution prec emax inner sample occupancy ivm v p) /\
  (Qabs (float_value (float_contribution prec emax inner sample occupancy ivm v p) -
         match inner v with Some d => float_value (sample d p) * float_value (occupancy ivm v) | None => 0 end) <= (2 # 1) ^ (- prec))%Q.
Proof.
  exact (fun Hf Hs Ho => conj (contribution_unit prec emax inner sample occupancy ivm v p Hf Hs Ho)
                              (contribution_near prec emax inner sample occupancy ivm v p Hf Hs Ho)).
Qed.
Print Assumptions C67_contribution.

(** C67, what holds of the bilinear score: it exists, is not negative, and exceeds 1 by at most
    2^D * (2D+2) roundings. *)
Theorem C67_bilinear_scores_partial (prec emax : Z) {P : Type} (c : config P) (Hc : config_ok c)
  (dsample : P -> list spec_float -> spec_float) (inv : spec_float)
  (l : list (map_action (P:=P))) (m : cmap c) (p : list spec_float) (bi : idx) :
  standard_format prec emax -> (dimc c <= 8)%nat ->
  fits c l -> cact_all c l (new_map c) = Ok m ->
  good_float prec emax inv -> Forall (good_float prec emax) p -> length p = dimc c ->
  float_bundle_index prec emax inv p = Ok bi -> addressable c bi ->
  (forall i j v, cstored c m i j = Ok (Some v) -> unit_float prec emax (dsample v p)) ->
  exists s,
    float_sampleNonNormalizedBilinear prec emax c inv dsample m p = Ok s /\ good_float prec emax s /\
    (0 <= float_value s <=
       1 + inject_Z (2 ^ Z.of_nat (dimc c)) * (2 * inject_Z (Z.of_nat (dimc c)) + 2) * (2 # 1) ^ (- prec))%Q.
Proof.
  intros Hf HD Hl Em Gi Gp Lp Eb Ha Hu. unfold float_sampleNonNormalizedBilinear. rewrite Eb. cbn [obind].
  exact (bilinear_history prec emax Hf c Hc HD l m Hl Em dsample p Hu inv Gi Gp Lp bi Eb Ha).
Qed.
Print Assumptions C67_bilinear_scores_partial.

(** C67: for points within [M] bundles of the origin of the map the bilinear score is that of exact arithmetic
    (C15, C17) in the same bundle, up to 2^D * (2^D * (M+3) + 2D+2) times 2^-prec. *)
Theorem C67_bilinear_accuracy (prec emax : Z) {P : Type} (c : config P) (Hc : config_ok c)
  (dsample : P -> list spec_float -> spec_float) (inv : spec_float)
  (l : list (map_action (P:=P))) (m : cmap c) (p : list spec_float) (bi : idx) (M : Q) :
  standard_format prec emax -> (dimc c <= 8)%nat ->
  fits c l -> cact_all c l (new_map c) = Ok m ->
  good_float prec emax inv -> Forall (good_float prec emax) p -> length p = dimc c ->
  float_bundle_index prec emax inv p = Ok bi -> addressable c bi ->
  (forall i j v, cstored c m i j = Ok (Some v) -> unit_float prec emax (dsample v p)) ->
  (0 <= M)%Q -> (M + 3 <= (2 # 1) ^ prec)%Q ->
  Forall (fun x => (Qabs (float_value x * float_value inv) <= M)%Q) p ->
  exists s t,
    float_sampleNonNormalizedBilinear prec emax c inv dsample m p = Ok s /\
    sample_bilinear_at c (float_value inv) (fun v _ => float_value (dsample v p)) m (map float_value p) bi = Ok t /\
    (Qabs (float_value s - t) <=
       inject_Z (2 ^ Z.of_nat (dimc c)) *
       (inject_Z (2 ^ Z.of_nat (dimc c)) * (M + 3) + 2 * inject_Z (Z.of_nat (dimc c)) + 2) * (2 # 1) ^ (- prec))%Q.
Proof.
  intros Hf HD Hl Em Gi Gp Lp Eb Ha Hu HM HM3 HpM. unfold float_sampleNonNormalizedBilinear. rewrite Eb. cbn [obind].
  exact (accuracy_history prec emax Hf c Hc HD l m Hl Em dsample p Hu inv Gi Gp Lp bi Eb Ha M HM HM3 HpM).
Qed.
Print Assumptions C67_bilinear_accuracy.

(** C67, occupancy maps: the same bound and accuracy of the bilinear score. *)
Theorem C67_occupancy_bilinear_scores_partial (prec emax : Z) {P D M : Type} (c : config P) (Hc : config_ok c)
  (inner : P -> option D) (sample : D -> list spec_float -> spec_float) (occupancy : M -> P -> spec_float) (inv : spec_float)
  (l : list (map_action (P:=P))) (m : cmap c) (p : list spec_float) (bi : idx) (ivm : M) (B : Q) :
  standard_format prec emax -> (dimc c <= 8)%nat ->
  fits c l -> cact_all c l (new_map c) = Ok m ->
  good_float prec emax inv -> Forall (good_float prec emax) p -> length p = dimc c ->
  float_bundle_index prec emax inv p = Ok bi -> addressable c bi ->
  (forall d, unit_float prec emax (sample d p)) -> (forall v, unit_float prec emax (occupancy ivm v)) ->
  (0 <= B)%Q -> (B + 3 <= (2 # 1) ^ prec)%Q ->
  Forall (fun x => (Qabs (float_value x * float_value inv) <= B)%Q) p ->
  (exists s t,
     float_occ_sampleNonNormalizedBilinear prec emax c inv inner sample occupancy m p (Some ivm) = Ok s /\
     sample_bilinear_at c (float_value inv) (fun v _ => float_value (float_contribution prec emax inner sample occupancy ivm v p)) m
       (map float_value p) bi = Ok t /\
     good_float prec emax s /\
     (0 <= float_value s <=
        1 + inject_Z (2 ^ Z.of_nat (dimc c)) * (2 * inject_Z (Z.of_nat (dimc c)) + 2) * (2 # 1) ^ (- prec))%Q /\
     (Qabs (float_value s - t) <=
        inject_Z (2 ^ Z.of_nat (dimc c)) *
        (inject_Z (2 ^ Z.of_nat (dimc c)) * (B + 3) + 2 * inject_Z (Z.of_nat (dimc c)) + 2) * (2 # 1) ^ (- prec))%Q) /\
  float_occ_sampleNonNormalizedBilinear prec emax c inv inner sample occupancy m p None = Throw.
Proof.
  intros Hf HD Hl Em Gi Gp Lp Eb Ha Hs Ho HB HB3 HpB. unfold float_occ_sampleNonNormalizedBilinear. rewrite Eb. cbn [obind]. split; [|reflexivity].
  pose proof (fun i j v (_ : cstored c m i j = Ok (Some v)) => contribution_unit prec emax inner sample occupancy ivm v p Hf Hs Ho) as Hu.
  destruct (bilinear_history prec emax Hf c Hc HD l m Hl Em (float_contribution prec emax inner sample occupancy ivm) p Hu inv Gi Gp Lp bi Eb Ha) as [s [A [G K]]].
  destruct (accuracy_history prec emax Hf c Hc HD l m Hl Em (float_contribution prec emax inner sample occupancy ivm) p Hu inv Gi Gp Lp bi Eb Ha B HB HB3 HpB)
    as [s' [t [A' [T K']]]].
  assert (s' = s) by congruence. subst s'. exists s, t. auto.
Qed.
Print Assumptions C67_occupancy_bilinear_scores_partial.

(** The floats next to 0.01 and 0.46, the doubles next to 0.09 and 0.42; and 0.75. *)
Definition point_float : list spec_float := [S754_finite false 10737418 (-30); S754_finite false 15435039 (-25)].
Definition point_double : list spec_float := [S754_finite false 6485183463413514 (-56); S754_finite false 7566047373982433 (-54)].
Definition resolution_one (prec emax : Z) : spec_float := float_of_int prec emax 1.
Definition three_quarters (prec emax : Z) : spec_float := binary_normalize prec emax 3 (-2) false.

(** C67 is false for the bilinear score: in a map of resolution 1 whose distributions all score exactly 1 there
    are points with a score above 1, in both formats. *)
Theorem C67_bilinear_above_one_refuted (prec emax : Z) : standard_format prec emax ->
  exists (l : list (map_action (P:=list Z))) (p : list spec_float) (bi : idx) (s : spec_float),
    fits log_dynamic l /\ Forall (good_float prec emax) p /\ length p = 2%nat /\
    (let inv := float_resolution_inv prec emax (resolution_one prec emax) in
     good_float prec emax inv /\ float_bundle_index prec emax inv p = Ok bi /\ addressable log_dynamic bi /\
     (let* m := cact_all log_dynamic l (new_map log_dynamic) in
      float_sampleNonNormalizedBilinear prec emax log_dynamic inv (fun _ _ => float_one prec emax) m p) = Ok s) /\
    (1 < float_value s)%Q.
Proof.
  intros [[-> ->]|[-> ->]].
  - exists [Modify [0; 0] (fun v => v ++ [5])], point_float, [0; 0], (S754_finite false 8388609 (-23)).
    split; [fits_2d|]. split; [repeat constructor|]. split; [reflexivity|]. split; [|vm_compute; reflexivity].
    split; [split; vm_compute; reflexivity|]. split; [vm_compute; reflexivity|]. split; [|vm_compute; reflexivity].
    split; [reflexivity|]. intros _. split; [reflexivity|]. repeat constructor; vm_compute; discriminate.
  - exists [Modify [0; 0] (fun v => v ++ [5])], point_double, [0; 0], (S754_finite false 4503599627370497 (-52)).
    split; [fits_2d|]. split; [repeat constructor|]. split; [reflexivity|]. split; [|vm_compute; reflexivity].
    split; [split; vm_compute; reflexivity|]. split; [vm_compute; reflexivity|]. split; [|vm_compute; reflexivity].
    split; [reflexivity|]. intros _. split; [reflexivity|]. repeat constructor; vm_compute; discriminate.
Qed.
Print Assumptions C67_bilinear_above_one_refuted.

(** A map whose bundle (1, 1) shares one distribution with a sample (scoring 3/4) with bundle (0, 0), and a point
    near (0.72, 0.61) in it: the plain score is exactly 3/16, the bilinear one is rounded. *)
Definition sample_three_quarters (v : list Z) (_ : list spec_float) : spec_float :=
  match v with [] => float_zero | _ => three_quarters 24 128 end.
Definition shared_history : list (map_action (P:=list Z)) := [Modify [0; 0] (fun v => v ++ [5]); Modify [1; 1] (fun v => v)].
Definition shared_point : list spec_float := [S754_finite false 12079595 (-24); S754_finite false 10234103 (-24)].
Example C67_example :
  fits log_dynamic shared_history /\ Forall (good_float 24 128) shared_point /\
  unit_float 24 128 (three_quarters 24 128) /\ unit_float 24 128 float_zero /\
  (let inv := float_resolution_inv 24 128 (resolution_one 24 128) in
   good_float 24 128 inv /\ float_bundle_index 24 128 inv shared_point = Ok [1; 1] /\
   (let* m := cact_all log_dynamic shared_history (new_map log_dynamic) in
    let* s := float_sampleNonNormalized 24 128 log_dynamic inv sample_three_quarters m shared_point in
    let* t := float_sampleNonNormalizedBilinear 24 128 log_dynamic inv sample_three_quarters m shared_point in
    let* t' := sample_bilinear_at log_dynamic (float_value inv) (fun v _ => float_value (sample_three_quarters v shared_point)) m
                 (map float_value shared_point) [1; 1] in
    Ok (Qeq_bool (float_value s) (3 # 16), Qeq_bool (float_value t) (10992431 # 33554432), Qeq_bool (float_value t) t',
        Qle_bool (Qabs (float_value t - t')) ((2 # 1) ^ (-26)))) = Ok (true, true, false, true)).
Proof.
  split; [fits_2d|]. split; [repeat constructor|].
  split; [split; [split; reflexivity|split; vm_compute; discriminate]|].
  split; [split; [split; reflexivity|split; vm_compute; discriminate]|].
  split; [split; vm_compute; reflexivity|]. split; vm_compute; reflexivity.
Qed.
