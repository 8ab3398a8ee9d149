(** C98: the grid map with one distribution per cell created from a dynamic map, in floating-point arithmetic. *)
From Coq Require Import QArith Qabs Qround Floats.SpecFloat.
From Verif Require Import Base SeqModel IndexModel OctreeSpec MapModel BackendModel SysModel SysSpec ExtentModel RoundModel FloatModel FloatFacts FloatIndexFacts
  GridModel MonoModel MonoSpec MonoFacts GridFloatModel GridFloatSpec MonoFloatModel MonoFloatSpec MonoFloatMap MonoPointModel MergeFloatModel MergeFloatFacts Samples Prop_MonoFloat.
Open Scope Z_scope.

(** C98, what holds for every source with any history and every point, whatever its coordinates: let [bi] be the bundle in
    which the source looks up the point. If this bundle is allocated then the created map finds and scores the sum of its
    four distributions. If it is not, and not one step beyond the greatest indices either, then the created map has no
    distribution and the score is 0. If it is one step beyond the greatest indices then the created map reads outside of its storage. *)
Theorem C98_same_bundle_partial (prec emax : Z) {P W : Type} (c : config P) (resolution : spec_float) (plus : P -> P -> P) (dsample : P -> W -> spec_float)
  (to_m : W -> list spec_float) (l : list (map_action (P:=P))) :
  config_ok c -> dimc c = 2%nat -> kindc c = Dynamic -> aminc c = cw_min -> amaxc c = cw_max ->
  (0 < float_value (float_resolution prec emax resolution))%Q -> fits c l ->
  exists m es, cact_all c l (new_map c) = Ok m /\ cbundles c m = Ok es /\
    (es <> [] -> exists dst, float_merge_map prec emax c resolution plus m = Ok dst /\
       let inv := float_merged_inv prec emax resolution in
       forall p bi, length (to_m p) = 2%nat -> float_bundle_index prec emax (float_resolution_inv prec emax resolution) (to_m p) = Ok bi ->
         let above d := nth d bi 0 - nth d (max_bi m) 0 in
         (In bi (map fst es) -> exists vs, length vs = 4%nat /\
            (forall i, (i < 4)%nat -> cstored c m i (generate_index bi i) = Ok (Some (nth i vs (defaultc c)))) /\
            float_mono_get prec emax (mergec c) to_m inv dst p = Ok (Some (fold_left plus vs (defaultc c))) /\
            float_mono_sample prec emax (mergec c) to_m dsample inv dst p = Ok (dsample (fold_left plus vs (defaultc c)) p)) /\
         (~ In bi (map fst es) ->
            ((forall d, (d < 2)%nat -> above d <= 0) \/
             (exists d, (d < 2)%nat /\ (1 < above d \/ nth d bi 0 < nth d (min_bi m) 0))) ->
            float_mono_get prec emax (mergec c) to_m inv dst p = Ok None /\
            float_mono_sample prec emax (mergec c) to_m dsample inv dst p = Ok float_zero) /\
         ((forall d, (d < 2)%nat -> nth d (min_bi m) 0 <= nth d bi 0 /\ above d <= 1) -> (exists d, (d < 2)%nat /\ above d = 1) ->
            float_mono_get prec emax (mergec c) to_m inv dst p = UB /\
            float_mono_sample prec emax (mergec c) to_m dsample inv dst p = UB)).
Proof.
  exact (fun Hc Hd Hk Hmin Hmax Hb => merged_points prec emax c Hc Hd Hk Hmin Hmax resolution Hb plus dsample to_m l).
Qed.
Print Assumptions C98_same_bundle_partial.

(** C98, the whole way to a probability grid: the created map is converted with a sampling resolution not coarser than a
    bundle, and no axis has more than 2^22 ([float]) or 2^30 ([double]) pixels. [w d] is the number of pixels along axis [d],
    [cell u] the number of the bundle that pixel [u] shows. If the last pixel of both axes shows one of the bundles between
    the least and the greatest index then every pixel shows the score of the sum of the four distributions of its bundle if
    the source has the bundle, and 0 otherwise. If not, the conversion reads outside of the storage. *)
Theorem C98_grid_partial (prec emax : Z) {P W : Type} (c : config P) (resolution sres : spec_float) (plus : P -> P -> P) (dsample : P -> W -> spec_float)
  (from_grid : list spec_float -> W) (l : list (map_action (P:=P))) :
  config_ok c -> dimc c = 2%nat -> kindc c = Dynamic -> aminc c = cw_min -> amaxc c = cw_max -> standard_format prec emax ->
  let res := float_resolution prec emax resolution in let merged := float_merged_resolution prec emax resolution in
  float_good_resolution prec emax res -> float_good_resolution prec emax sres -> (float_value sres <= float_value res)%Q -> fits c l ->
  exists m es, cact_all c l (new_map c) = Ok m /\ cbundles c m = Ok es /\
    let count d := nth d (max_bi m) 0 - nth d (min_bi m) 0 + 1 in
    (es <> [] -> (forall d, (d < 2)%nat -> fits_pixels prec (count d) (float_value res) (float_value sres)) ->
     exists dst (w : nat -> Z) (cell : Z -> Z), float_merge_map prec emax c resolution plus m = Ok dst /\
       (forall d, (d < 2)%nat -> float_pixels prec emax (float_mono_extent prec emax res (count d)) sres = Ok (w d) /\ 1 <= w d) /\
       (forall u, 0 <= u -> u < w 0%nat \/ u < w 1%nat -> float_mono_cell prec emax res sres u = Ok (cell u) /\ 0 <= cell u) /\
       ((forall d, (d < 2)%nat -> cell (w d - 1) < count d) ->
          exists g, float_mono_to_grid prec emax (mergec c) dsample from_grid merged sres dst = Ok g /\ fg_width g = w 0%nat /\ fg_height g = w 1%nat /\
            forall u v, 0 <= u < w 0%nat -> 0 <= v < w 1%nat ->
              let bi := [nth 0 (min_bi m) 0 + cell u; nth 1 (min_bi m) 0 + cell v] in
              let p := [fmul prec emax (float_of_int prec emax u) sres; fmul prec emax (float_of_int prec emax v) sres] in
              (In bi (map fst es) -> exists vs, length vs = 4%nat /\
                 (forall i, (i < 4)%nat -> cstored c m i (generate_index bi i) = Ok (Some (nth i vs (defaultc c)))) /\
                 fg_at g u v = float_probability prec (dsample (fold_left plus vs (defaultc c)) (from_grid p))) /\
              (~ In bi (map fst es) -> fg_at g u v = float_zero)) /\
       (~ (forall d, (d < 2)%nat -> cell (w d - 1) < count d) ->
          float_mono_to_grid prec emax (mergec c) dsample from_grid merged sres dst = UB)).
Proof.
  intros Hc Hd Hk Hmin Hmax Hf res merged Hr Hs Hsr Hl.
  exact (merged_grid prec emax c Hc Hd Hk Hmin Hmax resolution (proj2 (proj2 (res_bounds prec emax res Hr))) plus dsample Hf Hr sres Hs Hsr from_grid l Hl).
Qed.
Print Assumptions C98_grid_partial.

(** Maps of [double]s with a resolution of 0.2, that is bundles of 0.1. *)
Definition double_0_2 : spec_float := S754_finite false 7205759403792794 (-55).
Definition double_0_15 : spec_float := S754_finite false 5404319552844595 (-55).
Definition double_0_05' : spec_float := S754_finite false 7205759403792794 (-57).
Definition log_score (v : list Z) (_ : list spec_float) : spec_float := float_of_int 53 1024 (Z.of_nat (length v)).

(** C98 is false: the source has one bundle, (0, 0). The point (0.15, 0.05) lies in bundle (1, 0): the source gives it
    the score 0, the created map reads outside of its storage. *)
Theorem C98_border_refuted : exists (resolution : spec_float) (l : list (map_action (P:=list Z))) (p : list spec_float),
  float_good_resolution 53 1024 resolution /\ fits log_dynamic l /\ length p = 2%nat /\ Forall (good_float 53 1024) p /\
  (let* m := cact_all log_dynamic l (new_map log_dynamic) in
   float_sampleNonNormalized 53 1024 log_dynamic (float_resolution_inv 53 1024 resolution) log_score m p) = Ok float_zero /\
  (let* m := cact_all log_dynamic l (new_map log_dynamic) in
   let* dst := float_merge_map 53 1024 log_dynamic resolution (@app Z) m in
   Ok true) = Ok true /\
  (let* m := cact_all log_dynamic l (new_map log_dynamic) in
   let* dst := float_merge_map 53 1024 log_dynamic resolution (@app Z) m in
   float_mono_sample 53 1024 (mergec log_dynamic) (fun q => q) log_score (float_merged_inv 53 1024 resolution) dst p) = UB.
Proof.
  exists double_0_2, [Modify [0; 0] (fun v => v ++ [7])], [double_0_15; double_0_05'].
  split; [split; [split; reflexivity|split; vm_compute; discriminate]|]. split; [fits_2d|]. split; [reflexivity|].
  split; [repeat constructor|]. split; [vm_compute; reflexivity|]. split; vm_compute; reflexivity.
Qed.
Print Assumptions C98_border_refuted.

(** Two bundles, one point in each of them. *)
Example C98_example :
  let l := [Modify [0; 0] (fun v => v ++ [5; 6]); Modify [1; 0] (fun v => v ++ [8])] in
  config_ok log_dynamic /\ dimc log_dynamic = 2%nat /\ kindc log_dynamic = Dynamic /\ aminc log_dynamic = cw_min /\ amaxc log_dynamic = cw_max /\
  float_good_resolution 53 1024 (float_merged_resolution 53 1024 double_0_2) /\ float_good_resolution 53 1024 double_0_03 /\
  (float_value double_0_03 <= float_value (float_merged_resolution 53 1024 double_0_2))%Q /\ fits log_dynamic l /\
  (let* m := cact_all log_dynamic l (new_map log_dynamic) in
   let* dst := float_merge_map 53 1024 log_dynamic double_0_2 (@app Z) m in
   let* a := float_mono_get 53 1024 (mergec log_dynamic) (fun q => q) (float_merged_inv 53 1024 double_0_2) dst [double_0_05'; double_0_05'] in
   let* b := float_mono_get 53 1024 (mergec log_dynamic) (fun q => q) (float_merged_inv 53 1024 double_0_2) dst [double_0_15; double_0_05'] in
   let* g := float_mono_to_grid 53 1024 (mergec log_dynamic) (fun v _ => if (length v <=? 10)%nat then half_score else float_of_int 53 1024 1) (fun q => q)
               (float_merged_resolution 53 1024 double_0_2) double_0_03 dst in
   Ok (a, b, (max_bi m, min_bi m), (fg_width g, fg_height g), map (fun k => fg_at g k 1) (int_range 7))) =
  Ok (Some [5; 6; 8; 5; 6; 5; 6; 8; 5; 6], Some [5; 6; 8; 8; 5; 6; 8; 8], ([1; 0], [0; 0]), (7, 4), repeat half_score 7).
Proof.
  intros l. split; [exact log_dynamic_ok|]. do 4 (split; [reflexivity|]).
  split; [split; [split; reflexivity|split; vm_compute; discriminate]|]. split; [exact good_0_03|]. split; [vm_compute; discriminate|].
  split; [unfold l; fits_2d|]. vm_compute. reflexivity.
Qed.
