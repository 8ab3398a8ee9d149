(** C27 for static maps: a saved map is restored if the loader's arrays hold it. *)
From Verif Require Import Base SeqModel IndexModel OctreeSpec MapModel BackendModel SysModel SysSpec Samples
  ConvSpec InsertModel SerialModel SerialSpec SerialFacts SerialSamples ThreadModel ThreadSpec ThreadFacts FileModel FileSamples
  StaticTripFacts.
Open Scope Z_scope.

(** C27, plain distributions, static maps: every reachable map (the empty one too) whose minimum index on
    axis 0 is even, any schedule of the threads on either side. Origin, resolution, index range, bundles and
    distributions are the same, every slot refers to a distribution of the loaded map, and every further history
    behaves alike, although the array of family 1 is smaller than before.
    Missing: an odd minimum index on axis 0, see below. *)
Theorem C27_static_distribution_map_partial {D Po T : Type} (junk : list Z -> nat -> list Z) (po : codec Po) (tp : codec T) (cd : codec D)
  (c : config D) (l : list (map_action (P:=D))) (s1 s2 : list nat) (g : nat -> Z) (origin : Po) (resolution : T) (m : cmap c) :
  codec_ok po -> codec_ok tp -> codec_ok cd ->
  config_ok c -> kindc c = Static -> (0 < dimc c)%nat -> Z.even (nth 0 (minc c) 0) = true ->
  Forall (fun z => 0 <= z < 2 ^ 64) (sizec c) -> int_index (minc c) -> int_index (static_max (sizec c) (minc c)) ->
  fits c l -> cact_all c l (new_map c) = Ok m ->
  complete (bin_count (dimc c)) s1 -> complete (bin_count (dimc c)) s2 ->
  let fmt := distribution_format junk cd in
  exists d m', map_save po tp fmt c all_open s1 origin resolution m = Ok (true, Some d) /\
    map_load junk po tp fmt c all_open s2 g (Some d) =
      Ok (Some {| l_origin := origin; l_resolution := resolution; l_map := m' |}) /\
    same_content c c m m' /\ min_bi m' = min_bi m /\ max_bi m' = max_bi m /\
    (forall bi sl, has_bundle c m' bi sl -> length sl = (2 ^ dimc c)%nat /\
       forall i, (i < 2 ^ dimc c)%nat -> exists j v, nth_error sl i = Some (Some j) /\ has_value c m' i j v) /\
    (forall l2, fits c (l ++ l2) ->
       exists m2 m2', cact_all c l2 m = Ok m2 /\ cact_all c l2 m' = Ok m2' /\ same_content c c m2 m2' /\
         min_bi m2' = min_bi m2 /\ max_bi m2' = max_bi m2).
Proof.
  exact (fun Hpo Htp Hcd Hc Hk Hdim He Hs Hmn Hmx Hf Hrun C1 C2 =>
    restore_static junk po tp _ (fun _ => True) (c_len cd) c l s1 s2 g origin resolution m
      Hpo Htp (distribution_format_ok junk cd Hcd) (proj2 (proj2 Hcd)) Hc Hk Hdim He Hs Hmn Hmx Hf Hrun (fun _ _ _ _ => I) C1 C2).
Qed.

(** C27, occupancy distributions, static maps. *)
Theorem C27_static_occupancy_map_partial {D Po T : Type} (junk : list Z -> nat -> list Z) (po : codec Po) (tp : codec T) (cd : codec D)
  (dflt : D) (amount : D -> Z) (c : config (occ Z D)) (l : list (map_action (P:=occ Z D))) (s1 s2 : list nat) (g : nat -> Z)
  (origin : Po) (resolution : T) (m : cmap c) :
  codec_ok po -> codec_ok tp -> codec_ok cd -> amount dflt = 0 ->
  config_ok c -> kindc c = Static -> (0 < dimc c)%nat -> Z.even (nth 0 (minc c) 0) = true ->
  Forall (fun z => 0 <= z < 2 ^ 64) (sizec c) -> int_index (minc c) -> int_index (static_max (sizec c) (minc c)) ->
  fits c l -> cact_all c l (new_map c) = Ok m ->
  (forall i j v, has_value c m i j v -> storable amount v) ->
  complete (bin_count (dimc c)) s1 -> complete (bin_count (dimc c)) s2 ->
  let fmt := occupancy_format junk cd dflt amount in
  exists d m', map_save po tp fmt c all_open s1 origin resolution m = Ok (true, Some d) /\
    map_load junk po tp fmt c all_open s2 g (Some d) =
      Ok (Some {| l_origin := origin; l_resolution := resolution; l_map := m' |}) /\
    same_content c c m m' /\ min_bi m' = min_bi m /\ max_bi m' = max_bi m /\
    (forall bi sl, has_bundle c m' bi sl -> length sl = (2 ^ dimc c)%nat /\
       forall i, (i < 2 ^ dimc c)%nat -> exists j v, nth_error sl i = Some (Some j) /\ has_value c m' i j v) /\
    (forall l2, fits c (l ++ l2) ->
       exists m2 m2', cact_all c l2 m = Ok m2 /\ cact_all c l2 m' = Ok m2' /\ same_content c c m2 m2' /\
         min_bi m2' = min_bi m2 /\ max_bi m2' = max_bi m2).
Proof.
  exact (fun Hpo Htp Hcd H0 Hc Hk Hdim He Hs Hmn Hmx Hf Hrun Hok C1 C2 =>
    restore_static junk po tp _ (storable amount) (8 + c_len cd) c l s1 s2 g origin resolution m
      Hpo Htp (occupancy_format_ok junk cd dflt amount Hcd H0) (occupancy_count junk cd dflt amount Hcd)
      Hc Hk Hdim He Hs Hmn Hmx Hf Hrun Hok C1 C2).
Qed.
Print Assumptions C27_static_distribution_map_partial.
Print Assumptions C27_static_occupancy_map_partial.

(** C27 is false of static maps with an odd minimum index on axis 0: the file of a map with points in
    the last bundle makes the loader write outside of the array of family 1. *)
Theorem C27_static_odd_refuted :
  exists (c : config (word 48)) (l : list (map_action (P:=word 48))),
    config_ok c /\ kindc c = Static /\ Z.even (nth 0 (minc c) 0) = false /\ fits c l /\
    (let* m := cact_all c l (new_map c) in
     let* r := map_save pose_codec real_codec plain_format c all_open (in_order 4) (word_of 24 9) (word_of 8 5) m in
     Ok (fst r)) = Ok true /\
    (let* m := cact_all c l (new_map c) in
     let* r := map_save pose_codec real_codec plain_format c all_open (in_order 4) (word_of 24 9) (word_of 8 5) m in
     let* o := map_load no_junk pose_codec real_codec plain_format c all_open (in_order 4) (fun _ => 0) (snd r) in
     Ok (match o with Some _ => true | None => false end)) = UB.
Proof.
  exists (plain_static [2; 2] [-3; 0]), [Modify [-1; 1] (add_points 8)].
  split; [apply plain_static_ok|]. split; [reflexivity|]. split; [reflexivity|]. split; [fits_2d|].
  split; vm_compute; reflexivity.
Qed.
Print Assumptions C27_static_odd_refuted.

(** A reachable map for the positive theorems: points in the last bundle, and a later change there. *)
Example C27_static_example :
  let c := plain_static [2; 3] [-4; 3] in
  let l := [Modify [-2; 3] (add_points 3); Modify [-4; 7] (add_points 1); ExpandAll] in
  config_ok c /\ kindc c = Static /\ (0 < dimc c)%nat /\ Z.even (nth 0 (minc c) 0) = true /\
  Forall (fun z => 0 <= z < 2 ^ 64) (sizec c) /\ int_index (minc c) /\ int_index (static_max (sizec c) (minc c)) /\
  fits c l /\ complete (bin_count 2) (in_order 4) /\
  (let* m := cact_all c l (new_map c) in
   let* r := map_save pose_codec real_codec plain_format c all_open (in_order 4) (word_of 24 9) (word_of 8 5) m in
   let* o := map_load no_junk pose_codec real_codec plain_format c all_open (rev (in_order 4)) (fun _ => 0) (snd r) in
   match o with
   | Some x =>
       let* m2 := cact c (l_map x) (Modify [-2; 4] (add_points 2)) in
       let* bs := cbundles c m2 in
       let* a := cstored c m2 1 [-1; 2] in let* b := cstored c m2 3 [-2; 4] in
       Ok (fst r, word_bits (l_origin x), (min_bi m2, max_bi m2), length bs, option_map word_bits a, option_map word_bits b)
   | None => UB
   end) = Ok (true, 9, ([-4; 3], [-1; 8]), 5%nat, Some 2, Some 1).
Proof.
  split; [apply plain_static_ok|]. split; [reflexivity|]. split; [cbn; lia|]. split; [reflexivity|].
  split; [repeat constructor; lia|]. split; [repeat constructor; unfold INT_MIN, INT_MAX; lia|].
  split; [repeat constructor; unfold INT_MIN, INT_MAX; lia|]. split; [fits_2d|]. split; [apply in_order_complete|].
  vm_compute. reflexivity.
Qed.
(** The array of family 1 of the loaded map is smaller: a cell the original could hold is outside of it. *)
Example C27_static_example_smaller :
  let c := plain_static [2; 3] [-4; 3] in
  (let* a := cstored c (new_map c) 1 [0; 1] in Ok (option_map word_bits a)) = Ok None /\
  (let* r := map_save pose_codec real_codec plain_format c all_open (in_order 4) (word_of 24 9) (word_of 8 5) (new_map c) in
   let* o := map_load no_junk pose_codec real_codec plain_format c all_open (in_order 4) (fun _ => 0) (snd r) in
   match o with Some x => let* a := cstored c (l_map x) 1 [0; 1] in Ok (option_map word_bits a) | None => Ok None end) = UB.
Proof. split; vm_compute; reflexivity. Qed.
