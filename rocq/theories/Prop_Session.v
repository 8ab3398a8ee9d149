(** C91: maps that are built over several sessions. *)
From Coq Require Import String.
From Verif Require Import Base SeqModel IndexModel OctreeSpec MapModel BackendModel SysModel SysSpec Samples ConvSpec
  InsertModel SerialModel SerialSpec SerialFacts SerialSamples ThreadModel ThreadSpec ThreadFacts FileModel FileSamples
  YamlModel YamlSpec YamlFacts ExtentModel SampleModel GridModel QuerySpec SessionModel SessionSpec SessionFacts SessionStaticFacts
  Prop_Yaml.
Open Scope Z_scope.

(** C91, maps of plain distributions: however often and wherever the program is ended and started again from the
    saved map, with binary or YAML headers, any schedules and any memory, it gets the map, origin, resolution and
    answers of the program that is never ended. Missing: binary restarts before the first bundle, see below. *)
Theorem C91_distribution_map_partial {D Po T : Type} (junk : list Z -> nat -> list Z) (po : codec Po) (tp : codec T)
  (yo : converter Po) (yt : converter T) (cd : codec D) (c : config D) (steps : list (step (P:=D))) (origin : Po) (resolution : T) :
  codec_ok po -> codec_ok tp -> codec_ok cd ->
  y_decode yo (y_encode yo origin) = Some origin -> y_decode yt (y_encode yt resolution) = Some resolution ->
  config_ok c -> kindc c = Dynamic -> aminc c = cw_min -> amaxc c = cw_max -> (0 < dimc c)%nat ->
  fits c (actions steps) -> Forall (scheduled (bin_count (dimc c))) steps -> savable c (fun _ => True) steps ->
  exists m m', cact_all c (actions steps) (new_map c) = Ok m /\
    session junk po tp yo yt (distribution_format junk cd) c steps origin resolution =
      Ok {| l_origin := origin; l_resolution := resolution; l_map := m' |} /\
    same_content c c m m' /\ min_bi m' = min_bi m /\ max_bi m' = max_bi m /\
    same_queries c c m m' /\ (dimc c = 2%nat -> same_grids c c m m').
Proof.
  exact (fun Hpo Htp Hcd Ho Hr Hc Hk Ha Hb Hd Hf Hs Hsav =>
    sessions junk po tp yo yt _ (fun _ => True) (c_len cd) Hpo Htp (distribution_format_ok junk cd Hcd) (proj2 (proj2 Hcd))
      c Hc Hk Ha Hb Hd steps origin resolution Ho Hr Hf Hs Hsav).
Qed.
Print Assumptions C91_distribution_map_partial.

(** C91, occupancy maps whose values can be written wherever the program is ended. *)
Theorem C91_occupancy_map_partial {D Po T : Type} (junk : list Z -> nat -> list Z) (po : codec Po) (tp : codec T)
  (yo : converter Po) (yt : converter T) (cd : codec D) (dflt : D) (amount : D -> Z) (c : config (occ Z D))
  (steps : list (step (P:=occ Z D))) (origin : Po) (resolution : T) :
  codec_ok po -> codec_ok tp -> codec_ok cd -> amount dflt = 0 ->
  y_decode yo (y_encode yo origin) = Some origin -> y_decode yt (y_encode yt resolution) = Some resolution ->
  config_ok c -> kindc c = Dynamic -> aminc c = cw_min -> amaxc c = cw_max -> (0 < dimc c)%nat ->
  fits c (actions steps) -> Forall (scheduled (bin_count (dimc c))) steps -> savable c (storable amount) steps ->
  exists m m', cact_all c (actions steps) (new_map c) = Ok m /\
    session junk po tp yo yt (occupancy_format junk cd dflt amount) c steps origin resolution =
      Ok {| l_origin := origin; l_resolution := resolution; l_map := m' |} /\
    same_content c c m m' /\ min_bi m' = min_bi m /\ max_bi m' = max_bi m /\
    same_queries c c m m' /\ (dimc c = 2%nat -> same_grids c c m m').
Proof.
  exact (fun Hpo Htp Hcd H0 Ho Hr Hc Hk Ha Hb Hd Hf Hs Hsav =>
    sessions junk po tp yo yt _ (storable amount) (8 + c_len cd) Hpo Htp (occupancy_format_ok junk cd dflt amount Hcd H0)
      (occupancy_count junk cd dflt amount Hcd) c Hc Hk Ha Hb Hd steps origin resolution Ho Hr Hf Hs Hsav).
Qed.
Print Assumptions C91_occupancy_map_partial.

(** C91: for plain distributions it is enough that the program begins with an insertion. *)
Theorem C91_started {D : Type} (c : config D) (bi : idx) (f : D -> D) (later : list (step (P:=D))) :
  config_ok c -> fits c (actions (Do (Modify bi f) :: later)) -> savable c (fun _ => True) (Do (Modify bi f) :: later).
Proof. exact (fun Hc => started c Hc bi f later). Qed.
Print Assumptions C91_started.

(** Three insertions and a completion; the program is ended before each of the last three steps. *)
Definition three_restarts : list (step (P:=word 48)) :=
  [Do (Modify [0; 0] (add_points 3)); Restart (in_order 4) (rev (in_order 4)) (fun i => 5 + Z.of_nat i);
   Do (Modify [-5; 2] (add_points 1)); RestartYaml (rev (in_order 4)) (in_order 4) (fun _ => -1) [("name", Text "hall")]%string;
   Do ExpandAll; Restart (in_order 4) (in_order 4) (fun _ => 0);
   Do (Modify [0; 0] (add_points 1))].

(** C91 is false if a program with binary headers is ended before it has inserted anything: [save] of the empty map
    is undefined behaviour (C27). The same program with YAML headers is not. *)
Theorem C91_empty_refuted :
  exists (c : config (word 48)), config_ok c /\ kindc c = Dynamic /\
    (forall s1 s2 g later origin resolution,
       session no_junk pose_codec real_codec (word_converter 24) (word_converter 8) plain_format c (Restart s1 s2 g :: later) origin resolution = UB) /\
    (let* x := session no_junk pose_codec real_codec (word_converter 24) (word_converter 8) plain_format c
                 (RestartYaml (in_order 4) (in_order 4) (fun _ => 0) [] :: three_restarts) (word_of 24 9) (word_of 8 5) in
     let* bs := cbundles c (l_map x) in Ok (length bs)) = Ok 10%nat.
Proof.
  exists plain_map. split; [exact plain_map_ok|]. split; [reflexivity|]. split; [reflexivity|]. vm_compute. reflexivity.
Qed.
Print Assumptions C91_empty_refuted.

Example C91_example :
  codec_ok pose_codec /\ codec_ok real_codec /\ codec_ok (word_codec 48) /\
  y_decode (word_converter 24) (y_encode (word_converter 24) (word_of 24 9)) = Some (word_of 24 9) /\
  y_decode (word_converter 8) (y_encode (word_converter 8) (word_of 8 5)) = Some (word_of 8 5) /\
  config_ok plain_map /\ fits plain_map (actions three_restarts) /\ Forall (scheduled (bin_count 2)) three_restarts /\
  savable plain_map (fun _ => True) three_restarts /\
  (let* x := session no_junk pose_codec real_codec (word_converter 24) (word_converter 8) plain_format plain_map three_restarts
               (word_of 24 9) (word_of 8 5) in
   let* m := cact_all plain_map (actions three_restarts) (new_map plain_map) in
   let* bs := cbundles plain_map (l_map x) in let* bs' := cbundles plain_map m in
   let* a := cstored plain_map (l_map x) 0 [0; 0] in let* b := cstored plain_map m 0 [0; 0] in
   Ok (word_bits (l_origin x), word_bits (l_resolution x), (length bs, length bs'), (min_bi (l_map x), min_bi m),
       (max_bi (l_map x), max_bi m), (option_map word_bits a, option_map word_bits b))) =
  Ok (9, 5, (10%nat, 10%nat), ([-5; -1], [-5; -1]), ([1; 2], [1; 2]), (Some 4, Some 4)).
Proof.
  split; [apply word_codec_ok|]. split; [apply word_codec_ok|]. split; [apply word_codec_ok|].
  split; [apply (f_equal Some), word_of_bits|]. split; [apply (f_equal Some), word_of_bits|].
  split; [exact plain_map_ok|].
  assert (Hf : fits plain_map (actions three_restarts)).
  { unfold fits, three_restarts. cbn [actions expansions].
    repeat (first [apply Forall_nil | apply Forall_cons]); cbn [act_fits]; try exact I;
      (split; [reflexivity|]); cbn [kindc plain_map]; repeat (first [apply Forall_nil | apply Forall_cons]); lia. }
  split; [exact Hf|]. split.
  { pose proof (in_order_complete 4) as H.
    assert (H' : complete 4 (rev (in_order 4))) by (intros [|[|[|[|i]]]] Hi; [vm_compute; lia..|lia]).
    repeat (first [apply Forall_nil | apply Forall_cons]); cbn [scheduled]; auto. }
  split; [exact (C91_started plain_map [0; 0] _ _ plain_map_ok Hf)|]. vm_compute. reflexivity.
Qed.

(** C91, static maps of plain distributions: the same at every place, also before the first bundle. Missing: maps
    with an odd minimum index on axis 0, see below. *)
Theorem C91_static_distribution_map_partial {D Po T : Type} (junk : list Z -> nat -> list Z) (po : codec Po) (tp : codec T)
  (yo : converter Po) (yt : converter T) (cd : codec D) (c : config D) (steps : list (step (P:=D))) (origin : Po) (resolution : T) :
  codec_ok po -> codec_ok tp -> codec_ok cd ->
  y_decode yo (y_encode yo origin) = Some origin -> y_decode yt (y_encode yt resolution) = Some resolution ->
  config_ok c -> kindc c = Static -> (0 < dimc c)%nat -> Z.even (nth 0 (minc c) 0) = true ->
  Forall (fun z => 0 <= z < 2 ^ 64) (sizec c) -> int_index (minc c) -> int_index (static_max (sizec c) (minc c)) ->
  fits c (actions steps) -> Forall (scheduled (bin_count (dimc c))) steps ->
  exists m m', cact_all c (actions steps) (new_map c) = Ok m /\
    session junk po tp yo yt (distribution_format junk cd) c steps origin resolution =
      Ok {| l_origin := origin; l_resolution := resolution; l_map := m' |} /\
    same_content c c m m' /\ min_bi m' = min_bi m /\ max_bi m' = max_bi m /\
    same_queries c c m m' /\ (dimc c = 2%nat -> same_grids c c m m').
Proof.
  intros Hpo Htp Hcd Ho Hr Hc Hk Hd He Hsz Hmn Hmx Hf Hs.
  apply (static_sessions junk po tp yo yt _ (fun _ => True) (c_len cd) c steps origin resolution Hpo Htp
    (distribution_format_ok junk cd Hcd) (proj2 (proj2 Hcd)) Hc Hk Hd He Hsz Hmn Hmx Ho Hr Hf Hs).
  intros before [a|s1 s2 g|s1 s2 g n] after m _ _; auto.
Qed.
Print Assumptions C91_static_distribution_map_partial.

(** C91, static occupancy maps whose values can be written wherever the program is ended. *)
Theorem C91_static_occupancy_map_partial {D Po T : Type} (junk : list Z -> nat -> list Z) (po : codec Po) (tp : codec T)
  (yo : converter Po) (yt : converter T) (cd : codec D) (dflt : D) (amount : D -> Z) (c : config (occ Z D))
  (steps : list (step (P:=occ Z D))) (origin : Po) (resolution : T) :
  codec_ok po -> codec_ok tp -> codec_ok cd -> amount dflt = 0 ->
  y_decode yo (y_encode yo origin) = Some origin -> y_decode yt (y_encode yt resolution) = Some resolution ->
  config_ok c -> kindc c = Static -> (0 < dimc c)%nat -> Z.even (nth 0 (minc c) 0) = true ->
  Forall (fun z => 0 <= z < 2 ^ 64) (sizec c) -> int_index (minc c) -> int_index (static_max (sizec c) (minc c)) ->
  fits c (actions steps) -> Forall (scheduled (bin_count (dimc c))) steps -> writable c (storable amount) steps ->
  exists m m', cact_all c (actions steps) (new_map c) = Ok m /\
    session junk po tp yo yt (occupancy_format junk cd dflt amount) c steps origin resolution =
      Ok {| l_origin := origin; l_resolution := resolution; l_map := m' |} /\
    same_content c c m m' /\ min_bi m' = min_bi m /\ max_bi m' = max_bi m /\
    same_queries c c m m' /\ (dimc c = 2%nat -> same_grids c c m m').
Proof.
  exact (fun Hpo Htp Hcd H0 Ho Hr Hc Hk Hd He Hsz Hmn Hmx Hf Hs Hw =>
    static_sessions junk po tp yo yt _ (storable amount) (8 + c_len cd) c steps origin resolution Hpo Htp
      (occupancy_format_ok junk cd dflt amount Hcd H0) (occupancy_count junk cd dflt amount Hcd) Hc Hk Hd He Hsz Hmn Hmx Ho Hr Hf Hs Hw).
Qed.
Print Assumptions C91_static_occupancy_map_partial.

(** Restarts of a static map before and between insertions, the last ones in the last bundle of the loader's arrays. *)
Definition static_restarts : list (step (P:=word 48)) :=
  [Restart (in_order 4) (rev (in_order 4)) (fun i => 5 + Z.of_nat i); Do (Modify [-2; 3] (add_points 3));
   RestartYaml (rev (in_order 4)) (in_order 4) (fun _ => -1) [("name", Text "hall")]%string; Do (Modify [-4; 7] (add_points 1));
   Restart (in_order 4) (in_order 4) (fun _ => 0); Do ExpandAll; Restart (in_order 4) (in_order 4) (fun _ => 0);
   Do (Modify [-2; 7] (add_points 2))].

(** C91 is false of static maps with an odd minimum index on axis 0: what is inserted in the last bundle is saved
    and cannot be loaded (C27). *)
Theorem C91_static_odd_refuted :
  exists (c : config (word 48)) (steps : list (step (P:=word 48))),
    config_ok c /\ kindc c = Static /\ Z.even (nth 0 (minc c) 0) = false /\ fits c (actions steps) /\
    Forall (scheduled (bin_count (dimc c))) steps /\
    (let* m := cact_all c (actions steps) (new_map c) in let* bs := cbundles c m in Ok (length bs)) = Ok 1%nat /\
    (let* x := session no_junk pose_codec real_codec (word_converter 24) (word_converter 8) plain_format c steps
                 (word_of 24 9) (word_of 8 5) in
     let* bs := cbundles c (l_map x) in Ok (length bs)) = UB.
Proof.
  exists (plain_static [2; 2] [-3; 0]), [Do (Modify [-1; 1] (add_points 8)); Restart (in_order 4) (in_order 4) (fun _ => 0)].
  split; [apply plain_static_ok|]. split; [reflexivity|]. split; [reflexivity|]. split; [fits_2d|].
  split; [pose proof (in_order_complete 4); repeat (first [apply Forall_nil | apply Forall_cons]); cbn [scheduled]; auto|].
  split; vm_compute; reflexivity.
Qed.
Print Assumptions C91_static_odd_refuted.

Example C91_static_example :
  let c := plain_static [2; 3] [-4; 3] in
  config_ok c /\ kindc c = Static /\ (0 < dimc c)%nat /\ Z.even (nth 0 (minc c) 0) = true /\
  Forall (fun z => 0 <= z < 2 ^ 64) (sizec c) /\ int_index (minc c) /\ int_index (static_max (sizec c) (minc c)) /\
  fits c (actions static_restarts) /\ Forall (scheduled (bin_count 2)) static_restarts /\
  (let* x := session no_junk pose_codec real_codec (word_converter 24) (word_converter 8) plain_format c static_restarts
               (word_of 24 9) (word_of 8 5) in
   let* m := cact_all c (actions static_restarts) (new_map c) in
   let* bs := cbundles c (l_map x) in let* bs' := cbundles c m in
   let* a := cstored c (l_map x) 1 [-1; 3] in let* b := cstored c m 1 [-1; 3] in
   Ok (word_bits (l_origin x), word_bits (l_resolution x), (length bs, length bs'), (min_bi (l_map x), min_bi m),
       (max_bi (l_map x), max_bi m), (option_map word_bits a, option_map word_bits b))) =
  Ok (9, 5, (6%nat, 6%nat), ([-4; 3], [-4; 3]), ([-1; 8], [-1; 8]), (Some 2, Some 2)).
Proof.
  split; [apply plain_static_ok|]. split; [reflexivity|]. split; [cbn; lia|]. split; [reflexivity|].
  split; [repeat constructor; lia|]. split; [repeat constructor; unfold INT_MIN, INT_MAX; lia|].
  split; [repeat constructor; unfold INT_MIN, INT_MAX; lia|]. split; [fits_2d|].
  split.
  { pose proof (in_order_complete 4) as H.
    assert (H' : complete 4 (rev (in_order 4))) by (intros [|[|[|[|i]]]] Hi; [vm_compute; lia..|lia]).
    repeat (first [apply Forall_nil | apply Forall_cons]); cbn [scheduled]; auto. }
  vm_compute. reflexivity.
Qed.
