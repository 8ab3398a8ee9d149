(** C84: restored and converted maps answer every query like the originals. *)
From Coq Require Import QArith.
From Verif Require Import Base SeqModel IndexModel OctreeSpec MapModel BackendModel SysModel SysSpec Samples
  ConvModel ConvSpec ConvFacts InsertModel SerialModel SerialSpec SerialFacts SerialSamples ThreadModel ThreadSpec ThreadFacts
  FileModel FileFacts FileSamples ExtentModel SampleModel GridModel QuerySpec QueryFacts QueryTop Prop_Conv Prop_File.
Open Scope Z_scope.

(** C84, a reloaded map of plain distributions: the plain and the bilinear score of every point in exact and in
    floating-point arithmetic and the exported grids are those of the saved map, at once and after any common
    later history, for any schedule of the threads. Missing: the maps that C27 excludes. *)
Theorem C84_loaded_partial {D Po T : Type} (junk : list Z -> nat -> list Z) (po : codec Po) (tp : codec T) (cd : codec D)
  (c : config D) (l : list (map_action (P:=D))) (s1 s2 : list nat) (g : nat -> Z) (origin : Po) (resolution : T) (m : cmap c) :
  codec_ok po -> codec_ok tp -> codec_ok cd ->
  config_ok c -> kindc c = Dynamic -> aminc c = cw_min -> amaxc c = cw_max -> (0 < dimc c)%nat ->
  fits c l -> cact_all c l (new_map c) = Ok m -> map_empty c m = false ->
  complete (bin_count (dimc c)) s1 -> complete (bin_count (dimc c)) s2 ->
  let fmt := distribution_format junk cd in
  exists d m', map_save po tp fmt c all_open s1 origin resolution m = Ok (true, Some d) /\
    map_load junk po tp fmt c all_open s2 g (Some d) =
      Ok (Some {| l_origin := origin; l_resolution := resolution; l_map := m' |}) /\
    same_queries c c m m' /\ (dimc c = 2%nat -> same_grids c c m m') /\
    (forall l2, fits c (l ++ l2) ->
       exists m2 m2', cact_all c l2 m = Ok m2 /\ cact_all c l2 m' = Ok m2' /\
         same_queries c c m2 m2' /\ (dimc c = 2%nat -> same_grids c c m2 m2')).
Proof.
  exact (fun Hpo Htp Hcd Hc Hk Hmin Hmax Hdim Hf Hrun He C1 C2 =>
    loaded_dynamic junk po tp _ (fun _ => True) (c_len cd) Hpo Htp (distribution_format_ok junk cd Hcd) (proj2 (proj2 Hcd))
      c l s1 s2 g origin resolution m Hc Hk Hmin Hmax Hdim Hf Hrun He (fun _ _ _ _ => I) C1 C2).
Qed.
Print Assumptions C84_loaded_partial.

(** C84, occupancy maps. *)
Theorem C84_loaded_occupancy_partial {D Po T : Type} (junk : list Z -> nat -> list Z) (po : codec Po) (tp : codec T) (cd : codec D)
  (dflt : D) (amount : D -> Z) (c : config (occ Z D)) (l : list (map_action (P:=occ Z D))) (s1 s2 : list nat) (g : nat -> Z)
  (origin : Po) (resolution : T) (m : cmap c) :
  codec_ok po -> codec_ok tp -> codec_ok cd -> amount dflt = 0 ->
  config_ok c -> kindc c = Dynamic -> aminc c = cw_min -> amaxc c = cw_max -> (0 < dimc c)%nat ->
  fits c l -> cact_all c l (new_map c) = Ok m -> map_empty c m = false ->
  (forall i j v, has_value c m i j v -> storable amount v) ->
  complete (bin_count (dimc c)) s1 -> complete (bin_count (dimc c)) s2 ->
  let fmt := occupancy_format junk cd dflt amount in
  exists d m', map_save po tp fmt c all_open s1 origin resolution m = Ok (true, Some d) /\
    map_load junk po tp fmt c all_open s2 g (Some d) =
      Ok (Some {| l_origin := origin; l_resolution := resolution; l_map := m' |}) /\
    same_queries c c m m' /\ (dimc c = 2%nat -> same_grids c c m m') /\
    (forall l2, fits c (l ++ l2) ->
       exists m2 m2', cact_all c l2 m = Ok m2 /\ cact_all c l2 m' = Ok m2' /\
         same_queries c c m2 m2' /\ (dimc c = 2%nat -> same_grids c c m2 m2')).
Proof.
  exact (fun Hpo Htp Hcd H0 Hc Hk Hmin Hmax Hdim Hf Hrun He Hok C1 C2 =>
    loaded_dynamic junk po tp _ (storable amount) (8 + c_len cd) Hpo Htp (occupancy_format_ok junk cd dflt amount Hcd H0)
      (occupancy_count junk cd dflt amount Hcd)
      c l s1 s2 g origin resolution m Hc Hk Hmin Hmax Hdim Hf Hrun He Hok C1 C2).
Qed.
Print Assumptions C84_loaded_occupancy_partial.

(** C84, static maps with an even minimum index on axis 0, the empty one included. *)
Theorem C84_loaded_static_partial {D Po T : Type} (junk : list Z -> nat -> list Z) (po : codec Po) (tp : codec T) (cd : codec D)
  (c : config D) (l : list (map_action (P:=D))) (s1 s2 : list nat) (g : nat -> Z) (origin : Po) (resolution : T) (m : cmap c) :
  codec_ok po -> codec_ok tp -> codec_ok cd ->
  config_ok c -> kindc c = Static -> (0 < dimc c)%nat -> Z.even (nth 0 (minc c) 0) = true ->
  Forall (fun z => 0 <= z < 2 ^ 64) (sizec c) -> int_index (minc c) -> int_index (static_max (sizec c) (minc c)) ->
  fits c l -> cact_all c l (new_map c) = Ok m ->
  complete (bin_count (dimc c)) s1 -> complete (bin_count (dimc c)) s2 ->
  let fmt := distribution_format junk cd in
  exists d m', map_save po tp fmt c all_open s1 origin resolution m = Ok (true, Some d) /\
    map_load junk po tp fmt c all_open s2 g (Some d) =
      Ok (Some {| l_origin := origin; l_resolution := resolution; l_map := m' |}) /\
    same_queries c c m m' /\ (dimc c = 2%nat -> same_grids c c m m') /\
    (forall l2, fits c (l ++ l2) ->
       exists m2 m2', cact_all c l2 m = Ok m2 /\ cact_all c l2 m' = Ok m2' /\
         same_queries c c m2 m2' /\ (dimc c = 2%nat -> same_grids c c m2 m2')).
Proof.
  exact (fun Hpo Htp Hcd Hc Hk Hdim He Hs Hmn Hmx Hf Hrun C1 C2 =>
    loaded_static junk po tp _ (fun _ => True) (c_len cd) Hpo Htp (distribution_format_ok junk cd Hcd) (proj2 (proj2 Hcd))
      c l s1 s2 g origin resolution m Hc Hk Hdim He Hs Hmn Hmx Hf Hrun (fun _ _ _ _ => I) C1 C2).
Qed.
Print Assumptions C84_loaded_static_partial.

(** C84, static occupancy maps. *)
Theorem C84_loaded_static_occupancy_partial {D Po T : Type} (junk : list Z -> nat -> list Z) (po : codec Po) (tp : codec T) (cd : codec D)
  (dflt : D) (amount : D -> Z) (c : config (occ Z D)) (l : list (map_action (P:=occ Z D))) (s1 s2 : list nat) (g : nat -> Z)
  (origin : Po) (resolution : T) (m : cmap c) :
  codec_ok po -> codec_ok tp -> codec_ok cd -> amount dflt = 0 ->
  config_ok c -> kindc c = Static -> (0 < dimc c)%nat -> Z.even (nth 0 (minc c) 0) = true ->
  Forall (fun z => 0 <= z < 2 ^ 64) (sizec c) -> int_index (minc c) -> int_index (static_max (sizec c) (minc c)) ->
  fits c l -> cact_all c l (new_map c) = Ok m ->
  (forall i j v, has_value c m i j v -> storable amount v) ->
  complete (bin_count (dimc c)) s1 -> complete (bin_count (dimc c)) s2 ->
  let fmt := occupancy_format junk cd dflt amount in
  exists d m', map_save po tp fmt c all_open s1 origin resolution m = Ok (true, Some d) /\
    map_load junk po tp fmt c all_open s2 g (Some d) =
      Ok (Some {| l_origin := origin; l_resolution := resolution; l_map := m' |}) /\
    same_queries c c m m' /\ (dimc c = 2%nat -> same_grids c c m m') /\
    (forall l2, fits c (l ++ l2) ->
       exists m2 m2', cact_all c l2 m = Ok m2 /\ cact_all c l2 m' = Ok m2' /\
         same_queries c c m2 m2' /\ (dimc c = 2%nat -> same_grids c c m2 m2')).
Proof.
  exact (fun Hpo Htp Hcd H0 Hc Hk Hdim He Hs Hmn Hmx Hf Hrun Hok C1 C2 =>
    loaded_static junk po tp _ (storable amount) (8 + c_len cd) Hpo Htp (occupancy_format_ok junk cd dflt amount Hcd H0)
      (occupancy_count junk cd dflt amount Hcd)
      c l s1 s2 g origin resolution m Hc Hk Hdim He Hs Hmn Hmx Hf Hrun Hok C1 C2).
Qed.
Print Assumptions C84_loaded_static_occupancy_partial.

(** C84, conversion of a non-empty dynamic map to a static one and back: the static map has the scores of
    the dynamic one inside and outside of its box, within the 16 bits per axis of the dynamic map; the
    map converted back has its grids, too. *)
Theorem C84_converted_partial {P : Type} (c : config P) (l : list (map_action (P:=P))) (g : nat -> Z) :
  config_ok c -> kindc c = Dynamic -> aminc c = cw_min -> amaxc c = cw_max -> (0 < dimc c)%nat -> fits c l ->
  exists m, cact_all c l (new_map c) = Ok m /\
  (map_empty c m = false ->
   exists size min m' m'',
    to_static convert_distribution c m = Ok (existT _ (size, min) m') /\ same_queries c (static_like c size min) m m' /\
    to_dynamic convert_distribution (static_like c size min) g m' = Ok m'' /\
    same_queries c (dynamic_like (static_like c size min) g) m m'' /\
    (dimc c = 2%nat -> same_grids c (dynamic_like (static_like c size min) g) m m'')).
Proof.
  intros Hc Hk Hmin Hmax Hdim Hf. destruct (distribution_trip_twin c l g Hc Hk Hmin Hmax Hdim Hf) as [m [E H]].
  exists m. split; [exact E|]. intros He. apply (converted_queries _ c l); auto.
Qed.
Print Assumptions C84_converted_partial.
Theorem C84_converted_occupancy_partial {S : Type} (amount : S -> Z) (s_merge : S -> S -> S) (c : config (occ Z S))
  (l : list (map_action (P:=occ Z S))) (g : nat -> Z) :
  (forall a b, amount (s_merge a b) = amount a + amount b) ->
  config_ok c -> kindc c = Dynamic -> aminc c = cw_min -> amaxc c = cw_max -> (0 < dimc c)%nat ->
  defaultc c = Build_occ 0 None -> fits c l -> Forall (occupancy_action amount s_merge) l ->
  exists m, cact_all c l (new_map c) = Ok m /\
  (map_empty c m = false ->
   let conv := convert_occupancy 0 (fun n => 0 <? n) amount in
   exists size min m' m'',
    to_static conv c m = Ok (existT _ (size, min) m') /\ same_queries c (static_like c size min) m m' /\
    to_dynamic conv (static_like c size min) g m' = Ok m'' /\
    same_queries c (dynamic_like (static_like c size min) g) m m'' /\
    (dimc c = 2%nat -> same_grids c (dynamic_like (static_like c size min) g) m m'')).
Proof.
  intros Ha Hc Hk Hmin Hmax Hdim Hdef Hf HF. destruct (occupancy_trip_twin amount s_merge c l g Ha Hc Hk Hmin Hmax Hdim Hdef Hf HF) as [m [E H]].
  exists m. split; [exact E|]. intros He conv. apply (converted_queries _ c l); auto.
Qed.
Print Assumptions C84_converted_occupancy_partial.
(** C84, any static map whose box has 16-bit indices. *)
Theorem C84_static_to_dynamic_partial {P : Type} (c : config P) (l : list (map_action (P:=P))) (g : nat -> Z) :
  config_ok c -> kindc c = Static -> fits c l ->
  (forall d, (d < dimc c)%nat -> -32768 <= nth d (minc c) 0 /\ nth d (minc c) 0 + 2 * nth d (sizec c) 0 - 2 <= 32767) ->
  exists m m', cact_all c l (new_map c) = Ok m /\ to_dynamic convert_distribution c g m = Ok m' /\
    same_queries c (dynamic_like c g) m m'.
Proof.
  intros Hc Hk Hf Hr. destruct (static_to_dynamic_twin c l g Hc Hk Hf Hr) as [m [m' [E [E' [_ HT]]]]].
  exists m, m'. split; [exact E|]. split; [exact E'|]. apply (reached_queries c _ Hc l); assumption.
Qed.
Print Assumptions C84_static_to_dynamic_partial.

(** Scores and pixels of a saved and loaded map, and of a map converted to a static one. *)
Definition bits_at (w : word 48) (p : list Q) : Q := (inject_Z (word_bits w) * nth 0 p 0)%Q.
Example C84_loaded_example :
  config_ok plain_map /\ fits plain_map plain_history /\ toBundleIndex 1 [1 # 4; 5 # 4] = Ok [0; 1] /\
  told_apart plain_map [0; 1] /\
  (let* m := cact_all plain_map plain_history (new_map plain_map) in
   let* r := map_save pose_codec real_codec plain_format plain_map all_open (in_order 4) (word_of 24 9) (word_of 8 5) m in
   let* o := map_load no_junk pose_codec real_codec plain_format plain_map all_open (rev (in_order 4)) (fun _ => 0) (snd r) in
   match o with
   | Some x =>
       let* s := sampleNonNormalized plain_map 1 bits_at m [1 # 4; 5 # 4] in
       let* s' := sampleNonNormalized plain_map 1 bits_at (l_map x) [1 # 4; 5 # 4] in
       let* t := sampleNonNormalizedBilinear plain_map 1 bits_at m [1 # 4; 5 # 4] in
       let* t' := sampleNonNormalizedBilinear plain_map 1 bits_at (l_map x) [1 # 4; 5 # 4] in
       let* g := to_grid plain_map 1 (1 # 2) bits_at false false (-1)%Q m in
       let* g' := to_grid plain_map 1 (1 # 2) bits_at false false (-1)%Q (l_map x) in
       Ok (map_empty plain_map m, Qred s, Qred s', Qred t, Qred t', (g_width (snd g), g_height (snd g)), (g_width (snd g'), g_height (snd g')),
           Qred (g_at (snd g) 13 5), Qred (g_at (snd g') 13 5))
   | None => UB
   end) = Ok (false, (1 # 2)%Q, (1 # 2)%Q, (3 # 4)%Q, (3 # 4)%Q, (14, 8), (14, 8), (3 # 2)%Q, (3 # 2)%Q).
Proof.
  split; [exact plain_map_ok|]. split; [exact plain_history_fits|]. split; [reflexivity|].
  split; [split; [reflexivity|intros _; repeat constructor; lia]|]. vm_compute. reflexivity.
Qed.
Definition size_at (v : list Z) (p : list Q) : Q := (inject_Z (Z.of_nat (length v)) * nth 0 p 0)%Q.
Example C84_converted_example :
  config_ok log_dynamic /\ fits log_dynamic conv_actions /\
  (let* m := cact_all log_dynamic conv_actions (new_map log_dynamic) in
   let* r := to_static convert_distribution log_dynamic m in
   let (b, m') := r in
   let c' := static_like log_dynamic (fst b) (snd b) in
   let* s := sampleNonNormalized log_dynamic 1 size_at m [5 # 4; 9 # 2] in
   let* s' := sampleNonNormalized c' 1 size_at m' [5 # 4; 9 # 2] in
   let* t := sampleNonNormalizedBilinear log_dynamic 1 size_at m [5 # 4; 9 # 2] in
   let* t' := sampleNonNormalizedBilinear c' 1 size_at m' [5 # 4; 9 # 2] in
   let* f := sampleNonNormalizedBilinear log_dynamic 1 size_at m [100 # 1; 9 # 2] in
   let* f' := sampleNonNormalizedBilinear c' 1 size_at m' [100 # 1; 9 # 2] in
   Ok (map Qred [s; s'; t; t'; f; f'])) = Ok [15 # 4; 15 # 4; 15 # 4; 15 # 4; 0; 0]%Q.
Proof.
  split; [exact log_dynamic_ok|]. split; [unfold conv_actions; fits_2d|]. vm_compute. reflexivity.
Qed.

(** C84 is false of weighted occupancy maps, because of C24: a point of the last bundle has a positive score
    before and none after loading. *)
Definition has_hits (o : occ (word 8) (word 72)) (p : list Q) : Q := match hits o with Some _ => 1%Q | None => 0%Q end.
Theorem C84_weighted_refuted :
  exists (c : config (occ (word 8) (word 72))) (l : list (map_action (P:=occ (word 8) (word 72)))) (p : list Q),
    let fmt := weighted_format no_junk (word_codec 8) (word_codec 72) (word_of 72 0) word_count in
    kindc c = Dynamic /\ fits c l /\
    (let* m := cact_all c l (new_map c) in
     let* r := map_save pose_codec real_codec fmt c all_open (in_order 2) (word_of 24 1) (word_of 8 1) m in
     let* o := map_load no_junk pose_codec real_codec fmt c all_open (in_order 2) (fun _ => 0) (snd r) in
     match o with
     | Some x =>
         let* s := sampleNonNormalized c 1 has_hits m p in
         let* s' := sampleNonNormalized c 1 has_hits (l_map x) p in
         Ok (fst r, Qred s, Qred s')
     | None => UB
     end) = Ok (true, 1%Q, 0%Q).
Proof.
  exists weighted_map, weighted_history, [45 # 2]%Q. split; [reflexivity|]. split.
  - unfold fits, weighted_history. apply Forall_map, Forall_forall. intros k Hk. apply in_seq in Hk. cbn [act_fits].
    split; [reflexivity|]. cbn [kindc weighted_map]. repeat (first [apply Forall_nil | apply Forall_cons]).
    replace (expansions _) with 0 by reflexivity. lia.
  - vm_compute. reflexivity.
Qed.
Print Assumptions C84_weighted_refuted.

(** C84 is false of points beyond 16 bits: the dynamic map answers for the bundle 65536 indices away (C06), the
    static map made of it does not. *)
Theorem C84_far_point_refuted :
  exists (l : list (map_action (P:=list Z))) (p : list Q), fits log_dynamic l /\
    toBundleIndex 1 p = Ok [65537; 4] /\
    (let* m := cact_all log_dynamic l (new_map log_dynamic) in
     let* r := to_static convert_distribution log_dynamic m in
     let (b, m') := r in
     let* s := sampleNonNormalized log_dynamic 1 (fun v _ => inject_Z (Z.of_nat (length v))) m p in
     let* s' := sampleNonNormalized (static_like log_dynamic (fst b) (snd b)) 1 (fun v _ => inject_Z (Z.of_nat (length v))) m' p in
     Ok (Qred s, Qred s')) = Ok (3%Q, 0%Q).
Proof.
  exists conv_actions, [131075 # 2; 9 # 2]%Q. split; [unfold conv_actions; fits_2d|]. split; [reflexivity|]. vm_compute. reflexivity.
Qed.
Print Assumptions C84_far_point_refuted.
