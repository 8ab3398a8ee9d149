(** C27: a saved map is restored. *)
From Verif Require Import Base SeqModel IndexModel OctreeSpec OctreeModel MapModel BackendModel SysModel SysSpec Samples
  ConvSpec InsertModel SerialModel SerialSpec SerialFacts SerialSamples ThreadModel ThreadSpec ThreadFacts FileModel FileFacts FileSamples.
Open Scope Z_scope.

(** C27, plain distributions: every reachable non-empty dynamic map, any schedule of the threads on
    either side. Origin, resolution, index range, bundles and distributions are the same, every slot of
    every bundle refers to a distribution of the loaded map, and every further history behaves alike.
    Missing: the empty map, see below. *)
Theorem C27_distribution_map_partial {D Po T : Type} (junk : list Z -> nat -> list Z) (po : codec Po) (tp : codec T) (cd : codec D)
  (c : config D) (l : list (map_action (P:=D))) (s1 s2 : list nat) (g : nat -> Z) (origin : Po) (resolution : T) (m : cmap c) :
  codec_ok po -> codec_ok tp -> codec_ok cd ->
  config_ok c -> kindc c = Dynamic -> aminc c = cw_min -> amaxc c = cw_max -> (0 < dimc c)%nat ->
  fits c l -> cact_all c l (new_map c) = Ok m -> map_empty c m = false ->
  complete (bin_count (dimc c)) s1 -> complete (bin_count (dimc c)) s2 ->
  let fmt := distribution_format junk cd in
  exists d m', map_save po tp fmt c all_open s1 origin resolution m = Ok (true, Some d) /\
    map_load junk po tp fmt c all_open s2 g (Some d) =
      Ok (Some {| l_origin := origin; l_resolution := resolution; l_map := m' |}) /\
    same_content c c m m' /\ min_bi m' = min_bi m /\ max_bi m' = max_bi m /\
    (forall bi sl, has_bundle c m' bi sl -> length sl = (2 ^ dimc c)%nat /\
       forall i, (i < 2 ^ dimc c)%nat -> exists j v, nth_error sl i = Some (Some j) /\ has_value c m' i j v) /\
    (forall l2, fits c (l ++ l2) ->
       exists m2 m2', cact_all c l2 m = Ok m2 /\ cact_all c l2 m' = Ok m2' /\ same_content c c m2 m2' /\
         min_bi m2' = min_bi m2 /\ max_bi m2' = max_bi m2).
Proof.
  exact (fun Hpo Htp Hcd Hc Hk Hmin Hmax Hdim Hf Hrun He C1 C2 =>
    restore_map junk po tp _ (fun _ => True) (c_len cd) Hpo Htp (distribution_format_ok junk cd Hcd) (proj2 (proj2 Hcd))
      c l s1 s2 g origin resolution m Hc Hk Hmin Hmax Hdim Hf Hrun He (fun _ _ _ _ => I) C1 C2).
Qed.

(** C27, occupancy distributions. *)
Theorem C27_occupancy_map_partial {D Po T : Type} (junk : list Z -> nat -> list Z) (po : codec Po) (tp : codec T) (cd : codec D)
  (dflt : D) (amount : D -> Z) (c : config (occ Z D)) (l : list (map_action (P:=occ Z D))) (s1 s2 : list nat) (g : nat -> Z)
  (origin : Po) (resolution : T) (m : cmap c) :
  codec_ok po -> codec_ok tp -> codec_ok cd -> amount dflt = 0 ->
  config_ok c -> kindc c = Dynamic -> aminc c = cw_min -> amaxc c = cw_max -> (0 < dimc c)%nat ->
  fits c l -> cact_all c l (new_map c) = Ok m -> map_empty c m = false ->
  (forall i j v, has_value c m i j v -> storable amount v) ->
  complete (bin_count (dimc c)) s1 -> complete (bin_count (dimc c)) s2 ->
  let fmt := occupancy_format junk cd dflt amount in
  exists d m', map_save po tp fmt c all_open s1 origin resolution m = Ok (true, Some d) /\
    map_load junk po tp fmt c all_open s2 g (Some d) =
      Ok (Some {| l_origin := origin; l_resolution := resolution; l_map := m' |}) /\
    same_content c c m m' /\ min_bi m' = min_bi m /\ max_bi m' = max_bi m /\
    (forall bi sl, has_bundle c m' bi sl -> length sl = (2 ^ dimc c)%nat /\
       forall i, (i < 2 ^ dimc c)%nat -> exists j v, nth_error sl i = Some (Some j) /\ has_value c m' i j v) /\
    (forall l2, fits c (l ++ l2) ->
       exists m2 m2', cact_all c l2 m = Ok m2 /\ cact_all c l2 m' = Ok m2' /\ same_content c c m2 m2' /\
         min_bi m2' = min_bi m2 /\ max_bi m2' = max_bi m2).
Proof.
  exact (fun Hpo Htp Hcd H0 Hc Hk Hmin Hmax Hdim Hf Hrun He Hok C1 C2 =>
    restore_map junk po tp _ (storable amount) (8 + c_len cd) Hpo Htp (occupancy_format_ok junk cd dflt amount Hcd H0)
      (occupancy_count junk cd dflt amount Hcd)
      c l s1 s2 g origin resolution m Hc Hk Hmin Hmax Hdim Hf Hrun He Hok C1 C2).
Qed.
Print Assumptions C27_distribution_map_partial.
Print Assumptions C27_occupancy_map_partial.

(** C27 is false of the empty map: [getSize] overflows when the header is written. *)
Theorem C27_empty_map_refuted :
  exists (c : config (word 48)), config_ok c /\ kindc c = Dynamic /\ map_empty c (new_map c) = true /\
    forall sched origin resolution,
      map_save pose_codec real_codec plain_format c all_open sched origin resolution (new_map c) = UB.
Proof. exists plain_map. split; [exact plain_map_ok|]. split; [reflexivity|]. split; [reflexivity|]. reflexivity. Qed.
Print Assumptions C27_empty_map_refuted.

(** C27 is false of weighted occupancy maps, because of C24: twelve cells per storage are saved
    and eleven of them loaded; one slot of each of two bundles is null. *)
Definition weighted_map : config (occ (word 8) (word 72)) :=
  {| dimc := 1; kindc := Dynamic; sizec := []; minc := []; garbagec := fun i => 0;
     aminc := cw_min; amaxc := cw_max; offsetsc := [[-1]; [1]]; defaultc := Build_occ (word_of 8 0) None;
     mergec := fun a b => a; expandc := fun o => false |}.
Definition weighted_history : list (map_action (P:=occ (word 8) (word 72))) :=
  map (fun k => Modify [2 * Z.of_nat k] (fun _ => Build_occ (word_of 8 3) (Some (word_of 72 (Z.of_nat k + 1))))) (seq 0 12).
Theorem C27_weighted_map_refuted :
  exists (c : config (occ (word 8) (word 72))) (l : list (map_action (P:=occ (word 8) (word 72)))) (bi : idx),
    let fmt := weighted_format no_junk (word_codec 8) (word_codec 72) (word_of 72 0) word_count in
    kindc c = Dynamic /\ fits c l /\
    (let* m := cact_all c l (new_map c) in
     let* b := cbundle c m bi in
     let* r := map_save pose_codec real_codec fmt c all_open (in_order 2) (word_of 24 1) (word_of 8 1) m in
     let* o := map_load no_junk pose_codec real_codec fmt c all_open (in_order 2) (fun _ => 0) (snd r) in
     match o with
     | Some x => let* b' := cbundle c (l_map x) bi in Ok (fst r, option_map slots b, option_map slots b')
     | None => UB
     end) = Ok (true, Some [Some [11]; Some [11]], Some [None; None]).
Proof.
  exists weighted_map, weighted_history, [22]. split; [reflexivity|]. split.
  - unfold fits, weighted_history. apply Forall_map, Forall_forall. intros k Hk. apply in_seq in Hk. cbn [act_fits].
    split; [reflexivity|]. cbn [kindc weighted_map]. repeat (first [apply Forall_nil | apply Forall_cons]).
    replace (expansions _) with 0 by reflexivity. lia.
  - vm_compute. reflexivity.
Qed.
Print Assumptions C27_weighted_map_refuted.

(** C47 is false: the disk takes only the first 60 bytes of one file, [save] reports success, [load] too,
    with fewer distributions. *)
Definition disk_full : environment :=
  {| no_directory := None; open_header := true; open_store := fun _ => true;
     keep_header := fun bs => bs; keep_store := fun i bs => if (i =? 2)%nat then firstn 56 bs else bs |}.
Theorem C47_write_error_unreported_refuted :
  exists (c : config (word 48)) (l : list (map_action (P:=word 48))) (e : environment),
    config_ok c /\ fits c l /\
    (let* m := cact_all c l (new_map c) in
     let* r := map_save pose_codec real_codec plain_format c e (in_order 4) (word_of 24 9) (word_of 8 5) m in
     let* o := map_load no_junk pose_codec real_codec plain_format c all_open (in_order 4) (fun _ => 0) (snd r) in
     match o with
     | Some x => let* a := cdists c m 2 in let* b := cdists c (l_map x) 2 in Ok (fst r, length a, length b)
     | None => UB
     end) = Ok (true, 5%nat, 1%nat).
Proof.
  exists plain_map, plain_history, disk_full. split; [exact plain_map_ok|]. split; [exact plain_history_fits|].
  vm_compute. reflexivity.
Qed.
(** C47: whatever arrives on the disk, [save] reports success if the files can be opened. *)
Theorem C47_result_ignores_writes {D Po T : Type} (po : codec Po) (tp : codec T) (fmt : format D) (c : config D)
  (kh : list Z -> list Z) (ks : nat -> list Z -> list Z) (sched : list nat) (origin : Po) (resolution : T) (m : cmap c) (d : directory) :
  map_save po tp fmt c all_open sched origin resolution m = Ok (true, Some d) ->
  exists d', map_save po tp fmt c {| no_directory := None; open_header := true; open_store := fun _ => true;
                                     keep_header := kh; keep_store := ks |} sched origin resolution m = Ok (true, Some d').
Proof. exact (save_ignores po tp fmt c kh ks sched origin resolution m d). Qed.
Print Assumptions C47_write_error_unreported_refuted.
Print Assumptions C47_result_ignores_writes.

(** A reachable map for the positive theorems, with a further insertion after loading. *)
Example C27_example :
  codec_ok pose_codec /\ codec_ok real_codec /\ codec_ok (word_codec 48) /\ config_ok plain_map /\
  fits plain_map plain_history /\ complete (bin_count 2) (in_order 4) /\
  (let* m := cact_all plain_map plain_history (new_map plain_map) in
   let* r := map_save pose_codec real_codec plain_format plain_map all_open (in_order 4) (word_of 24 9) (word_of 8 5) m in
   let* o := map_load no_junk pose_codec real_codec plain_format plain_map all_open (rev (in_order 4)) (fun _ => 0) (snd r) in
   match o with
   | Some x =>
       let* m2 := cact plain_map (l_map x) (Modify [0; 0] (add_points 2)) in
       let* bs := cbundles plain_map m2 in
       let* a := cstored plain_map m2 0 [0; 0] in let* b := cstored plain_map m2 0 [-3; 1] in
       Ok (map_empty plain_map m, fst r, word_bits (l_origin x), word_bits (l_resolution x),
           (min_bi m2, max_bi m2), length bs, option_map word_bits a, option_map word_bits b)
   | None => UB
   end) = Ok (false, true, 9, 5, ([-5; -1], [1; 2]), 10%nat, Some 6, Some 1).
Proof.
  split; [apply word_codec_ok|]. split; [apply word_codec_ok|]. split; [apply word_codec_ok|]. split; [exact plain_map_ok|].
  split; [exact plain_history_fits|]. split; [apply in_order_complete|]. vm_compute. reflexivity.
Qed.
Example C27_occupancy_example :
  config_ok occ_map /\ fits occ_map occ_history /\ word_count (word_of 48 0) = 0 /\
  (let* m := cact_all occ_map occ_history (new_map occ_map) in
   let* r := map_save pose_codec real_codec occ_format occ_map all_open (in_order 4) (word_of 24 9) (word_of 8 5) m in
   let* o := map_load no_junk pose_codec real_codec occ_format occ_map all_open (in_order 4) (fun _ => 0) (snd r) in
   match o with
   | Some x =>
       let view := option_map (fun o => (missed o, option_map word_bits (hits o))) in
       let* a := cstored occ_map (l_map x) 0 [1; 0] in let* b := cstored occ_map (l_map x) 0 [2; 0] in
       Ok (fst r, view a, view b)
   | None => UB
   end) = Ok (true, Some (4, Some 3), Some (0, None)).
Proof.
  split; [exact occ_map_ok|]. split; [exact occ_history_fits|]. split; [vm_compute; reflexivity|]. vm_compute. reflexivity.
Qed.
