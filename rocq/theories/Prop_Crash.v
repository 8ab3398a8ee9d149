(** C29: saving over an existing map. *)
From Verif Require Import Base SeqModel IndexModel OctreeSpec OctreeModel MapModel BackendModel SysModel SysSpec Samples
  ConvSpec SerialModel SerialSpec SerialFacts SerialSamples ThreadModel ThreadSpec FileModel FileSamples FileFacts
  CrashModel CrashSpec CrashFacts HollowFacts.
Open Scope Z_scope.

(** C29, the part that holds: a save that is not interrupted leaves the new map, whatever was there,
    however the threads and the pieces of their files are interleaved. *)
Theorem C29_completed_save_partial (n : nat) (p : place) (d : directory) (es : list effect) :
  save_effects n p d es -> disk n p es = Some d.
Proof. exact (save_completed n p d es). Qed.

(** C29, the part that holds: a save interrupted before it has opened all files never yields a
    map. [load] reports failure (and the old map is gone). *)
Theorem C29_interrupted_early_partial {D Po T : Type} (junk : list Z -> nat -> list Z) (po : codec Po) (tp : codec T) (fmt : format D)
  (c : config D) (e : environment) (s : list nat) (g : nat -> Z)
  (p : place) (d : directory) (es done : list effect) (i : nat) :
  let n := bin_count (dimc c) in
  match p with Some d0 => length (store_files d0) = n | None => True end ->
  save_effects n p d es -> done_of es done -> done <> [] -> (i < n)%nat -> ~ In (OpenStore i) done ->
  map_load junk po tp fmt c e s g (disk n p done) = Ok None.
Proof.
  exact (fun Hp Hs Hd Hne Hi Ho => incomplete_load junk po tp fmt c e s g _ (interrupted _ p d es done i Hp Hs Hd Hne Hi Ho)).
Qed.

(** C29 fails for every map: every save of a non-empty map over anything can be interrupted such that
    [load] succeeds with a map that is neither the old nor the new one: it has the bundles of the new
    map with null pointers in all slots and no distribution at all; the next insertion into one of
    these bundles is undefined. *)
Theorem C29_interrupted_late {D Po T : Type} (junk : list Z -> nat -> list Z) (po : codec Po) (tp : codec T) (cd : codec D)
  (c : config D) (l : list (map_action (P:=D))) (s1 s2 : list nat) (g : nat -> Z) (origin : Po) (resolution : T)
  (m : cmap c) (p : place) :
  codec_ok po -> codec_ok tp -> codec_ok cd ->
  config_ok c -> kindc c = Dynamic -> aminc c = cw_min -> amaxc c = cw_max -> (0 < dimc c)%nat ->
  fits c l -> cact_all c l (new_map c) = Ok m -> map_empty c m = false ->
  complete (bin_count (dimc c)) s1 -> complete (bin_count (dimc c)) s2 ->
  let fmt := distribution_format junk cd in
  exists d es done m', map_save po tp fmt c all_open s1 origin resolution m = Ok (true, Some d) /\
    save_effects (bin_count (dimc c)) p d es /\ done_of es done /\
    map_load junk po tp fmt c all_open s2 g (disk (bin_count (dimc c)) p done) =
      Ok (Some {| l_origin := origin; l_resolution := resolution; l_map := m' |}) /\
    (forall bi sl, has_bundle c m' bi sl <-> (exists sl0, has_bundle c m bi sl0) /\ sl = repeat None (2 ^ dimc c)) /\
    (forall i j v, ~ has_value c m' i j v) /\
    (forall bi sl f, has_bundle c m bi sl -> cact c m' (Modify bi f) = UB).
Proof.
  exact (fun Hpo Htp Hcd Hc Hk Hmin Hmax Hdim Hf Hrun He C1 C2 =>
    hollow_story junk po tp _ (fun _ => True) (c_len cd) Hpo Htp (distribution_format_ok junk cd Hcd) (proj2 (proj2 Hcd))
      c l s1 s2 g origin resolution m p Hc Hk Hmin Hmax Hdim Hf Hrun He (fun _ _ _ _ => I) C1 C2).
Qed.
Print Assumptions C29_completed_save_partial.
Print Assumptions C29_interrupted_early_partial.
Print Assumptions C29_interrupted_late.

(** Two maps, the directories they are saved to, what is found by loading a directory. *)
Definition old_history : list (map_action (P:=word 48)) := [Modify [7; 7] (add_points 1); Modify [8; 7] (add_points 2)].
Definition saved (l : list (map_action (P:=word 48))) (origin : Z) : outcome (bool * place) :=
  let* m := cact_all plain_map l (new_map plain_map) in
  map_save pose_codec real_codec plain_format plain_map all_open (in_order 4) (word_of 24 origin) (word_of 8 5) m.
Definition seen (p : place) : outcome (option (Z * nat * nat)) :=
  let* o := map_load no_junk pose_codec real_codec plain_format plain_map all_open (in_order 4) (fun _ => 0) p in
  match o with
  | Some x => let* bs := cbundles plain_map (l_map x) in let* ds := cdists plain_map (l_map x) 0 in
              Ok (Some (word_bits (l_origin x), length bs, length ds))
  | None => Ok None
  end.
Definition found (o : outcome (bool * place)) : directory :=
  match o with Ok (_, Some d) => d | _ => {| header_file := None; store_files := [] |} end.
Definition header_of_directory (d : directory) : list Z := match header_file d with Some h => h | None => [] end.
Definition files_of_directory (d : directory) : list (list Z) := map (fun f => match f with Some x => x | None => [] end) (store_files d).
Definition old_directory : directory := found (saved old_history 1).
Definition new_directory : directory :=
  {| header_file := Some (header_of_directory (found (saved plain_history 2)));
     store_files := map Some (files_of_directory (found (saved plain_history 2))) |}.
Lemma old_history_fits : fits plain_map old_history.
Proof.
  unfold fits, old_history. cbn [expansions].
  repeat (first [apply Forall_nil | apply Forall_cons]); cbn [act_fits]; (split; [reflexivity|]); cbn [kindc plain_map];
    repeat (first [apply Forall_nil | apply Forall_cons]); lia.
Qed.

(** C29 is false: a valid map is saved over another valid map; the process can stop such that neither of
    them can be loaded, and such that something else is loaded. *)
Theorem C29_old_map_lost_refuted :
  exists (old new : list (map_action (P:=word 48))) (p_old : place) (d_new : directory) (es done : list effect),
    fits plain_map old /\ fits plain_map new /\
    saved old 1 = Ok (true, p_old) /\ saved new 2 = Ok (true, Some d_new) /\
    save_effects 4 p_old d_new es /\ done_of es done /\
    seen p_old = Ok (Some (1, 2%nat, 2%nat)) /\ seen (Some d_new) = Ok (Some (2, 10%nat, 5%nat)) /\
    seen (disk 4 p_old done) = Ok None.
Proof.
  destruct (lost_save 4 old_directory (header_of_directory (found (saved plain_history 2)))
              (files_of_directory (found (saved plain_history 2)))) as [es [done [A [B C]]]];
    [vm_compute; reflexivity|vm_compute; reflexivity|lia|].
  exists old_history, plain_history, (Some old_directory), new_directory, es, done.
  split; [exact old_history_fits|]. split; [exact plain_history_fits|].
  split; [vm_compute; reflexivity|]. split; [vm_compute; reflexivity|]. split; [exact A|]. split; [exact B|].
  split; [vm_compute; reflexivity|]. split; [vm_compute; reflexivity|].
  unfold seen. rewrite (incomplete_load no_junk pose_codec real_codec plain_format plain_map _ _ _ _ C). reflexivity.
Qed.
Theorem C29_hollow_map_refuted :
  exists (old new : list (map_action (P:=word 48))) (p_old : place) (d_new : directory) (es done : list effect),
    fits plain_map old /\ fits plain_map new /\
    saved old 1 = Ok (true, p_old) /\ saved new 2 = Ok (true, Some d_new) /\
    save_effects 4 p_old d_new es /\ done_of es done /\
    seen p_old = Ok (Some (1, 2%nat, 2%nat)) /\ seen (Some d_new) = Ok (Some (2, 10%nat, 5%nat)) /\
    seen (disk 4 p_old done) = Ok (Some (2, 10%nat, 0%nat)).
Proof.
  destruct (opened_reached 4 (Some old_directory) (header_of_directory (found (saved plain_history 2)))
              (files_of_directory (found (saved plain_history 2)))) as [es [done [A [B C]]]]; [vm_compute; reflexivity|].
  exists old_history, plain_history, (Some old_directory), new_directory, es, done.
  split; [exact old_history_fits|]. split; [exact plain_history_fits|].
  split; [vm_compute; reflexivity|]. split; [vm_compute; reflexivity|]. split; [exact A|]. split; [exact B|].
  split; [vm_compute; reflexivity|]. split; [vm_compute; reflexivity|]. rewrite C. vm_compute. reflexivity.
Qed.
Print Assumptions C29_old_map_lost_refuted.
Print Assumptions C29_hollow_map_refuted.

(** The hypotheses of the theorems above are met by the two histories; a completed save of the
    second map over the first loads as the second. *)
Example C29_example :
  exists es, save_effects 4 (Some old_directory) new_directory es /\ length (store_files old_directory) = 4%nat /\
    (let* m := cact_all plain_map plain_history (new_map plain_map) in Ok (map_empty plain_map m)) = Ok false /\
    seen (disk 4 (Some old_directory) es) = Ok (Some (2, 10%nat, 5%nat)).
Proof.
  destruct (opened_reached 4 (Some old_directory) (header_of_directory (found (saved plain_history 2)))
              (files_of_directory (found (saved plain_history 2)))) as [es [done [A [B C]]]]; [vm_compute; reflexivity|].
  exists es. split; [exact A|]. split; [vm_compute; reflexivity|]. split; [vm_compute; reflexivity|].
  rewrite (save_completed 4 _ _ es A). vm_compute. reflexivity.
Qed.
