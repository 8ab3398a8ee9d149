(** C28: the result of save and load. *)
From Verif Require Import Base SeqModel IndexModel OctreeSpec OctreeModel MapModel BackendModel SysModel SysSpec Samples
  SerialModel SerialSpec SerialSamples ThreadModel ThreadSpec ThreadFacts FileModel FileSamples ReportFacts.
Open Scope Z_scope.

(** C28, first part: if every operation succeeds then in every schedule that lets the threads end
    the result is true and everything has been done. *)
Theorem C28_all_succeed_partial {R : Type} (rs : list (option R)) (sched : list nat) :
  complete (length rs) sched ->
  exists w, workers_run (map (fun r => Ok (true, r)) rs) sched = Ok w /\ flag w = true /\ made w = rs.
Proof.
  exact (fun H => all_ok_run (map (fun r => Ok (true, r)) rs) rs eq_refl sched
    (eq_ind_r (fun n => complete n sched) H (map_length (fun r => Ok (true, r)) rs))).
Qed.

(** C28: the result is never false without a failed operation, in any schedule. *)
Theorem C28_false_means_failure_partial {R : Type} (ops : list (operation R)) (sched : list nat) (w : workers R) :
  workers_run ops sched = Ok w -> flag w = false -> exists i r, nth_error ops i = Some (Ok (false, r)).
Proof. exact (false_failed ops sched w). Qed.

(** C28: if the threads run one after the other, in any order, the result is exact, and if it is
    true every operation has been run. Missing: other schedules, see below. *)
Theorem C28_one_by_one_partial {R : Type} (results : list (bool * option R)) (order : list nat) :
  Permutation order (seq 0 (length results)) ->
  exists w, workers_run (map Ok results) (one_by_one order) = Ok w /\
    (flag w = true <-> Forall (fun r => fst r = true) results) /\
    (flag w = true -> made w = map snd results).
Proof. exact (one_by_one_exact results order). Qed.

(** C28 is false whenever one operation fails and another succeeds: some schedule reports success. *)
Theorem C28_any_failure_can_be_hidden {R : Type} (results : list (bool * option R)) :
  Exists (fun r => fst r = true) results ->
  exists sched w, complete (length results) sched /\ workers_run (map Ok results) sched = Ok w /\ flag w = true.
Proof. exact (hide_results results). Qed.
Print Assumptions C28_all_succeed_partial.
Print Assumptions C28_false_means_failure_partial.
Print Assumptions C28_one_by_one_partial.
Print Assumptions C28_any_failure_can_be_hidden.

(** The first storage file cannot be opened. *)
Definition first_closed : environment :=
  {| no_directory := None; open_header := true; open_store := fun i => negb (i =? 0)%nat;
     keep_header := fun bs => bs; keep_store := fun _ bs => bs |}.
(** Thread 1 reads the flag, thread 0 fails, thread 1 writes "true". *)
Definition racy_save : list nat := [1; 0; 0; 0; 2; 2; 2; 3; 3; 3; 1; 1]%nat.
(** As before, but thread 1 has finished its operation before. *)
Definition racy_load : list nat := [1; 3; 3; 1; 0; 0; 0; 2; 2; 2; 3; 1]%nat.

(** C28 is false: a file is missing and [save] returns true. *)
Theorem C28_save_hides_failure_refuted :
  exists (c : config (word 48)) (l : list (map_action (P:=word 48))) (e : environment) (sched : list nat),
    config_ok c /\ fits c l /\ complete (bin_count (dimc c)) sched /\
    (let* m := cact_all c l (new_map c) in
     let* r := map_save pose_codec real_codec plain_format c e sched (word_of 24 9) (word_of 8 5) m in
     Ok (fst r, option_map (fun d => map (fun f => match f with Some _ => true | None => false end) (store_files d)) (snd r)))
    = Ok (true, Some [false; true; false; false]).
Proof.
  exists plain_map, plain_history, first_closed, racy_save.
  split; [exact plain_map_ok|]. split; [exact plain_history_fits|]. split; [|vm_compute; reflexivity].
  intros i Hi. do 4 (destruct i as [|i]; [vm_compute; lia|]). cbn in Hi. lia.
Qed.
(** C28 is false: [load] goes on with storages that have not been loaded; bundles are then allocated
    through a null pointer. *)
Theorem C28_load_uses_unloaded_storage_refuted :
  exists (c : config (word 48)) (l : list (map_action (P:=word 48))) (e : environment) (sched : list nat),
    config_ok c /\ fits c l /\ complete (bin_count (dimc c)) sched /\
    (let* m := cact_all c l (new_map c) in
     let* r := map_save pose_codec real_codec plain_format c all_open (in_order 4) (word_of 24 9) (word_of 8 5) m in
     Ok (fst r)) = Ok true /\
    (let* m := cact_all c l (new_map c) in
     let* r := map_save pose_codec real_codec plain_format c all_open (in_order 4) (word_of 24 9) (word_of 8 5) m in
     let* o := map_load no_junk pose_codec real_codec plain_format c e sched (fun _ => 0) (snd r) in
     Ok (match o with Some _ => true | None => false end)) = UB.
Proof.
  exists plain_map, plain_history, first_closed, racy_load.
  split; [exact plain_map_ok|]. split; [exact plain_history_fits|].
  split; [intros i Hi; do 4 (destruct i as [|i]; [vm_compute; lia|]); cbn in Hi; lia|].
  split; vm_compute; reflexivity.
Qed.
Print Assumptions C28_save_hides_failure_refuted.
Print Assumptions C28_load_uses_unloaded_storage_refuted.

(** Three operations, one fails: one after the other the failure is reported, interleaved it is not. *)
Example C28_example :
  let results := [(true, Some 1); (false, None); (true, Some 3)] in
  (let* w := workers_run (map Ok results) (one_by_one [2; 0; 1]%nat) in Ok (flag w, made w)) = Ok (false, [Some 1; None; Some 3]) /\
  (let* w := workers_run (map Ok results) [0; 0; 1; 2; 1; 2; 1; 2; 0]%nat in Ok (flag w, made w)) = Ok (true, [Some 1; None; Some 3]) /\
  complete 3 [0; 0; 1; 2; 1; 2; 1; 2; 0]%nat /\
  (let* w := workers_run (map (fun r => Ok (true, r)) [Some 1; Some 2]) [1; 0; 0; 1; 1; 0]%nat in Ok (flag w, made w)) = Ok (true, [Some 1; Some 2]).
Proof.
  split; [reflexivity|]. split; [reflexivity|]. split; [|reflexivity].
  intros i Hi. do 3 (destruct i as [|i]; [vm_compute; lia|]). lia.
Qed.

(** C28 for [save]: a map that can be saved at all, stored with any file system and the threads one
    after the other: the result is true if and only if the directory could be created and every file
    opened. Missing: other schedules, see above. *)
Theorem C28_save_reports_partial {P Po T : Type} (po : codec Po) (tp : codec T) (fmt : format P) (c : config P)
  (s0 order : list nat) (e : environment) (origin : Po) (resolution : T) (m : cmap c) (d : directory) :
  complete (bin_count (dimc c)) s0 -> map_save po tp fmt c all_open s0 origin resolution m = Ok (true, Some d) ->
  Permutation order (seq 0 (bin_count (dimc c))) ->
  exists b p, map_save po tp fmt c e (one_by_one order) origin resolution m = Ok (b, p) /\
    (b = true <-> no_directory e = None /\ open_header e = true /\
                  forall i, (i < bin_count (dimc c))%nat -> open_store e i = true).
Proof. exact (save_reports po tp fmt c s0 order e origin resolution m d). Qed.
(** C28 for [load], any contents of the files: no map without a directory, a header that can be opened
    and all storage files, in every schedule; ... *)
Theorem C28_load_missing_file {P Po T : Type} (junk : list Z -> nat -> list Z) (po : codec Po) (tp : codec T) (fmt : format P)
  (c : config P) (e : environment) (sched : list nat) (g : nat -> Z) (p : place) :
  (forall d, p = Some d -> header_file d = None \/ In None (store_files d) \/ open_header e = false) ->
  map_load junk po tp fmt c e sched g p = Ok None.
Proof. exact (load_missing junk po tp fmt c e sched g p). Qed.
(** ... and with the threads one after the other no map if a storage file cannot be opened. *)
Theorem C28_load_reports_partial {P Po T : Type} (junk : list Z -> nat -> list Z) (po : codec Po) (tp : codec T) (fmt : format P)
  (c : config P) (order : list nat) (e : environment) (g : nat -> Z) (p : place) (x : loaded c) :
  Permutation order (seq 0 (bin_count (dimc c))) ->
  map_load junk po tp fmt c e (one_by_one order) g p = Ok (Some x) ->
  exists d h, p = Some d /\ header_file d = Some h /\ open_header e = true /\
    forall i, (i < bin_count (dimc c))%nat -> open_store e i = true /\ exists f, nth_error (store_files d) i = Some (Some f).
Proof. exact (load_reports junk po tp fmt c order e g p x). Qed.
Print Assumptions C28_save_reports_partial.
Print Assumptions C28_load_missing_file.
Print Assumptions C28_load_reports_partial.

(** One map, saved with everything open and with a closed file, then loaded with everything open, with
    a closed file and with a missing file. *)
Example C28_reports_example :
  Permutation [2; 0; 3; 1]%nat (seq 0 (bin_count 2)) /\ complete (bin_count 2) (in_order 4) /\
  (let* m := cact_all plain_map plain_history (new_map plain_map) in
   let save e := map_save pose_codec real_codec plain_format plain_map e (one_by_one [2; 0; 3; 1]%nat) (word_of 24 9) (word_of 8 5) m in
   let load e p := let* o := map_load no_junk pose_codec real_codec plain_format plain_map e (one_by_one [2; 0; 3; 1]%nat) (fun _ => 0) p in
                   Ok (match o with Some _ => true | None => false end) in
   let* a := save all_open in let* b := save first_closed in
   let* x := load all_open (snd a) in let* y := load first_closed (snd a) in
   let* z := load all_open (option_map (fun d => {| header_file := header_file d; store_files := None :: tl (store_files d) |}) (snd a)) in
   Ok (fst a, fst b, x, y, z)) = Ok (true, false, true, false, false).
Proof.
  split.
  - change (seq 0 (bin_count 2)) with [0; 1; 2; 3]%nat. apply NoDup_Permutation; [| |intros x; cbn; tauto];
      repeat (constructor; [cbn; lia|]); constructor.
  - split; [apply in_order_complete|]. vm_compute. reflexivity.
Qed.
