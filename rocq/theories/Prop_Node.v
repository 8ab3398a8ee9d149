(** C30 for whole maps, C55: the ROS map loaders and the precision of maps. *)
From Verif Require Import Base SeqModel IndexModel OctreeSpec OctreeModel MapModel BackendModel SysModel SysSpec Samples
  ConvSpec InsertModel SerialModel SerialSpec SerialFacts SerialSamples ThreadModel ThreadSpec ThreadFacts FileModel FileFacts FileSamples
  ReportFacts RejectFacts NodeModel.
Open Scope Z_scope.

(** C30 fails for every content of the files: whatever bytes are in the header and in the storages (cut
    anywhere, of another type of map, ...), [load] never reports failure and throws nothing. It either
    delivers a map or is undefined. All formats, kinds of map, schedules. *)
Theorem C30_nothing_rejected {D Po T : Type} (junk : list Z -> nat -> list Z) (po : codec Po) (tp : codec T) (fmt : format D)
  (c : config D) (e : environment) (sched : list nat) (g : nat -> Z) (header : list Z) (stores : list (list Z)) :
  length stores = bin_count (dimc c) -> open_header e = true ->
  (forall i, (i < bin_count (dimc c))%nat -> open_store e i = true) -> complete (bin_count (dimc c)) sched ->
  let r := map_load junk po tp fmt c e sched g (Some {| header_file := Some header; store_files := map Some stores |}) in
  r <> Ok None /\ r <> Throw.
Proof. exact (nothing_rejected junk po tp fmt c e sched g header stores). Qed.
Print Assumptions C30_nothing_rejected.

(** Seven arbitrary bytes as header and as each storage: a map with one distribution per storage and no
    bundle. *)
Example C30_nothing_rejected_example :
  let junk_map := Some {| header_file := Some [1; 2; 3; 4; 5; 6; 7]; store_files := repeat (Some [9; 8; 7; 6; 5; 4; 3]) 4 |} in
  (let* o := map_load no_junk pose_codec real_codec plain_format plain_map all_open (in_order 4) (fun _ => 0) junk_map in
   match o with
   | Some x => let* bs := cbundles plain_map (l_map x) in let* ds := cdists plain_map (l_map x) 0 in
               Ok (Some (length bs, length ds))
   | None => Ok None
   end) = Ok (Some (0%nat, 1%nat)).
Proof. vm_compute. reflexivity. Qed.

(** A directory with all files of a map with [n] storages. *)
Definition all_files (n : nat) (p : place) : Prop :=
  exists h fs, p = Some {| header_file := Some h; store_files := map Some fs |} /\ length fs = n.

Lemma setup_total {A : Type} (load : place -> outcome (option A)) (path : option place) :
  (forall p, path = Some p -> load p <> Ok None /\ load p <> Throw) ->
  setup_one load path = UB \/ exists x, setup_one load path = Ok (Some x).
Proof.
  intros H. unfold setup_one. destruct path as [p|]; [|right; eauto]. destruct (H p eq_refl) as [H1 H2].
  destruct (load p) as [[x|]| |]; cbn [obind]; [right; eauto|congruence|left; reflexivity|congruence].
Qed.
Lemma float_never {D1 D2 Po T F : Type} (junk : list Z -> nat -> list Z) (po : codec Po) (tp : codec T)
  (fmt1 : format D1) (fmt2 : format D2) (c1 : config D1) (c2 : config D2) (s1 s2 : list nat) (g : nat -> Z)
  (path path_occ : option place) (as_float : outcome (option F)) :
  complete (bin_count (dimc c1)) s1 -> complete (bin_count (dimc c2)) s2 ->
  (forall p, path = Some p -> all_files (bin_count (dimc c1)) p) ->
  (forall p, path_occ = Some p -> all_files (bin_count (dimc c2)) p) ->
  let r := node_run (setup (map_load junk po tp fmt1 c1 all_open s1 g) (map_load junk po tp fmt2 c2 all_open s2 g)
                           path path_occ) as_float in
  r = UB \/ exists x, r = Ok (AsDouble x).
Proof.
  intros C1 C2 H1 H2. cbn zeta. unfold node_run, setup.
  destruct (setup_total (map_load junk po tp fmt1 c1 all_open s1 g) path) as [E|[x E]].
  { intros p Hp. destruct (H1 p Hp) as [h [fs [-> HL]]]. apply nothing_rejected; auto. }
  { rewrite E. left; reflexivity. }
  rewrite E. cbn [obind].
  destruct (setup_total (map_load junk po tp fmt2 c2 all_open s2 g) path_occ) as [E2|[y E2]].
  { intros p Hp. destruct (H2 p Hp) as [h [fs [-> HL]]]. apply nothing_rejected; auto. }
  { rewrite E2. left; reflexivity. }
  rewrite E2. cbn [obind]. right. eexists. reflexivity.
Qed.

(** C55 fails for every float map: if the directories given to the node hold all files, whatever is in
    them, [setup<float>] is never called: the node serves what it reads as double, or is undefined. *)
Theorem C55_float_never_tried {D1 D2 Po T F : Type} (junk : list Z -> nat -> list Z) (po : codec Po) (tp : codec T)
  (fmt1 : format D1) (fmt2 : format D2) (c1 : config D1) (c2 : config D2) (s1 s2 : list nat) (g : nat -> Z)
  (path path_occ : option place) (as_float : outcome (option F)) :
  complete (bin_count (dimc c1)) s1 -> complete (bin_count (dimc c2)) s2 ->
  (forall p, path = Some p -> all_files (bin_count (dimc c1)) p) ->
  (forall p, path_occ = Some p -> all_files (bin_count (dimc c2)) p) ->
  let r := node_run (setup (map_load junk po tp fmt1 c1 all_open s1 g) (map_load junk po tp fmt2 c2 all_open s2 g)
                           path path_occ) as_float in
  r = UB \/ exists x, r = Ok (AsDouble x).
Proof. exact (float_never junk po tp fmt1 fmt2 c1 c2 s1 s2 g path path_occ as_float). Qed.

(** C55, the part that holds: a map that was saved in double precision is served with its contents. *)
Theorem C55_double_served_partial {D D2 Po T F : Type} (junk : list Z -> nat -> list Z) (po : codec Po) (tp : codec T) (cd : codec D)
  (load_occ : place -> outcome (option D2)) (as_float : outcome (option F))
  (c : config D) (l : list (map_action (P:=D))) (s1 s2 : list nat) (g : nat -> Z) (origin : Po) (resolution : T) (m : cmap c) :
  codec_ok po -> codec_ok tp -> codec_ok cd ->
  config_ok c -> kindc c = Dynamic -> aminc c = cw_min -> amaxc c = cw_max -> (0 < dimc c)%nat ->
  fits c l -> cact_all c l (new_map c) = Ok m -> map_empty c m = false ->
  complete (bin_count (dimc c)) s1 -> complete (bin_count (dimc c)) s2 ->
  let fmt := distribution_format junk cd in
  exists d m', map_save po tp fmt c all_open s1 origin resolution m = Ok (true, Some d) /\
    node_run (setup (map_load junk po tp fmt c all_open s2 g) load_occ (Some (Some d)) None) as_float =
      Ok (AsDouble (Some {| l_origin := origin; l_resolution := resolution; l_map := m' |}, None)) /\
    same_content c c m m' /\ min_bi m' = min_bi m /\ max_bi m' = max_bi m.
Proof.
  intros Hpo Htp Hcd Hc Hk Hmin Hmax Hdim Hf Hrun He C1 C2 fmt.
  destruct (restore_map junk po tp _ (fun _ => True) (c_len cd) Hpo Htp (distribution_format_ok junk cd Hcd) (proj2 (proj2 Hcd))
      c l s1 s2 g origin resolution m Hc Hk Hmin Hmax Hdim Hf Hrun He (fun _ _ _ _ => I) C1 C2) as [d [m' [A [B [C [E [F' _]]]]]]].
  exists d, m'. split; [exact A|]. split; [|auto]. unfold node_run, setup, setup_one. unfold fmt. rewrite B. reflexivity.
Qed.

(** C55, what is reported: if the header or a storage file of one of the maps is missing, the node serves
    nothing, unless loading another map is undefined. *)
Definition lacks_file (p : place) : Prop :=
  forall d, p = Some d -> header_file d = None \/ In None (store_files d).
Theorem C55_missing_not_served {D1 D2 D3 D4 Po T Po' T' : Type} (junk : list Z -> nat -> list Z)
  (po : codec Po) (tp : codec T) (fmt1 : format D1) (fmt2 : format D2)
  (po' : codec Po') (tp' : codec T') (fmt3 : format D3) (fmt4 : format D4)
  (c1 : config D1) (c2 : config D2) (c3 : config D3) (c4 : config D4) (e : environment) (s : list nat) (g : nat -> Z)
  (path path_occ : option place) :
  (exists p, (path = Some p \/ path_occ = Some p) /\ lacks_file p) ->
  let r := node_run
    (setup (map_load junk po tp fmt1 c1 e s g) (map_load junk po tp fmt2 c2 e s g) path path_occ)
    (setup (map_load junk po' tp' fmt3 c3 e s g) (map_load junk po' tp' fmt4 c4 e s g) path path_occ) in
  forall x, r = Ok x -> x = NotServed.
Proof.
  intros [p [Hp Hl]]. cbn zeta. intros x E.
  assert (M : forall D Po T (po : codec Po) (tp : codec T) (fmt : format D) c,
    map_load junk po tp fmt c e s g p = Ok None).
  { intros. apply load_missing. intros d Hd. destruct (Hl d Hd); auto. }
  assert (K : forall D D' Po T (po : codec Po) (tp : codec T) (fmt : format D) (fmt' : format D') c c' v,
    setup (map_load junk po tp fmt c e s g) (map_load junk po tp fmt' c' e s g) path path_occ = Ok v -> v = None).
  { intros D D' Po0 T0 po0 tp0 fmt fmt' c c' v Ev. unfold setup in Ev. destruct Hp as [->| ->].
    - unfold setup_one in Ev at 1. rewrite M in Ev. cbn [obind] in Ev. injection Ev as <-. reflexivity.
    - destruct (setup_one _ path) as [[a|]| |]; cbn [obind] in Ev; try discriminate Ev; [|injection Ev as <-; reflexivity].
      unfold setup_one in Ev. rewrite M in Ev. cbn [obind] in Ev. injection Ev as <-. reflexivity. }
  unfold node_run in E.
  destruct (setup (map_load junk po tp fmt1 c1 e s g) _ path path_occ) as [v| |] eqn:E1; try discriminate E.
  apply K in E1. subst v. cbn [obind] in E.
  destruct (setup (map_load junk po' tp' fmt3 c3 e s g) _ path path_occ) as [v| |] eqn:E2; try discriminate E.
  apply K in E2. subst v. cbn [obind] in E. injection E as <-. reflexivity.
Qed.
Print Assumptions C55_missing_not_served.
Print Assumptions C55_float_never_tried.
Print Assumptions C55_double_served_partial.

(** A float map: poses of 12, numbers of 4, distributions of 24 bytes. *)
Definition float_map : config (word 24) :=
  {| dimc := 2; kindc := Dynamic; sizec := []; minc := []; garbagec := fun i => 77 - Z.of_nat i;
     aminc := cw_min; amaxc := cw_max; offsetsc := offsets2; defaultc := word_of 24 0;
     mergec := fun a b => word_of 24 (word_bits a + word_bits b); expandc := fun w => 2 <? word_count w |}.
Lemma float_map_ok : config_ok float_map.
Proof. constructor; try discriminate; [reflexivity|exact offsets2_sound|exact offsets2_complete]. Qed.
Definition float_history : list (map_action (P:=word 24)) :=
  map (fun bi => Modify bi (fun w => word_of 24 (word_bits w + 1))) [[0; 0]; [0; 1]; [4; 4]; [5; 5]].
Definition float_format := distribution_format no_junk (word_codec 24).
Definition float_load := map_load no_junk (word_codec 12) (word_codec 4) float_format float_map all_open (in_order 4) (fun _ => 0).
Definition double_load := map_load no_junk pose_codec real_codec plain_format plain_map all_open (in_order 4) (fun _ => 0).
Definition no_load (p : place) : outcome (option unit) := UB.

(** C55 is false: a float map with four bundles is saved; loaded as float it is back, but the node serves a
    double map with two bundles, one of them without distributions, and another index range. *)
Theorem C55_float_map_refuted :
  exists (c : config (word 24)) (l : list (map_action (P:=word 24))),
    config_ok c /\ kindc c = Dynamic /\ fits c l /\
    (let* m := cact_all c l (new_map c) in
     let* r := map_save (word_codec 12) (word_codec 4) float_format c all_open (in_order 4) (word_of 12 9) (word_of 4 5) m in
     let* f := map_load no_junk (word_codec 12) (word_codec 4) float_format c all_open (in_order 4) (fun _ => 0) (snd r) in
     let* s := node_run (setup double_load no_load (Some (snd r)) None) (setup float_load no_load (Some (snd r)) None) in
     match f, s with
     | Some x, AsDouble (Some y, None) =>
         let* bs := cbundles c (l_map x) in let* bs' := cbundles plain_map (l_map y) in
         let* ds := cdists c (l_map x) 0 in let* ds' := cdists plain_map (l_map y) 0 in
         Ok (fst r, (word_bits (l_origin x), map fst bs, map fst ds, min_bi (l_map x), max_bi (l_map x)),
                    (word_bits (l_origin y) =? 9, map fst bs', map fst ds', min_bi (l_map y), max_bi (l_map y)))
     | _, _ => UB
     end) = Ok (true, (9, [[0; 0]; [0; 1]; [4; 4]; [5; 5]], [[0; 0]; [2; 2]], [0; 0], [5; 5]),
                      (false, [[4; 4]; [5; 5]], [[0; 0]], [0; 1], [0; 1])).
Proof.
  exists float_map, float_history. split; [exact float_map_ok|]. split; [reflexivity|]. split.
  - unfold fits, float_history. cbn [map expansions].
    repeat (first [apply Forall_nil | apply Forall_cons]); cbn [act_fits]; (split; [reflexivity|]); cbn [kindc float_map];
      repeat (first [apply Forall_nil | apply Forall_cons]); lia.
  - vm_compute. reflexivity.
Qed.
Print Assumptions C55_float_map_refuted.

(** The hypotheses of the theorems: a directory with all files; a double map; nothing at the path gives
    [NotServed]. *)
Example C55_example :
  all_files 4 (Some {| header_file := Some []; store_files := repeat (Some []) 4 |}) /\
  lacks_file (Some {| header_file := Some []; store_files := [Some []; None] |}) /\
  node_run (setup double_load no_load (Some None) None) (setup float_load no_load (Some None) None) = Ok NotServed /\
  (let* m := cact_all plain_map plain_history (new_map plain_map) in
   let* r := map_save pose_codec real_codec plain_format plain_map all_open (in_order 4) (word_of 24 9) (word_of 8 5) m in
   let* s := node_run (setup double_load no_load (Some (snd r)) None) (setup float_load no_load (Some (snd r)) None) in
   match s with AsDouble (Some y, None) => Ok (word_bits (l_origin y), min_bi (l_map y), max_bi (l_map y)) | _ => UB end) =
  Ok (9, [-5; -1], [1; 2]).
Proof.
  split; [exists [], (repeat [] 4); split; reflexivity|]. split; [intros d E; injection E as <-; right; right; left; reflexivity|].
  split; [reflexivity|]. vm_compute. reflexivity.
Qed.
