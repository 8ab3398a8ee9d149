(** C88: maps with a YAML header. *)
From Coq Require Import String.
From Verif Require Import Base SeqModel IndexModel OctreeSpec MapModel BackendModel SysModel SysSpec Samples ConvSpec
  InsertModel SerialModel SerialSpec SerialFacts SerialSamples ThreadModel ThreadSpec ThreadFacts FileModel FileSamples YamlModel YamlSpec YamlFacts.
Open Scope Z_scope.

(** C88, plain distributions, dynamic maps: every reachable map, the empty one too (with a binary header that
    one is undefined behaviour, C27). The entries are written into any mapping [n]; they can then be reordered
    and others added ([w']). Loading them beside the files of the storages gives the map back; origin and resolution
    are what yaml-cpp makes of the written ones.
    Missing: a header that is refused is not reported, see below. *)
Theorem C88_dynamic_distribution_map_partial {D Po T : Type} (junk : list Z -> nat -> list Z) (cd : codec D) (yo : converter Po) (yt : converter T)
  (c : config (D)) (l : list (map_action (P:=D))) (s1 s2 : list nat) (g : nat -> Z) (origin o : Po) (resolution r : T)
  (n : list (string * node)) (m : cmap c) :
  codec_ok cd -> y_decode yo (y_encode yo origin) = Some o -> y_decode yt (y_encode yt resolution) = Some r ->
  config_ok c -> kindc c = Dynamic -> aminc c = cw_min -> amaxc c = cw_max -> (0 < dimc c)%nat ->
  fits c l -> cact_all c l (new_map c) = Ok m ->
  complete (bin_count (dimc c)) s1 -> complete (bin_count (dimc c)) s2 ->
  let fmt := distribution_format junk cd in
  exists w files m', yaml_write yo yt c origin resolution m n = Ok w /\
    save_stores fmt c all_open s1 m = Ok (true, files) /\
    (forall w', agree_on (header_keys c) w w' ->
       map_load_yaml junk yo yt fmt c all_open s2 g (Mapping w') files =
         Ok (Some {| l_origin := o; l_resolution := r; l_map := m' |})) /\
    given_back c l m m'.
Proof.
  exact (fun Hcd Ho Hr Hc Hk Ha Hb Hd Hf Hrun C1 C2 =>
    yaml_dynamic junk _ (fun _ => True) (c_len cd) (distribution_format_ok junk cd Hcd) (proj2 (proj2 Hcd))
      yo yt c l s1 s2 g origin o resolution r n m Ho Hr Hc Hk Ha Hb Hd Hf Hrun (fun _ _ _ _ => I) C1 C2).
Qed.
(** C88, occupancy distributions, dynamic maps. *)
Theorem C88_dynamic_occupancy_map_partial {D Po T : Type} (junk : list Z -> nat -> list Z) (cd : codec D) (dflt : D) (amount : D -> Z) (yo : converter Po) (yt : converter T)
  (c : config (occ Z D)) (l : list (map_action (P:=occ Z D))) (s1 s2 : list nat) (g : nat -> Z) (origin o : Po) (resolution r : T)
  (n : list (string * node)) (m : cmap c) :
  codec_ok cd -> amount dflt = 0 -> y_decode yo (y_encode yo origin) = Some o -> y_decode yt (y_encode yt resolution) = Some r ->
  config_ok c -> kindc c = Dynamic -> aminc c = cw_min -> amaxc c = cw_max -> (0 < dimc c)%nat ->
  fits c l -> cact_all c l (new_map c) = Ok m ->
  (forall i j v, has_value c m i j v -> storable amount v) ->
  complete (bin_count (dimc c)) s1 -> complete (bin_count (dimc c)) s2 ->
  let fmt := occupancy_format junk cd dflt amount in
  exists w files m', yaml_write yo yt c origin resolution m n = Ok w /\
    save_stores fmt c all_open s1 m = Ok (true, files) /\
    (forall w', agree_on (header_keys c) w w' ->
       map_load_yaml junk yo yt fmt c all_open s2 g (Mapping w') files =
         Ok (Some {| l_origin := o; l_resolution := r; l_map := m' |})) /\
    given_back c l m m'.
Proof.
  exact (fun Hcd H0 Ho Hr Hc Hk Ha Hb Hd Hf Hrun Hok C1 C2 =>
    yaml_dynamic junk _ (storable amount) (8 + c_len cd) (occupancy_format_ok junk cd dflt amount Hcd H0)
      (occupancy_count junk cd dflt amount Hcd) yo yt c l s1 s2 g origin o resolution r n m
      Ho Hr Hc Hk Ha Hb Hd Hf Hrun Hok C1 C2).
Qed.
(** C88, plain distributions, static maps whose minimum index on axis 0 is even.
    Missing: an odd one, see below. *)
Theorem C88_static_distribution_map_partial {D Po T : Type} (junk : list Z -> nat -> list Z) (cd : codec D) (yo : converter Po) (yt : converter T)
  (c : config (D)) (l : list (map_action (P:=D))) (s1 s2 : list nat) (g : nat -> Z) (origin o : Po) (resolution r : T)
  (n : list (string * node)) (m : cmap c) :
  codec_ok cd -> y_decode yo (y_encode yo origin) = Some o -> y_decode yt (y_encode yt resolution) = Some r ->
  config_ok c -> kindc c = Static -> (0 < dimc c)%nat -> Z.even (nth 0 (minc c) 0) = true ->
  Forall (fun z => 0 <= z < 2 ^ 64) (sizec c) -> int_index (minc c) -> int_index (static_max (sizec c) (minc c)) ->
  fits c l -> cact_all c l (new_map c) = Ok m ->
  complete (bin_count (dimc c)) s1 -> complete (bin_count (dimc c)) s2 ->
  let fmt := distribution_format junk cd in
  exists w files m', yaml_write yo yt c origin resolution m n = Ok w /\
    save_stores fmt c all_open s1 m = Ok (true, files) /\
    (forall w', agree_on (header_keys c) w w' ->
       map_load_yaml junk yo yt fmt c all_open s2 g (Mapping w') files =
         Ok (Some {| l_origin := o; l_resolution := r; l_map := m' |})) /\
    given_back c l m m'.
Proof.
  exact (fun Hcd Ho Hr Hc Hk Hd He Hs Hmn Hmx Hf Hrun C1 C2 =>
    yaml_static junk _ (fun _ => True) (c_len cd) (distribution_format_ok junk cd Hcd) (proj2 (proj2 Hcd))
      yo yt c l s1 s2 g origin o resolution r n m Ho Hr Hc Hk Hd He Hs Hmn Hmx Hf Hrun (fun _ _ _ _ => I) C1 C2).
Qed.
(** C88, occupancy distributions, static maps. *)
Theorem C88_static_occupancy_map_partial {D Po T : Type} (junk : list Z -> nat -> list Z) (cd : codec D) (dflt : D) (amount : D -> Z) (yo : converter Po) (yt : converter T)
  (c : config (occ Z D)) (l : list (map_action (P:=occ Z D))) (s1 s2 : list nat) (g : nat -> Z) (origin o : Po) (resolution r : T)
  (n : list (string * node)) (m : cmap c) :
  codec_ok cd -> amount dflt = 0 -> y_decode yo (y_encode yo origin) = Some o -> y_decode yt (y_encode yt resolution) = Some r ->
  config_ok c -> kindc c = Static -> (0 < dimc c)%nat -> Z.even (nth 0 (minc c) 0) = true ->
  Forall (fun z => 0 <= z < 2 ^ 64) (sizec c) -> int_index (minc c) -> int_index (static_max (sizec c) (minc c)) ->
  fits c l -> cact_all c l (new_map c) = Ok m ->
  (forall i j v, has_value c m i j v -> storable amount v) ->
  complete (bin_count (dimc c)) s1 -> complete (bin_count (dimc c)) s2 ->
  let fmt := occupancy_format junk cd dflt amount in
  exists w files m', yaml_write yo yt c origin resolution m n = Ok w /\
    save_stores fmt c all_open s1 m = Ok (true, files) /\
    (forall w', agree_on (header_keys c) w w' ->
       map_load_yaml junk yo yt fmt c all_open s2 g (Mapping w') files =
         Ok (Some {| l_origin := o; l_resolution := r; l_map := m' |})) /\
    given_back c l m m'.
Proof.
  exact (fun Hcd H0 Ho Hr Hc Hk Hd He Hs Hmn Hmx Hf Hrun Hok C1 C2 =>
    yaml_static junk _ (storable amount) (8 + c_len cd) (occupancy_format_ok junk cd dflt amount Hcd H0)
      (occupancy_count junk cd dflt amount Hcd) yo yt c l s1 s2 g origin o resolution r n m
      Ho Hr Hc Hk Hd He Hs Hmn Hmx Hf Hrun Hok C1 C2).
Qed.
Print Assumptions C88_dynamic_distribution_map_partial.
Print Assumptions C88_dynamic_occupancy_map_partial.
Print Assumptions C88_static_distribution_map_partial.
Print Assumptions C88_static_occupancy_map_partial.

(** C88, which headers are taken: those with all five entries, each of the right form. All others make [load]
    throw if the files of the storages exist; nothing else happens before. *)
Theorem C88_accepted_partial {D Po T : Type} (junk : list Z -> nat -> list Z) (yo : converter Po) (yt : converter T) (fmt : format D)
  (c : config D) (e : environment) (sched : list nat) (g : nat -> Z) (l : list (string * node)) (files : list (option (list Z))) :
  let good := forall key, In key (header_keys c) -> exists n, get_entry l key = Some n /\ entry_good yo yt (dimc c) key n in
  (good <-> exists h, yaml_load yo yt c (Mapping l) = Ok h) /\
  (~ good -> Forall (fun f => f <> None) files -> map_load_yaml junk yo yt fmt c e sched g (Mapping l) files = Throw) /\
  (forall n, (forall l', n <> Mapping l') -> Forall (fun f => f <> None) files -> map_load_yaml junk yo yt fmt c e sched g n files = Throw).
Proof.
  intros good. match goal with |- ?A /\ ?B /\ ?C => enough (AB : (A /\ B) /\ C) by (destruct AB as [[? ?] ?]; split; [assumption|split; assumption]) end. split.
  2: { intros n Hn Hf. unfold map_load_yaml. replace (forallb _ files) with true.
       - destruct n as [z|t| |q|l']; try reflexivity. contradiction (Hn l' eq_refl).
       - symmetry. apply forallb_forall. intros f Hin. rewrite Forall_forall in Hf. specialize (Hf f Hin). destruct f; [reflexivity|contradiction]. }
  destruct (yaml_load_cases yo yt c l) as [[A B]|[A B]]; fold good in A.
  - split; [split; auto|]. intros H. contradiction.
  - split; [split; [contradiction|intros [h Hh]; rewrite B in Hh; discriminate Hh]|]. intros _ Hf. unfold map_load_yaml.
    replace (forallb _ files) with true; [rewrite B; reflexivity|]. symmetry. apply forallb_forall. intros f Hin.
    rewrite Forall_forall in Hf. specialize (Hf f Hin). destruct f; [reflexivity|contradiction].
Qed.
Print Assumptions C88_accepted_partial.

(** Examples of converters: the bits as a number. *)
Definition word_converter (n : nat) : converter (word n) :=
  {| y_encode := fun w => Number (word_bits w); y_decode := fun v => match v with Number z => Some (word_of n z) | _ => None end |}.

(** C88 is false of headers that are refused: [load] does not return false, it throws. The header of a map
    with its resolution missing, the files of the storages intact. *)
Theorem C88_malformed_refuted :
  exists (c : config (word 48)) (l : list (map_action (P:=word 48))) (n : list (string * node)) (files : list (option (list Z))),
    config_ok c /\ fits c l /\
    (let* m := cact_all c l (new_map c) in
     let* w := yaml_write (word_converter 24) (word_converter 8) c (word_of 24 9) (word_of 8 5) m [] in
     let* s := save_stores plain_format c all_open (in_order 4) m in
     Ok (filter (fun e => negb (String.eqb (fst e) "resolution")) w, s)) = Ok (n, (true, files)) /\
    (let* o := map_load_yaml no_junk (word_converter 24) (word_converter 8) plain_format c all_open (in_order 4) (fun _ => 0)
                 (Mapping n) files in Ok (match o with Some _ => true | None => false end)) = Throw.
Proof.
  exists plain_map, plain_history. eexists. eexists. split; [exact plain_map_ok|]. split; [exact plain_history_fits|].
  split; [vm_compute; reflexivity|]. vm_compute. reflexivity.
Qed.
Print Assumptions C88_malformed_refuted.

(** C88 is false of static maps with an odd minimum index on axis 0, for the same reason as C27. *)
Theorem C88_static_odd_refuted :
  exists (c : config (word 48)) (l : list (map_action (P:=word 48))),
    config_ok c /\ kindc c = Static /\ Z.even (nth 0 (minc c) 0) = false /\ fits c l /\
    (let* m := cact_all c l (new_map c) in
     let* w := yaml_write (word_converter 24) (word_converter 8) c (word_of 24 9) (word_of 8 5) m [] in
     let* s := save_stores plain_format c all_open (in_order 4) m in Ok (length w, fst s)) = Ok (5%nat, true) /\
    (let* m := cact_all c l (new_map c) in
     let* w := yaml_write (word_converter 24) (word_converter 8) c (word_of 24 9) (word_of 8 5) m [] in
     let* s := save_stores plain_format c all_open (in_order 4) m in
     let* o := map_load_yaml no_junk (word_converter 24) (word_converter 8) plain_format c all_open (in_order 4) (fun _ => 0)
                 (Mapping w) (snd s) in
     Ok (match o with Some _ => true | None => false end)) = UB.
Proof.
  exists (plain_static [2; 2] [-3; 0]), [Modify [-1; 1] (add_points 8)].
  split; [apply plain_static_ok|]. split; [reflexivity|]. split; [reflexivity|]. split; [fits_2d|].
  split; vm_compute; reflexivity.
Qed.
Print Assumptions C88_static_odd_refuted.

(** A reachable map for the positive theorems: its header written over an older one, read in another order
    with a further entry. *)
Example C88_example :
  codec_ok (word_codec 48) /\ config_ok plain_map /\ fits plain_map plain_history /\ complete (bin_count 2) (in_order 4) /\
  (let* m := cact_all plain_map plain_history (new_map plain_map) in
   let* w := yaml_write (word_converter 24) (word_converter 8) plain_map (word_of 24 9) (word_of 8 5) m
               [("bundles", Null); ("name", Text "lab")]%string in
   let* s := save_stores plain_format plain_map all_open (in_order 4) m in
   let* o := map_load_yaml no_junk (word_converter 24) (word_converter 8) plain_format plain_map all_open (rev (in_order 4))
               (fun _ => 0) (Mapping (rev w)) (snd s) in
   match o with
   | Some x =>
       let* m2 := cact plain_map (l_map x) (Modify [0; 0] (add_points 2)) in
       let* bs := cbundles plain_map m2 in
       let* a := cstored plain_map m2 0 [0; 0] in
       Ok (map fst w, word_bits (l_origin x), word_bits (l_resolution x), (min_bi m2, max_bi m2), length bs, option_map word_bits a)
   | None => UB
   end) = Ok (["bundles"; "name"; "origin"; "resolution"; "min_index"; "max_index"]%string, 9, 5,
              ([-5; -1], [1; 2]), 10%nat, Some 6).
Proof.
  split; [apply word_codec_ok|]. split; [exact plain_map_ok|].
  split; [exact plain_history_fits|]. split; [apply in_order_complete|]. vm_compute. reflexivity.
Qed.
(** An empty map, loaded and then filled. *)
Example C88_example_empty :
  (let* w := yaml_write (word_converter 24) (word_converter 8) plain_map (word_of 24 9) (word_of 8 5) (new_map plain_map) [] in
   let* s := save_stores plain_format plain_map all_open (in_order 4) (new_map plain_map) in
   let* o := map_load_yaml no_junk (word_converter 24) (word_converter 8) plain_format plain_map all_open (in_order 4)
               (fun _ => 0) (Mapping w) (snd s) in
   match o with
   | Some x =>
       let* m2 := cact plain_map (l_map x) (Modify [3; -4] (add_points 2)) in
       let* a := cstored plain_map m2 0 [1; -2] in
       Ok (fst s, map_empty plain_map (l_map x), (min_bi m2, max_bi m2), option_map word_bits a)
   | None => UB
   end) = Ok (true, true, ([3; -4], [3; -4]), Some 2).
Proof. vm_compute. reflexivity. Qed.
Example C88_example_static :
  let c := plain_static [2; 3] [-4; 3] in
  let l := [Modify [-2; 3] (add_points 3); Modify [-4; 7] (add_points 1); ExpandAll] in
  config_ok c /\ Z.even (nth 0 (minc c) 0) = true /\ fits c l /\
  (let* m := cact_all c l (new_map c) in
   let* w := yaml_write (word_converter 24) (word_converter 8) c (word_of 24 9) (word_of 8 5) m [] in
   let* s := save_stores plain_format c all_open (in_order 4) m in
   let* o := map_load_yaml no_junk (word_converter 24) (word_converter 8) plain_format c all_open (in_order 4)
               (fun _ => 0) (Mapping w) (snd s) in
   match o with
   | Some x =>
       let* bs := cbundles c (l_map x) in
       let* a := cstored c (l_map x) 1 [-1; 1] in
       Ok (map fst w, (min_bi (l_map x), max_bi (l_map x)), length bs, option_map word_bits a)
   | None => UB
   end) = Ok (["origin"; "resolution"; "size"; "min_index"; "bundles"]%string, ([-4; 3], [-1; 8]), 5%nat, Some 3).
Proof.
  split; [apply plain_static_ok|]. split; [reflexivity|]. split; [fits_2d|]. vm_compute. reflexivity.
Qed.
(** A header that is taken, and three that are not. *)
Example C88_example_accepted :
  let i := Sequence [Number 4; Number (-2)] in
  let l b := [("origin", Number 1); ("resolution", Number 2); ("min_index", i); ("max_index", i); ("bundles", b)]%string in
  let try n := let* h := yaml_load (word_converter 24) (word_converter 8) plain_map n in Ok (snd h) in
  try (Mapping (l (Sequence [i; i]))) = Ok [[4; -2]; [4; -2]] /\
  try (Mapping (l (Sequence [Sequence [Number 4; Number 2147483648]]))) = Throw /\
  try (Mapping (l (Sequence [Sequence [Number 4]]))) = Throw /\ try (Sequence []) = Throw.
Proof. repeat split. Qed.
