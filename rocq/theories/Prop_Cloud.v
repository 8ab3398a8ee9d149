(** C64, C65, C66: maps as point clouds and markers. *)
From Coq Require Import String Reals Lra.
From Verif Require Import Base IndexModel OctreeSpec MapModel SysModel SysSpec SerialModel SerialFacts ConvSpec JetModel CloudModel CloudSpec
  CloudFacts CloudSamples.
Open Scope Z_scope.

(** C64, partial: the message lists all entries, and a reader finds the four numbers of each entry under
    their names. Missing: clouds without entry or with 2^28 and more, and the [count] of the fields. *)
Theorem C64_message_partial {F : Type} (float_bytes : F -> list Z) (es : list (F * F * F * F)) :
  (forall f, length (float_bytes f) = 4%nat) -> es <> [] -> Z.of_nat (length es) < 2 ^ 28 ->
  exists msg, cloud_message float_bytes (cloud_floats es) = Ok msg /\
    pc_width msg = Z.of_nat (length es) /\ pc_height msg = 1 /\ pc_bigendian msg = false /\ sizes_agree msg /\
    map pf_name (pc_fields msg) = ["x"; "y"; "z"; "intensity"]%string /\
    (forall f, In f (pc_fields msg) -> pf_datatype f = FLOAT32 /\ pf_count f = Z.of_nat (length es)) /\
    forall k e j f, nth_error es k = Some e -> nth_error (pc_fields msg) j = Some f ->
      field_bytes msg f 0 (Z.of_nat k) = float_bytes (entry_field j e).
Proof. exact (fun H => message_ok float_bytes H es). Qed.
Print Assumptions C64_message_partial.

Example C64_example :
  (forall z, length (le_bytes 4 z) = 4%nat) /\
  exists msg f, cloud_message (le_bytes 4) (cloud_floats [(1, 2, 3, 4); (5, 1000000, 7, 8)]) = Ok msg /\
    nth_error (pc_fields msg) 1 = Some f /\ pc_row_step msg = 32 /\ field_bytes msg f 0 1 = [64; 66; 15; 0].
Proof. split; [reflexivity|]. do 2 eexists. split; [reflexivity|]. repeat split. Qed.

(** C64, refuted: with more than one point the fields claim to reach beyond the point. *)
Theorem C64_count_refuted :
  exists es msg, cloud_message (le_bytes 4) (cloud_floats es) = Ok msg /\ ~ fields_inside msg.
Proof.
  exists [(1, 2, 3, 4); (5, 6, 7, 8)]. eexists. split; [reflexivity|]. intros H.
  specialize (H _ (or_intror (or_intror (or_intror (or_introl eq_refl))))). cbn in H. lia.
Qed.
Print Assumptions C64_count_refuted.

(** C64: more precisely with any number of points but one. *)
Theorem C64_count {F : Type} (float_bytes : F -> list Z) (es : list (F * F * F * F)) :
  (forall f, length (float_bytes f) = 4%nat) -> es <> [] -> Z.of_nat (length es) < 2 ^ 28 ->
  exists msg, cloud_message float_bytes (cloud_floats es) = Ok msg /\ (fields_inside msg <-> length es = 1%nat).
Proof.
  intros H Hne Hlt. destruct (message_ok float_bytes H es Hne Hlt) as [msg [E [W [_ [_ [_ [N [C _]]]]]]]].
  exists msg. split; [exact E|]. unfold cloud_message in E. destruct (cloud_floats es); [discriminate|].
  injection E as <-. cbn [pc_width] in W. unfold fields_inside. cbn [pc_fields pc_point_step]. split.
  - intros X. specialize (X _ (or_intror (or_intror (or_intror (or_introl eq_refl))))). cbn [pf_offset pf_count] in X.
    destruct es as [|? [|? es]]; [contradiction|reflexivity|]. cbn [List.length] in W. lia.
  - intros X g [<-|[<-|[<-|[<-|[]]]]]; cbn [pf_offset pf_count]; rewrite W, X; lia.
Qed.
Print Assumptions C64_count.

(** C64, refuted: an empty map has no message. *)
Theorem C64_empty_refuted :
  exists (c : config (list Z)) (show : list Z -> outcome (option (Z * Z * Z * Z))), config_ok c /\
    (let* r := cloud_convert c show false (new_map c) in cloud_message (le_bytes 4) (cloud_floats (snd r))) = UB.
Proof. exists log3, (fun _ => Ok (Some (0, 0, 0, 0))). split; [exact log3_ok|]. vm_compute. reflexivity. Qed.
Print Assumptions C64_empty_refuted.

(** C64, refuted: the length of a row overflows. *)
Theorem C64_large_refuted :
  exists es msg, cloud_message (le_bytes 4) (cloud_floats es) = Ok msg /\ ~ sizes_agree msg.
Proof.
  assert (X : exists n, Z.of_nat n = 2 ^ 28) by (exists (Z.to_nat (2 ^ 28)); apply Z2Nat.id; discriminate).
  destruct X as [n Hn]. exists (repeat (1, 2, 3, 4) n).
  destruct (message_large (le_bytes 4) (repeat (1, 2, 3, 4) n)) as [msg [E [W R]]].
  { now rewrite repeat_length. }
  exists msg. split; [exact E|]. intros [A _]. rewrite W, R in A.
  assert (X : pc_point_step msg = 16).
  { unfold cloud_message in E. destruct (cloud_floats _); [discriminate|]. injection E as <-. reflexivity. }
  rewrite X in A. discriminate A.
Qed.
Print Assumptions C64_large_refuted.

(** C65, partial: after any history, the cloud of a gridmap shows every cell with samples exactly once, at its
    transformed mean with intensity 1 (0 if the distribution is not valid yet), and the map is unchanged unless
    [allocate_all] is set; then it is the completed map, and the cells of this are shown. If no cell was allocated without change and [allocate_all] is not set, it shows nothing
    else; otherwise it may also show cells without samples (refuted below). *)
Theorem C65_gridmap_partial {D : Type} (c : config D) (valid : D -> bool) (mean : D -> nat -> R)
  (inf : D -> nat -> nat -> R) (origin : (nat -> R) -> nat -> R) (allocate_all : bool) (l : list (map_action (P:=D))) :
  config_ok c -> fits c (history allocate_all l) ->
  exists m m' keys, cact_all c l (new_map c) = Ok m /\
    cloud_convert c (show_distribution (dimc c) valid mean inf origin) allocate_all m =
      Ok (m', map (fun k => (origin (mean (after c l k)), if valid (after c l k) then 1%R else 0%R)) keys) /\
    shown_cells c l keys /\ (allocate_all = false -> m' = m) /\
    (only_changes l -> allocate_all = false -> forall i j, In (i, j) keys -> changes l i j <> []) /\
    (allocate_all = true -> cact c m ExpandAll = Ok m') /\ (forall i j, In (i, j) keys <-> exists v, has_value c m' i j v).
Proof.
  intros Hc Hf.
  destruct (convert_spec c Hc (show_distribution (dimc c) valid mean inf origin)
    (fun d => Some (origin (mean d), if valid d then 1%R else 0%R))) with (allocate_all := allocate_all) (l := l)
    as [m [m' [keys [A [B [C D']]]]]]; [|exact Hf|].
  - intros d. unfold show_distribution. now rewrite rsample_at_mean.
  - exists m, m', keys. split; [exact A|]. split; [|split; [exact C|exact D']]. rewrite B. do 2 f_equal.
    clear. induction keys as [|k keys IH]; [reflexivity|]. cbn [collect map]. now rewrite IH.
Qed.
Print Assumptions C65_gridmap_partial.

Example C65_example :
  config_ok log3 /\ (forall b, fits log3 (history b three_points)) /\ only_changes three_points /\
  changes three_points 0 [2; 0; -1] <> [] /\
  forall E (show : list Z -> E),
  (let* m := cact_all log3 three_points (new_map log3) in
   let* r := cloud_convert log3 (fun d => Ok (Some (show d))) false m in Ok (snd r)) =
  Ok (map show [[40]; [1; 2; 3]; [40]; [1; 2; 3]; [40]; [1; 2; 3]; [40]; [1; 2; 3]; [1; 2; 3]; [40];
                [1; 2; 3]; [40]; [1; 2; 3]; [40]; [1; 2; 3]; [40]]).
Proof.
  split; [exact log3_ok|]. split; [exact three_points_fit|]. split; [repeat constructor|]. split; [cbn; discriminate|].
  intros E show. apply three_points_shown.
Qed.

(** C65, refuted: with [allocate_all] a cell without any sample is shown, at whatever the mean of an empty
    distribution is. *)
Theorem C65_empty_cell_refuted :
  exists (c : config (list Z)) (l : list (map_action (P := list Z))),
    config_ok c /\ fits c (history true l) /\ only_changes l /\
    forall valid mean inf origin, exists out,
      (let* m := cact_all c l (new_map c) in
       let* r := cloud_convert c (show_distribution (dimc c) valid mean inf origin) true m in Ok (snd r)) = Ok out /\
      In (origin (mean []), if valid [] then 1%R else 0%R) out.
Proof.
  exists log3, three_points. split; [exact log3_ok|]. split; [apply three_points_fit|]. split; [repeat constructor|].
  intros valid mean inf origin.
  destruct (three_points_completed (fun d => (origin (mean d), rsample 3 (valid d) (mean d) (inf d) (mean d)))) as [out [A [_ B]]].
  exists out. split; [exact A|]. rewrite rsample_at_mean in B. exact B.
Qed.
Print Assumptions C65_empty_cell_refuted.

(** C65: the cloud of an occupancy map shows exactly the cells that have hits and an occupancy of at least the
    threshold, each once, with the occupancy as intensity. *)
Theorem C65_occupancy {D P M : Type} (c : config P) (valid : D -> bool) (mean : D -> nat -> R)
  (inf : D -> nat -> nat -> R) (origin : (nat -> R) -> nat -> R) (inner : P -> option D) (occupancy : M -> P -> R)
  (ivm : M) (threshold : R) (allocate_all : bool) (l : list (map_action (P:=P))) :
  config_ok c -> inner (defaultc c) = None -> fits c (history allocate_all l) ->
  exists m m' out keys, cact_all c l (new_map c) = Ok m /\
    cloud_convert c (show_occupancy (dimc c) valid mean inf origin inner occupancy (Some ivm) threshold) allocate_all m =
      Ok (m', out) /\ NoDup keys /\
    (forall i j, In (i, j) keys <-> cell_exists c i j /\ inner (after c l (i, j)) <> None /\
                                    (threshold <= occupancy ivm (after c l (i, j)))%R) /\
    Forall2 (fun e k => exists d, inner (after c l k) = Some d /\
               e = (origin (mean d), ((if valid d then 1 else 0) * occupancy ivm (after c l k))%R)) out keys /\
    (allocate_all = false -> m' = m) /\ (allocate_all = true -> cact c m ExpandAll = Ok m').
Proof.
  intros Hc Hd Hf.
  set (f := fun p => if Rlt_dec (occupancy ivm p) threshold then None
                     else match inner p with None => None
                          | Some d => Some (origin (mean d), ((if valid d then 1 else 0) * occupancy ivm p)%R) end).
  destruct (convert_spec c Hc (show_occupancy (dimc c) valid mean inf origin inner occupancy (Some ivm) threshold) f)
    with (allocate_all := allocate_all) (l := l) as [m [m' [keys [A [B [[C1 [C2 C3]] [C4 [_ [C5 _]]]]]]]]]; [|exact Hf|].
  { intros p. unfold show_occupancy, get_occupancy, f. cbn [obind]. destruct (Rlt_dec _ _); [reflexivity|].
    destruct (inner p) as [d|]; [|reflexivity]. cbn [obind]. now rewrite rsample_at_mean. }
  exists m, m', (collect (fun k => f (after c l k)) keys),
    (filter (fun k => match f (after c l k) with Some _ => true | None => false end) keys).
  split; [exact A|]. split; [exact B|]. split; [apply NoDup_filter; exact C1|]. split; [|split; [|exact (conj C4 C5)]].
  - intros i j. rewrite filter_In.
    assert (X : match f (after c l (i, j)) with Some _ => true | None => false end = true <->
                inner (after c l (i, j)) <> None /\ (threshold <= occupancy ivm (after c l (i, j)))%R).
    { unfold f. destruct (Rlt_dec _ _) as [Hl|Hl].
      - split; [discriminate|]. intros [_ X]. lra.
      - destruct (inner (after c l (i, j))); split; intros X; try discriminate; try tauto. split; [discriminate|lra]. }
    rewrite X. split.
    + intros [Y Z]. split; [apply C2; exact Y|exact Z].
    + intros [Y Z]. split; [|exact Z]. apply C3; [exact Y|]. intros Hn. destruct Z as [Z _]. apply Z.
      unfold after. cbn [fst snd]. rewrite Hn. exact Hd.
  - clear. induction keys as [|k keys IH]; [constructor|]. cbn [collect filter].
    destruct (f (after c l k)) as [e|] eqn:Ef; [|exact IH]. constructor; [|exact IH].
    unfold f in Ef. destruct (Rlt_dec _ _); [discriminate|]. destruct (inner (after c l k)) as [d|]; [|discriminate].
    injection Ef as <-. exists d. auto.
Qed.
Print Assumptions C65_occupancy.

(** C65: the coloured cloud has a point for the same cells. *)
Theorem C65_rgb {D P M : Type} (c : config P) (mean : D -> nat -> R)
  (origin : (nat -> R) -> nat -> R) (inner : P -> option D) (occupancy : M -> P -> R)
  (ivm : M) (threshold : R) (allocate_all : bool) (l : list (map_action (P:=P))) :
  config_ok c -> inner (defaultc c) = None -> fits c (history allocate_all l) ->
  exists m m' out keys, cact_all c l (new_map c) = Ok m /\
    cloud_convert c (show_occupancy_rgb mean origin inner occupancy (Some ivm) threshold) allocate_all m = Ok (m', out) /\
    NoDup keys /\
    (forall i j, In (i, j) keys <-> cell_exists c i j /\ inner (after c l (i, j)) <> None /\
                                    (threshold <= occupancy ivm (after c l (i, j)))%R) /\
    Forall2 (fun e k => exists d, inner (after c l k) = Some d /\ e = origin (mean d)) out keys /\
    (allocate_all = false -> m' = m) /\ (allocate_all = true -> cact c m ExpandAll = Ok m').
Proof.
  intros Hc Hd Hf.
  set (f := fun p => match inner p with None => None
                     | Some d => if Rlt_dec (occupancy ivm p) threshold then None else Some (origin (mean d)) end).
  destruct (convert_spec c Hc (show_occupancy_rgb mean origin inner occupancy (Some ivm) threshold) f)
    with (allocate_all := allocate_all) (l := l) as [m [m' [keys [A [B [[C1 [C2 C3]] [C4 [_ [C5 _]]]]]]]]]; [|exact Hf|].
  { intros p. unfold show_occupancy_rgb, get_occupancy, f. destruct (inner p); [|reflexivity]. cbn [obind].
    destruct (Rlt_dec _ _); reflexivity. }
  exists m, m', (collect (fun k => f (after c l k)) keys),
    (filter (fun k => match f (after c l k) with Some _ => true | None => false end) keys).
  split; [exact A|]. split; [exact B|]. split; [apply NoDup_filter; exact C1|]. split; [|split; [|exact (conj C4 C5)]].
  - intros i j. rewrite filter_In.
    assert (X : match f (after c l (i, j)) with Some _ => true | None => false end = true <->
                inner (after c l (i, j)) <> None /\ (threshold <= occupancy ivm (after c l (i, j)))%R).
    { unfold f. destruct (inner (after c l (i, j))).
      - destruct (Rlt_dec _ _) as [Hl|Hl]; split; intros X; try discriminate; try reflexivity; [lra|]. split; [discriminate|lra].
      - split; [discriminate|]. intros [X _]. contradiction. }
    rewrite X. split.
    + intros [Y Z]. split; [apply C2; exact Y|exact Z].
    + intros [Y Z]. split; [|exact Z]. apply C3; [exact Y|]. intros Hn. destruct Z as [Z _]. apply Z.
      unfold after. cbn [fst snd]. rewrite Hn. exact Hd.
  - clear. induction keys as [|k keys IH]; [constructor|]. cbn [collect filter].
    destruct (f (after c l k)) as [e|] eqn:Ef; [|exact IH]. constructor; [|exact IH].
    unfold f in Ef. destruct (inner (after c l k)) as [d|]; [|discriminate]. destruct (Rlt_dec _ _); [discriminate|].
    injection Ef as <-. exists d. auto.
Qed.
Print Assumptions C65_rgb.

Example C65_occupancy_example :
  let inner := fun d : nat * nat => match fst d with O => None | S n => Some n end in
  let occupancy := fun (ivm : unit) (d : nat * nat) => (if (fst d <? snd d)%nat then 1 / 4 else 3 / 4)%R in
  config_ok occ3 /\ inner (defaultc occ3) = None /\ (forall b, fits occ3 (history b hits_and_misses)) /\
  inner (after occ3 hits_and_misses (1%nat, [0; 0; 0]%Z)) = Some 1%nat /\
  (1 / 2 <= occupancy tt (after occ3 hits_and_misses (1%nat, [0; 0; 0]%Z)))%R /\
  inner (after occ3 hits_and_misses (1%nat, [4; 0; 0]%Z)) = None.
Proof.
  intros inner occupancy. split; [exact occ3_ok|]. split; [reflexivity|]. split; [exact hits_and_misses_fit|].
  split; [reflexivity|]. split; [cbn; lra|reflexivity].
Qed.

(** C65, refuted: without inverse model the conversion throws. *)
Theorem C65_no_model_refuted :
  exists (c : config (nat * nat)) (l : list (map_action (P := nat * nat))),
    config_ok c /\ fits c (history false l) /\
    forall valid mean inf origin (inner : nat * nat -> option nat) (occupancy : unit -> nat * nat -> R) threshold,
      (let* m := cact_all c l (new_map c) in
       cloud_entries c (show_occupancy (dimc c) valid mean inf origin inner occupancy None threshold) m) = Throw.
Proof.
  exists occ3, hits_and_misses. split; [exact occ3_ok|]. split; [apply hits_and_misses_fit|].
  intros. vm_compute. reflexivity.
Qed.
Print Assumptions C65_no_model_refuted.

(** C66: the markers of a gridmap are a request to delete all, then one marker for each stored cell whose
    distribution has an eigen decomposition, at its transformed mean, with consecutive identifiers. *)
Theorem C66_gridmap {D G : Type} (c : config D) (mean : D -> nat -> R) (origin : (nat -> R) -> nat -> R)
  (eigen : D -> option G) (l : list (map_action (P:=D))) :
  config_ok c -> fits c l -> eigen (defaultc c) = None ->
  exists m keys, cact_all c l (new_map c) = Ok m /\ NoDup keys /\
    (forall i j, In (i, j) keys <-> cell_exists c i j /\ eigen (after c l (i, j)) <> None) /\
    (Z.of_nat (length keys) < INT_MAX ->
     exists out, marker_array c (show_marker mean origin eigen) m = Ok (DeleteAll 0 :: numbered 1 out) /\
       Forall2 (fun e k => exists g, eigen (after c l k) = Some g /\ e = (origin (mean (after c l k)), g)) out keys).
Proof.
  intros Hc Hf Hd. set (f := fun d => match eigen d with Some g => Some (origin (mean d), g) | None => None end).
  destruct (marker_spec c Hc (show_marker mean origin eigen) f (fun d => eq_refl) l Hf) as [m [keys [A [[C1 [C2 C3]] [_ B]]]]].
  exists m, (filter (fun k => match f (after c l k) with Some _ => true | None => false end) keys).
  assert (L : length (collect (fun k => f (after c l k)) keys) =
              length (filter (fun k => match f (after c l k) with Some _ => true | None => false end) keys)).
  { clear. induction keys as [|k keys IH]; [reflexivity|]. cbn [collect filter]. destruct (f (after c l k)); cbn [List.length]; lia. }
  split; [exact A|]. split; [apply NoDup_filter; exact C1|]. split.
  - intros i j. rewrite filter_In. unfold f. split.
    + intros [Y Z]. split; [apply C2; exact Y|]. destruct (eigen (after c l (i, j))); [discriminate|discriminate].
    + intros [Y Z]. split; [|destruct (eigen (after c l (i, j))); [reflexivity|contradiction]].
      apply C3; [exact Y|]. intros Hn. apply Z. unfold after. cbn [fst snd]. rewrite Hn. exact Hd.
  - intros Hlt. exists (collect (fun k => f (after c l k)) keys). split; [apply B; lia|].
    clear. induction keys as [|k keys IH]; [constructor|]. cbn [collect filter].
    destruct (f (after c l k)) as [e|] eqn:Ef; [|exact IH]. constructor; [|exact IH].
    unfold f in Ef. destruct (eigen (after c l k)) as [g|]; [|discriminate]. injection Ef as <-. exists g. auto.
Qed.
Print Assumptions C66_gridmap.

(** C66: the same for occupancy maps, for cells whose occupancy reaches the threshold; the occupancy is the
    opacity. *)
Theorem C66_occupancy {D P M G : Type} (c : config P) (mean : D -> nat -> R) (origin : (nat -> R) -> nat -> R)
  (inner : P -> option D) (occupancy : M -> P -> R) (eigen : D -> option G) (ivm : M) (threshold : R)
  (l : list (map_action (P:=P))) :
  config_ok c -> fits c l -> inner (defaultc c) = None ->
  exists m keys, cact_all c l (new_map c) = Ok m /\ NoDup keys /\
    (forall i j, In (i, j) keys <-> cell_exists c i j /\ (threshold <= occupancy ivm (after c l (i, j)))%R /\
       exists d g, inner (after c l (i, j)) = Some d /\ eigen d = Some g) /\
    (Z.of_nat (length keys) < INT_MAX ->
     exists out, marker_array c (show_occupancy_marker mean origin inner occupancy eigen (Some ivm) threshold) m =
         Ok (DeleteAll 0 :: numbered 1 out) /\
       Forall2 (fun e k => exists d g, inner (after c l k) = Some d /\ eigen d = Some g /\
                  e = (origin (mean d), g, occupancy ivm (after c l k))) out keys).
Proof.
  intros Hc Hf Hd.
  set (f := fun p => if Rlt_dec (occupancy ivm p) threshold then None
                     else match inner p with None => None
                          | Some d => match eigen d with Some g => Some (origin (mean d), g, occupancy ivm p) | None => None end end).
  destruct (marker_spec c Hc (show_occupancy_marker mean origin inner occupancy eigen (Some ivm) threshold) f) with (l := l)
    as [m [keys [A [[C1 [C2 C3]] [_ B]]]]]; [|exact Hf|].
  { intros p. unfold show_occupancy_marker, get_occupancy, f. cbn [obind]. destruct (Rlt_dec _ _); [reflexivity|].
    destruct (inner p) as [d|]; [|reflexivity]. destruct (eigen d); reflexivity. }
  exists m, (filter (fun k => match f (after c l k) with Some _ => true | None => false end) keys).
  assert (L : length (collect (fun k => f (after c l k)) keys) =
              length (filter (fun k => match f (after c l k) with Some _ => true | None => false end) keys)).
  { clear. induction keys as [|k keys IH]; [reflexivity|]. cbn [collect filter]. destruct (f (after c l k)); cbn [List.length]; lia. }
  split; [exact A|]. split; [apply NoDup_filter; exact C1|]. split.
  - intros i j. rewrite filter_In.
    assert (X : match f (after c l (i, j)) with Some _ => true | None => false end = true <->
                (threshold <= occupancy ivm (after c l (i, j)))%R /\
                exists d g, inner (after c l (i, j)) = Some d /\ eigen d = Some g).
    { unfold f. destruct (Rlt_dec _ _) as [Hl|Hl].
      - split; [discriminate|]. intros [X _]. lra.
      - destruct (inner (after c l (i, j))) as [d|].
        + destruct (eigen d) as [g|] eqn:Eg; split; intros X; try discriminate; try reflexivity.
          * split; [lra|]. exists d, g. auto.
          * destruct X as [_ [d' [g [X Y]]]]. congruence.
        + split; [discriminate|]. intros [_ [d' [g [X Y]]]]. discriminate X. }
    rewrite X. split.
    + intros [Y Z]. split; [apply C2; exact Y|exact Z].
    + intros [Y Z]. split; [|exact Z]. apply C3; [exact Y|]. intros Hn. destruct Z as [_ [d [g [Z _]]]].
      unfold after in Z. cbn [fst snd] in Z. rewrite Hn in Z. cbn [apply_changes fold_left] in Z.
      unfold apply_changes in Z. cbn [fold_left] in Z. congruence.
  - intros Hlt. exists (collect (fun k => f (after c l k)) keys). split; [apply B; lia|].
    clear. induction keys as [|k keys IH]; [constructor|]. cbn [collect filter].
    destruct (f (after c l k)) as [e|] eqn:Ef; [|exact IH]. constructor; [|exact IH].
    unfold f in Ef. destruct (Rlt_dec _ _); [discriminate|]. destruct (inner (after c l k)) as [d|]; [|discriminate].
    destruct (eigen d) as [g|] eqn:Eg; [|discriminate]. injection Ef as <-. exists d, g. auto.
Qed.
Print Assumptions C66_occupancy.

Example C66_example :
  let eigen := fun d : list Z => if (2 <? length d)%nat then Some (length d) else None in
  config_ok log3 /\ fits log3 three_points /\ eigen (defaultc log3) = None /\
  eigen (after log3 three_points (0%nat, [0; 0; 0])) = Some 3%nat /\
  eigen (after log3 three_points (0%nat, [2; 0; -1])) = None /\
  (let* m := cact_all log3 three_points (new_map log3) in marker_array log3 (fun d => Ok (eigen d)) m) =
  Ok (DeleteAll 0 :: numbered 1 (repeat 3%nat 8)).
Proof.
  intros eigen. split; [exact log3_ok|]. split; [exact (three_points_fit false)|]. split; [reflexivity|].
  split; [reflexivity|]. split; [reflexivity|]. vm_compute. reflexivity.
Qed.
