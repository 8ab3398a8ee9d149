(** C56: maps with a YAML header. *)
From Coq Require Import String.
From Verif Require Import Base PathModel.

(** A component that is neither [.] nor [..]. *)
Definition plain (s : string) : Prop := s <> "."%string /\ s <> ".."%string.
(** The directory that a path denotes. *)
Definition directory_of (cwd : list string) (p : path) : list string := resolve cwd p.

Lemma resolve_app (ps qs here : list string) : resolve_from here (ps ++ qs) = resolve_from (resolve_from here ps) qs.
Proof. revert here. induction ps as [|p ps IH]; intros here; cbn [resolve_from app]; [reflexivity|]. apply IH. Qed.
Lemma resolve_plain (ps : list string) : Forall plain ps -> forall here, resolve_from here ps = here ++ ps.
Proof.
  induction 1 as [|p ps [H1 H2] _ IH]; intros here; cbn [resolve_from]; [rewrite app_nil_r; reflexivity|].
  apply String.eqb_neq in H1, H2. rewrite H1, H2, IH, <- app_assoc. reflexivity.
Qed.
Lemma resolve_dots (ps here : list string) : Forall (fun p => p = "."%string) ps -> resolve_from here ps = here.
Proof. induction 1 as [|p ps -> _ IH]; cbn [resolve_from]; [reflexivity|]. exact IH. Qed.
Lemma resolve_name (here : list string) (s : string) : plain s -> resolve_from here [s] = here ++ [s].
Proof. intros H. apply resolve_plain. constructor; [exact H|constructor]. Qed.
Lemma yaml_plain : plain "map.yaml". Proof. split; discriminate. Qed.
Lemma bin_plain : plain "map.bin". Proof. split; discriminate. Qed.

Lemma own_file (v4 : bool) (cwd : list string) (p : path) (s : string) : plain s ->
  resolve cwd (join v4 p (name s)) = directory_of cwd p ++ [s].
Proof.
  intros H. unfold join. cbn [name absolute]. rewrite andb_false_r. unfold directory_of, resolve. cbn [absolute parts].
  rewrite resolve_app. apply resolve_name. exact H.
Qed.

(** The directory that a path denotes, without reference to the model: names go down from the root or from the
    working directory, [.] stays and [..] goes back to the parent. *)
Theorem C56_directory (cwd : list string) (p : path) :
  (Forall plain (parts p) -> absolute p = true -> directory_of cwd p = parts p) /\
  (Forall plain (parts p) -> absolute p = false -> directory_of cwd p = cwd ++ parts p) /\
  (forall qs ns s, parts p = qs ++ ["."%string] ++ ns \/ parts p = qs ++ [s; ".."%string] ++ ns /\ plain s ->
     directory_of cwd p = directory_of cwd {| absolute := absolute p; parts := qs ++ ns |}).
Proof.
  unfold directory_of, resolve. repeat split.
  - intros H ->. rewrite resolve_plain; auto.
  - intros H ->. rewrite resolve_plain; auto.
  - intros qs ns s [E|[E Hs]]; rewrite E; cbn [absolute parts]; rewrite !resolve_app; [reflexivity|].
    change [s; ".."%string] with ([s] ++ [".."%string]). rewrite resolve_app, (resolve_name _ s Hs).
    cbn [resolve_from String.eqb Ascii.eqb Bool.eqb]. rewrite removelast_last. reflexivity.
Qed.
Print Assumptions C56_directory.
(** [/home/robot/maps/../lab] and [maps/../lab] from [/home/robot]. *)
Example C56_directory_example :
  directory_of ["tmp"]%string {| absolute := true; parts := ["home"; "robot"; "maps"; ".."; "lab"]%string |} = ["home"; "robot"; "lab"]%string /\
  directory_of ["home"; "robot"]%string {| absolute := false; parts := ["maps"; ".."; "lab"]%string |} = ["home"; "robot"; "lab"]%string.
Proof. split; reflexivity. Qed.

(** C56, the part that holds: without [map.yaml] the binary header of the directory is read, if there is
    one. *)
Theorem C56_binary_header_partial {C : Type} (v4 : bool) (fs : files C) (cwd : list string) (p : path) :
  fs (directory_of cwd p ++ ["map.yaml"%string]) = None ->
  choose_header v4 fs cwd p =
    match fs (directory_of cwd p ++ ["map.bin"%string]) with Some b => Ok (BinaryHeader b) | None => Ok NoHeader end.
Proof.
  intros H. unfold choose_header. rewrite (own_file v4 cwd p _ yaml_plain), (own_file v4 cwd p _ bin_plain), H.
  destruct (fs _); reflexivity.
Qed.
(** ... and the YAML header is read if the map lies in the working directory, given as [.], or if the
    path is absolute and version 4 of the library is used. *)
Theorem C56_yaml_header_partial {C : Type} (v4 : bool) (fs : files C) (cwd : list string) (p : path) (h : C) :
  (absolute p = false /\ Forall (fun s => s = "."%string) (parts p)) \/ (absolute p = true /\ v4 = true) ->
  fs (directory_of cwd p ++ ["map.yaml"%string]) = Some h ->
  choose_header v4 fs cwd p = Ok (YamlHeader h).
Proof.
  intros Hp H. unfold choose_header. rewrite (own_file v4 cwd p _ yaml_plain), H.
  assert (E : resolve cwd (join v4 p (join v4 p (name "map.yaml"))) = directory_of cwd p ++ ["map.yaml"%string]).
  { destruct Hp as [[Ha Hd]|[Ha ->]].
    - assert (J : join v4 p (join v4 p (name "map.yaml")) = {| absolute := absolute p; parts := parts p ++ parts p ++ ["map.yaml"%string] |})
        by (unfold join; destruct v4; cbn [name absolute parts andb]; [rewrite Ha|]; reflexivity).
      rewrite J. clear J. unfold directory_of, resolve. cbn [absolute parts]. rewrite ?Ha, !resolve_app.
      rewrite !(resolve_dots _ _ Hd). try rewrite Ha. rewrite ?(resolve_dots _ _ Hd). apply resolve_name, yaml_plain.
    - unfold join. cbn [name absolute]. cbn [andb]. rewrite Ha. unfold directory_of, resolve. cbn [absolute parts]. rewrite Ha.
      rewrite resolve_app. apply resolve_name, yaml_plain. }
  rewrite E, H. reflexivity.
Qed.

(** C56 fails for all other ordinary paths: a directory given by names, relative to the working directory
    (or absolute, version 3 of the library). [load] opens [map.yaml] of another directory, and throws if
    there is none. *)
Theorem C56_wrong_directory {C : Type} (v4 : bool) (fs : files C) (cwd : list string) (p : path) (h : C) :
  absolute p = false \/ v4 = false -> parts p <> [] -> Forall plain (parts p) ->
  fs (directory_of cwd p ++ ["map.yaml"%string]) = Some h ->
  let other := directory_of cwd p ++ parts p in
  other <> directory_of cwd p /\
  choose_header v4 fs cwd p = match fs (other ++ ["map.yaml"%string]) with Some n => Ok (YamlHeader n) | None => Throw end.
Proof.
  intros Hv Hne Hp H other. split.
  - unfold other. intros E. apply (f_equal (@length _)) in E. rewrite app_length in E. destruct (parts p); [congruence|cbn in E; lia].
  - unfold choose_header. rewrite (own_file v4 cwd p _ yaml_plain), H.
    assert (E : resolve cwd (join v4 p (join v4 p (name "map.yaml"))) = other ++ ["map.yaml"%string]).
    { assert (J : join v4 p (join v4 p (name "map.yaml")) = {| absolute := absolute p; parts := parts p ++ parts p ++ ["map.yaml"%string] |}).
      { unfold join. destruct v4; cbn [name absolute parts andb]; [|reflexivity].
        destruct Hv as [Ha|Hv]; [|discriminate Hv]. rewrite Ha. reflexivity. }
      rewrite J. clear J. unfold other, directory_of, resolve. cbn [absolute parts]. rewrite !resolve_app.
      rewrite (resolve_plain _ Hp (resolve_from _ _)), resolve_name by exact yaml_plain. reflexivity. }
    rewrite E. reflexivity.
Qed.
Print Assumptions C56_binary_header_partial.
Print Assumptions C56_yaml_header_partial.
Print Assumptions C56_wrong_directory.

(** C56 is false: the map in [maps/lab], seen from [/home/robot], whatever version of the library. *)
Definition lab_files (p : list string) : option nat :=
  if list_eq_dec string_dec p ["home"; "robot"; "maps"; "lab"; "map.yaml"]%string then Some 7%nat else None.
Theorem C56_yaml_never_found_refuted :
  exists (fs : files nat) (cwd : list string) (p : path) (h : nat),
    fs (directory_of cwd p ++ ["map.yaml"%string]) = Some h /\
    (forall v4, choose_header v4 fs cwd p = Throw).
Proof.
  exists lab_files, ["home"; "robot"]%string, {| absolute := false; parts := ["maps"; "lab"]%string |}, 7%nat.
  split; [reflexivity|]. intros [|]; reflexivity.
Qed.
Print Assumptions C56_yaml_never_found_refuted.

(** The same map as [.] from within its directory, and by its absolute name. *)
Example C56_example :
  choose_header false lab_files ["home"; "robot"; "maps"; "lab"]%string {| absolute := false; parts := ["."]%string |} = Ok (YamlHeader 7%nat) /\
  (let p := {| absolute := true; parts := ["home"; "robot"; "maps"; "lab"]%string |} in
   choose_header true lab_files [] p = Ok (YamlHeader 7%nat) /\ choose_header false lab_files [] p = Throw).
Proof. repeat split. Qed.
