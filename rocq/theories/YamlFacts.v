(** Facts about YAML headers. *)
From Coq Require Import String.
From Verif Require Import Base SeqModel IndexModel OctreeSpec OctreeModel MapModel BackendModel SysModel SysSpec SysFacts
  ConvSpec ConvFacts LoaderModel SerialModel SerialSpec SerialFacts ThreadModel ThreadSpec ThreadFacts FileModel FileFacts GridFacts MapLifeFacts
  StaticTripFacts BackendFacts YamlModel YamlSpec.
Open Scope Z_scope.

Lemma get_set (l : list (string * node)) (key key' : string) (v : node) :
  get_entry (set_entry l key v) key' = if String.eqb key key' then Some v else get_entry l key'.
Proof.
  induction l as [|[k w] l IH]; cbn [set_entry get_entry]; [reflexivity|].
  destruct (String.eqb_spec k key) as [->|Hne]; cbn [get_entry].
  - destruct (String.eqb key key'); reflexivity.
  - destruct (String.eqb_spec k key') as [->|]; [|exact IH]. destruct (String.eqb_spec key key'); congruence.
Qed.

Lemma all_decoded_map {A : Type} (k : converter A) (l : list A) :
  (forall a, In a l -> y_decode k (y_encode k a) = Some a) -> all_decoded (y_decode k) (map (y_encode k) l) = Some l.
Proof.
  induction l as [|a l IH]; intros H; [reflexivity|]. cbn [map all_decoded]. rewrite (H a (or_introl eq_refl)).
  rewrite IH by (intros b Hb; apply H; right; exact Hb). reflexivity.
Qed.
Lemma array_trip {A : Type} (dim : nat) (k : converter A) (l : list A) : length l = dim ->
  (forall a, In a l -> y_decode k (y_encode k a) = Some a) ->
  y_decode (array_converter dim k) (y_encode (array_converter dim k) l) = Some l.
Proof.
  intros L H. cbn [array_converter y_encode y_decode]. rewrite map_length, L, Nat.eqb_refl. apply all_decoded_map. exact H.
Qed.
Lemma int_trip (z : Z) : INT_MIN <= z <= INT_MAX -> y_decode int_converter (y_encode int_converter z) = Some z.
Proof.
  intros H. cbn. replace (int_ok z) with true; [reflexivity|]. symmetry. unfold int_ok. apply andb_true_iff.
  rewrite !Z.leb_le. exact H.
Qed.
Lemma size_trip (z : Z) : 0 <= z < 2 ^ 64 -> y_decode size_converter (y_encode size_converter z) = Some z.
Proof.
  intros H. cbn [size_converter y_decode y_encode]. replace ((0 <=? z) && (z <? 2 ^ 64)) with true; [reflexivity|].
  symmetry. apply andb_true_iff. rewrite Z.leb_le, Z.ltb_lt. exact H.
Qed.
Lemma index_trip {P : Type} (c : config P) (i : idx) : length i = dimc c -> int_index i ->
  y_decode (index_converter c) (y_encode (index_converter c) i) = Some i.
Proof. intros L H. apply array_trip; [exact L|]. intros z Hz. apply int_trip. unfold int_index in H. rewrite Forall_forall in H. apply H, Hz. Qed.
Lemma indices_trip {P : Type} (c : config P) (l : list idx) : (forall i, In i l -> length i = dimc c /\ int_index i) ->
  y_decode (indices_converter c) (y_encode (indices_converter c) l) = Some l.
Proof. intros H. cbn [indices_converter vector_converter y_encode y_decode]. apply all_decoded_map. intros i Hi. apply index_trip; apply H, Hi. Qed.

Section Trip.
Context {P Po T : Type}.
Variable yo : converter Po.
Variable yt : converter T.
Variable c : config P.

Lemma yaml_trip (origin o : Po) (resolution r : T) (m : cmap c) (n : list (string * node)) (es : list (idx * bundle)) :
  y_decode yo (y_encode yo origin) = Some o -> y_decode yt (y_encode yt resolution) = Some r ->
  cbundles c m = Ok es -> (forall i, In i (map fst es) -> length i = dimc c /\ int_index i) ->
  length (min_bi m) = dimc c -> int_index (min_bi m) ->
  (kindc c = Dynamic -> length (max_bi m) = dimc c /\ int_index (max_bi m)) ->
  (kindc c = Static -> length (sizec c) = dimc c /\ Forall (fun z => 0 <= z < 2 ^ 64) (sizec c) /\ max_bi m = static_max (sizec c) (min_bi m)) ->
  exists w, yaml_write yo yt c origin resolution m n = Ok w /\
    forall w', agree_on (header_keys c) w w' ->
    yaml_load yo yt c (Mapping w') =
      Ok (o, r, (match kindc c with Static => sizec c | Dynamic => [] end, min_bi m, max_bi m), map fst es).
Proof.
  intros Ho Hr Ees Hes Lm Im Hdyn Hst. unfold yaml_write. rewrite Ees. cbn [obind].
  assert (Hmin : y_decode (index_converter c) (y_encode (index_converter c) (min_bi m)) = Some (min_bi m))
    by (apply index_trip; assumption).
  pose proof (indices_trip c (map fst es) Hes) as Hb.
  eexists. split; [reflexivity|]. intros w' Hw. unfold yaml_load, read_entry. unfold agree_on, header_keys in Hw.
  destruct (kindc c).
  - destruct (Hst eq_refl) as [Ls [Is Hx]].
    rewrite <- !Hw by (cbn; tauto). rewrite !get_set. cbn -[y_encode y_decode index_converter indices_converter size_array].
    rewrite Ho. cbn [obind]. rewrite Hr. cbn [obind].
    assert (Hsz : y_decode (size_array c) (y_encode (size_array c) (sizec c)) = Some (sizec c)).
    { apply array_trip; [exact Ls|]. intros z Hz. apply size_trip. rewrite Forall_forall in Is. apply Is, Hz. }
    rewrite Hsz. cbn [obind]. rewrite Hmin. cbn [obind]. rewrite Hb. cbn [obind]. rewrite <- Hx. reflexivity.
  - destruct (Hdyn eq_refl) as [Lx Ix].
    rewrite <- !Hw by (cbn; tauto). rewrite !get_set. cbn -[y_encode y_decode index_converter indices_converter].
    rewrite Ho. cbn [obind]. rewrite Hr. cbn [obind]. rewrite Hmin. cbn [obind]. rewrite (index_trip c (max_bi m) Lx Ix). cbn [obind].
    rewrite Hb. reflexivity.
Qed.
End Trip.

Section Loads.
Variable junk : list Z -> nat -> list Z.
Context {P : Type}.
Variable fmt : format P.
Variable ok : P -> Prop.
Variable len : nat.
Hypothesis Hfmt : format_ok fmt ok len.
Hypothesis Hcount : f_count fmt = Z.of_nat len.

(** The rest of [load] does not depend on origin and resolution. *)
Lemma load_rest_poses {Po T Po' T' : Type} (c : config P) (e : environment) (sched : list nat) (g : nat -> Z)
  (files : list (option (list Z))) (o : Po) (r : T) (o' : Po') (r' : T') (h : list Z * idx * idx) (l : list idx) (m' : cmap c) :
  load_rest junk fmt c e sched g files (o, r, h, l) = Ok (Some {| l_origin := o; l_resolution := r; l_map := m' |}) ->
  load_rest junk fmt c e sched g files (o', r', h, l) = Ok (Some {| l_origin := o'; l_resolution := r'; l_map := m' |}).
Proof.
  destruct h as [[size mn] mx]. unfold load_rest. intros H.
  destruct (workers_run _ sched) as [w| |]; cbn [obind] in *; try discriminate H.
  destruct (flag w); [|discriminate H].
  destruct (ofold _ l _) as [bs| |]; cbn [obind] in *; try discriminate H.
  destruct (not_null (made w)) as [ss| |]; cbn [obind] in *; try discriminate H.
  injection H as <-. reflexivity.
Qed.

Lemma usable_int_index (c : config P) (bi : idx) : kindc c = Dynamic -> usable c 0 bi -> length bi = dimc c /\ int_index bi.
Proof.
  intros Hk Hu. split; [apply Hu|]. apply Forall_forall. intros z Hz. apply (In_nth bi z 0) in Hz. destruct Hz as [d [Hd <-]].
  pose proof Hu as [L _]. pose proof (usable_coord c Hk bi d Hu ltac:(congruence)) as H. unfold INT_MIN, INT_MAX. lia.
Qed.

(** The range of every dynamic map fits into [int]s, also that of an empty one. *)
Lemma range_int (c : config P) (m : cmap c) : config_ok c -> kindc c = Dynamic -> aminc c = cw_min -> amaxc c = cw_max ->
  cInv c m -> region c 0 m ->
  (length (min_bi m) = dimc c /\ int_index (min_bi m)) /\ (length (max_bi m) = dimc c /\ int_index (max_bi m)).
Proof.
  intros Hc Hk Hmin Hmax HI HR. pose proof HI as [[_ [_ [_ Hbox]]] _]. destruct (Hbox Hmin Hmax Hk) as [L1 [L2 H]].
  assert (Hb : forall bi d, has_b c m bi -> (d < dimc c)%nat -> INT_MIN <= nth d bi 0 <= INT_MAX).
  { intros bi d Hbi Hd. pose proof (has_b_usable c 0 m bi HI HR Hbi) as Hu.
    pose proof (usable_coord c Hk bi d Hu Hd). unfold INT_MIN, INT_MAX. lia. }
  split; (split; [assumption|]); apply Forall_forall; intros z Hz; apply (In_nth _ z 0) in Hz; destruct Hz as [d [Hd <-]];
    destruct (H d ltac:(congruence)) as [_ [B C]].
  - destruct B as [->|[x [Hx <-]]]; [unfold INT_MIN, INT_MAX; lia|apply (Hb x d Hx); congruence].
  - destruct C as [->|[x [Hx <-]]]; [unfold INT_MIN, INT_MAX; lia|apply (Hb x d Hx); congruence].
Qed.

Lemma files_there (files : list (list Z)) :
  forallb (fun f => match f with Some _ => true | None => false end) (map Some files) = true.
Proof. apply forallb_forall. intros f Hf. apply in_map_iff in Hf. destruct Hf as [x [<- _]]. reflexivity. Qed.

Lemma yaml_restores {Po T : Type} (yo : converter Po) (yt : converter T) (c : config P)
  (s1 s2 : list nat) (g : nat -> Z) (origin o : Po) (resolution r : T) (n : list (string * node)) (m : cmap c) :
  y_decode yo (y_encode yo origin) = Some o -> y_decode yt (y_encode yt resolution) = Some r ->
  config_ok c -> kindc c = Dynamic -> aminc c = cw_min -> amaxc c = cw_max -> (0 < dimc c)%nat ->
  cInv c m -> region c 0 m -> (forall i j v, has_value c m i j v -> ok v) ->
  complete (bin_count (dimc c)) s1 -> complete (bin_count (dimc c)) s2 ->
  exists w files m', yaml_write yo yt c origin resolution m n = Ok w /\
    save_stores fmt c all_open s1 m = Ok (true, files) /\
    (forall w', agree_on (header_keys c) w w' ->
       map_load_yaml junk yo yt fmt c all_open s2 g (Mapping w') files =
         Ok (Some {| l_origin := o; l_resolution := r; l_map := m' |})) /\
    restores c m m'.
Proof.
  intros Ho Hr Hc Hk Hmin Hmax Hdim HI HR Hok C1 C2.
  destruct (cmap_bundles c Hc m HI HR) as [es [Ees [Hn [Hin _]]]].
  destruct (range_int c m Hc Hk Hmin Hmax HI HR) as [[L1 I1] R2].
  destruct (yaml_trip yo yt c origin o resolution r m n es Ho Hr Ees) as [w [E1 E2]]; try assumption.
  { intros bi Hbi. apply in_map_iff in Hbi. destruct Hbi as [[bi' b] [<- He]]. cbn [fst]. apply usable_int_index; [exact Hk|].
    apply Hin in He. apply He. }
  { intros _. exact R2. }
  { intros Hs. rewrite Hk in Hs. discriminate Hs. }
  destruct (all_storages junk fmt ok len Hfmt Hcount c Hc Hk Hdim m HI Hok g [] (min_bi m)) as [files [ss [L3 [L4 [O1 [O2 [W [S G]]]]]]]].
  destruct (bundles_found len c Hc Hk Hdim m HI HR ss g [] (min_bi m) es G Hn Hin) as [bs [B1 [B2 [B3 B4]]]].
  destruct (all_ok_run (map (save_operation fmt c all_open m) (seq 0 (bin_count (dimc c)))) (map Some files) O1 s1) as [w1 [X1 [F1 M1]]].
  { rewrite map_length, seq_length. exact C1. }
  destruct (all_ok_run (map (load_operation junk fmt c all_open (fresh_store c g [] (min_bi m)) (map Some files)) (seq 0 (bin_count (dimc c))))
              (map Some ss) O2 s2) as [w2 [X2 [F2 M2]]].
  { rewrite map_length, seq_length. exact C2. }
  exists w, (map Some files). eexists. split; [exact E1|]. split; [unfold save_stores; rewrite X1; cbn [obind]; rewrite F1, M1; reflexivity|].
  split.
  - intros w' Hw. unfold map_load_yaml. rewrite files_there, (E2 w' Hw). cbn [obind].
    replace (match kindc c with Static => sizec c | Dynamic => [] end) with (@nil Z) by (rewrite Hk; reflexivity).
    unfold load_rest. rewrite X2. cbn [obind]. rewrite F2, M2, B1. cbn [obind]. rewrite not_null_some. reflexivity.
  - exact (restored c m HI HR ss bs L4 W S G B2 B3 B4).
Qed.

Lemma yaml_dynamic {Po T : Type} (yo : converter Po) (yt : converter T) (c : config P) (l : list (map_action (P:=P)))
  (s1 s2 : list nat) (g : nat -> Z) (origin o : Po) (resolution r : T) (n : list (string * node)) (m : cmap c) :
  y_decode yo (y_encode yo origin) = Some o -> y_decode yt (y_encode yt resolution) = Some r ->
  config_ok c -> kindc c = Dynamic -> aminc c = cw_min -> amaxc c = cw_max -> (0 < dimc c)%nat ->
  fits c l -> cact_all c l (new_map c) = Ok m -> (forall i j v, has_value c m i j v -> ok v) ->
  complete (bin_count (dimc c)) s1 -> complete (bin_count (dimc c)) s2 ->
  exists w files m', yaml_write yo yt c origin resolution m n = Ok w /\
    save_stores fmt c all_open s1 m = Ok (true, files) /\
    (forall w', agree_on (header_keys c) w w' ->
       map_load_yaml junk yo yt fmt c all_open s2 g (Mapping w') files =
         Ok (Some {| l_origin := o; l_resolution := r; l_map := m' |})) /\
    given_back c l m m'.
Proof.
  intros Ho Hr Hc Hk Hmin Hmax Hdim Hf Hrun Hok C1 C2.
  destruct (run_spec c Hc l Hf) as [m0 [E0 [HI [HR _]]]]. rewrite Hrun in E0. injection E0 as <-.
  destruct (yaml_restores yo yt c s1 s2 g origin o resolution r n m Ho Hr Hc Hk Hmin Hmax Hdim HI HR Hok C1 C2)
    as [w [files [m' [A1 [A2 [A3 Hres]]]]]].
  exists w, files, m'. split; [exact A1|]. split; [exact A2|]. split; [exact A3|].
  destruct (restores_later c Hc Hk Hmin Hmax l m _ Hf Hrun Hres) as [A [_ [B [C [D E]]]]].
  split; [exact A|]. split; [exact B|]. split; [exact C|]. split; [exact D|].
  intros l2 Hl2. destruct (E l2 Hl2) as [m2 [m2' [Y1 [Y2 [Y3 [_ Y4]]]]]]. exists m2, m2'. auto.
Qed.

Lemma usable_static_int (c : config P) (bi : idx) : config_ok c -> kindc c = Static -> int_index (minc c) ->
  int_index (static_max (sizec c) (minc c)) -> usable c 0 bi -> length bi = dimc c /\ int_index bi.
Proof.
  intros Hc Hk Hmn Hmx [L Hu]. rewrite Hk in Hu. split; [exact L|].
  pose proof (ok_min c Hc Hk) as Lm. pose proof (ok_size c Hc Hk) as Ls.
  apply Forall_forall. intros z Hz. apply (In_nth bi z 0) in Hz. destruct Hz as [d [Hd <-]]. rewrite L in Hd.
  specialize (Hu d Hd). unfold int_index in *. rewrite Forall_forall in Hmn, Hmx.
  assert (A := Hmn (nth d (minc c) 0) ltac:(apply nth_In; lia)).
  assert (HL : forall a b : list Z, length a = length b -> length (zip_with (fun m n => m + n * 2 - 1) a b) = length a).
  { induction a as [|x a IH]; intros [|y b] E; cbn in *; try lia. rewrite IH by lia. reflexivity. }
  assert (B : In (nth d (minc c) 0 + nth d (sizec c) 0 * 2 - 1) (static_max (sizec c) (minc c))).
  { unfold static_max. rewrite <- (zip_with_nth (fun m n => m + n * 2 - 1)) by lia. apply nth_In. rewrite HL by congruence. lia. }
  apply Hmx in B. lia.
Qed.

Definition no_codec : codec unit := {| c_len := 0; c_write := fun _ => []; c_read := fun _ => tt; c_count := 0 |}.
Lemma no_codec_ok : codec_ok no_codec.
Proof. split; [reflexivity|]. split; [intros []; reflexivity|reflexivity]. Qed.

(** What the binary header gives back the YAML header does. *)
Lemma yaml_of_binary {Po T : Type} (yo : converter Po) (yt : converter T) (c : config P)
  (s1 s2 : list nat) (g : nat -> Z) (origin o : Po) (resolution r : T) (n : list (string * node)) (m m' : cmap c) (d : directory) :
  y_decode yo (y_encode yo origin) = Some o -> y_decode yt (y_encode yt resolution) = Some r ->
  config_ok c -> kindc c = Static -> (0 < dimc c)%nat ->
  Forall (fun z => 0 <= z < 2 ^ 64) (sizec c) -> int_index (minc c) -> int_index (static_max (sizec c) (minc c)) ->
  cInv c m -> region c 0 m -> min_bi m = minc c -> max_bi m = static_max (sizec c) (minc c) ->
  map_save no_codec no_codec fmt c all_open s1 tt tt m = Ok (true, Some d) ->
  map_load junk no_codec no_codec fmt c all_open s2 g (Some d) = Ok (Some {| l_origin := tt; l_resolution := tt; l_map := m' |}) ->
  exists w files, yaml_write yo yt c origin resolution m n = Ok w /\
    save_stores fmt c all_open s1 m = Ok (true, files) /\
    (forall w', agree_on (header_keys c) w w' ->
       map_load_yaml junk yo yt fmt c all_open s2 g (Mapping w') files =
         Ok (Some {| l_origin := o; l_resolution := r; l_map := m' |})).
Proof.
  intros Ho Hr Hc Hk Hdim Hsz Hmn Hmx HI HR Rmin Rmax Es El.
  destruct (cmap_bundles c Hc m HI HR) as [es [Ees [Hn [Hin _]]]].
  assert (Hes : forall i, In i (map fst es) -> length i = dimc c /\ int_index i).
  { intros bi Hbi. apply in_map_iff in Hbi. destruct Hbi as [[bi' b] [<- He]]. cbn [fst]. apply Hin in He. destruct He as [Hu _].
    apply (usable_static_int c bi' Hc Hk Hmn Hmx Hu). }
  assert (Lm : length (min_bi m) = dimc c) by (rewrite Rmin; apply (ok_min c Hc Hk)).
  destruct (yaml_trip yo yt c origin o resolution r m n es Ho Hr Ees Hes Lm) as [w [E1 E2]].
  { rewrite Rmin. exact Hmn. }
  { intros Hd. rewrite Hk in Hd. discriminate Hd. }
  { intros _. split; [apply (ok_size c Hc Hk)|]. split; [exact Hsz|]. rewrite Rmin. exact Rmax. }
  exists w, (store_files d). split; [exact E1|].
  assert (Hd : header_file d = Some (header_bytes no_codec no_codec {| h_origin := tt; h_resolution := tt; h_size := sizec c;
                 h_min := min_bi m; h_indices := map fst es |}) /\ save_stores fmt c all_open s1 m = Ok (true, store_files d)).
  { unfold map_save in Es. cbn [all_open no_directory open_header] in Es. unfold map_header in Es. rewrite Ees in Es. cbn [obind] in Es.
    rewrite Hk in Es. cbn [obind] in Es. unfold save_stores.
    destruct (workers_run _ s1) as [w1| |]; cbn [obind] in *; try discriminate Es. injection Es as <- <-.
    cbn [header_file store_files keep_header]. split; reflexivity. }
  destruct Hd as [Hh Hs]. split; [exact Hs|].
  intros w' Hw. unfold map_load in El. unfold map_load_yaml.
  destruct (forallb _ (store_files d)); [|discriminate El]. rewrite Hh in El. cbn [all_open open_header] in El.
  unfold map_header_load in El. rewrite (E2 w' Hw). cbn [obind].
  apply (load_rest_poses c all_open s2 g (store_files d) tt tt).
  etransitivity; [|exact El]. clear El. rewrite Hk.
  rewrite static_header_trip; cbn [h_origin h_resolution h_size h_min h_indices].
  - cbn [obind]. rewrite Rmin, Rmax. reflexivity.
  - apply no_codec_ok.
  - apply no_codec_ok.
  - exact Hdim.
  - apply (ok_size c Hc Hk).
  - exact Hsz.
  - exact Lm.
  - rewrite Rmin. exact Hmn.
  - apply Forall_forall. exact Hes.
Qed.
Lemma yaml_static {Po T : Type} (yo : converter Po) (yt : converter T) (c : config P) (l : list (map_action (P:=P)))
  (s1 s2 : list nat) (g : nat -> Z) (origin o : Po) (resolution r : T) (n : list (string * node)) (m : cmap c) :
  y_decode yo (y_encode yo origin) = Some o -> y_decode yt (y_encode yt resolution) = Some r ->
  config_ok c -> kindc c = Static -> (0 < dimc c)%nat -> Z.even (nth 0 (minc c) 0) = true ->
  Forall (fun z => 0 <= z < 2 ^ 64) (sizec c) -> int_index (minc c) -> int_index (static_max (sizec c) (minc c)) ->
  fits c l -> cact_all c l (new_map c) = Ok m -> (forall i j v, has_value c m i j v -> ok v) ->
  complete (bin_count (dimc c)) s1 -> complete (bin_count (dimc c)) s2 ->
  exists w files m', yaml_write yo yt c origin resolution m n = Ok w /\
    save_stores fmt c all_open s1 m = Ok (true, files) /\
    (forall w', agree_on (header_keys c) w w' ->
       map_load_yaml junk yo yt fmt c all_open s2 g (Mapping w') files =
         Ok (Some {| l_origin := o; l_resolution := r; l_map := m' |})) /\
    given_back c l m m'.
Proof.
  intros Ho Hr Hc Hk Hdim Hev Hsz Hmn Hmx Hf Hrun Hok C1 C2.
  destruct (restore_static junk no_codec no_codec fmt ok len c l s1 s2 g tt tt m no_codec_ok no_codec_ok Hfmt Hcount
              Hc Hk Hdim Hev Hsz Hmn Hmx Hf Hrun Hok C1 C2) as [d [m' [Es [El Hback]]]].
  destruct (run_spec c Hc l Hf) as [m0 [E0 [HI [HR _]]]]. rewrite Hrun in E0. injection E0 as <-.
  destruct (static_range c Hk l m Hrun) as [Rmin Rmax].
  destruct (yaml_of_binary yo yt c s1 s2 g origin o resolution r n m m' d Ho Hr Hc Hk Hdim Hsz Hmn Hmx HI HR Rmin Rmax Es El)
    as [w [files [E1 [E2 E3]]]].
  exists w, files, m'. auto.
Qed.
End Loads.

(** ** Which headers are accepted *)
Lemma all_decoded_some {A : Type} (f : node -> option A) (l : list node) (r : list A) :
  all_decoded f l = Some r <-> Forall2 (fun n a => f n = Some a) l r.
Proof.
  revert r. induction l as [|n l IH]; intros r; cbn [all_decoded].
  - split; [intros [= <-]; constructor|inversion 1; reflexivity].
  - split.
    + destruct (f n) as [a|] eqn:E; [|discriminate]. destruct (all_decoded f l) as [q|]; [|discriminate].
      intros [= <-]. constructor; [exact E|]. apply IH. reflexivity.
    + inversion 1 as [|? a ? q E H']; subst. rewrite E. apply IH in H'. rewrite H'. reflexivity.
Qed.
Lemma numbers_decoded (f : node -> option Z) (lo hi : Z) (dim : nat) (n : node) :
  (forall v z, f v = Some z <-> v = Number z /\ lo <= z <= hi) ->
  (exists i, match n with Sequence l => if (length l =? dim)%nat then all_decoded f l else None | _ => None end = Some i) <->
  is_index dim lo hi n.
Proof.
  intros Hf. split.
  - intros [i H]. destruct n as [| | |l|]; try discriminate H. destruct (Nat.eqb_spec (length l) dim) as [L|]; [|discriminate H].
    apply all_decoded_some in H. exists i. assert (L' : length l = length i) by (clear -H; induction H; cbn [length]; congruence).
    assert (G : l = map Number i /\ Forall (fun z => lo <= z <= hi) i).
    { clear -H Hf. induction H as [|v z l i E _ [IH1 IH2]]; [split; [reflexivity|constructor]|].
      apply Hf in E. destruct E as [-> R]. split; [cbn [map]; congruence|constructor; assumption]. }
    destruct G as [-> R]. split; [reflexivity|]. split; [congruence|exact R].
  - intros [zs [-> [L R]]]. exists zs. rewrite map_length, L, Nat.eqb_refl. apply all_decoded_some.
    clear L. induction R as [|z zs Hz _ IH]; cbn [map]; constructor; [apply Hf; auto|exact IH].
Qed.
Lemma int_decoded (v : node) (z : Z) : y_decode int_converter v = Some z <-> v = Number z /\ INT_MIN <= z <= INT_MAX.
Proof.
  cbn. destruct v as [y| | | |]; try (split; [discriminate|intros [H _]; discriminate H]).
  unfold int_ok. destruct (Z.leb_spec INT_MIN y), (Z.leb_spec y INT_MAX); cbn [andb]; split;
    try discriminate; try (intros [= <-]; auto); intros [[= ->] X]; try reflexivity; lia.
Qed.
Lemma size_decoded (v : node) (z : Z) : y_decode size_converter v = Some z <-> v = Number z /\ 0 <= z <= 2 ^ 64 - 1.
Proof.
  cbn [size_converter y_decode]. destruct v as [y| | | |]; try (split; [discriminate|intros [H _]; discriminate H]).
  destruct (Z.leb_spec 0 y), (Z.ltb_spec y (2 ^ 64)); cbn [andb]; split;
    try discriminate; try (intros [= <-]; split; [reflexivity|lia]); intros [[= ->] X]; try reflexivity; lia.
Qed.
Lemma index_accepted {P : Type} (c : config P) (n : node) :
  (exists i, y_decode (index_converter c) n = Some i) <-> is_index (dimc c) INT_MIN INT_MAX n.
Proof. apply numbers_decoded. exact int_decoded. Qed.
Lemma size_accepted {P : Type} (c : config P) (n : node) :
  (exists i, y_decode (size_array c) n = Some i) <-> is_index (dimc c) 0 (2 ^ 64 - 1) n.
Proof. apply numbers_decoded. exact size_decoded. Qed.
Lemma indices_accepted {P : Type} (c : config P) (n : node) :
  (exists i, y_decode (indices_converter c) n = Some i) <-> exists l, n = Sequence l /\ Forall (is_index (dimc c) INT_MIN INT_MAX) l.
Proof.
  split.
  - intros [i H]. destruct n as [| | |l|]; try discriminate H. exists l. split; [reflexivity|].
    cbn [indices_converter vector_converter y_decode] in H. apply all_decoded_some in H.
    induction H as [|v a l i E _ IH]; constructor; [|exact IH]. apply index_accepted. exists a. exact E.
  - intros [l [-> H]]. assert (G : exists i, Forall2 (fun n a => y_decode (index_converter c) n = Some a) l i).
    { induction H as [|v l Hv _ [i IH]]; [exists []; constructor|]. apply index_accepted in Hv. destruct Hv as [a Ha].
      exists (a :: i). constructor; assumption. }
    destruct G as [i G]. exists i. cbn [indices_converter vector_converter y_decode]. apply all_decoded_some. exact G.
Qed.

Section Accepted.
Context {P Po T : Type}.
Variable yo : converter Po.
Variable yt : converter T.
Variable c : config P.

Definition has_entry {A : Type} (k : converter A) (l : list (string * node)) (key : string) : Prop :=
  exists n, get_entry l key = Some n /\ exists a, y_decode k n = Some a.
Lemma read_entry_cases {A : Type} (k : converter A) (l : list (string * node)) (key : string) :
  (has_entry k l key /\ exists a, read_entry k (Mapping l) key = Ok a) \/
  (~ has_entry k l key /\ read_entry k (Mapping l) key = Throw).
Proof.
  unfold has_entry. cbn [read_entry]. destruct (get_entry l key) as [n|].
  - destruct (y_decode k n) as [a|] eqn:E.
    + left. split; [|exists a; reflexivity]. exists n. split; [reflexivity|]. exists a. exact E.
    + right. split; [|reflexivity]. intros [n' [[= <-] [a E']]]. congruence.
  - right. split; [|reflexivity]. intros [n [H _]]. discriminate H.
Qed.

Lemma yaml_load_cases (l : list (string * node)) :
  let good := forall key, In key (header_keys c) -> exists n, get_entry l key = Some n /\ entry_good yo yt (dimc c) key n in
  (good /\ exists h, yaml_load yo yt c (Mapping l) = Ok h) \/ (~ good /\ yaml_load yo yt c (Mapping l) = Throw).
Proof.
  set (all := has_entry yo l "origin" /\ has_entry yt l "resolution" /\
    match kindc c with
    | Static => has_entry (size_array c) l "size" /\ has_entry (index_converter c) l "min_index"
    | Dynamic => has_entry (index_converter c) l "min_index" /\ has_entry (index_converter c) l "max_index"
    end /\ has_entry (indices_converter c) l "bundles").
  assert (H : (all /\ exists h, yaml_load yo yt c (Mapping l) = Ok h) \/ (~ all /\ yaml_load yo yt c (Mapping l) = Throw)).
  { unfold all, yaml_load. clear all.
    destruct (read_entry_cases yo l "origin") as [[H1 [x1 ->]]|[H1 ->]]; cbn [obind]; [|right; split; [tauto|reflexivity]].
    destruct (read_entry_cases yt l "resolution") as [[H2 [x2 ->]]|[H2 ->]]; cbn [obind]; [|right; split; [tauto|reflexivity]].
    destruct (kindc c).
    - destruct (read_entry_cases (size_array c) l "size") as [[H3 [x3 ->]]|[H3 ->]]; cbn [obind]; [|right; split; [tauto|reflexivity]].
      destruct (read_entry_cases (index_converter c) l "min_index") as [[H4 [x4 ->]]|[H4 ->]]; cbn [obind]; [|right; split; [tauto|reflexivity]].
      destruct (read_entry_cases (indices_converter c) l "bundles") as [[H5 [x5 ->]]|[H5 ->]]; cbn [obind]; [|right; split; [tauto|reflexivity]].
      left. split; [tauto|]. eexists; reflexivity.
    - destruct (read_entry_cases (index_converter c) l "min_index") as [[H3 [x3 ->]]|[H3 ->]]; cbn [obind]; [|right; split; [tauto|reflexivity]].
      destruct (read_entry_cases (index_converter c) l "max_index") as [[H4 [x4 ->]]|[H4 ->]]; cbn [obind]; [|right; split; [tauto|reflexivity]].
      destruct (read_entry_cases (indices_converter c) l "bundles") as [[H5 [x5 ->]]|[H5 ->]]; cbn [obind]; [|right; split; [tauto|reflexivity]].
      left. split; [tauto|]. eexists; reflexivity. }
  intros good. assert (Hiff : good <-> all).
  { assert (Hidx : forall key, has_entry (index_converter c) l key <->
                     exists n, get_entry l key = Some n /\ is_index (dimc c) INT_MIN INT_MAX n).
    { intros key. unfold has_entry. split; intros [n [A B]]; exists n; (split; [exact A|]); apply index_accepted; exact B. }
    assert (Hsz : has_entry (size_array c) l "size" <-> exists n, get_entry l "size" = Some n /\ is_index (dimc c) 0 (2 ^ 64 - 1) n).
    { unfold has_entry. split; intros [n [A B]]; exists n; (split; [exact A|]); apply size_accepted; exact B. }
    assert (Hbs : has_entry (indices_converter c) l "bundles" <->
       exists n, get_entry l "bundles" = Some n /\ exists l', n = Sequence l' /\ Forall (is_index (dimc c) INT_MIN INT_MAX) l').
    { unfold has_entry. split; intros [n [A B]]; exists n; (split; [exact A|]); apply indices_accepted; exact B. }
    pose proof (Hidx "min_index"%string) as Hmn. pose proof (Hidx "max_index"%string) as Hmx. clear Hidx.
    unfold good, all, header_keys. clear H good all. unfold has_entry at 1 2. split.
    - intros H.
      assert (H1 := fun k => H "origin"%string k). assert (H2 := fun k => H "resolution"%string k).
      assert (H3 := fun k => H "size"%string k). assert (H4 := fun k => H "min_index"%string k).
      assert (H5 := fun k => H "max_index"%string k). assert (H6 := fun k => H "bundles"%string k).
      unfold entry_good in *. cbn -[get_entry Z.pow] in *. destruct (kindc c); cbn -[get_entry Z.pow] in *; tauto.
    - intros H key Hk. unfold entry_good.
      destruct (kindc c); cbn [In] in Hk;
        repeat (destruct Hk as [<-|Hk]; [cbn -[get_entry Z.pow]; tauto|]); contradiction. }
  destruct H as [[A B]|[A B]]; [left|right]; (split; [|exact B]); tauto.
Qed.
End Accepted.

(** [load] with a binary header does the same after the header. *)
Lemma binary_rest (junk : list Z -> nat -> list Z) {P Po T : Type} (po : codec Po) (tp : codec T) (fmt : format P) (c : config P)
  (e : environment) (sched : list nat) (g : nat -> Z) (file : list Z) (files : list (option (list Z))) :
  map_load junk po tp fmt c e sched g (Some {| header_file := Some file; store_files := files |}) =
  if forallb (fun f => match f with Some _ => true | None => false end) files then
    if open_header e then let* h := map_header_load junk po tp c file in load_rest junk fmt c e sched g files h else Ok None
  else Ok None.
Proof. reflexivity. Qed.
