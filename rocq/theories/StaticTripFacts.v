(** Facts about saving and loading a static map. *)
From Verif Require Import Base SeqModel SeqFacts IndexModel IndexFacts OctreeSpec OctreeModel
  MapModel MapFacts MapHist BackendModel BackendFacts SysModel SysSpec SysFacts MapLifeFacts ConvSpec ConvFacts
  LoaderModel StaticFacts SerialModel SerialSpec SerialFacts ThreadModel ThreadSpec ThreadFacts FileModel FileFacts
  GridFacts MapPropFacts NarrowFacts.
Open Scope Z_scope.

Section StaticTrip.
Variable junk : list Z -> nat -> list Z.
Context {P Po T : Type}.
Variable po : codec Po.
Variable tp : codec T.
Variable fmt : format P.
Variable ok : P -> Prop.
Variable len : nat.
Hypothesis Hpo : codec_ok po.
Hypothesis Htp : codec_ok tp.
Hypothesis Hfmt : format_ok fmt ok len.
Hypothesis Hcount : f_count fmt = Z.of_nat len.
(** The fields of a static configuration. *)
Variable dim : nat.
Variable size : list Z.
Variable mn : idx.
Variable garb : nat -> Z.
Variable amin amax : idx -> idx -> idx.
Variable offs : list idx.
Variable dflt : P.
Variable mrg : P -> P -> P.
Variable expd : P -> bool.
Notation c := {| dimc := dim; kindc := Static; sizec := size; minc := mn; garbagec := garb; aminc := amin; amaxc := amax;
                 offsetsc := offs; defaultc := dflt; mergec := mrg; expandc := expd |}.
Hypothesis Hc : config_ok c.
Hypothesis Hdim : (0 < dim)%nat.
Hypothesis Heven : Z.even (nth 0 mn 0) = true.
Hypothesis Hsize : Forall (fun z => 0 <= z < 2 ^ 64) size.
Hypothesis Hmn : int_index mn.
Hypothesis Hmx : int_index (static_max size mn).
Notation n := (bin_count dim).
Notation mx := (static_max size mn).
Notation bd := (array_backend mrg).
Notation bb := (array_backend merge_bundle).

Variable m : cmap c.
Hypothesis HI : cInv c m.
Hypothesis HR : region c 0 m.
Hypothesis Hmin : min_bi m = mn.
Hypothesis Hmax : max_bi m = mx.
Hypothesis Hok : forall i j v, has_value c m i j v -> ok v.

Let Lsize : length size = dim := ok_size c Hc eq_refl.
Let Lmn : length mn = dim := ok_min c Hc eq_refl.

(** Cells the loader's arrays hold. *)
Definition loadable (i : nat) (j : idx) : Prop :=
  arr_inside (a_size (@loader_store P size mn i)) (a_offset (@loader_store P size mn i)) j = true.

Lemma usable_loadable (bi : idx) (i : nat) : usable c 0 bi -> (i < n)%nat -> loadable i (generate_index bi i).
Proof.
  intros [L Hu] Hi. cbn [kindc dimc minc sizec] in *. rewrite two_pow_spec in Hi.
  apply (loader_inside dim); auto.
Qed.
Lemma usable_int (bi : idx) : usable c 0 bi -> length bi = dim /\ int_index bi.
Proof.
  intros [L Hu]. cbn [kindc dimc minc sizec] in *. split; [exact L|].
  apply Forall_forall. intros z Hz. apply (In_nth bi z 0) in Hz. destruct Hz as [d [Hd <-]]. rewrite L in Hd.
  specialize (Hu d Hd). unfold int_index in *. rewrite Forall_forall in Hmn, Hmx.
  assert (A := Hmn (nth d mn 0) ltac:(apply nth_In; lia)).
  assert (B := Hmx (nth d mx 0)). unfold static_max in B.
  rewrite zip_with_nth in B by lia. cbn beta in B.
  assert (B' : In (nth d mn 0 + nth d size 0 * 2 - 1) (zip_with (fun m n => m + n * 2 - 1) mn size)).
  { rewrite <- (zip_with_nth (fun m n => m + n * 2 - 1)) by lia. apply nth_In. 
    assert (HL : forall a b : list Z, length a = length b -> length (zip_with (fun m n => m + n * 2 - 1) a b) = length a).
    { induction a as [|x a IH]; intros [|y b] E; cbn in *; try lia. rewrite IH by lia. reflexivity. }
    rewrite HL by congruence. lia. }
  specialize (B B'). lia.
Qed.

(** One array: what is written, and what is read back. *)
Definition loaded_store (i : nat) (s : arr P) : arr P :=
  {| a_size := a_size (@loader_store P size mn i); a_offset := a_offset (@loader_store P size mn i); a_cells := a_cells s |}.

Lemma store_facts (i : nat) : (i < n)%nat -> exists s : arr P, nth_error (stores m) i = Some s /\
  a_size s = a_size (@static_store P size mn i) /\ a_offset s = static_offset mn /\ NoDup (map fst (a_cells s)) /\
  (forall j v, In (j, v) (a_cells s) <-> cddom c (cshape c (new_map c)) i j /\ cdget c m i j = Some v).
Proof.
  intros Hi. destruct (store_list c m i HI Hi) as [es [E [Hn Hin]]].
  destruct (nth_error (stores m) i) as [s|] eqn:Es.
  2: { unfold get_store in E. rewrite Es in E. discriminate. }
  exists s. split; [reflexivity|]. unfold get_store in E. rewrite Es in E. cbn [obind] in E.
  assert (Ec : a_cells (s : arr P) = es) by (injection E as E; exact E). rewrite Ec.
  pose proof HI as [_ [Hsh _]].
  assert (Hs : nth_error (fst (cshape c m)) i = nth_error (fst (cshape c (new_map c))) i) by (rewrite Hsh; reflexivity).
  change (fst (cshape c m)) with (map (fun s : arr P => (a_size s, a_offset s)) (stores m)) in Hs.
  rewrite (map_nth_error _ _ _ Es) in Hs.
  change (fst (cshape c (new_map c))) with (map (fun s : arr P => (a_size s, a_offset s)) (map (static_store size mn) (seq 0 n))) in Hs.
  rewrite map_map, nth_error_map, (nth_error_nth' (seq 0 n) 0%nat) in Hs by (rewrite seq_length; exact Hi).
  rewrite seq_nth in Hs by exact Hi. cbn [option_map Nat.add] in Hs. injection Hs as H1 H2.
  split; [exact H1|]. split; [exact H2|]. split; [exact Hn|exact Hin].
Qed.

Lemma stored_loadable (i : nat) (j : idx) (v : P) : (i < n)%nat -> cddom c (cshape c (new_map c)) i j ->
  cdget c m i j = Some v -> loadable i j /\ length j = dim /\ int_index j.
Proof.
  intros Hi Hd Hv. destruct (proj1 (present_iff c m i j HI Hd Hi)) as [bi [Hbd [Hb Hgen]]]; [congruence|].
  pose proof (HR bi Hbd Hb) as Hu. split; [rewrite <- Hgen; apply usable_loadable; assumption|].
  destruct (usable_int bi Hu) as [L Hint]. rewrite <- Hgen. split; [rewrite generate_index_length; exact L|].
  apply Forall_forall. intros z Hz. apply (In_nth _ z 0) in Hz. destruct Hz as [d [Hdd <-]]. rewrite generate_index_length in Hdd.
  rewrite generate_index_nth by exact Hdd. unfold int_index in Hint. rewrite Forall_forall in Hint.
  specialize (Hint (nth d bi 0) ltac:(apply nth_In; exact Hdd)). unfold INT_MIN, INT_MAX in *.
  destruct (Nat.testbit i d); Z.div_mod_to_equations; lia.
Qed.

Lemma one_array (i : nat) : (i < n)%nat -> exists (s : arr P) file, nth_error (stores m) i = Some s /\
  storage_save bd fmt s = Ok file /\ storage_load junk bd dim fmt file (loader_store size mn i) = Ok (loaded_store i s, []).
Proof.
  intros Hi. destruct (store_facts i Hi) as [s [Es [Hsz [Hof [Hn Hin]]]]].
  exists s, (storage_bytes fmt (a_cells s)). split; [exact Es|]. split; [reflexivity|].
  assert (Hgood : Forall (good_record dim ok) (a_cells s)).
  { apply Forall_forall. intros [j v] He. apply Hin in He. destruct He as [Hd Hv].
    destruct (stored_loadable i j v Hi Hd Hv) as [_ [L Hint]].
    split; [exact L|]. split; [apply int_index_ok; exact Hint|]. cbn [snd].
    apply (Hok i j v). apply (has_value_iff c Hc m i j v HI). split; [|exact Hv].
    destruct (proj1 (present_iff c m i j HI Hd Hi)) as [bi [Hbd [Hb Hgen]]]; [congruence|]. rewrite <- Hgen.
    apply bundle_cell; [apply (HR bi Hbd Hb)|]. rewrite <- two_pow_spec. exact Hi. }
  assert (Hins : ofold (fun s (e : idx * P) => bins bd s (fst e) (snd e)) (a_cells s) (loader_store size mn i) = Ok (loaded_store i s)).
  { apply (load_records_ok mrg (a_cells s) (loader_store size mn i)); [|exact Hn|reflexivity].
    intros j v He. apply Hin in He. destruct He as [Hd Hv]. apply (stored_loadable i j v Hi Hd Hv). }
  rewrite <- (app_nil_r (a_cells s)) at 1.
  rewrite (storage_load_prefix junk bd dim fmt ok len Hfmt (a_cells s) [] (loader_store size mn i)).
  - rewrite Hins. reflexivity.
  - rewrite app_nil_r. exact Hgood.
  - lia.
  - intros j Hj. rewrite app_nil_r, (storage_length dim fmt ok len Hfmt) by exact Hgood. nia.
  - rewrite app_nil_r, (storage_length dim fmt ok len Hfmt) by exact Hgood. nia.
Qed.

Lemma all_arrays : exists files ss, length files = n /\ length ss = n /\
  map (save_operation fmt c all_open m) (seq 0 n) = map (fun r => Ok (true, r)) (map Some files) /\
  (forall g, map (load_operation junk fmt c all_open (fresh_store c g size mn) (map Some files)) (seq 0 n) =
    map (fun r => Ok (true, r)) (map Some ss)) /\
  (forall i s, nth_error (stores m) i = Some s -> nth_error ss i = Some (loaded_store i s)).
Proof.
  destruct (nat_choice (fun i x => nth_error (stores m) i = Some (fst x) /\
      storage_save bd fmt (fst x) = Ok (snd x) /\
      storage_load junk bd dim fmt (snd x) (loader_store size mn i) = Ok (loaded_store i (fst x), [])) n) as [l [L Hl]].
  { intros i Hi. destruct (one_array i Hi) as [s [file H]]. exists (s, file). exact H. }
  assert (Hx : forall i x, nth_error l i = Some x -> (i < n)%nat /\ nth_error (stores m) i = Some (fst x) /\
      storage_save bd fmt (fst x) = Ok (snd x) /\
      storage_load junk bd dim fmt (snd x) (loader_store size mn i) = Ok (loaded_store i (fst x), [])).
  { intros i x E. assert (Hi : (i < n)%nat) by (rewrite <- L; apply nth_error_Some; congruence).
    destruct (Hl i Hi) as [y [Ey Hy]]. rewrite E in Ey. injection Ey as <-. split; [exact Hi|exact Hy]. }
  set (ss := map (fun i => match nth_error l i with Some x => loaded_store i (fst x) | None => loader_store size mn i end) (seq 0 n)).
  assert (Hss : forall i x, nth_error l i = Some x -> nth_error ss i = Some (loaded_store i (fst x))).
  { intros i x E. destruct (Hx i x E) as [Hi _]. unfold ss.
    rewrite nth_error_map, (nth_error_nth' (seq 0 n) 0%nat) by (rewrite seq_length; exact Hi).
    rewrite seq_nth by exact Hi. cbn [option_map Nat.add]. rewrite E. reflexivity. }
  exists (map snd l), ss. split; [rewrite map_length; exact L|].
  split; [unfold ss; rewrite map_length, seq_length; reflexivity|].
  split; [|split].
  - rewrite <- L, !map_map. apply map_seq_nth. intros i x E. destruct (Hx i x E) as [_ [A [B _]]].
    unfold save_operation, get_store. cbn [all_open open_store]. rewrite A. cbn [obind].
    change (storage_save (bdc c) fmt (fst x)) with (storage_save bd fmt (fst x)). rewrite B. reflexivity.
  - intros g. unfold ss. rewrite !map_map. apply map_ext_in. intros i Hi. apply in_seq in Hi.
    destruct (nth_error l i) as [x|] eqn:E; [|apply nth_error_None in E; lia].
    destruct (Hx i x E) as [_ [A [_ C]]].
    unfold load_operation. rewrite !nth_error_map, E. cbn [option_map all_open open_store].
    change (storage_load junk (bdc c) (dimc c) fmt (snd x) (fresh_store c g size mn i))
      with (storage_load junk bd dim fmt (snd x) (loader_store size mn i)). rewrite C. reflexivity.
  - intros i s E. pose proof HI as [[[[HL _] _] _] _].
    assert (Hi : (i < n)%nat) by (change n with (bin_count (dimc c)); rewrite <- HL; apply nth_error_Some; congruence).
    destruct (Hl i Hi) as [x [Ex [A _]]]. rewrite E in A. injection A as ->. apply Hss. exact Ex.
Qed.

Definition fullb (bi : idx) : bundle := {| slots := full_slots dim bi; expand := true |}.
Definition loaded_bundles (ks : list idx) : arr bundle :=
  {| a_size := map (fun n => n * 2) size; a_offset := mn; a_cells := map (fun bi => (bi, fullb bi)) ks |}.

Lemma bundle_inside (bi : idx) : usable c 0 bi -> arr_inside (map (fun n => n * 2) size) mn bi = true.
Proof.
  intros [L Hu]. cbn [kindc dimc minc sizec] in *. apply arr_inside_iff. rewrite map_length.
  split; [congruence|]. split; [congruence|]. intros d Hd. specialize (Hu d ltac:(lia)).
  rewrite (nth_map_lt _ size d 0) by lia. lia.
Qed.

Lemma slots_loaded (ss : list (arr P)) (bi : idx) :
  (forall i s, nth_error (stores m) i = Some s -> nth_error ss i = Some (loaded_store i s)) ->
  usable c 0 bi -> cbget c m bi <> None ->
  bundle_slots c (map Some ss) bi (seq 0 n) = Ok (full_slots dim bi).
Proof.
  intros Hss Hu Hb. unfold full_slots.
  assert (H : forall is, (forall i, In i is -> (i < n)%nat) ->
            bundle_slots c (map Some ss) bi is = Ok (map (fun i => Some (generate_index bi i)) is)).
  { induction is as [|i is IH]; intros His; [reflexivity|]. cbn [bundle_slots map].
    assert (Hi : (i < n)%nat) by (apply His; left; reflexivity).
    pose proof (usable_okidx c Hc 0 bi ltac:(lia) Hu) as [_ [Hbd Hdd]]. specialize (Hdd i Hi).
    destruct (store_facts i Hi) as [s [Es [_ [_ [Hn Hin]]]]].
    rewrite nth_error_map. change (st (bdc c)) with (arr P). rewrite (Hss i s Es). cbn [option_map].
    assert (Hp : cdget c m i (generate_index bi i) <> None).
    { apply (present_iff c m i _ HI Hdd Hi). exists bi. auto. }
    destruct (cdget c m i (generate_index bi i)) as [v|] eqn:Ev; [|contradiction].
    assert (Hg : bget (bdc c) (loaded_store i s) (generate_index bi i) = Ok (Some v)).
    { change (bget (bdc c)) with (bget bd). cbn [array_backend bget].
      rewrite (usable_loadable bi i Hu Hi : arr_inside (a_size (loaded_store i s)) (a_offset (loaded_store i s)) _ = true).
      cbn [loaded_store a_cells]. f_equal. apply BackendFacts.assoc_in; [exact Hn|]. apply Hin. split; [exact Hdd|exact Ev]. }
    rewrite Hg. cbn [obind]. rewrite IH by (intros k Hk'; apply His; right; exact Hk'). reflexivity. }
  apply H. intros i Hi. apply in_seq in Hi. lia.
Qed.

Lemma bundles_loaded (ss : list (arr P)) (g : nat -> Z) (es : list (idx * bundle)) :
  (forall i s, nth_error (stores m) i = Some s -> nth_error ss i = Some (loaded_store i s)) ->
  NoDup (map fst es) -> (forall bi b, In (bi, b) es -> usable c 0 bi /\ cbget c m bi = Some b) ->
  ofold (allocate_bundle c (map Some ss)) (map fst es) (fresh_bundles c g size mn) = Ok (loaded_bundles (map fst es)).
Proof.
  intros Hss Hn Hin.
  assert (H : forall ks done, (forall bi, In bi ks -> In bi (map fst es)) -> NoDup (done ++ ks) ->
     ofold (allocate_bundle c (map Some ss)) ks (loaded_bundles done) = Ok (loaded_bundles (done ++ ks))).
  { induction ks as [|bi ks IH]; intros done Hks Hnd; [rewrite app_nil_r; reflexivity|]. cbn [ofold].
    assert (Hbi : In bi (map fst es)) by (apply Hks; left; reflexivity).
    apply in_map_iff in Hbi. destruct Hbi as [[bi' b'] [Ebi He]]. cbn [fst] in Ebi. subst bi'. apply Hin in He. destruct He as [Hu Hb].
    unfold allocate_bundle at 1. cbn [dimc]. rewrite (slots_loaded ss bi Hss Hu) by congruence. cbn [obind].
    change (bins (bbc c)) with (bins bb). cbn [array_backend bins loaded_bundles a_size a_offset a_cells].
    rewrite (bundle_inside bi Hu). cbn [obind].
    assert (Hnot : ~ In bi (map fst (map (fun bi => (bi, fullb bi)) done))).
    { rewrite map_map. cbn [fst]. rewrite map_id. intros Hd. apply NoDup_remove_2 in Hnd. apply Hnd. apply in_or_app. left. exact Hd. }
    pose proof (assoc_notin _ _ Hnot) as Ha. rewrite Ha.
    unfold arr_set. cbn [a_size a_offset a_cells]. rewrite assoc_app_none by (exact bi || exact Ha).
    change {| slots := full_slots dim bi; expand := true |} with (fullb bi).
    change ([(bi, fullb bi)]) with (map (fun bi => (bi, fullb bi)) [bi]). cbn [loaded_bundles a_size a_offset a_cells]. rewrite <- map_app.
    change ({| a_size := map (fun n => n * 2) size; a_offset := mn; a_cells := map (fun bi => (bi, fullb bi)) (done ++ [bi]) |})
      with (loaded_bundles (done ++ [bi])).
    rewrite IH.
    - rewrite <- app_assoc. reflexivity.
    - intros x Hx. apply Hks. right; exact Hx.
    - rewrite <- app_assoc. exact Hnd. }
  apply (H (map fst es) []); [auto|exact Hn].
Qed.

(** The loaded map, and the same map with arrays of the original sizes. *)
Definition loaded_map (ss : list (arr P)) (ks : list idx) : cmap c := Build_ndmap (bdc c) (bbc c) ss (loaded_bundles ks) mn mx.
Definition wide_map (ks : list idx) : cmap c := Build_ndmap (bdc c) (bbc c) (stores m) (loaded_bundles ks) mn mx.

Lemma save_load_static (s1 s2 : list nat) (g : nat -> Z) (origin : Po) (resolution : T) :
  complete n s1 -> complete n s2 ->
  exists d ss es, cbundles c m = Ok es /\ NoDup (map fst es) /\
    (forall bi b, In (bi, b) es <-> usable c 0 bi /\ cbget c m bi = Some b) /\
    (forall i s, nth_error (stores m) i = Some s -> nth_error ss i = Some (loaded_store i s)) /\ length ss = n /\
    map_save po tp fmt c all_open s1 origin resolution m = Ok (true, Some d) /\
    map_load junk po tp fmt c all_open s2 g (Some d) =
      Ok (Some {| l_origin := origin; l_resolution := resolution; l_map := loaded_map ss (map fst es) |}).
Proof.
  intros C1 C2. destruct (cmap_bundles c Hc m HI HR) as [es [Ees [Hn [Hin _]]]].
  destruct all_arrays as [files [ss [L1 [L2 [O1 [O2 Hss]]]]]].
  destruct (all_ok_run (map (save_operation fmt c all_open m) (seq 0 n)) (map Some files) O1 s1) as [w1 [R1 [F1 M1]]].
  { rewrite map_length, seq_length. exact C1. }
  destruct (all_ok_run (map (load_operation junk fmt c all_open (fresh_store c g size mn) (map Some files)) (seq 0 n))
              (map Some ss) (O2 g) s2) as [w2 [R2 [F2 M2]]].
  { rewrite map_length, seq_length. exact C2. }
  set (h := header_bytes po tp {| h_origin := origin; h_resolution := resolution; h_size := size;
                                        h_min := min_bi m; h_indices := map fst es |}).
  assert (H1 : map_header po tp c origin resolution m = Ok h).
  { unfold map_header. rewrite Ees. reflexivity. }
  assert (H2 : map_header_load junk po tp c h = Ok (origin, resolution, (size, mn, mx), map fst es)).
  { unfold map_header_load. cbn [kindc dimc]. unfold h. rewrite Hmin.
    rewrite static_header_trip; cbn [h_origin h_resolution h_size h_min h_indices]; auto.
    apply Forall_forall. intros bi Hbi. apply in_map_iff in Hbi. destruct Hbi as [[bi' b] [<- He]]. cbn [fst].
    apply Hin in He. apply usable_int. apply He. }
  exists {| header_file := Some h; store_files := map Some files |}, ss, es.
  split; [exact Ees|]. split; [exact Hn|]. split; [exact Hin|]. split; [exact Hss|]. split; [exact L2|]. split.
  - unfold map_save. cbn [all_open no_directory open_header]. rewrite H1. cbn [obind].
    change (bin_count (dimc c)) with n. rewrite R1. cbn [obind]. rewrite F1, M1. reflexivity.
  - unfold map_load. cbn [store_files header_file].
    assert (Hall : forallb (fun f => match f with Some _ => true | None => false end) (map Some files) = true).
    { apply forallb_forall. intros f Hf. apply in_map_iff in Hf. destruct Hf as [x [<- _]]. reflexivity. }
    rewrite Hall. cbn [all_open open_header]. rewrite H2. cbn [obind]. change (bin_count (dimc c)) with n. rewrite R2.
    cbn [obind]. rewrite F2, M2.
    pose proof (bundles_loaded ss g es Hss Hn (fun bi b => proj1 (Hin bi b))) as HB.
    match type of HB with ?L = _ => match goal with |- context [ofold ?f ?x ?y] => change (ofold f x y) with L end end. rewrite HB.
    cbn [obind]. change (st (bdc c)) with (arr P). rewrite not_null_some. reflexivity.
Qed.

Lemma wide_restores (es : list (idx * bundle)) :
  NoDup (map fst es) -> (forall bi b, In (bi, b) es <-> usable c 0 bi /\ cbget c m bi = Some b) ->
  restores c m (wide_map (map fst es)).
Proof.
  intros Hn Hin. unfold wide_map. pose proof HI as [[[[HL [HF HB]] _] _] [Hsh _]].
  assert (Hkeys : map fst (a_cells (loaded_bundles (map fst es))) = map fst es).
  { cbn [loaded_bundles a_cells]. rewrite map_map. cbn [fst]. apply map_id. }
  cut (restores c m (Build_ndmap (bdc c) (bbc c) (stores m) (loaded_bundles (map fst es)) (min_bi m) (max_bi m))).
  { intros H. rewrite Hmin, Hmax in H. exact H. }
  apply (restored c m HI HR (stores m) (loaded_bundles (map fst es))).
  - exact HL.
  - exact HF.
  - reflexivity.
  - intros i j Hij.
    assert (Hij' : cddom c (cshape c m) i j) by (rewrite Hsh; exact Hij).
    destruct (store_at _ _ _ _ _ _ _ m i j (conj HL (conj HF HB)) Hij') as [s [Es [_ [Hd Hg]]]].
    exists s. split; [exact Es|exact Hg].
  - split; [rewrite Hkeys; exact Hn|]. apply Forall_forall. intros [bi b] He. cbn [fst].
    apply (in_map fst) in He. rewrite Hkeys in He. apply in_map_iff in He. destruct He as [[bi' b'] [E He]]. cbn [fst] in E. subst bi'.
    apply Hin in He. apply bundle_inside. apply He.
  - pose proof (f_equal snd Hsh) as E. symmetry. exact E.
  - intros bi Hbd. change (bget (bbc c)) with (bget bb). cbn [array_backend bget].
    assert (Hins : arr_inside (map (fun n => n * 2) size) mn bi = true) by exact Hbd.
    cbn [loaded_bundles a_size a_offset a_cells]. rewrite Hins. f_equal.
    destruct (cbget c m bi) as [b|] eqn:Eb; cbn [option_map].
    + apply BackendFacts.assoc_in; [change (map (fun bi => (bi, fullb bi)) (map fst es)) with (a_cells (loaded_bundles (map fst es)));
        rewrite Hkeys; exact Hn|].
      apply in_map_iff. exists bi. split; [reflexivity|]. apply in_map_iff. exists (bi, b). split; [reflexivity|].
      apply Hin. split; [|exact Eb]. apply HR; [exact Hbd|congruence].
    + apply assoc_notin. change (map (fun bi => (bi, fullb bi)) (map fst es)) with (a_cells (loaded_bundles (map fst es))).
      rewrite Hkeys. intros Hk. apply in_map_iff in Hk. destruct Hk as [[bi' b'] [E He]]. cbn [fst] in E. subst bi'. apply Hin in He.
      destruct He; congruence.
Qed.

Lemma offset_half (l : idx) : static_offset l = map (fun z => z / 2) l.
Proof. unfold static_offset. apply map_ext. intros z. rewrite Z.shiftr_div_pow2 by lia. reflexivity. Qed.

Lemma loaded_sim (ss : list (arr P)) (es : list (idx * bundle)) :
  (forall i s, nth_error (stores m) i = Some s -> nth_error ss i = Some (loaded_store i s)) ->
  (forall bi b, In (bi, b) es -> usable c 0 bi) ->
  sim mrg loadable (wide_map (map fst es)) (loaded_map ss (map fst es)).
Proof.
  intros Hss Hin. split; [reflexivity|]. split; [reflexivity|]. split; [reflexivity|]. split.
  - intros i s Es. change (nth_error (stores m) i = Some s) in Es. exists (loaded_store i s). split; [apply Hss; exact Es|].
    pose proof HI as [[[[HL _] _] _] _].
    assert (Hi : (i < n)%nat) by (change n with (bin_count (dimc c)); rewrite <- HL; apply nth_error_Some; rewrite Es; discriminate).
    destruct (store_facts i Hi) as [s' [Es' [_ [Ho _]]]]. rewrite Es in Es'. injection Es' as <-.
    split; [reflexivity|]. split; [|intros j Hj; exact Hj]. cbn [loaded_store a_offset loader_store]. rewrite Ho. symmetry. apply offset_half.
  - intros bi b He i j Hij. cbn [wide_map bundles loaded_bundles a_cells] in He. apply in_map_iff in He. destruct He as [bi' [E He]].
    injection E as -> <-. apply in_map_iff in He. destruct He as [[bi' b'] [E He]]. cbn [fst] in E. subst bi'.
    cbn [fullb slots] in Hij. unfold full_slots in Hij. rewrite nth_error_map in Hij.
    destruct (nth_error (seq 0 n) i) as [k|] eqn:Ek; [|discriminate]. cbn [option_map] in Hij. injection Hij as <-.
    assert (Hi : (i < n)%nat) by (rewrite <- (seq_length n 0); apply nth_error_Some; congruence).
    rewrite (nth_error_nth' (seq 0 n) 0%nat) in Ek by (rewrite seq_length; exact Hi). rewrite seq_nth in Ek by exact Hi.
    injection Ek as <-. apply usable_loadable; [apply (Hin bi b' He)|exact Hi].
Qed.

(** Maps related by [sim] look the same. *)
Lemma sim_same (w w' : cmap c) : cInv c w -> region c 0 w -> sim mrg loadable w w' -> same_content c c w w'.
Proof.
  intros J S0 S. pose proof S as [A [B [C [D _]]]]. split.
  - intros bi sl. unfold has_bundle, cbundle, get_bundle.
    change (valid (bdc c) (bbc c) (dimc c) (kindc c) w' bi) with (valid bd bb dim Static w' bi).
    rewrite (sim_valid mrg dim loadable w w' bi S).
    replace (bundles w') with (bundles w) by (symmetry; exact A). reflexivity.
  - intros i j v. unfold has_value. split; intros [Hj E]; (split; [exact Hj|]).
    + assert (Hv : has_value c w i j v) by (split; assumption). apply (has_value_iff c Hc w i j v J) in Hv. destruct Hv as [_ Hv].
      pose proof (cell_ddom c Hc i j Hj) as Hd. destruct Hj as [Hi _]. cbn [dimc] in Hi. rewrite <- two_pow_spec in Hi.
      destruct (proj1 (present_iff c w i j J Hd Hi)) as [bi [Hbd [Hb Hgen]]]; [congruence|].
      pose proof (usable_loadable bi i (S0 bi Hbd Hb) Hi) as Hg. rewrite Hgen in Hg.
      unfold cstored, stored in *. change (get_store (bdc c) (bbc c)) with (get_store bd bb) in *. change (bget (bdc c)) with (bget bd) in *.
      destruct (get_store bd bb w i) as [s| |] eqn:Es; try discriminate. cbn [obind] in E.
      destruct (sim_store mrg loadable w w' i s S Es) as [s' [-> R]]. cbn [obind].
      apply (sim_get mrg loadable i s s' j (Some v) R Hg E).
    + pose proof (cell_ddom c Hc i j Hj) as Hd.
      assert (Hd' : cddom c (cshape c w) i j) by (pose proof J as [_ [-> _]]; exact Hd).
      pose proof J as [[[[HL [HF HB]] _] _] _].
      destruct (store_at _ _ _ _ _ _ _ w i j (conj HL (conj HF HB)) Hd') as [s [Es [_ [Hdm Hg]]]].
      unfold cstored, stored, get_store in *. rewrite Es. cbn [obind]. destruct (D i s Es) as [s' [Es' R]].
      change (@nth_error (st (bdc c)) (@stores P (bdc c) (bbc c) w') i = Some s') in Es'. rewrite Es' in E. cbn [obind] in E. change (bget (bdc c)) with (bget bd) in *. cbn [array_backend bget] in *.
      destruct R as [Rc _]. rewrite Rc in E. destruct (arr_inside (a_size s') (a_offset s') j); [|discriminate].
      assert (Hins : arr_inside (a_size s) (a_offset s) j = true) by exact Hdm. rewrite Hins. exact E.
Qed.

Lemma sim_sees (w w' : cmap c) : cInv c w -> region c 0 w -> sim mrg loadable w w' -> sees c w w'.
Proof.
  intros J S0 S. pose proof (sim_same w w' J S0 S) as [_ HV]. pose proof S as [A [B [C _]]].
  split; [exact B|]. split; [exact C|]. split.
  - intros bi. unfold cbundle, get_bundle.
    change (valid (bdc c) (bbc c) (dimc c) (kindc c) w' bi) with (valid bd bb dim Static w' bi).
    rewrite (sim_valid mrg dim loadable w w' bi S).
    replace (bundles w') with (bundles w) by (symmetry; exact A). reflexivity.
  - split; [unfold cbundles; replace (bundles w') with (bundles w) by (symmetry; exact A); reflexivity|].
    intros i j v H. apply HV in H. apply H.
Qed.

Lemma valid_usable (w : @ndmap P bd bb) (bi : idx) : min_bi w = mn -> max_bi w = mx -> length bi = dim ->
  valid bd bb dim Static w bi = true -> usable c 0 bi.
Proof.
  intros A B L V. apply (static_valid_usable c Hc eq_refl bi L). unfold cvalid.
  change (valid bd bb dim Static (new_map c) bi = true). unfold valid in *. rewrite A, B in V. exact V.
Qed.

Lemma restore_static_inner (s1 s2 : list nat) (g : nat -> Z) (origin : Po) (resolution : T) :
  complete n s1 -> complete n s2 ->
  exists d m', map_save po tp fmt c all_open s1 origin resolution m = Ok (true, Some d) /\
    map_load junk po tp fmt c all_open s2 g (Some d) =
      Ok (Some {| l_origin := origin; l_resolution := resolution; l_map := m' |}) /\
    same_content c c m m' /\ twin c c m m' /\ min_bi m' = min_bi m /\ max_bi m' = max_bi m /\
    (forall l2, region c (expansions l2) m -> Forall (act_fits c (expansions l2)) l2 ->
       exists m2 m2', cact_all c l2 m = Ok m2 /\ cact_all c l2 m' = Ok m2' /\ same_content c c m2 m2' /\ twin c c m2 m2' /\
         min_bi m2' = min_bi m2 /\ max_bi m2' = max_bi m2).
Proof.
  intros C1 C2. destruct (save_load_static s1 s2 g origin resolution C1 C2) as [d [ss [es [_ [Hn [Hin [Hss [_ [Es El]]]]]]]]].
  exists d, (loaded_map ss (map fst es)). split; [exact Es|]. split; [exact El|].
  destruct (wide_restores es Hn Hin) as [HI' [HR' [_ [_ [Hd Hb]]]]].
  pose proof (loaded_sim ss es Hss (fun bi b H => proj1 (proj1 (Hin bi b) H))) as S.
  set (w := wide_map (map fst es)) in *. set (m' := loaded_map ss (map fst es)) in *.
  assert (HA : alike c m w).
  { split.
    - intros bi. unfold has_b. pose proof HI as [_ [-> _]]. pose proof HI' as [_ [-> _]].
      split; intros [A B]; (split; [exact A|]); rewrite (Hb bi A) in *; destruct (cbget c m bi); try contradiction; discriminate.
    - intros i j Hij. symmetry. apply Hd; exact Hij. }
  assert (Htrans : forall x y z : cmap c, same_content c c x y -> same_content c c y z -> same_content c c x z).
  { intros x y z [H1 H2] [H3 H4]. split; [intros bi sl; rewrite H1; apply H3|intros i j v; rewrite H2; apply H4]. }
  split; [apply (Htrans m w m'); [apply alike_same; assumption|apply sim_same; assumption]|].
  split; [split; [exact Hc|]; split; [reflexivity|]; exists w; split; [exact HI'|]; split; [exact HR'|]; split; [apply alike_same; assumption|apply sim_sees; assumption]|].
  split; [symmetry; exact Hmin|]. split; [symmetry; exact Hmax|].
  intros l HRk Hf.
  assert (HRk' : region c (expansions l) w).
  { intros bi Hbd Hne. apply HRk; [exact Hbd|]. rewrite (Hb bi Hbd) in Hne. destruct (cbget c m bi); [discriminate|contradiction]. }
  destruct (alike_run c Hc l (expansions l) m w HI HI' HRk HRk' ltac:(lia) Hf HA)
    as [m2 [w2 [F1 [F2 [K1 [K2 [T1 [T2 HA2]]]]]]]].
  rewrite Z.sub_diag in T1, T2.
  assert (Hkeeps : keeps mrg dim mn mx w).
  { split; [reflexivity|]. split; [reflexivity|]. intros bi b Hbi. cbn [w wide_map bundles loaded_bundles a_cells] in Hbi.
    apply in_map_iff in Hbi. destruct Hbi as [bi' [E Hbi]]. injection E as -> _. apply in_map_iff in Hbi.
    destruct Hbi as [[bi' b'] [E He]]. cbn [fst] in E. subst bi'. apply Hin in He. apply He. }
  destruct (sim_run dflt mrg dim amin amax expd offs loadable (usable c 0)
              (fun bi Hu i Hi => usable_loadable bi i Hu Hi) mn mx) with (l := l) (m := w) (m' := m') (m1 := w2)
    as [Hk2 [m2' [F2' S2]]].
  - intros x bi o A B L Ho V. apply (valid_usable x (idx_add bi o) A B); [|exact V].
    destruct (ok_sound c Hc o Ho) as [Lo _]. cbn [dimc] in Lo. clear - L Lo.
    revert o dim L Lo. induction bi as [|x bi IH]; intros [|y o] dim L Lo; cbn in *; try congruence.
    destruct dim as [|q]; [discriminate|]. f_equal. rewrite (IH o q); congruence.
  - intros x bi A B L V. apply (valid_usable x bi A B L V).
  - intros bi Hu. apply Hu.
  - revert Hf. apply Forall_impl. intros a Ha. destruct a as [bi f|bi|]; cbn [act_fits act_ok] in *; [exact Ha|exact (proj1 Ha)|exact I].
  - exact Hkeeps.
  - exact S.
  - exact F2.
  - exists m2, m2'. split; [exact F1|]. split; [exact F2'|].
    split; [apply (Htrans m2 w2 m2'); [apply alike_same; assumption|apply sim_same; assumption]|].
    split; [split; [exact Hc|]; split; [reflexivity|]; exists w2; split; [exact K2|]; split; [exact T2|]; split; [apply alike_same; assumption|apply sim_sees; assumption]|].
    destruct Hk2 as [A [B _]]. destruct S2 as [_ [A2 [B2 _]]].
    assert (Hr : min_bi m2 = min_bi m /\ max_bi m2 = max_bi m).
    { unfold cact_all, act_all in F1. apply (same_range_fold c) in F1; [|intros x a y; apply (cact_range c eq_refl)]. exact F1. }
    destruct Hr as [R1 R2]. split.
    + etransitivity; [exact A2|]. etransitivity; [exact A|]. rewrite R1. symmetry; exact Hmin.
    + etransitivity; [exact B2|]. etransitivity; [exact B|]. rewrite R2. symmetry; exact Hmax.
Qed.
End StaticTrip.

(** ** The complete round trip of a static map *)
Lemma restore_static_twin {P Po T : Type} (junk : list Z -> nat -> list Z) (po : codec Po) (tp : codec T) (fmt : format P)
  (ok : P -> Prop) (len : nat) (c : config P) (l : list (map_action (P:=P))) (s1 s2 : list nat) (g : nat -> Z)
  (origin : Po) (resolution : T) (m : cmap c) :
  codec_ok po -> codec_ok tp -> format_ok fmt ok len -> f_count fmt = Z.of_nat len ->
  config_ok c -> kindc c = Static -> (0 < dimc c)%nat -> Z.even (nth 0 (minc c) 0) = true ->
  Forall (fun z => 0 <= z < 2 ^ 64) (sizec c) -> int_index (minc c) -> int_index (static_max (sizec c) (minc c)) ->
  fits c l -> cact_all c l (new_map c) = Ok m ->
  (forall i j v, has_value c m i j v -> ok v) ->
  complete (bin_count (dimc c)) s1 -> complete (bin_count (dimc c)) s2 ->
  exists d m', map_save po tp fmt c all_open s1 origin resolution m = Ok (true, Some d) /\
    map_load junk po tp fmt c all_open s2 g (Some d) =
      Ok (Some {| l_origin := origin; l_resolution := resolution; l_map := m' |}) /\
    same_content c c m m' /\ twin c c m m' /\ min_bi m' = min_bi m /\ max_bi m' = max_bi m /\
    (forall bi sl, has_bundle c m' bi sl -> length sl = (2 ^ dimc c)%nat /\
       forall i, (i < 2 ^ dimc c)%nat -> exists j v, nth_error sl i = Some (Some j) /\ has_value c m' i j v) /\
    (forall l2, fits c (l ++ l2) ->
       exists m2 m2', cact_all c l2 m = Ok m2 /\ cact_all c l2 m' = Ok m2' /\ same_content c c m2 m2' /\ twin c c m2 m2' /\
         min_bi m2' = min_bi m2 /\ max_bi m2' = max_bi m2).
Proof.
  intros Hpo Htp Hfmt Hcount Hc Hk Hdim Hev Hsz Hmn Hmx Hf Hrun Hok C1 C2.
  destruct (run_spec c Hc l Hf) as [m0 [E0 [HI [HR _]]]]. rewrite Hrun in E0. injection E0 as <-.
  destruct (static_range c Hk l m Hrun) as [Rmin Rmax].
  assert (H : exists d m', map_save po tp fmt c all_open s1 origin resolution m = Ok (true, Some d) /\
    map_load junk po tp fmt c all_open s2 g (Some d) =
      Ok (Some {| l_origin := origin; l_resolution := resolution; l_map := m' |}) /\
    same_content c c m m' /\ twin c c m m' /\ min_bi m' = min_bi m /\ max_bi m' = max_bi m /\
    (forall l2, region c (expansions l2) m -> Forall (act_fits c (expansions l2)) l2 ->
       exists m2 m2', cact_all c l2 m = Ok m2 /\ cact_all c l2 m' = Ok m2' /\ same_content c c m2 m2' /\ twin c c m2 m2' /\
         min_bi m2' = min_bi m2 /\ max_bi m2' = max_bi m2)).
  { clear Hrun Hf. destruct c as [dim k size mn garb am ax offs df mg ex]. cbn [kindc] in Hk. subst k. cbn [dimc sizec minc] in *.
    exact (restore_static_inner junk po tp fmt ok len Hpo Htp Hfmt Hcount dim size mn garb am ax offs df mg ex Hc Hdim Hev Hsz Hmn Hmx
             m HI HR Rmin Rmax Hok s1 s2 g origin resolution C1 C2). }
  destruct H as [d [m' [Es [El [Hsame [Htw [A [B Hlater]]]]]]]]. exists d, m'.
  split; [exact Es|]. split; [exact El|]. split; [exact Hsame|]. split; [exact Htw|]. split; [exact A|]. split; [exact B|]. split.
  - intros bi sl Hsl. apply Hsame in Hsl. apply (has_bundle_iff c Hc m bi sl HI) in Hsl. destruct Hsl as [Hu E].
    destruct (cbget c m bi) as [b|] eqn:Eb; [|discriminate]. injection E as <-.
    pose proof (slots_full c Hc m bi b HI Hu Eb) as Hs. rewrite Hs. rewrite <- two_pow_spec. unfold full_slots.
    split; [rewrite map_length, seq_length; reflexivity|]. intros i Hi.
    pose proof HI as [[[_ HB] _] [Hsh _]].
    destruct (HB bi b) as [_ [_ Hex]]; [fold (cshape c m); rewrite Hsh; apply (usable_bdom c Hc 0); [lia|exact Hu]|exact Eb|].
    destruct (Hex i Hi) as [v Hv]. exists (generate_index bi i), v. split.
    + rewrite nth_error_map, (nth_error_nth' (seq 0 (bin_count (dimc c))) 0%nat) by (rewrite seq_length; exact Hi).
      rewrite seq_nth by exact Hi. reflexivity.
    + apply Hsame. apply (has_value_iff c Hc m i _ v HI). split; [|exact Hv]. apply bundle_cell; [exact Hu|]. rewrite <- two_pow_spec. exact Hi.
  - intros l2 Hf2. unfold fits in Hf2. rewrite expansions_app in Hf2. apply Forall_app in Hf2. destruct Hf2 as [Hfl Hfl2].
    destruct (hist_spec c Hc l (expansions l + expansions l2) (new_map c) (new_inv c Hc)) as [m0 [E0 [_ [HRk _]]]].
    { pose proof (expansions_nonneg l2). lia. }
    { intros bi _ H. rewrite new_empty_b in H. contradiction. }
    { exact Hfl. }
    rewrite Hrun in E0. injection E0 as <-.
    replace (expansions l + expansions l2 - expansions l) with (expansions l2) in HRk by lia.
    apply (Hlater l2 HRk).
    apply (fits_weaken c (expansions l + expansions l2) (expansions l2) l2); [pose proof (expansions_nonneg l); lia|exact Hfl2].
Qed.

Lemma restore_static {P Po T : Type} (junk : list Z -> nat -> list Z) (po : codec Po) (tp : codec T) (fmt : format P)
  (ok : P -> Prop) (len : nat) (c : config P) (l : list (map_action (P:=P))) (s1 s2 : list nat) (g : nat -> Z)
  (origin : Po) (resolution : T) (m : cmap c) :
  codec_ok po -> codec_ok tp -> format_ok fmt ok len -> f_count fmt = Z.of_nat len ->
  config_ok c -> kindc c = Static -> (0 < dimc c)%nat -> Z.even (nth 0 (minc c) 0) = true ->
  Forall (fun z => 0 <= z < 2 ^ 64) (sizec c) -> int_index (minc c) -> int_index (static_max (sizec c) (minc c)) ->
  fits c l -> cact_all c l (new_map c) = Ok m ->
  (forall i j v, has_value c m i j v -> ok v) ->
  complete (bin_count (dimc c)) s1 -> complete (bin_count (dimc c)) s2 ->
  exists d m', map_save po tp fmt c all_open s1 origin resolution m = Ok (true, Some d) /\
    map_load junk po tp fmt c all_open s2 g (Some d) =
      Ok (Some {| l_origin := origin; l_resolution := resolution; l_map := m' |}) /\
    same_content c c m m' /\ min_bi m' = min_bi m /\ max_bi m' = max_bi m /\
    (forall bi sl, has_bundle c m' bi sl -> length sl = (2 ^ dimc c)%nat /\
       forall i, (i < 2 ^ dimc c)%nat -> exists j v, nth_error sl i = Some (Some j) /\ has_value c m' i j v) /\
    (forall l2, fits c (l ++ l2) ->
       exists m2 m2', cact_all c l2 m = Ok m2 /\ cact_all c l2 m' = Ok m2' /\ same_content c c m2 m2' /\
         min_bi m2' = min_bi m2 /\ max_bi m2' = max_bi m2).
Proof.
  intros Hpo Htp Hfmt Hcount Hc Hk Hdim Hev Hsz Hmn Hmx Hf Hrun Hok C1 C2.
  destruct (restore_static_twin junk po tp fmt ok len c l s1 s2 g origin resolution m
              Hpo Htp Hfmt Hcount Hc Hk Hdim Hev Hsz Hmn Hmx Hf Hrun Hok C1 C2) as [d [m' [A [B [C [_ [D [E [F H]]]]]]]]].
  exists d, m'. split; [exact A|]. split; [exact B|]. split; [exact C|]. split; [exact D|]. split; [exact E|]. split; [exact F|].
  intros l2 Hl2. destruct (H l2 Hl2) as [m2 [m2' [X1 [X2 [X3 [_ X4]]]]]]. exists m2, m2'. auto.
Qed.
