(** Facts about a save interrupted after the storage files have been opened and before anything has
    been written to them. *)
From Verif Require Import Base SeqModel SeqFacts IndexModel IndexFacts OctreeSpec OctreeModel OctreeFacts
  MapModel MapFacts MapHist BackendModel BackendFacts SysModel SysSpec SysFacts MapLifeFacts ConvSpec ConvFacts
  LoaderModel SerialModel SerialSpec SerialFacts HeapFacts ThreadModel ThreadSpec ThreadFacts FileModel FileFacts
  CrashModel CrashSpec CrashFacts.
Open Scope Z_scope.

(** ** A schedule of the threads *)
Lemma interleaving_heads (hs : list effect) : forall (A ts : list (list effect)) (es : list effect),
  length hs = length ts -> interleaving (A ++ ts) es ->
  interleaving (A ++ map (fun p => fst p :: snd p) (combine hs ts)) (hs ++ es).
Proof.
  induction hs as [|h hs IH]; intros A [|t ts] es HL H; cbn [length] in HL; try lia; [exact H|].
  cbn [combine map fst snd app].
  apply interleaving_step with (i := length A) (l := t)
    (ls' := (A ++ [t]) ++ map (fun p => fst p :: snd p) (combine hs ts)).
  - rewrite nth_error_app2, Nat.sub_diag by lia. reflexivity.
  - clear. induction A as [|a A IH]; cbn [length app upd]; [reflexivity|].
    rewrite IH. reflexivity.
  - apply IH; [lia|]. rewrite <- app_assoc. exact H.
Qed.

Lemma interleaving_nil (n : nat) : interleaving (repeat [] n) [].
Proof. constructor. apply Forall_forall. intros x Hx. apply repeat_spec in Hx. exact Hx. Qed.

Definition opens (n : nat) : list effect := map OpenStore (seq 0 n).
Definition writes (files : list (list Z)) : list effect :=
  map (fun x => AppendStore (fst x) (snd x)) (combine (seq 0 (length files)) files).

Lemma writes_threads (files : list (list Z)) :
  interleaving (map (fun x => [AppendStore (fst x) (snd x)]) (combine (seq 0 (length files)) files)) (writes files).
Proof.
  set (n := length files).
  assert (L : length (writes files) = n) by (unfold writes; rewrite map_length, combine_length, seq_length; apply Nat.min_id).
  pose proof (interleaving_heads (writes files) [] (repeat [] n) []) as H. rewrite repeat_length in H.
  specialize (H L (interleaving_nil n)). cbn [app] in H. rewrite app_nil_r in H.
  replace (map (fun x => [AppendStore (fst x) (snd x)]) (combine (seq 0 n) files))
    with (map (fun p => fst p :: snd p) (combine (writes files) (repeat (@nil effect) n))); [exact H|].
  unfold writes. fold n.
  assert (Hc : length (combine (seq 0 n) files) = n) by (rewrite combine_length, seq_length; apply Nat.min_id).
  revert Hc. generalize (combine (seq 0 n) files). generalize n. clear. intros n l; revert n.
  induction l as [|x l IH]; intros [|n] HL; cbn [length] in HL; try lia; [reflexivity|].
  cbn [map repeat combine fst snd]. f_equal. apply IH; lia.
Qed.

Lemma opens_first (files : list (list Z)) :
  interleaving (map (fun ic => store_effects (fst ic) (snd ic))
                  (combine (seq 0 (length files)) (map (fun f => [f]) files)))
    (opens (length files) ++ writes files).
Proof.
  set (n := length files).
  pose proof (interleaving_heads (opens n) []
    (map (fun x => [AppendStore (fst x) (snd x)]) (combine (seq 0 n) files)) (writes files)) as H.
  specialize (H ltac:(unfold opens; rewrite !map_length, combine_length, !seq_length; symmetry; apply Nat.min_id)
    (writes_threads files)).
  cbn [app] in H. fold n in H.
  match type of H with interleaving ?a _ => match goal with |- interleaving ?b _ => replace b with a; [exact H|] end end.
  unfold opens, n. clear. generalize 0%nat as s. induction files as [|f files IH]; intros s; [reflexivity|].
  cbn [length seq map combine fst snd]. f_equal. apply IH.
Qed.

(** All storage files open, nothing written. *)
Definition opened (n : nat) (d : directory) : directory :=
  {| header_file := header_file d; store_files := repeat (Some []) n |}.

Lemma opens_disk (n : nat) (h : option (list Z)) :
  disk n (Some {| header_file := h; store_files := repeat None n |}) (opens n) =
  Some {| header_file := h; store_files := repeat (Some []) n |}.
Proof.
  assert (Ht : interleaving (map (fun i => [OpenStore i]) (seq 0 n)) (opens n)).
  { pose proof (interleaving_heads (opens n) [] (repeat [] n) []) as H. rewrite repeat_length in H.
    specialize (H ltac:(unfold opens; rewrite map_length, seq_length; reflexivity) (interleaving_nil n)).
    cbn [app] in H. rewrite app_nil_r in H.
    match type of H with interleaving ?a _ => match goal with |- interleaving ?b _ => replace b with a; [exact H|] end end.
    unfold opens. clear. generalize 0%nat as s. induction n as [|n IH]; intros s; [reflexivity|].
    cbn [seq map repeat combine fst snd]. f_equal. apply IH. }
  apply (interleaving_files n h _ _ Ht); rewrite ?repeat_length, ?map_length, ?seq_length; try reflexivity.
  - intros i l Hl. rewrite nth_error_map in Hl. destruct (nth_error (seq 0 n) i) as [k|] eqn:E; [|discriminate].
    injection Hl as <-. assert (Hi : (i < n)%nat) by (rewrite <- (seq_length n 0); apply nth_error_Some; congruence).
    rewrite (nth_error_nth' (seq 0 n) 0%nat) in E by (rewrite seq_length; exact Hi). rewrite seq_nth in E by exact Hi.
    injection E as <-. constructor; [reflexivity|constructor].
  - intros i l f Hl Hf. rewrite nth_error_map in Hl. destruct (nth_error (seq 0 n) i) as [k|] eqn:E; [|discriminate].
    injection Hl as <-. assert (Hi : (i < n)%nat) by (rewrite <- (seq_length n 0); apply nth_error_Some; congruence).
    cbn [fold_left file_effect]. apply nth_repeat_error. exact Hi.
Qed.

Lemma removal_exists (n : nat) (p : place) : exists rm, removal n p rm.
Proof. destruct p as [d|]; cbn [removal]; [|eauto]. eexists. eexists. split; [apply Permutation_refl|reflexivity]. Qed.

(** Every save can be interrupted there. *)
Lemma opened_reached (n : nat) (p : place) (h : list Z) (files : list (list Z)) : length files = n ->
  let d := {| header_file := Some h; store_files := map Some files |} in
  exists es done, save_effects n p d es /\ done_of es done /\ disk n p done = Some (opened n d).
Proof.
  intros L d. destruct (removal_exists n p) as [rm Hrm].
  exists (rm ++ MakeDirectory :: OpenHeader :: map AppendHeader [h] ++ opens n ++ writes files),
         (rm ++ MakeDirectory :: OpenHeader :: map AppendHeader [h] ++ opens n).
  split; [|split].
  - exists h, files, rm, [h], (map (fun f => [f]) files), (opens n ++ writes files).
    split; [reflexivity|]. split; [reflexivity|]. split; [exact L|]. split; [exact Hrm|].
    split; [apply app_nil_r|]. split.
    { rewrite map_map. rewrite <- (map_id files) at 2. apply map_ext. intros f. apply app_nil_r. }
    split; [rewrite <- L; apply opens_first|reflexivity].
  - exists (writes files). rewrite <- app_assoc. reflexivity.
  - rewrite disk_app, (removal_gone n p rm Hrm).
    change (disk n None (MakeDirectory :: OpenHeader :: map AppendHeader [h] ++ opens n))
      with (disk n (Some {| header_file := Some h; store_files := repeat None n |}) (opens n)).
    apply opens_disk.
Qed.

(** ** What is loaded then *)
Section Hollow.
Variable junk : list Z -> nat -> list Z.
Context {P Po T : Type}.
Variable po : codec Po.
Variable tp : codec T.
Variable fmt : format P.
Hypothesis Hpo : codec_ok po.
Hypothesis Htp : codec_ok tp.
Variable c : config P.
Hypothesis Hc : config_ok c.
Hypothesis Hk : kindc c = Dynamic.
Hypothesis Hmin : aminc c = cw_min.
Hypothesis Hmax : amaxc c = cw_max.
Hypothesis Hdim : (0 < dimc c)%nat.
Notation ld := (dist_laws (mergec c) (dimc c) (kindc c)).
Notation lb := (bundle_laws (dimc c) (kindc c)).
Notation n := (bin_count (dimc c)).
Notation sh0 := (cshape c (new_map c)).
Variable m : cmap c.
Hypothesis HI : cInv c m.
Hypothesis HR : region c 0 m.

Definition null_bundle : bundle := {| slots := repeat None n; expand := true |}.
Definition new_stores (g : nat -> Z) (size : list Z) (min : idx) : list (st (bdc c)) :=
  map (fresh_store c g size min) (seq 0 n).

Lemma new_store_get (g : nat -> Z) (size : list Z) (min : idx) (i : nat) (j : idx) :
  cddom c sh0 i j -> nth_error (new_stores g size min) i = Some (fresh_store c g size min i) /\
    bget (bdc c) (fresh_store c g size min i) j = Ok None.
Proof.
  intros H. pose proof (ddom_bins c m i j HI H) as Hi. split.
  - unfold new_stores. rewrite nth_error_map, (nth_error_nth' (seq 0 n) 0%nat) by (rewrite seq_length; exact Hi).
    rewrite seq_nth by exact Hi. reflexivity.
  - destruct (fresh_store_new c Hk g size min i) as [W0 [E0 S0]]. apply E0.
    pose proof HI as [[[[HL [HF HB]] _] _] [Hsh _]]. rewrite <- Hsh in H.
    destruct (store_at _ _ _ _ _ _ _ m i j (conj HL (conj HF HB)) H) as [s [Es [_ [Hd _]]]].
    rewrite (S0 s). exact Hd.
Qed.

Lemma null_slots (g : nat -> Z) (size : list Z) (min : idx) (bi : idx) : usable c 0 bi ->
  bundle_slots c (map Some (new_stores g size min)) bi (seq 0 n) = Ok (repeat None n).
Proof.
  intros Hu.
  assert (H : forall is, (forall i, In i is -> (i < n)%nat) ->
            bundle_slots c (map Some (new_stores g size min)) bi is = Ok (repeat None (length is))).
  { induction is as [|i is IH]; intros His; [reflexivity|]. cbn [bundle_slots length repeat].
    assert (Hi : (i < n)%nat) by (apply His; left; reflexivity).
    pose proof (usable_okidx c Hc 0 bi ltac:(lia) Hu) as [_ [_ Hdd]]. specialize (Hdd i Hi).
    destruct (new_store_get g size min i _ Hdd) as [E G].
    rewrite nth_error_map, E. cbn [option_map]. rewrite G. cbn [obind].
    rewrite IH by (intros k Hk'; apply His; right; exact Hk'). reflexivity. }
  rewrite H by (intros i Hi; apply in_seq in Hi; lia). rewrite seq_length. reflexivity.
Qed.

Lemma null_bundles (g : nat -> Z) (size : list Z) (min : idx) (es : list (idx * bundle)) :
  NoDup (map fst es) -> (forall bi b, In (bi, b) es <-> usable c 0 bi /\ cbget c m bi = Some b) ->
  exists bs, ofold (allocate_bundle c (map Some (new_stores g size min))) (map fst es) (fresh_bundles c g size min) = Ok bs /\
    (forall bi, cbdom c sh0 bi -> bget (bbc c) bs bi = Ok (option_map (fun _ => null_bundle) (cbget c m bi))).
Proof.
  intros Hn Hin. destruct (fresh_bundles_new c Hk g size min) as [W0 [E0 S0]].
  pose proof HI as [_ [Hsh _]].
  assert (Hdom : forall bi, cbdom c sh0 bi <-> dom lb (shape lb (fresh_bundles c g size min)) bi).
  { intros bi. rewrite <- Hsh. rewrite (S0 (bundles m)). reflexivity. }
  set (es' := map (fun bi => (bi, null_bundle)) (map fst es)).
  assert (Hfst : map fst es' = map fst es) by (unfold es'; rewrite !map_map; reflexivity).
  destruct (insert_all_spec merge_bundle (bbc c) lb es' (fresh_bundles c g size min) W0) as [bs [E [W [S G]]]].
  - rewrite Hfst. exact Hn.
  - apply Forall_forall. intros e He. apply Hdom. apply (in_map fst) in He. rewrite Hfst in He.
    apply in_map_iff in He. destruct He as [[bi b] [<- He]]. cbn [fst]. apply Hin in He.
    apply (usable_bdom c Hc 0); [lia|apply He].
  - intros bi Hbi. apply E0, Hdom. rewrite Hfst in Hbi. apply in_map_iff in Hbi. destruct Hbi as [[bi' b] [<- He]].
    cbn [fst]. apply Hin in He. apply (usable_bdom c Hc 0); [lia|apply He].
  - exists bs. split.
    + rewrite <- E. unfold es'.
      assert (Hgo : forall l b, (forall bi, In bi l -> In bi (map fst es)) ->
        ofold (allocate_bundle c (map Some (new_stores g size min))) l b =
        ofold (fun s e => bins (bbc c) s (fst e) (snd e)) (map (fun bi => (bi, null_bundle)) l) b).
      { induction l as [|bi l IH]; intros b Hl; [reflexivity|]. cbn [map ofold fst snd].
        unfold allocate_bundle at 1.
        assert (Hbi : In bi (map fst es)) by (apply Hl; left; reflexivity).
        apply in_map_iff in Hbi. destruct Hbi as [[bi' b'] [Ebi He]]. cbn [fst] in Ebi. subst bi'. apply Hin in He.
        rewrite (null_slots g size min bi (proj1 He)).
        cbn [obind]. change {| slots := repeat None n; expand := true |} with null_bundle.
        destruct (bins (bbc c) b bi null_bundle); cbn [obind]; try reflexivity.
        apply IH. intros x Hx. apply Hl. right; exact Hx. }
      apply Hgo. auto.
    + intros bi Hbd. rewrite (G bi) by (apply Hdom; exact Hbd).
      destruct (cbget c m bi) as [b|] eqn:Eb; cbn [option_map].
      * assert (Ha : assoc es' bi = Some null_bundle).
        { apply assoc_in; [rewrite Hfst; exact Hn|]. unfold es'. apply in_map_iff. exists bi. split; [reflexivity|].
          apply in_map_iff. exists (bi, b). split; [reflexivity|]. apply Hin. split; [|exact Eb]. apply HR; [exact Hbd|congruence]. }
        rewrite Ha. reflexivity.
      * destruct (assoc es' bi) as [b|] eqn:Ea; [|apply E0, Hdom; exact Hbd].
        apply assoc_in in Ea; [|rewrite Hfst; exact Hn]. apply (in_map fst) in Ea. rewrite Hfst in Ea.
        apply in_map_iff in Ea. destruct Ea as [[bi' b'] [Ebi He]]. cbn [fst] in Ebi. subst bi'. apply Hin in He. destruct He; congruence.
Qed.

(** The bundles of [m], all of them with null pointers, and no distribution. *)
Definition hollow (m' : cmap c) : Prop :=
  min_bi m' = min_bi m /\ max_bi m' = max_bi m /\
  (forall bi sl, has_bundle c m' bi sl <-> (exists sl0, has_bundle c m bi sl0) /\ sl = repeat None (2 ^ dimc c)) /\
  (forall i j v, ~ has_value c m' i j v) /\
  (forall bi sl f, has_bundle c m bi sl -> cact c m' (Modify bi f) = UB).

Lemma hollow_load (s : list nat) (g : nat -> Z) (origin : Po) (resolution : T) (h : list Z) :
  complete n s -> map_empty c m = false -> map_header po tp c origin resolution m = Ok h ->
  exists m', map_load junk po tp fmt c all_open s g (Some {| header_file := Some h; store_files := repeat (Some []) n |}) =
      Ok (Some {| l_origin := origin; l_resolution := resolution; l_map := m' |}) /\ hollow m'.
Proof.
  intros Hs He Hh. destruct (cmap_bundles c Hc m HI HR) as [es [Ees [Hn [Hin _]]]].
  destruct (header_of junk po tp 0%nat Hpo Htp c Hc Hk Hmin Hmax Hdim m HI HR origin resolution es He Ees Hin) as [h' [H1 H2]].
  rewrite Hh in H1. injection H1 as <-.
  destruct (null_bundles g [] (min_bi m) es Hn Hin) as [bs [B1 B2]].
  assert (O : map (load_operation junk fmt c all_open (fresh_store c g [] (min_bi m)) (repeat (Some []) n)) (seq 0 n) =
              map (fun r => Ok (true, r)) (map Some (new_stores g [] (min_bi m)))).
  { unfold new_stores. rewrite !map_map. apply map_ext_in. intros i Hi. apply in_seq in Hi.
    unfold load_operation. rewrite nth_repeat_error by lia. reflexivity. }
  destruct (all_ok_run _ _ O s) as [w [R [F M]]].
  { rewrite map_length, seq_length. exact Hs. }
  exists (Build_ndmap (bdc c) (bbc c) (new_stores g [] (min_bi m)) bs (min_bi m) (max_bi m)).
  split.
  { unfold map_load. cbn [store_files header_file].
    assert (Hall : forallb (fun f : option (list Z) => match f with Some _ => true | None => false end) (repeat (Some []) n) = true).
    { apply forallb_forall. intros f Hf. apply repeat_spec in Hf. subst f. reflexivity. }
    rewrite Hall. cbn [all_open open_header]. rewrite H2. cbn [obind]. rewrite R. cbn [obind]. rewrite F, M, B1.
    cbn [obind]. rewrite not_null_some. reflexivity. }
  set (m' := Build_ndmap (bdc c) (bbc c) (new_stores g [] (min_bi m)) bs (min_bi m) (max_bi m)).
  assert (Hcb : forall bi, usable c 0 bi -> cbundle c m' bi = Ok (option_map (fun _ => null_bundle) (cbget c m bi))).
  { intros bi Hu. unfold cbundle, get_bundle, valid. rewrite Hk. cbn [m' bundles]. apply B2.
    apply (usable_bdom c Hc 0); [lia|exact Hu]. }
  split; [reflexivity|]. split; [reflexivity|]. split; [|split].
  - intros bi sl. split.
    + intros [Hu [b [E Hb]]]. rewrite (Hcb bi Hu) in E. destruct (cbget c m bi) as [b0|] eqn:E0; [|discriminate].
      injection E as <-. split.
      * exists (slots b0). apply (has_bundle_iff c Hc m bi _ HI). rewrite E0. auto.
      * rewrite <- Hb. unfold null_bundle. cbn [slots]. rewrite two_pow_spec. reflexivity.
    + intros [[sl0 H] ->]. apply (has_bundle_iff c Hc m bi _ HI) in H. destruct H as [Hu E].
      split; [exact Hu|]. exists null_bundle. rewrite (Hcb bi Hu). destruct (cbget c m bi); [|discriminate].
      split; [reflexivity|]. unfold null_bundle. cbn [slots]. rewrite two_pow_spec. reflexivity.
  - intros i j v [Hj E]. apply (cell_ddom c Hc) in Hj. destruct (new_store_get g [] (min_bi m) i j Hj) as [A B].
    unfold cstored, stored, get_store in E. cbn [m' stores] in E. rewrite A in E. cbn [obind] in E. rewrite B in E. discriminate.
  - intros bi sl f H. apply (has_bundle_iff c Hc m bi _ HI) in H. destruct H as [Hu E].
    destruct (cbget c m bi) as [b0|] eqn:E0; [|discriminate].
    assert (G : bget (bbc c) (bundles m') bi = Ok (Some null_bundle)).
    { cbn [m' bundles]. rewrite B2 by (apply (usable_bdom c Hc 0); [lia|exact Hu]). rewrite E0. reflexivity. }
    unfold cact, act, modify_bundle, getAllocate. rewrite G. cbn [obind].
    assert (Hpos : exists k, n = S k).
    { pose proof (Nat.pow_nonzero 2 (dimc c) ltac:(lia)) as H. rewrite <- two_pow_spec in H. unfold bin_count. destruct (two_pow (dimc c)) as [|k]; [contradiction H; reflexivity|eauto]. }
    destruct Hpos as [k Hpos].
    unfold null_bundle in G. rewrite Hpos in *.
    cbn [seq ofold]. unfold modify_slot at 1. rewrite G. reflexivity.
Qed.
End Hollow.

(** The whole story: an interrupted save whose directory loads as a hollow map. *)
Section Story.
Variable junk : list Z -> nat -> list Z.
Context {P Po T : Type}.
Variable po : codec Po.
Variable tp : codec T.
Variable fmt : format P.
Variable ok : P -> Prop.
Variable len : nat.
Hypothesis Hpo : codec_ok po.
Hypothesis Htp : codec_ok tp.
Hypothesis Hfmt : format_ok fmt ok len.
Hypothesis Hcount : f_count fmt = Z.of_nat len.

Lemma hollow_save (c : config P) (l : list (map_action (P:=P))) (s1 s2 : list nat) (g : nat -> Z) (origin : Po) (resolution : T)
  (m : cmap c) (p : place) :
  config_ok c -> kindc c = Dynamic -> aminc c = cw_min -> amaxc c = cw_max -> (0 < dimc c)%nat ->
  fits c l -> cact_all c l (new_map c) = Ok m -> map_empty c m = false ->
  (forall i j v, has_value c m i j v -> ok v) ->
  complete (bin_count (dimc c)) s1 -> complete (bin_count (dimc c)) s2 ->
  exists d es done m', map_save po tp fmt c all_open s1 origin resolution m = Ok (true, Some d) /\
    save_effects (bin_count (dimc c)) p d es /\ done_of es done /\
    map_load junk po tp fmt c all_open s2 g (disk (bin_count (dimc c)) p done) =
      Ok (Some {| l_origin := origin; l_resolution := resolution; l_map := m' |}) /\
    hollow c m m'.
Proof.
  intros Hc Hk Hmin Hmax Hdim Hf Hrun He Hok C1 C2.
  destruct (run_spec c Hc l Hf) as [m0 [E0 [HI [HR _]]]]. rewrite Hrun in E0. injection E0 as <-.
  destruct (cmap_bundles c Hc m HI HR) as [es [Ees [Hn [Hin _]]]].
  destruct (header_of junk po tp 0%nat Hpo Htp c Hc Hk Hmin Hmax Hdim m HI HR origin resolution es He Ees Hin) as [h [H1 H2]].
  destruct (all_storages junk fmt ok len Hfmt Hcount c Hc Hk Hdim m HI Hok g [] (min_bi m)) as [files [ss [L1 [L2 [O1 _]]]]].
  destruct (all_ok_run _ _ O1 s1) as [w [R [F M]]].
  { rewrite map_length, seq_length. exact C1. }
  destruct (opened_reached (bin_count (dimc c)) p h files L1) as [es' [done [A [B C]]]].
  destruct (hollow_load junk po tp fmt Hpo Htp c Hc Hk Hmin Hmax Hdim m HI HR s2 g origin resolution h C2 He H1) as [m' [E' H']].
  eexists. exists es', done, m'. split; [|split; [exact A|split; [exact B|split; [rewrite C; exact E'|exact H']]]].
  unfold map_save. cbn [all_open no_directory open_header]. rewrite H1. cbn [obind]. rewrite R. cbn [obind].
  rewrite F, M. reflexivity.
Qed.

Lemma hollow_story (c : config P) (l : list (map_action (P:=P))) (s1 s2 : list nat) (g : nat -> Z) (origin : Po) (resolution : T)
  (m : cmap c) (p : place) :
  config_ok c -> kindc c = Dynamic -> aminc c = cw_min -> amaxc c = cw_max -> (0 < dimc c)%nat ->
  fits c l -> cact_all c l (new_map c) = Ok m -> map_empty c m = false ->
  (forall i j v, has_value c m i j v -> ok v) ->
  complete (bin_count (dimc c)) s1 -> complete (bin_count (dimc c)) s2 ->
  exists d es done m', map_save po tp fmt c all_open s1 origin resolution m = Ok (true, Some d) /\
    save_effects (bin_count (dimc c)) p d es /\ done_of es done /\
    map_load junk po tp fmt c all_open s2 g (disk (bin_count (dimc c)) p done) =
      Ok (Some {| l_origin := origin; l_resolution := resolution; l_map := m' |}) /\
    (forall bi sl, has_bundle c m' bi sl <-> (exists sl0, has_bundle c m bi sl0) /\ sl = repeat None (2 ^ dimc c)) /\
    (forall i j v, ~ has_value c m' i j v) /\
    (forall bi sl f, has_bundle c m bi sl -> cact c m' (Modify bi f) = UB).
Proof.
  intros Hc Hk Hmin Hmax Hdim Hf Hrun He Hok C1 C2.
  destruct (hollow_save c l s1 s2 g origin resolution m p Hc Hk Hmin Hmax Hdim Hf Hrun He Hok C1 C2)
    as [d [es [done [m' [A [B [C [D [_ [_ H]]]]]]]]]]. exists d, es, done, m'. auto.
Qed.
End Story.

(** Every save over a directory can be interrupted right after its first effect, the old map is gone. *)
Lemma lost_save (n : nat) (d0 : directory) (h : list Z) (files : list (list Z)) :
  length files = n -> length (store_files d0) = n -> (0 < n)%nat ->
  let d := {| header_file := Some h; store_files := map Some files |} in
  exists es done, save_effects n (Some d0) d es /\ done_of es done /\ incomplete (disk n (Some d0) done).
Proof.
  intros L L0 Hn d. destruct (opened_reached n (Some d0) h files L) as [es [_ [A _]]].
  exists es. pose proof A as [h' [files' [rm [hs [css [ts [_ [_ [_ [Hrm [_ [_ [_ E]]]]]]]]]]]]].
  destruct Hrm as [r [Hp ->]]. destruct r as [|e r].
  { apply Permutation_nil in Hp. discriminate. }
  assert (Hd : done_of es [e]) by (rewrite E; eexists; reflexivity).
  exists [e]. split; [exact A|]. split; [exact Hd|].
  apply (interrupted n (Some d0) d es [e] 0%nat); try assumption; [discriminate|].
  intros [H|[]]. subst e. assert (Hin : In (OpenStore 0) (RemoveHeader :: map RemoveStore (seq 0 n))).
  { apply (Permutation_in _ Hp). left; reflexivity. }
  destruct Hin as [H|H]; [discriminate|]. apply in_map_iff in H. destruct H as [k [H _]]. discriminate.
Qed.
