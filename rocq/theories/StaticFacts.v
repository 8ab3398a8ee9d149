(** Proofs about static maps and the static loader. *)
From Verif Require Import Base SeqModel SeqFacts IndexModel IndexFacts OctreeSpec MapModel MapFacts
  BackendModel BackendFacts MapHist SysModel SysSpec SysFacts LoaderModel MapPropFacts.
Open Scope Z_scope.

Lemma two_pow_bins (d : nat) : bin_count d = (2 ^ d)%nat.
Proof. apply two_pow_spec. Qed.

Section Static.
Context {P : Type}.
Variable c : config P.
Hypothesis Hc : config_ok c.
Hypothesis Hk : kindc c = Static.

Lemma static_valid_usable (bi : idx) : length bi = dimc c ->
  (cvalid c (new_map c) bi = true <-> usable c 0 bi).
Proof. intros HL. rewrite (new_valid c Hc bi HL). tauto. Qed.

Lemma static_touch (l : list (map_action (P:=P))) (bi : idx) :
  fits c l -> length bi = dimc c ->
  exists m m', cact_all c l (new_map c) = Ok m /\ cact c m (Touch bi) = Ok m' /\
    (cvalid c m bi = true -> exists b, cbundle c m' bi = Ok (Some b)) /\
    (cvalid c m bi = false -> m' = m /\ cbundle c m bi = Ok None).
Proof.
  intros Hf HL.
  destruct (hist_spec c Hc l (expansions l) (new_map c) (new_inv c Hc) ltac:(lia)) as [m [E [HI [HR _]]]].
  { intros b _ H. rewrite new_empty_b in H. contradiction. }
  { exact Hf. }
  replace (expansions l - expansions l) with 0 in HR by lia.
  destruct (cact_spec c Hc 0 m (Touch bi) HI ltac:(cbn; lia) HR) as [m' [E' [HI' [_ [_ [_ [Hn _]]]]]]].
  { cbn. split; [exact HL|]. rewrite Hk. discriminate. }
  exists m, m'. split; [exact E|]. split; [exact E'|].
  pose proof HI as [_ [_ Hv]]. rewrite Hv. split.
  - intros V. assert (Hu : usable c 0 bi) by (apply static_valid_usable; assumption).
    assert (Hbd : cbdom c (cshape c (new_map c)) bi) by (apply (usable_bdom c Hc 0); [lia|exact Hu]).
    specialize (Hn bi Hbd ltac:(cbn; auto)).
    rewrite (cbundle_spec c Hc m' bi HI' Hu). destruct (cbget c m' bi) as [b|]; [eauto|contradiction].
  - intros V. assert (V' : cvalid c m bi = false) by (rewrite Hv; exact V).
    unfold cvalid in V'. split.
    + unfold cact, act, getDistributionBundle in E'. rewrite V' in E'. cbn in E'. congruence.
    + unfold cbundle, get_bundle. rewrite V'. reflexivity.
Qed.

End Static.

(** The arrays of a new static map. *)
Lemma static_accepted_inside {P : Type} (mergeP : P -> P -> P) (dim : nat) (size : list Z) (min bi : idx) :
  length size = dim -> length min = dim -> length bi = dim ->
  let m := static_new mergeP dim size min in
  valid _ _ dim Static m bi = true ->
  bget (bundle_backend dim Static) (bundles m) bi <> UB /\
  forall i, (i < 2 ^ dim)%nat ->
    exists s, nth_error (stores m) i = Some s /\
      bget (dist_backend mergeP dim Static) s (generate_index bi i) <> UB.
Proof.
  intros Hs Hm Hb m V.
  assert (H : forall d, (d < dim)%nat -> nth d min 0 <= nth d bi 0 < nth d min 0 + 2 * nth d size 0 - 1).
  { intros d Hd. unfold valid in V. rewrite forallb_forall in V.
    specialize (V d ltac:(apply in_seq; lia)). unfold m in V. cbn [static_new min_bi max_bi] in V.
    unfold static_max in V. rewrite zip_with_nth in V by lia. lia. }
  split.
  - cbn. assert (A : arr_inside (map (fun n => n * 2) size) min bi = true).
    { apply arr_inside_iff. rewrite map_length. split; [congruence|]. split; [congruence|].
      intros d Hd. specialize (H d ltac:(lia)). rewrite (nth_map_lt _ size d 0) by lia. lia. }
    rewrite A. discriminate.
  - intros i Hi. unfold m. cbn [static_new stores].
    exists (static_store size min i). split.
    + rewrite nth_error_map, (nth_error_nth' (seq 0 (bin_count dim)) 0%nat)
        by (rewrite seq_length, two_pow_bins; exact Hi).
      rewrite seq_nth by (rewrite two_pow_bins; exact Hi). reflexivity.
    + cbn [dist_backend array_backend bget static_store a_size a_offset a_cells].
      rewrite (static_inside dim size min bi i Hs Hm Hb H). discriminate.
Qed.

(** ** Loader *)

(** Cells of accepted bundles fit the loader's arrays, except family 1 with an odd minimum on axis 0. *)
Lemma loader_inside {P : Type} (dim : nat) (size : list Z) (min bi : idx) (i : nat) :
  length size = dim -> length min = dim -> length bi = dim -> (i < 2 ^ dim)%nat ->
  (forall d, (d < dim)%nat -> nth d min 0 <= nth d bi 0 < nth d min 0 + 2 * nth d size 0 - 1) ->
  i <> 1%nat \/ Z.even (nth 0 min 0) = true ->
  let s := @loader_store P size min i in
  arr_inside (a_size s) (a_offset s) (generate_index bi i) = true.
Proof.
  intros Hs Hm Hb Hi H Hodd. cbn [loader_store a_size a_offset].
  apply arr_inside_iff. rewrite generate_index_length, map_length.
  split; [destruct (1 <? i)%nat; rewrite ?map_length; congruence|]. split; [congruence|].
  intros d Hd. specialize (H d ltac:(lia)).
  rewrite (nth_map_lt _ min d 0) by lia. rewrite generate_index_nth by exact Hd.
  destruct (Nat.ltb_spec 1 i) as [H1|H1].
  - rewrite (nth_map_lt _ size d 0) by lia. destruct (Nat.testbit i d); Z.div_mod_to_equations; lia.
  - destruct i as [|[|i]]; [| |lia].
    + rewrite Nat.bits_0. Z.div_mod_to_equations; lia.
    + destruct Hodd as [Hne|He]; [congruence|].
      destruct d as [|d].
      * cbn [Nat.testbit Nat.odd Nat.even negb]. apply Z.even_spec in He. destruct He as [k He].
        rewrite He in *. Z.div_mod_to_equations; lia.
      * replace (Nat.testbit 1 (S d)) with false by (cbn; now rewrite Nat.bits_0).
        Z.div_mod_to_equations; lia.
Qed.

Lemma assoc_app {V : Type} (l l' : list (idx * V)) (i : idx) :
  assoc (l ++ l') i = match assoc l i with Some v => Some v | None => assoc l' i end.
Proof. induction l as [|[k w] l IH]; [reflexivity|]. cbn. destruct (idx_eqb k i); auto. Qed.
Lemma assoc_notin {V : Type} (l : list (idx * V)) (i : idx) : ~ In i (map fst l) -> assoc l i = None.
Proof.
  induction l as [|[k w] l IH]; intros H; [reflexivity|]. cbn in *.
  destruct (idx_eqb_spec k i) as [->|_]; [tauto|]. apply IH. tauto.
Qed.
Lemma assoc_in {V : Type} (l : list (idx * V)) (i : idx) (v : V) :
  NoDup (map fst l) -> In (i, v) l -> assoc l i = Some v.
Proof.
  induction l as [|[k w] l IH]; intros Hnd H; [contradiction|]. cbn in *.
  inversion Hnd as [|? ? Hn Hnd']; subst. destruct H as [H|H].
  - injection H as -> ->. destruct (idx_eqb_spec i i); congruence.
  - destruct (idx_eqb_spec k i) as [->|_]; [|auto].
    exfalso. apply Hn. apply in_map_iff. exists (i, v). auto.
Qed.
Lemma assoc_app_none {V : Type} (l : list (idx * V)) (i j : idx) (v : V) :
  assoc l i = None -> assoc_set l i v = l ++ [(i, v)].
Proof.
  induction l as [|[k w] l IH]; intros H; [reflexivity|]. cbn in *.
  destruct (idx_eqb k i); [discriminate|]. f_equal. apply IH; exact H.
Qed.

Lemma load_records_ok {P : Type} (mergeP : P -> P -> P) (l : list (idx * P)) : forall (s : arr P),
  (forall j v, In (j, v) l -> arr_inside (a_size s) (a_offset s) j = true) ->
  NoDup (map fst l) -> (forall j v, In (j, v) l -> assoc (a_cells s) j = None) ->
  load_records mergeP s l =
  Ok {| a_size := a_size s; a_offset := a_offset s; a_cells := a_cells s ++ l |}.
Proof.
  induction l as [|[j v] l IH]; intros s H Hnd Hfresh.
  { unfold load_records. cbn. rewrite app_nil_r. destruct s; reflexivity. }
  change (load_records mergeP s ((j, v) :: l)) with
    (let* s' := bins (array_backend mergeP) s j v in load_records mergeP s' l).
  cbn [array_backend bins]. rewrite (H j v) by (left; reflexivity). cbn [obind].
  rewrite (Hfresh j v) by (left; reflexivity).
  unfold arr_set. rewrite assoc_app_none by (exact j || apply (Hfresh j v); left; reflexivity).
  inversion Hnd as [|? ? Hnin Hnd']; subst.
  rewrite IH; cbn [a_size a_offset a_cells].
  - rewrite <- app_assoc. reflexivity.
  - intros j' v' Hin. apply (H j' v'). right; exact Hin.
  - exact Hnd'.
  - intros j' v' Hin. rewrite assoc_app, (Hfresh j' v') by (right; exact Hin). cbn.
    destruct (idx_eqb_spec j j') as [->|_]; [|reflexivity].
    exfalso. apply Hnin. apply in_map_iff. exists (j', v'). auto.
Qed.

Lemma static_load_history {P : Type} (c : config P) (l : list (map_action (P:=P))) (i : nat) :
  config_ok c -> kindc c = Static -> fits c l -> (i < 2 ^ dimc c)%nat ->
  i <> 1%nat \/ Z.even (nth 0 (minc c) 0) = true ->
  exists m es s, cact_all c l (new_map c) = Ok m /\ cdists c m i = Ok es /\
    load_records (mergec c) (loader_store (sizec c) (minc c) i) es = Ok s /\
    (forall j v, In (j, v) es -> bget (array_backend (mergec c)) s j = Ok (Some v)) /\
    (forall j, arr_inside (a_size s) (a_offset s) j = true -> ~ In j (map fst es) ->
       bget (array_backend (mergec c)) s j = Ok None).
Proof.
  intros Hc Hk Hf Hi Hodd.
  destruct (run_spec c Hc l Hf) as [m [E [HI [HR _]]]].
  assert (Hib : (i < bin_count (dimc c))%nat) by (rewrite two_pow_bins; exact Hi).
  destruct (store_list c m i HI Hib) as [es [Ees [Hnd Hes]]].
  assert (Hin : forall j v, In (j, v) es -> 
    arr_inside (a_size (loader_store (P:=P) (sizec c) (minc c) i)) (a_offset (loader_store (P:=P) (sizec c) (minc c) i)) j = true).
  { intros j v Hin. apply Hes in Hin. destruct Hin as [Hd Hg].
    destruct (proj1 (present_iff c m i j HI Hd Hib)) as [bi [Hbd [Hb Hgen]]]; [congruence|].
    specialize (HR bi Hbd Hb). unfold usable in HR. rewrite Hk in HR. destruct HR as [HL Hr].
    subst j. apply (loader_inside (dimc c)); auto using (ok_size c Hc Hk), (ok_min c Hc Hk). }
  exists m, es. eexists. split; [exact E|]. split; [exact Ees|]. split.
  { apply load_records_ok; [exact Hin|exact Hnd|reflexivity]. }
  cbn [array_backend bget a_size a_offset a_cells]. cbn [loader_store a_cells app]. split.
  - intros j v Hj. rewrite (Hin j v Hj). f_equal. now apply assoc_in.
  - intros j Hj Hn. rewrite Hj. f_equal. now apply assoc_notin.
Qed.

Lemma static_accepts {P : Type} (c : config P) (bi : idx) :
  config_ok c -> kindc c = Static -> length bi = dimc c ->
  let m := new_map c in
  (cvalid c m bi = true <->
   forall d, (d < dimc c)%nat ->
     nth d (minc c) 0 <= nth d bi 0 < nth d (minc c) 0 + 2 * nth d (sizec c) 0 - 1).
Proof.
  intros Hc Hk HL m. unfold m. rewrite (static_valid_usable c Hc Hk bi HL). unfold usable. rewrite Hk. tauto.
Qed.
