(** Consequences of the history theorems used by the property files. *)
From Coq Require Import Sorted Permutation.
From Verif Require Import Base SeqModel SeqFacts IndexModel IndexFacts OctreeSpec OctreeModel OctreeFacts
  MapModel MapFacts MapHist BackendModel BackendFacts SysModel SysSpec SysFacts InsertModel InsertSpec InsertFacts.
Open Scope Z_scope.

(** ** Grouping loses and duplicates nothing *)
Section Perm.
Context {Pt : Type}.

Lemma points_in_cons (b b' : idx) (p : Pt) (l : list (idx * Pt)) :
  points_in b ((b', p) :: l) = if idx_eqb b' b then p :: points_in b l else points_in b l.
Proof. unfold points_in. cbn [filter fst]. destruct (idx_eqb b' b); reflexivity. Qed.

Lemma concat_points (ks : list idx) (l : list (idx * Pt)) :
  NoDup ks -> (forall b p, In (b, p) l -> In b ks) ->
  Permutation (concat (map (fun b => points_in b l) ks)) (map snd l).
Proof.
  intros Hn. induction l as [|[b p] l IH]; intros Hin; cbn [map snd].
  - induction ks as [|k ks IH]; cbn; [constructor|]. apply IH; [inversion Hn; assumption|]. intros ? ? [].
  - assert (Hl : Permutation (concat (map (fun b => points_in b l) ks)) (map snd l))
      by (apply IH; intros b' p' H'; apply (Hin b' p'); right; exact H').
    assert (Hb : In b ks) by (apply (Hin b p); left; reflexivity).
    apply in_split in Hb. destruct Hb as [k1 [k2 ->]].
    rewrite map_app, concat_app in *. cbn [map concat] in *.
    rewrite points_in_cons, idx_eqb_refl.
    assert (Hother : forall k, (forall x, In x k -> x <> b) ->
      map (fun b0 => points_in b0 ((b, p) :: l)) k = map (fun b0 => points_in b0 l) k).
    { intros k Hk. apply map_ext_in. intros x Hx. rewrite points_in_cons.
      destruct (idx_eqb_spec b x) as [->|]; [exfalso; apply (Hk x Hx); reflexivity|reflexivity]. }
    apply NoDup_remove_2 in Hn. rewrite in_app_iff in Hn.
    rewrite !Hother.
    + cbn [app]. rewrite <- Hl. symmetry. apply Permutation_middle.
    + intros x Hx ->. apply Hn; right; exact Hx.
    + intros x Hx ->. apply Hn; left; exact Hx.
Qed.

Lemma points_in_filter (q : idx -> bool) (b : idx) (l : list (idx * Pt)) :
  q b = true -> points_in b (filter (fun e => q (fst e)) l) = points_in b l.
Proof.
  intros Hq. induction l as [|[b' p] l IH]; [reflexivity|].
  cbn [filter fst]. destruct (q b') eqn:E.
  - rewrite !points_in_cons, IH. reflexivity.
  - rewrite points_in_cons, IH. destruct (idx_eqb_spec b' b) as [->|]; [congruence|reflexivity].
Qed.

Lemma cell_groups_points (l : list (idx * Pt)) (i : nat) (j : idx) :
  Permutation (concat (map snd (cell_groups l i j)))
              (map snd (filter (fun e => idx_eqb (generate_index (fst e) i) j) l)).
Proof.
  set (q := fun b => idx_eqb (generate_index b i) j).
  change (filter (fun e => idx_eqb (generate_index (fst e) i) j) l) with (filter (fun e => q (fst e)) l).
  assert (Hg : map snd (cell_groups l i j) =
               map (fun b => points_in b (filter (fun e => q (fst e)) l)) (filter q (keys l))).
  { unfold cell_groups, groups. induction (keys l) as [|k ks IH]; [reflexivity|].
    cbn [map filter fst]. fold (q k). destruct (q k) eqn:E; [|exact IH].
    cbn [map snd]. rewrite IH, (points_in_filter q k l E). reflexivity. }
  rewrite Hg. apply concat_points.
  - apply NoDup_filter. apply sorted_nodup, keys_sorted.
  - intros b p Hin. apply filter_In in Hin. destruct Hin as [Hin Hq]. apply filter_In.
    split; [apply keys_in; eauto|exact Hq].
Qed.

Lemma Permutation_filter {A : Type} (f : A -> bool) (l l' : list A) :
  Permutation l l' -> Permutation (filter f l) (filter f l').
Proof.
  induction 1 as [|x l l' H IH|x y l|l1 l2 l3 H1 IH1 H2 IH2]; cbn [filter].
  - constructor.
  - destruct (f x); [constructor; exact IH|exact IH].
  - destruct (f y), (f x); try constructor; apply Permutation_refl.
  - eapply perm_trans; eassumption.
Qed.

Lemma fold_comm_perm {A B : Type} (f : A -> B -> A) :
  (forall a x y, f (f a x) y = f (f a y) x) ->
  forall l l', Permutation l l' -> forall a, fold_left f l a = fold_left f l' a.
Proof.
  intros Hc l l' H. induction H as [|x l l' H IH|x y l|l1 l2 l3 H1 IH1 H2 IH2]; intros a; cbn [fold_left].
  - reflexivity.
  - apply IH.
  - rewrite Hc. reflexivity.
  - rewrite IH1. apply IH2.
Qed.

End Perm.

Section Props.
Context {Pose X W Pt S P : Type}.
Variable geo : geometry Pose X W Pt.
Variable sta : statistics Pt S.
Variable c : config P.
Hypothesis Hc : config_ok c.
Variable upd_d : P -> S -> P.
Notation gop := (grid_op (Pose:=Pose) (X:=X)).
Notation stat ps := (fold_left (s_add sta) ps (s_empty sta)).
Notation run := (grid_run geo sta c upd_d).

Lemma history_groups_points (ops : list gop) (i : nat) (j : idx) :
  Permutation (concat (history_groups geo c ops i j))
    (map snd (filter (fun e => idx_eqb (generate_index (fst e) i) j) (history_points geo c ops))).
Proof.
  induction ops as [|[o xs|b|] ops IH]; cbn [history_groups history_points]; [constructor| |exact IH|exact IH].
  rewrite concat_app, filter_app, map_app. apply Permutation_app; [apply cell_groups_points|exact IH].
Qed.

Lemma content_stored (m : cmap c) (i : nat) (j : idx) :
  cInv c m -> cell_exists c i j ->
  exists o, cstored c m i j = Ok o /\ ccontent c m i j = match o with Some d => d | None => defaultc c end /\
            o = cdget c m i j.
Proof.
  intros HI Hij. exists (cdget c m i j). split; [apply cstored_spec; assumption|]. split; reflexivity.
Qed.

Lemma cell_lt (i : nat) (j : idx) : cell_exists c i j -> (i < bin_count (dimc c))%nat.
Proof. intros [H _]. rewrite two_pow_spec. exact H. Qed.

Lemma grid_cells (ops : list gop) :
  grid_fits geo c (usable c) ops ->
  exists m, run ops (new_map c) = Ok m /\
    forall i j, cell_exists c i j ->
      exists o, cstored c m i j = Ok o /\
        match o with
        | Some d => d = fold_left (fun d ps => upd_d d (stat ps)) (history_groups geo c ops i j) (defaultc c)
        | None => history_groups geo c ops i j = []
        end /\
        (only_inserts ops -> history_groups geo c ops i j = [] -> o = None).
Proof.
  intros Hf. destruct (grid_run_spec geo sta c Hc upd_d ops Hf) as [m [E [HI [HR [HC [Hp [Ht Ho]]]]]]].
  exists m. split; [exact E|]. intros i j Hij.
  destruct (content_stored m i j HI Hij) as [o [Eo [Hcon Hdo]]]. exists o. split; [exact Eo|]. split.
  - specialize (HC i j Hij). rewrite Hcon in HC. destruct o as [d|]; [exact HC|].
    apply (history_groups_nil geo c). intros bi p Hin He.
    assert (Hne : cdget c m i j <> None).
    { apply (present_iff c m i j HI (cell_ddom c Hc i j Hij) (cell_lt i j Hij)). exists bi.
      split; [|split; [eapply Hp; exact Hin|exact He]].
      apply (usable_bdom c Hc (expand_calls ops)).
      - rewrite <- (actions_expansions geo sta c upd_d). apply expansions_nonneg.
      - eapply (history_points_usable geo c Hc); eassumption. }
    congruence.
  - intros Honly Hnil. destruct o as [d|]; [|reflexivity]. exfalso.
    assert (Hne : cdget c m i j <> None) by congruence.
    apply (present_iff c m i j HI (cell_ddom c Hc i j Hij) (cell_lt i j Hij)) in Hne.
    destruct Hne as [bi [Hbd [Hb He]]].
    assert (Hno : forall op, In op ops -> match op with GInsert _ _ => True | _ => False end)
      by (apply Forall_forall; exact Honly).
    destruct (Ho bi Hbd) as [[p Hin]|Hin].
    + intros H. exact (Hno _ H).
    + exact Hb.
    + rewrite (history_groups_nil geo c) in Hnil. exact (Hnil bi p Hin He).
    + exact (Hno _ Hin).
Qed.

(** Bundles after a history of insertions. *)
Lemma grid_bundles (ops : list gop) :
  grid_fits geo c (usable c) ops -> only_inserts ops ->
  exists m, run ops (new_map c) = Ok m /\
    forall bi, usable c 0 bi -> exists ob, cbundle c m bi = Ok ob /\
      (ob <> None <-> exists p, In (bi, p) (history_points geo c ops)).
Proof.
  intros Hf Honly. destruct (grid_run_spec geo sta c Hc upd_d ops Hf) as [m [E [HI [HR [HC [Hp [Ht Ho]]]]]]].
  exists m. split; [exact E|]. intros bi Hu. exists (cbget c m bi). split; [apply cbundle_spec; assumption|].
  assert (Hno : forall op, In op ops -> match op with GInsert _ _ => True | _ => False end)
      by (apply Forall_forall; exact Honly).
  split.
  - intros H. destruct (Ho bi) as [H1|H1]; [apply (usable_bdom c Hc 0); [lia|exact Hu]| |exact H|exact H1|].
    + intros Hin; exact (Hno _ Hin).
    + exfalso; exact (Hno _ H1).
  - intros [p Hin]. eapply Hp; exact Hin.
Qed.

(** Order and batching. *)
Section Commutative.
Variable addP : P -> Pt -> P.
Hypothesis add_batch : forall d ps, upd_d d (stat ps) = fold_left addP ps d.
Hypothesis add_comm : forall d p q, addP (addP d p) q = addP (addP d q) p.

Lemma groups_flat (gs : list (list Pt)) : forall d,
  fold_left (fun d ps => upd_d d (stat ps)) gs d = fold_left addP (concat gs) d.
Proof.
  induction gs as [|g gs IH]; intros d; cbn [fold_left concat]; [reflexivity|].
  rewrite IH, fold_left_app, add_batch. reflexivity.
Qed.

Lemma grid_order (ops1 ops2 : list gop) :
  grid_fits geo c (usable c) ops1 -> grid_fits geo c (usable c) ops2 ->
  only_inserts ops1 -> only_inserts ops2 ->
  Permutation (history_points geo c ops1) (history_points geo c ops2) ->
  exists m1 m2, run ops1 (new_map c) = Ok m1 /\ run ops2 (new_map c) = Ok m2 /\
    (forall i j, cell_exists c i j -> cstored c m1 i j = cstored c m2 i j) /\
    (forall bi, usable c 0 bi -> exists o1 o2, cbundle c m1 bi = Ok o1 /\ cbundle c m2 bi = Ok o2 /\
       (o1 <> None <-> o2 <> None)).
Proof.
  intros Hf1 Hf2 Ho1 Ho2 HP.
  destruct (grid_cells ops1 Hf1) as [m1 [E1 H1]]. destruct (grid_cells ops2 Hf2) as [m2 [E2 H2]].
  exists m1, m2. split; [exact E1|]. split; [exact E2|]. split.
  - intros i j Hij. destruct (H1 i j Hij) as [o1 [S1 [V1 N1]]]. destruct (H2 i j Hij) as [o2 [S2 [V2 N2]]].
    rewrite S1, S2. f_equal.
    assert (Hcat : Permutation (concat (history_groups geo c ops1 i j)) (concat (history_groups geo c ops2 i j))).
    { rewrite !history_groups_points. apply Permutation_map, Permutation_filter. exact HP. }
    assert (Hnil : history_groups geo c ops1 i j = [] <-> history_groups geo c ops2 i j = []).
    { rewrite !(history_groups_nil geo c). split; intros H bi p Hin; apply (H bi p).
      - apply (Permutation_in _ (Permutation_sym HP)); exact Hin.
      - apply (Permutation_in _ HP); exact Hin. }
    destruct o1 as [d1|], o2 as [d2|]; [|exfalso|exfalso|reflexivity].
    + f_equal. rewrite V1, V2, !groups_flat. apply fold_comm_perm; [exact add_comm|exact Hcat].
    + apply Hnil in V2. specialize (N1 Ho1 V2). discriminate.
    + apply Hnil in V1. specialize (N2 Ho2 V1). discriminate.
  - destruct (grid_bundles ops1 Hf1 Ho1) as [m1' [E1' B1]]. destruct (grid_bundles ops2 Hf2 Ho2) as [m2' [E2' B2]].
    rewrite E1 in E1'; injection E1' as <-. rewrite E2 in E2'; injection E2' as <-.
    intros bi Hu. destruct (B1 bi Hu) as [o1 [S1 P1]]. destruct (B2 bi Hu) as [o2 [S2 P2]].
    exists o1, o2. split; [exact S1|]. split; [exact S2|]. rewrite P1, P2.
    split; intros [p Hp]; exists p; [apply (Permutation_in _ HP); exact Hp|].
    apply (Permutation_in _ (Permutation_sym HP)); exact Hp.
Qed.
End Commutative.

(** Counts. *)
Section Count.
Variable countP : P -> Z.
Variable countS : S -> Z.
Hypothesis c_default : countP (defaultc c) = 0.
Hypothesis c_upd : forall d s, countP (upd_d d s) = countP d + countS s.
Hypothesis c_empty : countS (s_empty sta) = 0.
Hypothesis c_add : forall s p, countS (s_add sta s p) = countS s + 1.

Lemma count_stat (ps : list Pt) : countS (stat ps) = Z.of_nat (length ps).
Proof.
  cut (forall s, countS (fold_left (s_add sta) ps s) = countS s + Z.of_nat (length ps)).
  { intros H. rewrite H, c_empty. lia. }
  induction ps as [|p ps IH]; intros s; cbn [fold_left length]; [lia|]. rewrite IH, c_add. lia.
Qed.

Lemma count_groups (gs : list (list Pt)) : forall d,
  countP (fold_left (fun d ps => upd_d d (stat ps)) gs d) = countP d + Z.of_nat (length (concat gs)).
Proof.
  induction gs as [|g gs IH]; intros d; cbn [fold_left concat]; [cbn; lia|].
  rewrite IH, c_upd, count_stat, app_length. lia.
Qed.

Definition cell_count (ops : list gop) (i : nat) (j : idx) : Z :=
  Z.of_nat (length (filter (fun e => idx_eqb (generate_index (fst e) i) j) (history_points geo c ops))).

Lemma count_cell (ops : list gop) (i : nat) (j : idx) :
  countP (fold_left (fun d ps => upd_d d (stat ps)) (history_groups geo c ops i j) (defaultc c)) =
  cell_count ops i j.
Proof.
  rewrite count_groups, c_default. unfold cell_count.
  rewrite (Permutation_length (history_groups_points ops i j)), map_length. lia.
Qed.

Lemma sum_cells {V : Type} (g : V -> idx) (l : list V) : forall (es : list idx),
  NoDup es -> (forall v, In v l -> In (g v) es) ->
  fold_right Z.add 0 (map (fun j => Z.of_nat (length (filter (fun v => idx_eqb (g v) j) l))) es) = Z.of_nat (length l).
Proof.
  induction l as [|v l IH]; intros es Hn Hin.
  - cbn [filter length]. clear Hn Hin. induction es as [|e es IHe]; cbn [map fold_right]; [reflexivity|]. exact IHe.
  - cbn [length]. rewrite Nat2Z.inj_succ, <- (IH es Hn) by (intros w Hw; apply Hin; right; exact Hw).
    assert (Hv : In (g v) es) by (apply Hin; left; reflexivity). clear IH Hin.
    induction es as [|e es IHe]; [destruct Hv|]. inversion Hn as [|? ? Hni Hn']; subst.
    cbn [map fold_right filter]. destruct (idx_eqb_spec (g v) e) as [He|Hne].
    + subst e. cbn [length]. rewrite Nat2Z.inj_succ.
      assert (Hrest : map (fun j => Z.of_nat (length (filter (fun v0 => idx_eqb (g v0) j) (v :: l)))) es =
                      map (fun j => Z.of_nat (length (filter (fun v0 => idx_eqb (g v0) j) l))) es).
      { apply map_ext_in. intros x Hx. cbn [filter].
        destruct (idx_eqb_spec (g v) x) as [<-|]; [|reflexivity]. exfalso; apply Hni. exact Hx. }
      cbn [filter] in Hrest. rewrite Hrest. lia.
    + destruct Hv as [Hv|Hv]; [congruence|]. specialize (IHe Hn' Hv). cbn [filter] in IHe. rewrite IHe. lia.
Qed.

(** Traversal of one family. *)
Lemma store_list (m : cmap c) (i : nat) :
  cInv c m -> (i < bin_count (dimc c))%nat ->
  exists es, (let* s := get_store (bdc c) (bbc c) m i in btrav (bdc c) s) = Ok es /\ NoDup (map fst es) /\
    forall j d, In (j, d) es <-> cddom c (cshape c (new_map c)) i j /\ cdget c m i j = Some d.
Proof.
  intros [[[Hwf HI] _] [Hsh _]] Hi. pose proof Hwf as [HL [HF HB]].
  destruct (nth_error (stores m) i) as [s|] eqn:Es.
  2: { apply nth_error_None in Es. lia. }
  assert (Hs : bwf (dist_laws (mergec c) (dimc c) (kindc c)) s).
  { rewrite Forall_forall in HF. apply HF. eapply nth_error_In; exact Es. }
  destruct (l_trav (dist_laws (mergec c) (dimc c) (kindc c)) s Hs) as [es [Et [Hn Hin]]].
  exists es. unfold get_store. rewrite Es. cbn [obind]. split; [exact Et|]. split; [exact Hn|].
  intros j d. rewrite Hin.
  assert (Hdom : cddom c (cshape c (new_map c)) i j <-> dom (dist_laws (mergec c) (dimc c) (kindc c)) (shape _ s) j).
  { rewrite <- Hsh. unfold cddom, ddom, cshape, mshape. cbn [fst].
    rewrite nth_error_map, Es. cbn [option_map]. reflexivity. }
  rewrite Hdom. unfold cdget, dget. rewrite Es. split; intros [A B]; (split; [exact A|]).
  - change (dist_backend (mergec c) (dimc c) (kindc c)) with (bdc c) in B. rewrite B. reflexivity.
  - destruct (l_get (dist_laws (mergec c) (dimc c) (kindc c)) s j Hs A) as [o Eo].
    change (dist_backend (mergec c) (dimc c) (kindc c)) with (bdc c) in *.
    rewrite Eo in *. congruence.
Qed.

Lemma dom_cell (i : nat) (j : idx) :
  (i < bin_count (dimc c))%nat -> cddom c (cshape c (new_map c)) i j -> cell_exists c i j.
Proof.
  intros Hi. rewrite two_pow_spec in Hi. unfold cddom, ddom, cshape, mshape, new_map, bdc, bbc, cell_exists.
  destruct Hc as [Hs Hm _ _ _].
  destruct (kindc c); cbn [fst stores static_new dynamic_new].
  - specialize (Hs eq_refl). specialize (Hm eq_refl). rewrite map_map, nth_error_map.
    rewrite (nth_error_nth' (seq 0 (bin_count (dimc c))) 0%nat) by (rewrite seq_length, two_pow_spec; exact Hi).
    rewrite seq_nth by (rewrite two_pow_spec; exact Hi).
    cbn [option_map Nat.add dist_laws array_laws shape dom static_store a_size a_offset fst snd].
    intros H. apply arr_inside_iff in H. unfold static_offset in H. rewrite map_length in H.
    destruct H as [H1 [H2 H3]]. split; [exact Hi|]. split; [congruence|].
    intros d Hd. specialize (H3 d ltac:(lia)). rewrite (nth_map_lt _ (minc c) d 0) in H3 by lia.
    rewrite shiftr1_div in H3.
    destruct (i =? 0)%nat; [lia|]. rewrite (nth_map_lt _ (sizec c) d 0) in H3 by lia. lia.
  - rewrite map_map, nth_error_map.
    rewrite (nth_error_nth' (seq 0 (bin_count (dimc c))) 0%nat) by (rewrite seq_length, two_pow_spec; exact Hi).
    cbn [option_map dist_laws octree_laws shape dom]. intros [A B]. auto.
Qed.

Lemma grid_counts (ops : list gop) :
  grid_fits geo c (usable c) ops ->
  exists m, run ops (new_map c) = Ok m /\
    (forall i, (i < 2 ^ dimc c)%nat ->
       exists es, (let* s := get_store (bdc c) (bbc c) m i in btrav (bdc c) s) = Ok es /\ NoDup (map fst es) /\
         fold_right Z.add 0 (map (fun e => countP (snd e)) es) = Z.of_nat (length (history_points geo c ops))) /\
    (forall bi p, In (bi, p) (history_points geo c ops) ->
       exists b, cbundle c m bi = Ok (Some b) /\
         forall i, (i < 2 ^ dimc c)%nat -> exists d,
           slot_value (bdc c) (bbc c) m i (nth i (slots b) None) = Ok (Some d) /\
           Z.of_nat (length (points_in bi (history_points geo c ops))) <= countP d).
Proof.
  intros Hf. destruct (grid_run_spec geo sta c Hc upd_d ops Hf) as [m [E [HI [HR [HC [Hp [Ht Ho]]]]]]].
  exists m. split; [exact E|].
  assert (H0 : 0 <= expand_calls ops)
    by (rewrite <- (actions_expansions geo sta c upd_d); apply expansions_nonneg).
  assert (Hval : forall i j d, (i < 2 ^ dimc c)%nat -> cddom c (cshape c (new_map c)) i j ->
             cdget c m i j = Some d -> countP d = cell_count ops i j).
  { intros i j d Hi Hij Hd. assert (Hcell : cell_exists c i j) by (apply dom_cell; [rewrite two_pow_spec; exact Hi|exact Hij]).
    specialize (HC i j Hcell). unfold ccontent, content in HC. fold (cdget c m i j) in HC. rewrite Hd in HC.
    rewrite HC. apply count_cell. }
  split.
  - intros i Hi. assert (Hi' : (i < bin_count (dimc c))%nat) by (rewrite two_pow_spec; exact Hi).
    destruct (store_list m i HI Hi') as [es [Ees [Hn Hin]]]. exists es. split; [exact Ees|]. split; [exact Hn|].
    rewrite <- (sum_cells (fun e => generate_index (fst e) i) (history_points geo c ops) (map fst es) Hn).
    + rewrite map_map. f_equal. apply map_ext_in. intros [j d] He. cbn [fst snd].
      apply Hin in He. destruct He as [A B]. exact (Hval i j d Hi A B).
    + intros [bi p] Hbp. cbn [fst].
      assert (Hu : usable c (expand_calls ops) bi) by (eapply (history_points_usable geo c Hc); eassumption).
      assert (Hd : cddom c (cshape c (new_map c)) i (generate_index bi i))
        by (apply (usable_okidx c Hc _ _ H0 Hu); exact Hi').
      assert (Hne : cdget c m i (generate_index bi i) <> None).
      { apply (present_iff c m i _ HI Hd Hi'). exists bi. split; [apply (usable_bdom c Hc _ _ H0 Hu)|].
        split; [eapply Hp; exact Hbp|reflexivity]. }
      destruct (cdget c m i (generate_index bi i)) as [d|] eqn:Ed; [|contradiction].
      apply in_map_iff. exists (generate_index bi i, d). split; [reflexivity|]. apply Hin. auto.
  - intros bi p Hbp.
    assert (Hu : usable c (expand_calls ops) bi) by (eapply (history_points_usable geo c Hc); eassumption).
    assert (Hu0 : usable c 0 bi) by (eapply usable_le; [|exact Hu]; lia).
    specialize (Hp bi p Hbp). destruct (cbget c m bi) as [b|] eqn:Eb; [|contradiction].
    exists b. split; [rewrite (cbundle_spec c Hc m bi HI Hu0), Eb; reflexivity|].
    intros i Hi. assert (Hi' : (i < bin_count (dimc c))%nat) by (rewrite two_pow_spec; exact Hi).
    pose proof HI as [[[Hwf HIb] _] [Hsh _]].
    assert (Hbd : cbdom c (cshape c m) bi) by (rewrite Hsh; apply (usable_bdom c Hc 0); [lia|exact Hu0]).
    destruct (HIb bi b Hbd Eb) as [Hok [Hsl Hex]]. destruct (Hex i Hi') as [d Hd].
    assert (Hnth : nth i (slots b) None = Some (generate_index bi i)).
    { rewrite Hsl. unfold full_slots.
      erewrite (nth_indep _ None) by (rewrite map_length, seq_length; exact Hi').
      rewrite (map_nth (fun i => Some (generate_index bi i)) _ 0%nat), seq_nth by exact Hi'. reflexivity. }
    assert (Hdd : cddom c (cshape c m) i (generate_index bi i)) by (apply Hok; exact Hi').
    destruct (store_at _ _ _ _ _ _ _ m i (generate_index bi i) Hwf Hdd) as [s [Hs [_ [_ Hg]]]].
    exists d. rewrite Hnth. unfold slot_value, get_store. rewrite Hs. cbn [obind]. rewrite Hg. cbn [obind].
    rewrite Hd. split; [reflexivity|].
    rewrite Hsh in Hdd. rewrite (Hval i _ d Hi Hdd Hd). unfold cell_count, points_in. rewrite map_length.
    apply Nat2Z.inj_le. clear. induction (history_points geo c ops) as [|[b' p'] l IH]; [cbn; lia|].
    cbn [filter fst]. destruct (idx_eqb_spec b' bi) as [->|].
    + rewrite idx_eqb_refl. cbn [length]. lia.
    + destruct (idx_eqb _ _); cbn [length]; lia.
Qed.
End Count.

End Props.
