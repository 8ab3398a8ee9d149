(** Means lie in their cells and in the extent of the map. *)
From Coq Require Import QArith Qround Permutation Lqa.
From Verif Require Import Base SeqModel SeqFacts IndexModel IndexSpec IndexFacts OctreeSpec MapModel MapFacts MapHist BackendModel BackendFacts SysModel SysSpec
  ExtentModel ExtentFacts SampleModel SampleSpec InsertModel InsertSpec InsertFacts MapPropFacts OccFacts
  SysFacts MapLifeFacts GridFacts LocalSpec LocalFacts HeightModel HeightSpec.
Open Scope Z_scope.

(** ** Averages *)
Lemma qsum_perm (l l' : list Q) : Permutation l l' -> (qsum l == qsum l')%Q.
Proof. induction 1; cbn [qsum fold_right] in *; [reflexivity|unfold qsum in IHPermutation; lra|lra|lra]. Qed.
Lemma average_perm (l l' : list (list Q)) (a : nat) : Permutation l l' -> (average l a == average l' a)%Q.
Proof.
  intros H. unfold average. rewrite (Permutation_length H).
  rewrite (qsum_perm _ _ (Permutation_map (fun p => nth a p 0%Q) H)). reflexivity.
Qed.
Lemma average_box (pts : list (list Q)) (a : nat) (lo hi : Q) :
  pts <> [] -> (forall p, In p pts -> lo <= nth a p 0 /\ nth a p 0 < hi)%Q -> (lo <= average pts a /\ average pts a < hi)%Q.
Proof.
  intros Hne H.
  assert (G : forall l, (forall p, In p l -> lo <= nth a p 0 /\ nth a p 0 < hi)%Q ->
    (lo * inject_Z (Z.of_nat (length l)) <= qsum (map (fun p => nth a p 0) l))%Q /\
    (l <> [] -> qsum (map (fun p => nth a p 0) l) < hi * inject_Z (Z.of_nat (length l)))%Q /\
    (qsum (map (fun p => nth a p 0) l) <= hi * inject_Z (Z.of_nat (length l)))%Q).
  { induction l as [|p l IH]; intros Hl.
    - cbn [length map]. change (inject_Z (Z.of_nat 0)) with 0%Q. cbn [qsum fold_right]. split; [lra|]. split; [congruence|lra].
    - destruct IH as [A [_ B]]; [intros q Hq; apply Hl; right; exact Hq|].
      destruct (Hl p (or_introl eq_refl)) as [C D].
      cbn [length map qsum fold_right]. unfold qsum in *. rewrite Nat2Z.inj_succ, <- Z.add_1_r, inject_Z_plus.
      change (inject_Z 1) with 1%Q.
      split; [|split; [intros _|]]; lra. }
  destruct (G pts H) as [A [B _]]. specialize (B Hne).
  assert (N : (0 < inject_Z (Z.of_nat (length pts)))%Q).
  { change 0%Q with (inject_Z 0). rewrite <- Zlt_Qlt. destruct pts; [congruence|cbn [length]; lia]. }
  unfold average. split; [apply Qle_shift_div_l; assumption|apply Qlt_shift_div_r; assumption].
Qed.

Lemma cell_box (h : Q) (k a : nat) (p : list Q) : (0 < h)%Q -> (a < length p)%nat ->
  (cell_from h k a (cell_of h k p) <= nth a p 0 /\ nth a p 0 < cell_to h k a (cell_of h k p))%Q.
Proof.
  intros Hh Ha. unfold cell_to, cell_from, cell_of.
  rewrite (nth_indep _ 0 (cell_number h (displaced k 0) (nth 0 p 0%Q))) by (rewrite map_length, seq_length; exact Ha).
  rewrite (map_nth (fun d => cell_number h (displaced k d) (nth d p 0%Q))), seq_nth by exact Ha. cbn [Nat.add].
  unfold cell_number. set (s := displaced k a). set (x := nth a p 0%Q).
  pose proof (Qfloor_le ((x / h + inject_Z s) / 2)) as L. pose proof (Qlt_floor ((x / h + inject_Z s) / 2)) as U.
  set (n := Qfloor ((x / h + inject_Z s) / 2)) in *. rewrite inject_Z_plus in U.
  assert (E : (x == (x / h) * h)%Q) by (field; lra).
  assert (E2 : (inject_Z (2 * n - s) == 2 * inject_Z n - inject_Z s)%Q).
  { unfold Z.sub. rewrite inject_Z_plus, inject_Z_mult, inject_Z_opp. change (inject_Z 2) with 2%Q. ring. }
  set (y := (x / h)%Q) in *.
  assert (L' : (2 * inject_Z n <= y + inject_Z s)%Q).
  { assert (Z2 : ((y + inject_Z s) / 2 == (1 # 2) * (y + inject_Z s))%Q) by field. rewrite Z2 in L. lra. }
  assert (U' : (y + inject_Z s < 2 * inject_Z n + 2)%Q).
  { assert (Z2 : ((y + inject_Z s) / 2 == (1 # 2) * (y + inject_Z s))%Q) by field. rewrite Z2 in U.
    change (inject_Z 1) with 1%Q in U. lra. }
  rewrite E, E2. split.
  - apply Qmult_le_compat_r; lra.
  - setoid_replace ((2 * inject_Z n - inject_Z s) * h + 2 * h)%Q with ((2 * inject_Z n - inject_Z s + 2) * h)%Q by ring.
    apply Qmult_lt_r; [exact Hh|lra].
Qed.

Lemma at_points (h : Q) (k : nat) (j : idx) (pts : list (list Q)) :
  map snd (filter (fun e => idx_eqb (generate_index (fst e) k) j) (map (fun p => (floors h p, p)) pts)) = points_at h k j pts.
Proof.
  unfold points_at. induction pts as [|p pts IH]; [reflexivity|]. cbn [map filter fst]. rewrite cell_of_floors.
  destruct (idx_eqb (cell_of h k p) j); cbn [map snd]; [f_equal|]; exact IH.
Qed.

(** ** Maps *)
Section Core.
Context {P : Type}.
Variable c : config P.
Hypothesis Hc : config_ok c.
Variable h : Q.
Hypothesis Hh : (0 < h)%Q.
Hypothesis Hmin : aminc c = cw_min.
Hypothesis Hmax : amaxc c = cw_max.
Variable l : list (map_action (P:=P)).
Hypothesis Hfits : fits c l.
Variable m : cmap c.
Hypothesis Em : cact_all c l (new_map c) = Ok m.

Lemma getMin_nth (d : nat) : (d < length (min_bi m))%nat ->
  nth d (getMin c h m) 0%Q = (inject_Z (nth d (min_bi m) 0%Z) * h)%Q.
Proof.
  intros Hd. unfold getMin. rewrite (nth_indep _ 0%Q (inject_Z 0 * h)%Q) by (rewrite map_length; exact Hd).
  apply (map_nth (fun z => (inject_Z z * h)%Q)).
Qed.
Lemma getMax_nth (hi : list Q) (d : nat) : getMax c h m = Ok hi -> (d < length (max_bi m))%nat ->
  nth d hi 0%Q = (inject_Z (nth d (max_bi m) 0%Z + 1) * h)%Q.
Proof.
  unfold getMax. generalize (max_bi m). intros l0. revert hi d.
  induction l0 as [|z l0 IH]; intros hi d E Hd; [cbn in Hd; lia|]. cbn [omap] in E.
  unfold to_int at 1 in E. destruct ((INT_MIN <=? z + 1) && (z + 1 <=? INT_MAX))%bool; cbn [obind] in E; [|discriminate].
  destruct (omap _ l0) as [r| |] eqn:Er; cbn [obind] in E; try discriminate. injection E as <-.
  destruct d as [|d]; [reflexivity|]. cbn [nth]. apply IH; [reflexivity|cbn [length] in Hd; lia].
Qed.

Lemma bundle_box (p : list Q) : length p = dimc c -> usable c 0 (floors h p) -> cbget c m (floors h p) <> None ->
  forall a, (a < dimc c)%nat ->
    (a < length (min_bi m))%nat /\ (a < length (max_bi m))%nat /\
    nth a (min_bi m) 0 <= bundle_number h (nth a p 0%Q) <= nth a (max_bi m) 0.
Proof.
  intros HL Hu Hb a Ha. destruct (run_spec c Hc l Hfits) as [m' [E' [HI [HR _]]]]. rewrite Em in E'. injection E' as <-.
  destruct (kindc c) eqn:Hk.
  - destruct (static_range c Hk l m Em) as [-> ->]. pose proof Hc as [Hs Hm' _ _ _]. specialize (Hs Hk). specialize (Hm' Hk).
    destruct Hu as [_ Hu]. rewrite Hk in Hu. specialize (Hu a Ha). rewrite floors_nth in Hu by lia.
    unfold static_max. rewrite zip_with_length, zip_with_nth by lia. repeat split; lia.
  - destruct (range_history c Hc l Hmin Hmax Hk Hfits) as [m' [bs [E' [Ebs [HB _]]]]]. rewrite Em in E'. injection E' as <-.
    assert (Hin : In (floors h p) (map fst bs)).
    { apply (cbundles_in c m bs HI Ebs). split; [|exact Hb]. pose proof HI as [_ [Hsh _]]. rewrite Hsh.
      apply (usable_bdom c Hc 0); [lia|exact Hu]. }
    assert (Hne : bs <> []) by (intros ->; destruct Hin).
    destruct (HB Hne) as [L1 [L2 HD]]. destruct (HD a Ha) as [HA _]. specialize (HA _ Hin).
    rewrite floors_nth in HA by lia. repeat split; lia.
Qed.

Lemma extent_point (p : list Q) : length p = dimc c -> usable c 0 (floors h p) -> cbget c m (floors h p) <> None ->
  forall a, (a < dimc c)%nat ->
    (nth a (getMin c h m) 0 <= nth a p 0)%Q /\ forall hi, getMax c h m = Ok hi -> (nth a p 0 < nth a hi 0)%Q.
Proof.
  intros HL Hu Hb a Ha. destruct (bundle_box p HL Hu Hb a Ha) as [L1 [L2 [A B]]].
  destruct (proj1 (floor_cell h (nth a p 0%Q) _ Hh) eq_refl) as [L U].
  change (Qfloor (nth a p 0%Q * / h)) with (bundle_number h (nth a p 0%Q)) in *.
  rewrite getMin_nth by exact L1. split.
  - apply (range_floor h Hh). exact A.
  - intros hi E. rewrite (getMax_nth hi a E L2). rewrite inject_Z_plus. change (inject_Z 1) with 1%Q.
    eapply Qlt_le_trans; [exact U|]. apply Qmult_le_compat_r; [|lra]. rewrite Zle_Qle in B. lra.
Qed.

(** Every cell of a list of points whose bundles exist. *)
Lemma core_means (pts : list (list Q)) (i a : nat) (j : idx) (x : Q) :
  (forall p, In p pts -> length p = dimc c /\ usable c 0 (floors h p) /\ cbget c m (floors h p) <> None) ->
  points_at h i j pts <> [] -> (a < dimc c)%nat -> (x == average (points_at h i j pts) a)%Q ->
  (cell_from h i a j <= x /\ x < cell_to h i a j)%Q /\
  (nth a (getMin c h m) 0 <= x)%Q /\ forall hi, getMax c h m = Ok hi -> (x < nth a hi 0)%Q.
Proof.
  intros HP Hne Ha Hx.
  assert (HI : forall p, In p (points_at h i j pts) -> In p pts /\ cell_of h i p = j).
  { intros p Hp. apply filter_In in Hp. destruct Hp as [A B]. split; [exact A|]. destruct (idx_eqb_spec (cell_of h i p) j); [assumption|discriminate]. }
  rewrite Hx. split; [|].
  - apply average_box; [exact Hne|]. intros p Hp. destruct (HI p Hp) as [A <-]. destruct (HP p A) as [HL _].
    apply cell_box; [exact Hh|lia].
  - split.
    + destruct (average_box (points_at h i j pts) a (nth a (getMin c h m) 0%Q) (cell_to h i a j) Hne) as [R _]; [|exact R].
      intros p Hp. destruct (HI p Hp) as [A <-]. destruct (HP p A) as [HL [Hu Hb]]. split.
      * apply (extent_point p HL Hu Hb a Ha).
      * apply cell_box; [exact Hh|lia].
    + intros hi E.
      destruct (average_box (points_at h i j pts) a (cell_from h i a j) (nth a hi 0%Q) Hne) as [_ R]; [|rewrite Hx; exact R].
      intros p Hp. destruct (HI p Hp) as [A <-]. destruct (HP p A) as [HL [Hu Hb]]. split.
      * apply cell_box; [exact Hh|lia].
      * apply (extent_point p HL Hu Hb a Ha). exact E.
Qed.
End Core.

(** ** The colour scale *)
Section Colour.
Context {P : Type}.
Variable c : config P.
Variable h : Q.
Variable show : P -> option (list Q * Q).
Variable row : list Q.
Variable tz : Q.

Lemma colour_calls_in (m : cmap c) (calls : list colour_call) (x : colour_call) :
  colour_calls c h show row tz m = Ok calls -> In x calls ->
  exists hi i es j v p, getMax c h m = Ok hi /\ (i < bin_count (dimc c))%nat /\ cdists c m i = Ok es /\ In (j, v) es /\
    show v = Some (p, alpha x) /\ at_height x = height row tz p /\
    from_height x = height row tz (getMin c h m) /\ to_height x = height row tz hi.
Proof.
  unfold colour_calls, height_range. destruct (getMax c h m) as [hi| |] eqn:Eh; cbn [obind]; try discriminate.
  cbn [fst snd]. intros E Hin.
  assert (G : forall n a acc out, (a + n <= bin_count (dimc c))%nat ->
    ofold (fun l i => let* es := cdists c m i in
      Ok (l ++ flat_map (fun e => match show (snd e) with
                                  | None => []
                                  | Some (y, al) => [{| at_height := height row tz y; from_height := height row tz (getMin c h m);
                                                        to_height := height row tz hi; alpha := al |}]
                                  end) es)) (seq a n) acc = Ok out ->
    In x out -> In x acc \/ exists i es j v p, (i < bin_count (dimc c))%nat /\ cdists c m i = Ok es /\ In (j, v) es /\
      show v = Some (p, alpha x) /\ at_height x = height row tz p /\
      from_height x = height row tz (getMin c h m) /\ to_height x = height row tz hi).
  { induction n as [|n IH]; intros a acc out Hn E1 Hx; cbn [seq ofold] in E1.
    - injection E1 as <-. left. exact Hx.
    - destruct (cdists c m a) as [es| |] eqn:Ed; cbn [obind] in E1; try discriminate.
      destruct (IH (S a) _ out ltac:(lia) E1 Hx) as [Hx'|Hx']; [|right; exact Hx'].
      apply in_app_or in Hx'. destruct Hx' as [Hx'|Hx']; [left; exact Hx'|right].
      apply in_flat_map in Hx'. destruct Hx' as [[j v] [Hv Hx']]. cbn [snd] in Hx'.
      destruct (show v) as [[p al]|] eqn:Es; [|destruct Hx']. destruct Hx' as [<-|[]].
      exists a, es, j, v, p. cbn [alpha at_height from_height to_height]. repeat split; try assumption. lia. }
  destruct (G (bin_count (dimc c)) 0%nat [] calls ltac:(lia) E Hin) as [[]|[i [es [j [v [p H]]]]]].
  exists hi, i, es, j, v, p. split; [reflexivity|exact H].
Qed.

Lemma height_elevation (p : list Q) (f : nat -> Q) : (forall a, (a < 3)%nat -> nth a p 0 == f a)%Q ->
  (height row tz p == elevation row tz f)%Q.
Proof.
  intros H. unfold height, elevation, qsum. cbn [seq map fold_right].
  rewrite (H 0%nat), (H 1%nat), (H 2%nat) by lia. ring.
Qed.

(** The scale covers what is drawn inside of the extent if no coefficient is negative. *)
Lemma scale_covers (lo hi p : list Q) : Forall (fun x => 0 <= x)%Q row -> Exists (fun x => 0 < x)%Q row -> (length row <= 3)%nat ->
  (forall a, (a < 3)%nat -> nth a lo 0 <= nth a p 0 /\ nth a p 0 < nth a hi 0)%Q ->
  (height row tz lo <= height row tz p /\ height row tz p <= height row tz hi /\ height row tz lo < height row tz hi)%Q.
Proof.
  intros Hr He HL H. pose proof (H 0%nat ltac:(lia)) as [A0 B0]. pose proof (H 1%nat ltac:(lia)) as [A1 B1]. pose proof (H 2%nat ltac:(lia)) as [A2 B2].
  assert (R : forall a, (0 <= nth a row 0)%Q).
  { intros a. destruct (Nat.lt_ge_cases a (length row)) as [L|L]; [|rewrite nth_overflow by exact L; lra].
    rewrite Forall_forall in Hr. apply Hr, nth_In, L. }
  unfold height. pose proof (R 0%nat) as R0. pose proof (R 1%nat) as R1. pose proof (R 2%nat) as R2.
  assert (S : (0 < nth 0 row 0 \/ 0 < nth 1 row 0 \/ 0 < nth 2 row 0)%Q).
  { clear -He HL. destruct row as [|x [|y [|z [|]]]]; cbn [length] in HL; try lia; cbn [nth];
      repeat (inversion He as [? ? K|? ? K]; subst; [auto|]; clear He; rename K into He); inversion He. }
  set (r0 := nth 0 row 0%Q) in *. set (r1 := nth 1 row 0%Q) in *. set (r2 := nth 2 row 0%Q) in *.
  split; [|split]; [nra|nra|].
  destruct S as [S|[S|S]]; nra.
Qed.
End Colour.

(** ** Histories of maps of distributions *)
Section Grid.
Context {Pose X W S P : Type}.
Variable geo : geometry Pose X W (list Q).
Variable sta : statistics (list Q) S.
Variable c : config P.
Hypothesis Hc : config_ok c.
Variable h : Q.
Hypothesis Hh : (0 < h)%Q.
Hypothesis Hloc : forall p, locate geo p = toBundleIndex (/ h) p.
Hypothesis Hmin : aminc c = cw_min.
Hypothesis Hmax : amaxc c = cw_max.
Variable upd_d : P -> S -> P.
Notation gop := (grid_op (Pose:=Pose) (X:=X)).
Notation stat ps := (fold_left (s_add sta) ps (s_empty sta)).

Lemma in_reach_le (k : Z) (p : list Q) : 0 <= k -> in_reach c h k p -> in_reach c h 0 p.
Proof.
  intros Hk [HL H]. split; [exact HL|]. intros d Hd. specialize (H d Hd). destruct (kindc c); [exact H|].
  destruct H as [A B]. split.
  - eapply Qle_trans; [|exact A]. apply Qmult_le_compat_r; [|lra]. rewrite <- Zle_Qle. lia.
  - eapply Qlt_le_trans; [exact B|]. apply Qmult_le_compat_r; [|lra]. rewrite <- Zle_Qle. lia.
Qed.

Lemma inserted_point (check : bool) (ops : list gop) (p : list Q) :
  all_in_reach geo c h check ops -> In p (inserted geo c h check ops) ->
  length p = dimc c /\ usable c 0 (floors h p).
Proof.
  intros HA Hp. pose proof (reach_inserts geo c h check ops HA) as HI.
  unfold inserted in Hp. apply in_flat_map in Hp. destruct Hp as [op [Hop Hp]]. rewrite Forall_forall in HI. specialize (HI op Hop).
  destruct op as [o xs|b|]; [|destruct Hp|destruct Hp]. apply filter_In in Hp. destruct Hp as [Hp Hcov].
  rewrite Forall_forall in HI. specialize (HI p Hp). apply (in_reach_le _ _ (expands_pos ops)) in HI.
  split; [exact (proj1 HI)|]. apply (point_usable c h Hh p HI Hcov).
Qed.

Lemma grid_means (mean : P -> list Q) (ops : list gop) :
  (forall gs a, (a < dimc c)%nat -> concat gs <> [] ->
     nth a (mean (fold_left (fun d ps => upd_d d (stat ps)) gs (defaultc c))) 0 == average (concat gs) a)%Q ->
  all_in_reach geo c h false ops ->
  let pts := inserted geo c h false ops in
  exists m, grid_run geo sta c upd_d ops (new_map c) = Ok m /\
    (forall i j v es, (i < 2 ^ dimc c)%nat -> cdists c m i = Ok es -> In (j, v) es ->
      (points_at h i j pts = [] -> v = defaultc c) /\
      (points_at h i j pts <> [] -> forall a, (a < dimc c)%nat ->
         (nth a (mean v) 0 == average (points_at h i j pts) a /\
          cell_from h i a j <= nth a (mean v) 0 /\ nth a (mean v) 0 < cell_to h i a j /\
          nth a (getMin c h m) 0 <= nth a (mean v) 0)%Q /\
         forall hi, getMax c h m = Ok hi -> (nth a (mean v) 0 < nth a hi 0)%Q)).
Proof.
  intros Hmean HA pts.
  pose proof (reach_grid_fits geo c h Hh Hloc ops HA) as Hf. pose proof (reach_inserts geo c h false ops HA) as HI.
  pose proof (history_inserted geo c h Hh Hloc ops _ (expands_pos ops) HI) as EP. fold pts in EP.
  destruct (grid_run_spec geo sta c Hc upd_d ops Hf) as [m [E [HInv [HR [HCt [Hp _]]]]]].
  assert (HF : Forall (op_fits geo c (expand_calls ops)) ops).
  { unfold grid_fits in Hf. revert Hf. apply Forall_impl. intros [o xs|b|] H; exact H. }
  assert (H0 : 0 <= expand_calls ops) by (rewrite <- expands_calls; apply expands_pos).
  assert (Hfits : fits c (flat_map (op_actions geo sta c upd_d) ops)).
  { unfold fits. rewrite (actions_expansions geo sta c upd_d). apply Forall_forall. intros a Ha.
    apply in_flat_map in Ha. destruct Ha as [op [Hop Ha]]. rewrite Forall_forall in HF.
    pose proof (op_actions_fit geo sta c Hc upd_d _ _ (HF op Hop)) as H. rewrite Forall_forall in H. apply H; exact Ha. }
  assert (EA : cact_all c (flat_map (op_actions geo sta c upd_d) ops) (new_map c) = Ok m).
  { rewrite <- (grid_run_actions geo sta c Hc upd_d ops (expand_calls ops) (new_map c)); [exact E|apply new_inv; exact Hc|lia| |exact HF].
    intros bi _ H. rewrite new_empty_b in H. contradiction. }
  exists m. split; [exact E|]. intros i j v es Hi Ees Hin.
  assert (Hi' : (i < bin_count (dimc c))%nat) by (rewrite two_pow_spec; exact Hi).
  destruct (store_list c m i HInv Hi') as [es' [Ees' [_ Hes]]]. unfold cdists in Ees. rewrite Ees in Ees'. injection Ees' as <-.
  apply Hes in Hin. destruct Hin as [Hd Hv].
  pose proof (HCt i j (dom_cell c Hc i j Hi' Hd)) as Ev. unfold ccontent, content in Ev. fold (cdget c m i j) in Ev. rewrite Hv in Ev.
  assert (HP : Permutation (concat (history_groups geo c ops i j)) (points_at h i j pts)).
  { rewrite history_groups_points, EP, at_points. apply Permutation_refl. }
  split.
  - intros He. rewrite He in HP. apply Permutation_sym, Permutation_nil in HP.
    assert (Hg : history_groups geo c ops i j = []).
    { apply (history_groups_nil geo c ops i j). rewrite EP. intros bi p Hbp Hb. apply in_map_iff in Hbp.
      destruct Hbp as [q [Eq Hq]]. injection Eq as <- <-. rewrite cell_of_floors in Hb.
      assert (Hin : In q (points_at h i j pts)) by (apply filter_In; split; [exact Hq|rewrite Hb; apply idx_eqb_refl]).
      rewrite He in Hin. destruct Hin. }
    rewrite Ev, Hg. reflexivity.
  - intros Hne a Ha.
    assert (Hne' : concat (history_groups geo c ops i j) <> []).
    { intros He. rewrite He in HP. apply Permutation_nil in HP. congruence. }
    assert (Hx : (nth a (mean v) 0 == average (points_at h i j pts) a)%Q).
    { rewrite Ev. unfold update_groups. rewrite (Hmean _ a Ha Hne'). apply average_perm. exact HP. }
    destruct (core_means c Hc h Hh Hmin Hmax _ Hfits m EA pts i a j (nth a (mean v) 0%Q)) as [[A B] [C D]]; [|exact Hne|exact Ha|exact Hx|].
    + intros p Hpin. destruct (inserted_point false ops p HA Hpin) as [L1 L2]. split; [exact L1|]. split; [exact L2|].
      apply (Hp _ p). rewrite EP. apply in_map_iff. exists p. split; [reflexivity|exact Hpin].
    + repeat split; assumption.
Qed.
End Grid.

(** ** Everything of a dynamic map can be drawn *)
Section Total.
Context {P : Type}.
Variable c : config P.
Hypothesis Hc : config_ok c.
Variable h : Q.
Hypothesis Hh : (0 < h)%Q.
Hypothesis Hmin : aminc c = cw_min.
Hypothesis Hmax : amaxc c = cw_max.
Hypothesis Hk : kindc c = Dynamic.

Lemma getMax_total (l : list (map_action (P:=P))) (m : cmap c) : fits c l -> cact_all c l (new_map c) = Ok m ->
  exists hi, getMax c h m = Ok hi.
Proof.
  intros Hfits Em.
  destruct (extent_history c Hc h l Hh Hmin Hmax Hk Hfits) as [m1 [bs [E1 [Eb H1]]]]. rewrite Em in E1. injection E1 as <-.
  destruct (range_history c Hc l Hmin Hmax Hk Hfits) as [m1 [bs1 [E1 [Eb1 [_ [H2 _]]]]]]. rewrite Em in E1. injection E1 as <-.
  rewrite Eb in Eb1. injection Eb1 as <-. destruct bs as [|b bs]; [|destruct (H1 ltac:(discriminate)) as [hi [E _]]; eauto].
  destruct (H2 eq_refl) as [_ E2]. eexists. unfold getMax.
  apply omap_total with (g := fun z => (inject_Z (z + 1) * h)%Q).
  intros z Hz. rewrite E2 in Hz. apply repeat_spec in Hz. subst z. rewrite to_int_ok by (unfold INT_MIN, INT_MAX; lia). reflexivity.
Qed.

Lemma colour_total (show : P -> option (list Q * Q)) (row : list Q) (tz : Q) (m : cmap c) (hi : list Q) :
  cInv c m -> getMax c h m = Ok hi -> exists calls, colour_calls c h show row tz m = Ok calls.
Proof.
  intros HI Eh. unfold colour_calls, height_range. rewrite Eh. cbn [obind fst snd].
  assert (G : forall n a acc, (a + n <= bin_count (dimc c))%nat -> exists out,
    ofold (fun l i => let* es := cdists c m i in
      Ok (l ++ flat_map (fun e => match show (snd e) with
                                  | None => []
                                  | Some (y, al) => [{| at_height := height row tz y; from_height := height row tz (getMin c h m);
                                                        to_height := height row tz hi; alpha := al |}]
                                  end) es)) (seq a n) acc = Ok out).
  { induction n as [|n IH]; intros a acc Hn; cbn [seq ofold]; [eauto|].
    destruct (store_list c m a HI ltac:(lia)) as [es [Ees _]]. unfold cdists at 1. rewrite Ees. cbn [obind]. apply IH. lia. }
  apply (G _ 0%nat []). lia.
Qed.
End Total.

Section GridColours.
Context {Pose X W S P : Type}.
Variable geo : geometry Pose X W (list Q).
Variable sta : statistics (list Q) S.
Variable c : config P.
Hypothesis Hc : config_ok c.
Variable h : Q.
Hypothesis Hh : (0 < h)%Q.
Hypothesis Hloc : forall p, locate geo p = toBundleIndex (/ h) p.
Hypothesis Hmin : aminc c = cw_min.
Hypothesis Hmax : amaxc c = cw_max.
Hypothesis Hdim : dimc c = 3%nat.
Variable upd_d : P -> S -> P.
Notation gop := (grid_op (Pose:=Pose) (X:=X)).
Notation stat ps := (fold_left (s_add sta) ps (s_empty sta)).

Lemma grid_colours (mean : P -> list Q) (shape : P -> bool) (row : list Q) (tz : Q) (ops : list gop) :
  (forall gs a, (a < dimc c)%nat -> concat gs <> [] ->
     nth a (mean (fold_left (fun d ps => upd_d d (stat ps)) gs (defaultc c))) 0 == average (concat gs) a)%Q ->
  shape (defaultc c) = false -> all_in_reach geo c h false ops ->
  Forall (fun x => 0 <= x)%Q row -> Exists (fun x => 0 < x)%Q row -> (length row <= 3)%nat ->
  exists m, grid_run geo sta c upd_d ops (new_map c) = Ok m /\
    (kindc c = Dynamic -> exists calls, colour_calls c h (show_cell mean shape) row tz m = Ok calls) /\
    forall calls x, colour_calls c h (show_cell mean shape) row tz m = Ok calls -> In x calls ->
      (from_height x <= at_height x /\ at_height x <= to_height x /\ from_height x < to_height x /\ alpha x == 1)%Q /\
      exists i j, (i < 8)%nat /\ let cell := points_at h i j (inserted geo c h false ops) in cell <> [] /\ (at_height x == elevation row tz (average cell))%Q.
Proof.
  intros Hmean Hsh HA Hr He HL.
  destruct (grid_means geo sta c Hc h Hh Hloc Hmin Hmax upd_d mean ops Hmean HA) as [m [E HV]].
  exists m. split; [exact E|]. split.
  - intros Hk. pose proof (reach_grid_fits geo c h Hh Hloc ops HA) as Hf.
    destruct (grid_run_spec geo sta c Hc upd_d ops Hf) as [m' [E' [HInv _]]]. rewrite E in E'. injection E' as <-.
    assert (HF : Forall (op_fits geo c (expand_calls ops)) ops).
    { unfold grid_fits in Hf. revert Hf. apply Forall_impl. intros [o xs|b|] H; exact H. }
    assert (H0 : 0 <= expand_calls ops) by (rewrite <- expands_calls; apply expands_pos).
    assert (Hfits : fits c (flat_map (op_actions geo sta c upd_d) ops)).
    { unfold fits. rewrite (actions_expansions geo sta c upd_d). apply Forall_forall. intros a Ha.
      apply in_flat_map in Ha. destruct Ha as [op [Hop Ha]]. rewrite Forall_forall in HF.
      pose proof (op_actions_fit geo sta c Hc upd_d _ _ (HF op Hop)) as H. rewrite Forall_forall in H. apply H; exact Ha. }
    assert (EA : cact_all c (flat_map (op_actions geo sta c upd_d) ops) (new_map c) = Ok m).
    { rewrite <- (grid_run_actions geo sta c Hc upd_d ops (expand_calls ops) (new_map c)); [exact E|apply new_inv; exact Hc|lia| |exact HF].
      intros bi _ H. rewrite new_empty_b in H. contradiction. }
    destruct (getMax_total c Hc h Hh Hmin Hmax Hk _ m Hfits EA) as [hi Eh].
    exact (colour_total c h (show_cell mean shape) row tz m hi HInv Eh).
  - intros calls x Ex Hin. destruct (colour_calls_in c h _ row tz m calls x Ex Hin) as [hi [i [es [j [v [p [Eh [Hi [Ees [Hv [Es [E1 [E2 E3]]]]]]]]]]]]].
    rewrite two_pow_spec in Hi. unfold show_cell in Es. destruct (shape v) eqn:Sv; [|discriminate Es]. injection Es as <- Eal.
    destruct (HV i j v es Hi Ees Hv) as [He0 Hne].
    assert (N : points_at h i j (inserted geo c h false ops) <> []) by (intros Z0; rewrite (He0 Z0), Hsh in Sv; discriminate).
    destruct (scale_covers row tz (getMin c h m) hi (mean v) Hr He HL) as [A [B C]].
    { intros a Ha. rewrite <- Hdim in Ha. destruct (Hne N a Ha) as [[_ [_ [_ Lo]]] Hi']. split; [exact Lo|exact (Hi' hi Eh)]. }
    rewrite E1, E2, E3, <- Eal. split; [repeat split; try assumption; reflexivity|].
    exists i, j. split; [rewrite Hdim in Hi; exact Hi|]. split; [exact N|]. apply height_elevation.
    intros a Ha. rewrite <- Hdim in Ha. destruct (Hne N a Ha) as [[Q0 _] _]. exact Q0.
Qed.
End GridColours.

(** ** Occupancy maps *)
Section Occ.
Context {Pose X W S A : Type}.
Variable geo : geometry Pose X W (list Q).
Variable sta : statistics (list Q) S.
Variable c : config (occ A S).
Hypothesis Hc : config_ok c.
Variable h : Q.
Hypothesis Hh : (0 < h)%Q.
Hypothesis Hloc : forall p, locate geo p = toBundleIndex (/ h) p.
Hypothesis Hmin : aminc c = cw_min.
Hypothesis Hmax : amaxc c = cw_max.
Variable zero : A.
Variable plus : A -> A -> A.
Variable amount : S -> A.
Variable s_merge : S -> S -> S.
Variable ray : Pose -> S -> list idx.
Variable order : list (idx * A) -> list (idx * A).
Hypothesis plus_zero : forall a, plus zero a = a.
Hypothesis plus_comm : forall a b, plus a b = plus b a.
Hypothesis plus_assoc : forall a b d, plus a (plus b d) = plus (plus a b) d.
Hypothesis order_perm : forall l, Permutation (order l) l.
Variable weighted : bool.
Hypothesis Hdefault : defaultc c = Build_occ zero None.
Notation gop := (grid_op (Pose:=Pose) (X:=X)).
Notation stat ps := (fold_left (s_add sta) ps (s_empty sta)).
Variable mean : S -> list Q.
Hypothesis Hmean : forall gs s a, (a < dimc c)%nat -> concat gs <> [] -> merged sta s_merge gs = Some s -> (nth a (mean s) 0 == average (concat gs) a)%Q.

Lemma occ_means (ops : list gop) :
  all_in_reach geo c h true ops -> rays_in_reach ray c ops ->
  let pts := inserted geo c h true ops in
  exists m, occ_run geo sta c zero plus amount s_merge ray order weighted ops (new_map c) = Ok m /\ cInv c m /\
    (kindc c = Dynamic -> exists hi, getMax c h m = Ok hi) /\
    (forall i j v es, (i < 2 ^ dimc c)%nat -> cdists c m i = Ok es -> In (j, v) es ->
      (points_at h i j pts = [] -> hits v = None) /\
      (points_at h i j pts <> [] -> exists s, hits v = Some s /\ forall a, (a < dimc c)%nat ->
         (nth a (mean s) 0 == average (points_at h i j pts) a /\
          cell_from h i a j <= nth a (mean s) 0 /\ nth a (mean s) 0 < cell_to h i a j /\
          nth a (getMin c h m) 0 <= nth a (mean s) 0)%Q /\
         forall hi, getMax c h m = Ok hi -> (nth a (mean s) 0 < nth a hi 0)%Q)).
Proof.
  intros HA HRay pts.
  pose proof (reach_occ_fits geo c h Hh Hloc ray ops HA HRay) as Hf. pose proof (reach_inserts geo c h true ops HA) as HI.
  pose proof (scan_inserted geo c h Hh Hloc ops _ (expands_pos ops) HI) as EP. fold pts in EP.
  destruct (occ_history geo sta c Hc zero plus amount s_merge ray order plus_zero plus_comm plus_assoc order_perm weighted Hdefault ops Hf)
    as [m [E HV]].
  destruct (OpHist.run_from_new c Hc (occ_step geo sta c zero plus amount s_merge ray order weighted)
    (occ_acts geo sta c zero plus amount s_merge ray order weighted) (occ_opfits geo c ray)
    (occ_step_acts geo sta c Hc zero plus amount s_merge ray order weighted)
    (occ_acts_fit geo sta c Hc zero plus amount s_merge ray order order_perm weighted)
    (occ_opfits_le geo c ray) ops) as [Hfits ER].
  { rewrite (occ_expansions geo sta c zero plus amount s_merge ray order weighted). unfold occ_fits in Hf. revert Hf.
    apply Forall_impl. intros [o xs|b|] H; exact H. }
  assert (EA : cact_all c (flat_map (occ_acts geo sta c zero plus amount s_merge ray order weighted) ops) (new_map c) = Ok m)
    by (rewrite <- ER; exact E).
  destruct (run_spec c Hc _ Hfits) as [m' [E' [HInv [_ [_ [Hn _]]]]]]. rewrite EA in E'. injection E' as <-.
  exists m. split; [exact E|]. split; [exact HInv|]. split.
  { intros Hk. exact (getMax_total c Hc h Hh Hmin Hmax Hk _ m Hfits EA). }
  intros i j v es Hi Ees Hin.
  assert (Hi' : (i < bin_count (dimc c))%nat) by (rewrite two_pow_spec; exact Hi).
  destruct (store_list c m i HInv Hi') as [es' [Ees' [_ Hes]]]. unfold cdists in Ees. rewrite Ees in Ees'. injection Ees' as <-.
  apply Hes in Hin. destruct Hin as [Hd Hv]. pose proof (dom_cell c Hc i j Hi' Hd) as Hcell.
  destruct (HV i j Hcell) as [o [Eo Ho]]. rewrite (cstored_spec c Hc m i j HInv Hcell), Hv in Eo. injection Eo as <-.
  destruct Ho as [_ Ho].
  assert (HP : Permutation (concat (cell_hits geo c ops i j)) (points_at h i j pts)).
  { rewrite hits_points, EP, at_points. apply Permutation_refl. }
  split.
  - intros He. rewrite He in HP. apply Permutation_sym, Permutation_nil in HP. rewrite Ho.
    destruct (cell_hits geo c ops i j) as [|g gs] eqn:Eg; [reflexivity|exfalso].
    assert (Hg : g <> []) by (apply (hit_groups_nonempty geo c ops i j); rewrite Eg; left; reflexivity).
    cbn [concat] in HP. apply app_eq_nil in HP. destruct HP; contradiction.
  - intros Hne.
    assert (Hne' : concat (cell_hits geo c ops i j) <> []).
    { intros He. rewrite He in HP. apply Permutation_nil in HP. congruence. }
    assert (Hs : exists s, merged sta s_merge (cell_hits geo c ops i j) = Some s).
    { destruct (cell_hits geo c ops i j); [contradiction Hne'; reflexivity|]. cbn [merged]. eauto. }
    destruct Hs as [s Hs]. exists s. split; [congruence|]. intros a Ha.
    assert (Hx : (nth a (mean s) 0 == average (points_at h i j pts) a)%Q).
    { rewrite (Hmean _ s a Ha Hne' Hs). apply average_perm. exact HP. }
    destruct (core_means c Hc h Hh Hmin Hmax _ Hfits m EA pts i a j (nth a (mean s) 0%Q)) as [[P1 P2] [P3 P4]]; [|exact Hne|exact Ha|exact Hx|].
    + intros p Hpin. destruct (inserted_point geo c h Hh true ops p HA Hpin) as [L1 L2]. split; [exact L1|]. split; [exact L2|].
      assert (Hin : In (floors h p, p) (scan_points geo c ops)).
      { rewrite EP. apply in_map_iff. exists p. split; [reflexivity|exact Hpin]. }
      unfold scan_points in Hin. apply in_flat_map in Hin. destruct Hin as [op [Hop Hin]].
      destruct op as [o xs|b|]; [|destruct Hin|destruct Hin].
      assert (HK : In (floors h p) (map fst (groups (accepted geo c true o xs)))) by (rewrite groups_keys; apply keys_in; eauto).
      apply in_map_iff in HK. destruct HK as [[b ps] [Ek Hg]]. cbn [fst] in Ek.
      apply (Hn (floors h p) (Modify b (update_occupied s_merge (stat ps)))); [|apply (usable_bdom c Hc 0); [lia|exact L2]|symmetry; exact Ek].
      apply in_flat_map. exists (GInsert o xs). split; [exact Hop|]. cbn [occ_acts]. apply in_or_app. left.
      apply in_map_iff. exists (b, ps). split; [reflexivity|exact Hg].
    + repeat split; assumption.
Qed.

Lemma occ_colours (shape : S -> bool) (occupancy : occ A S -> Q) (threshold : Q) (row : list Q) (tz : Q) (ops : list gop) :
  dimc c = 3%nat -> all_in_reach geo c h true ops -> rays_in_reach ray c ops ->
  Forall (fun x => 0 <= x)%Q row -> Exists (fun x => 0 < x)%Q row -> (length row <= 3)%nat ->
  exists m, occ_run geo sta c zero plus amount s_merge ray order weighted ops (new_map c) = Ok m /\
    (kindc c = Dynamic -> exists calls, colour_calls c h (show_occ mean shape occupancy threshold) row tz m = Ok calls) /\
    forall calls x, colour_calls c h (show_occ mean shape occupancy threshold) row tz m = Ok calls -> In x calls ->
      (from_height x <= at_height x /\ at_height x <= to_height x /\ from_height x < to_height x /\ threshold <= alpha x)%Q /\
      exists i j, (i < 8)%nat /\ let cell := points_at h i j (inserted geo c h true ops) in cell <> [] /\ (at_height x == elevation row tz (average cell))%Q.
Proof.
  intros Hdim HA HRay Hr He HL. destruct (occ_means ops HA HRay) as [m [E [HInv [Hmx HV]]]].
  exists m. split; [exact E|]. split.
  - intros Hk. destruct (Hmx Hk) as [hi Eh]. exact (colour_total c h _ row tz m hi HInv Eh).
  - intros calls x Ex Hin. destruct (colour_calls_in c h _ row tz m calls x Ex Hin) as [hi [i [es [j [v [p [Eh [Hi [Ees [Hv [Es [E1 [E2 E3]]]]]]]]]]]]].
    rewrite two_pow_spec in Hi. unfold show_occ in Es. destruct (Qle_bool threshold (occupancy v)) eqn:Et; [|discriminate Es].
    destruct (hits v) as [s|] eqn:Ev; [|discriminate Es]. destruct (shape s); [|discriminate Es]. injection Es as <- Eal.
    destruct (HV i j v es Hi Ees Hv) as [He0 Hne].
    assert (N : points_at h i j (inserted geo c h true ops) <> []) by (intros Z0; rewrite (He0 Z0) in Ev; discriminate).
    destruct (Hne N) as [s' [Es' Hs]]. rewrite Ev in Es'. injection Es' as <-.
    destruct (scale_covers row tz (getMin c h m) hi (mean s) Hr He HL) as [B1 [B2 B3]].
    { intros a Ha. rewrite <- Hdim in Ha. destruct (Hs a Ha) as [[_ [_ [_ Lo]]] Hi']. split; [exact Lo|exact (Hi' hi Eh)]. }
    rewrite E1, E2, E3, <- Eal. apply Qle_bool_iff in Et. split; [repeat split; assumption|].
    exists i, j. split; [rewrite Hdim in Hi; exact Hi|]. split; [exact N|]. apply height_elevation.
    intros a Ha. rewrite <- Hdim in Ha. destruct (Hs a Ha) as [[Q0 _] _]. exact Q0.
Qed.
End Occ.
