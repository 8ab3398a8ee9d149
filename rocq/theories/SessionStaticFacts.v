(** Sessions do not change static maps. *)
From Coq Require Import String.
From Verif Require Import Base SeqModel IndexModel OctreeSpec MapModel BackendModel SysModel SysSpec SysFacts MapLifeFacts GridFacts
  BackendFacts MapPropFacts ConvModel ConvSpec ConvFacts LoaderModel StaticFacts InsertModel SerialModel SerialSpec SerialFacts ThreadModel
  ThreadSpec ThreadFacts FileModel FileFacts NarrowFacts StaticTripFacts YamlModel YamlSpec YamlFacts QuerySpec QueryFacts QueryTop
  SessionModel SessionSpec SessionFacts.
Open Scope Z_scope.

Section Static.
Variable junk : list Z -> nat -> list Z.
Context {P Po T : Type}.
Variable po : codec Po.
Variable tp : codec T.
Variable yo : converter Po.
Variable yt : converter T.
Variable fmt : format P.
Variable ok : P -> Prop.
Variable len : nat.
Hypothesis Hpo : codec_ok po.
Hypothesis Htp : codec_ok tp.
Hypothesis Hfmt : format_ok fmt ok len.
Hypothesis Hcount : f_count fmt = Z.of_nat len.
Variable dim : nat.
Variable size : list Z.
Variable mn : idx.
Variable garb : nat -> Z.
Variable amin amax : idx -> idx -> idx.
Variable offs : list idx.
Variable dflt : P.
Variable mrg : P -> P -> P.
Variable expd : P -> bool.
Notation c := {| dimc := dim; kindc := Static; sizec := size; minc := mn; garbagec := garb; aminc := amin; amaxc := amax;
                 offsetsc := offs; defaultc := dflt; mergec := mrg; expandc := expd |}.
Hypothesis Hc : config_ok c.
Hypothesis Hdim : (0 < dim)%nat.
Hypothesis Heven : Z.even (nth 0 mn 0) = true.
Hypothesis Hsize : Forall (fun z => 0 <= z < 2 ^ 64) size.
Hypothesis Hmn : int_index mn.
Hypothesis Hmx : int_index (static_max size mn).
Notation n := (bin_count dim).
Notation mx := (static_max size mn).
Notation bd := (array_backend mrg).
Notation bb := (array_backend merge_bundle).
Notation world := (loaded (Po:=Po) (T:=T) c).
Notation simc := (sim mrg (@loadable P size mn)).
Notation keepsc := (keeps mrg dim mn mx).

(** The constructor's arrays hold what the loader's do. *)
Lemma new_sim : simc (new_map c) (new_map c).
Proof.
  split; [reflexivity|]. split; [reflexivity|]. split; [reflexivity|]. split.
  - intros i s Es. exists s. split; [exact Es|]. split; [reflexivity|]. split; [reflexivity|]. intros j Hj.
    change (nth_error (map (static_store size mn) (seq 0 n)) i = Some s) in Es. rewrite nth_error_map in Es.
    destruct (nth_error (seq 0 n) i) as [k|] eqn:Ek; [|discriminate]. cbn [option_map] in Es. injection Es as <-.
    assert (Hi : (i < n)%nat) by (rewrite <- (seq_length n 0); apply nth_error_Some; congruence).
    rewrite (nth_error_nth' (seq 0 n) 0%nat) in Ek by (rewrite seq_length; exact Hi). rewrite seq_nth in Ek by exact Hi.
    injection Ek as <-. unfold loadable in Hj. cbn [Nat.add].
    cbn [static_store loader_store a_size a_offset] in *.
    assert (Eo : static_offset mn = map (fun z => z / 2) mn)
      by (unfold static_offset; apply map_ext; intros z; rewrite Z.shiftr_div_pow2 by lia; reflexivity).
    rewrite <- Eo in Hj. apply arr_inside_iff in Hj. apply arr_inside_iff.
    destruct Hj as [L1 [L2 H]].
    destruct (Nat.eqb_spec i 0) as [->|Hi0]; [cbn [Nat.ltb Nat.leb] in *; auto|].
    destruct (1 <? i)%nat; [auto|]. rewrite map_length. split; [exact L1|]. split; [exact L2|].
    intros d Hd. specialize (H d Hd). rewrite (nth_map_lt _ size d 0) by lia. lia.
  - intros bi b [].
Qed.
Lemma new_keeps : keepsc (new_map c).
Proof. split; [reflexivity|]. split; [reflexivity|]. intros bi b []. Qed.

(** Maps related by [sim] are written alike. *)
Lemma sim_operations (w x : cmap c) : cInv c w -> simc w x ->
  map (save_operation fmt c all_open x) (seq 0 n) = map (save_operation fmt c all_open w) (seq 0 n).
Proof.
  intros HI [_ [_ [_ [D _]]]]. apply map_ext_in. intros i Hi. apply in_seq in Hi.
  unfold save_operation, get_store. cbn [all_open open_store].
  pose proof HI as [[[[HL _] _] _] _].
  destruct (nth_error (stores w) i) as [s|] eqn:Es.
  - destruct (D i s Es) as [s' [Es' [Rc _]]].
    change (@nth_error (st (bdc c)) (@stores P (bdc c) (bbc c) x) i = Some s') in Es'. rewrite Es'. cbn [obind].
    change (storage_save (bdc c) fmt) with (storage_save bd fmt).
    unfold storage_save. cbn [array_backend btrav]. rewrite Rc. reflexivity.
  - apply nth_error_None in Es. change (length (stores w) = n) in HL. lia.
Qed.
Lemma sim_saves (w x : cmap c) (s1 : list nat) (o : Po) (r : T) : cInv c w -> simc w x ->
  map_save po tp fmt c all_open s1 o r x = map_save po tp fmt c all_open s1 o r w.
Proof.
  intros HI S. unfold map_save. cbn [all_open no_directory open_header].
  change (bin_count (dimc c)) with n. rewrite (sim_operations w x HI S).
  destruct S as [A [B [C _]]]. unfold map_header, cbundles.
  replace (bundles x) with (bundles w) by (symmetry; exact A).
  replace (min_bi x) with (min_bi w) by (symmetry; exact B).
  replace (max_bi x) with (max_bi w) by (symmetry; exact C). reflexivity.
Qed.
Lemma sim_writes (w x : cmap c) (s1 : list nat) (o : Po) (r : T) (nn : list (string * node)) : cInv c w -> simc w x ->
  yaml_write yo yt c o r x nn = yaml_write yo yt c o r w nn /\
  save_stores fmt c all_open s1 x = save_stores fmt c all_open s1 w.
Proof.
  intros HI S. unfold save_stores. change (bin_count (dimc c)) with n. rewrite (sim_operations w x HI S). split; [|reflexivity].
  destruct S as [A [B [C _]]]. unfold yaml_write, cbundles.
  replace (bundles x) with (bundles w) by (symmetry; exact A).
  replace (min_bi x) with (min_bi w) by (symmetry; exact B).
  replace (max_bi x) with (max_bi w) by (symmetry; exact C). reflexivity.
Qed.

(** What is read back is related to a map that restores the one written. *)
Lemma reloaded (w : cmap c) (ss : list (arr P)) (es : list (idx * bundle)) :
  cInv c w -> region c 0 w -> keepsc w -> NoDup (map fst es) ->
  (forall bi b, In (bi, b) es <-> usable c 0 bi /\ cbget c w bi = Some b) ->
  (forall i s, nth_error (stores w) i = Some s -> nth_error ss i = Some (loaded_store size mn i s)) ->
  exists w', restores c w w' /\ keepsc w' /\ simc w' (loaded_map dim size mn garb amin amax offs dflt mrg expd ss (map fst es)).
Proof.
  intros HI HR [K1 [K2 K3]] Hn Hin Hss.
  exists (wide_map dim size mn garb amin amax offs dflt mrg expd w (map fst es)).
  split; [apply (wide_restores len); assumption|].
  split; [|apply (loaded_sim len); auto; intros bi b H; apply Hin in H; apply H].
  split; [reflexivity|]. split; [reflexivity|]. intros bi b Hbi. cbn [wide_map bundles loaded_bundles a_cells] in Hbi.
  apply in_map_iff in Hbi. destruct Hbi as [bi' [E Hbi]]. injection E as -> _. apply in_map_iff in Hbi.
  destruct Hbi as [[bi' b'] [E He]]. cbn [fst] in E. subst bi'. apply Hin in He. apply He.
Qed.

Lemma sim_action (k : Z) (a : map_action (P:=P)) (w x w1 : cmap c) : 0 <= k -> act_fits c k a -> keepsc w -> simc w x ->
  cact c w a = Ok w1 -> keepsc w1 /\ exists x1, cact c x a = Ok x1 /\ simc w1 x1.
Proof.
  intros Hk Ha K S E.
  apply (sim_act dflt mrg dim amin amax expd offs (loadable size mn) (usable c 0)) with (m := w); auto.
  - intros bi Hu i Hi. apply (usable_loadable dim size mn garb amin amax offs dflt mrg expd Hc Heven bi i Hu Hi).
  - intros y bi o A B L Ho V. apply (valid_usable dim size mn garb amin amax offs dflt mrg expd Hc y (idx_add bi o) A B); [|exact V].
    destruct (ok_sound c Hc o Ho) as [Lo _]. cbn [dimc] in Lo. clear - L Lo.
    revert o dim L Lo. induction bi as [|x bi IH]; intros [|y o] dim L Lo; cbn in *; try congruence.
    destruct dim as [|q]; [discriminate|]. f_equal. rewrite (IH o q); congruence.
  - intros y bi A B L V. apply (valid_usable dim size mn garb amin amax offs dflt mrg expd Hc y bi A B L V).
  - intros bi Hu. apply Hu.
  - destruct a as [bi f|bi|]; cbn [act_fits act_ok] in *; [apply (usable_le c k 0); assumption|exact (proj1 Ha)|exact I].
Qed.

(** The induction: [m] is the map of the program without restarts, [x] that of the other one, and [w] a map with
    arrays of the constructor's sizes that looks like both. *)
Lemma static_alike (before after : list (step (P:=P))) : forall (m w : cmap c) (x : world),
  fits c (actions (before ++ after)) -> Forall (scheduled n) after -> writable c ok (before ++ after) ->
  cact_all c (actions before) (new_map c) = Ok m ->
  cInv c m -> cInv c w -> region c (expansions (actions after)) m -> region c (expansions (actions after)) w ->
  alike c m w -> keepsc w -> simc w (l_map x) ->
  y_decode yo (y_encode yo (l_origin x)) = Some (l_origin x) -> y_decode yt (y_encode yt (l_resolution x)) = Some (l_resolution x) ->
  exists m1 w1 m2, cact_all c (actions (before ++ after)) (new_map c) = Ok m1 /\
    ofold (session_step junk po tp yo yt fmt c) after x = Ok {| l_origin := l_origin x; l_resolution := l_resolution x; l_map := m2 |} /\
    cInv c m1 /\ cInv c w1 /\ region c 0 m1 /\ region c 0 w1 /\ alike c m1 w1 /\ keepsc w1 /\ simc w1 m2.
Proof.
  revert before. induction after as [|o after IH]; intros before m w x Hf Hs Hsav Hrun I1 I2 R1 R2 HA HK HS Hyo Hyt.
  - exists m, w, (l_map x). rewrite app_nil_r in *. cbn [actions expansions ofold] in *. destruct x; auto 12.
  - inversion Hs as [|? ? Ho Hs']; subst.
    assert (Eapp : before ++ o :: after = (before ++ [o]) ++ after) by (rewrite <- app_assoc; reflexivity).
    pose proof (expansions_nonneg (actions after)) as N0.
    destruct o as [a|s1 s2 g|s1 s2 g nn].
    + cbn [actions] in *.
      assert (Hsplit : expansions (a :: actions after) = expansions [a] + expansions (actions after))
        by (change (a :: actions after) with ([a] ++ actions after); apply expansions_app).
      pose proof (expansions_nonneg (a :: actions after)) as N2.
      assert (Hfa : act_fits c (expansions (a :: actions after)) a).
      { unfold fits in Hf. rewrite actions_app in Hf. cbn [actions] in Hf. rewrite expansions_app in Hf.
        apply Forall_app in Hf. destruct Hf as [_ Hf]. inversion Hf as [|? ? H _]; subst.
        pose proof (expansions_nonneg (actions before)) as N1.
        pose proof (fits_weaken c (expansions (actions before) + expansions (a :: actions after)) (expansions (a :: actions after)) [a] ltac:(lia)
          (Forall_cons _ H (Forall_nil _))) as W. inversion W; assumption. }
      destruct (alike_step c Hc _ m w a I1 I2 R1 R2 ltac:(lia) Hfa HA) as [y1 [y2 [E1 [E2 [J1 [J2 [S1 [S2 HA']]]]]]]].
      rewrite Hsplit in S1, S2. replace (expansions [a] + expansions (actions after) - expansions [a]) with (expansions (actions after)) in S1, S2 by lia.
      destruct (sim_action _ a w (l_map x) y2 N2 Hfa HK HS E2) as [HK' [x1 [E3 HS']]].
      assert (Hrun' : cact_all c (actions (before ++ [Do a])) (new_map c) = Ok y1).
      { rewrite actions_app. cbn [actions]. apply (run_app c (actions before) [a] m y1 Hrun). unfold cact_all, act_all. cbn [ofold].
        fold (cact c m a). rewrite E1. reflexivity. }
      rewrite Eapp in *.
      destruct (IH (before ++ [Do a]) y1 y2 {| l_origin := l_origin x; l_resolution := l_resolution x; l_map := x1 |} Hf Hs' Hsav Hrun' J1 J2 S1 S2 HA' HK' HS' Hyo Hyt)
        as [m1 [w1 [m2 [F1 [F2 H]]]]].
      exists m1, w1, m2. split; [exact F1|]. split; [|exact H]. cbn [ofold session_step]. rewrite E3. cbn [obind]. exact F2.
    + cbn [actions scheduled] in *. destruct Ho as [C1 C2].
      pose proof (Hsav before _ after m eq_refl Hrun) as Hv. cbn beta iota in Hv.
      pose proof (region_le c 0 _ m N0 R1) as R10. pose proof (region_le c 0 _ w N0 R2) as R20.
      pose proof (alike_same c Hc m w I1 I2 R10 R20 HA) as [_ HV].
      assert (Hvw : forall i j v, has_value c w i j v -> ok v) by (intros i j v H; apply (Hv i j v), HV, H).
      destruct (save_load_static junk po tp fmt ok len Hpo Htp Hfmt Hcount dim size mn garb amin amax offs dflt mrg expd Hc Hdim Heven Hsize Hmn Hmx
        w I2 R20 (proj1 HK) Hvw s1 s2 g (l_origin x) (l_resolution x) C1 C2) as [d [ss [es [_ [Hn [Hin [Hss [_ [E1 E2]]]]]]]]].
      destruct (reloaded w ss es I2 R20 HK Hn Hin Hss) as [w' [Hr [HK' HS']]].
      rewrite <- (sim_saves w (l_map x) s1 _ _ I2 HS) in E1.
      assert (Hrun' : cact_all c (actions (before ++ [Restart s1 s2 g])) (new_map c) = Ok m).
      { rewrite actions_app. cbn [actions]. rewrite app_nil_r. exact Hrun. }
      rewrite Eapp in *.
      destruct (IH (before ++ [Restart s1 s2 g]) m w' {| l_origin := l_origin x; l_resolution := l_resolution x; l_map := _ |} Hf Hs' Hsav Hrun' I1 (proj1 Hr) R1
        (restores_region c _ _ _ R2 Hr) (alike_trans c m w w' HA (restores_alike c w w' I2 Hr)) HK' HS' Hyo Hyt)
        as [m1 [w1 [m2 [F1 [F2 H]]]]].
      exists m1, w1, m2. split; [exact F1|]. split; [|exact H]. cbn [ofold session_step]. rewrite E1. cbn [obind fst snd]. rewrite E2.
      cbn [obind resume]. exact F2.
    + cbn [actions scheduled] in *. destruct Ho as [C1 C2].
      pose proof (Hsav before _ after m eq_refl Hrun) as Hv. cbn beta iota in Hv.
      pose proof (region_le c 0 _ m N0 R1) as R10. pose proof (region_le c 0 _ w N0 R2) as R20.
      pose proof (alike_same c Hc m w I1 I2 R10 R20 HA) as [_ HV].
      assert (Hvw : forall i j v, has_value c w i j v -> ok v) by (intros i j v H; apply (Hv i j v), HV, H).
      destruct (save_load_static junk no_codec no_codec fmt ok len no_codec_ok no_codec_ok Hfmt Hcount dim size mn garb amin amax offs dflt mrg expd Hc Hdim Heven Hsize Hmn Hmx
        w I2 R20 (proj1 HK) Hvw s1 s2 g tt tt C1 C2) as [d [ss [es [_ [Hn [Hin [Hss [_ [E1 E2]]]]]]]]].
      destruct (reloaded w ss es I2 R20 HK Hn Hin Hss) as [w' [Hr [HK' HS']]].
      destruct (yaml_of_binary junk fmt len yo yt c s1 s2 g (l_origin x) (l_origin x) (l_resolution x) (l_resolution x) nn w _ d Hyo Hyt Hc eq_refl Hdim Hsize Hmn Hmx
        I2 R20 (proj1 HK) (proj1 (proj2 HK)) E1 E2) as [ww [files [E3 [E4 E5]]]].
      destruct (sim_writes w (l_map x) s1 (l_origin x) (l_resolution x) nn I2 HS) as [G1 G2]. rewrite <- G1 in E3. rewrite <- G2 in E4.
      assert (Hrun' : cact_all c (actions (before ++ [RestartYaml s1 s2 g nn])) (new_map c) = Ok m).
      { rewrite actions_app. cbn [actions]. rewrite app_nil_r. exact Hrun. }
      rewrite Eapp in *.
      destruct (IH (before ++ [RestartYaml s1 s2 g nn]) m w' {| l_origin := l_origin x; l_resolution := l_resolution x; l_map := _ |} Hf Hs' Hsav Hrun' I1 (proj1 Hr) R1
        (restores_region c _ _ _ R2 Hr) (alike_trans c m w w' HA (restores_alike c w w' I2 Hr)) HK' HS' Hyo Hyt)
        as [m1 [w1 [m2 [F1 [F2 H]]]]].
      exists m1, w1, m2. split; [exact F1|]. split; [|exact H]. cbn [ofold session_step]. rewrite E3. cbn [obind]. rewrite E4. cbn [obind fst snd].
      rewrite (E5 ww (fun _ _ => eq_refl)). cbn [obind resume]. exact F2.
Qed.

Lemma static_sessions_inner (steps : list (step (P:=P))) (origin : Po) (resolution : T) :
  y_decode yo (y_encode yo origin) = Some origin -> y_decode yt (y_encode yt resolution) = Some resolution ->
  fits c (actions steps) -> Forall (scheduled n) steps -> writable c ok steps ->
  exists m m', cact_all c (actions steps) (new_map c) = Ok m /\
    session junk po tp yo yt fmt c steps origin resolution = Ok {| l_origin := origin; l_resolution := resolution; l_map := m' |} /\
    same_content c c m m' /\ min_bi m' = min_bi m /\ max_bi m' = max_bi m /\
    same_queries c c m m' /\ (dim = 2%nat -> same_grids c c m m').
Proof.
  intros Hyo Hyt Hf Hs Hsav.
  destruct (static_alike [] steps (new_map c) (new_map c) {| l_origin := origin; l_resolution := resolution; l_map := new_map c |} Hf Hs Hsav eq_refl
    (new_inv c Hc) (new_inv c Hc)) as [m [w [m' [E1 [E2 [I1 [I2 [R1 [R2 [HA [HK HS]]]]]]]]]]].
  - intros bi _ H. rewrite new_empty_b in H. contradiction.
  - intros bi _ H. rewrite new_empty_b in H. contradiction.
  - split; intros; reflexivity.
  - exact new_keeps.
  - exact new_sim.
  - exact Hyo.
  - exact Hyt.
  - cbn [app l_origin l_resolution] in *. exists m, m'. split; [exact E1|]. split; [exact E2|].
    pose proof (alike_same c Hc m w I1 I2 R1 R2 HA) as HS1.
    pose proof (sim_same dim size mn garb amin amax offs dflt mrg expd Hc Heven w m' I2 R2 HS) as HS2.
    assert (HT : twin c c m m').
    { split; [exact Hc|]. split; [reflexivity|]. exists w. split; [exact I2|]. split; [exact R2|]. split; [exact HS1|].
      apply sim_sees; assumption. }
    destruct (static_range c eq_refl _ m E1) as [M1 M2]. destruct HK as [K1 [K2 _]]. destruct HS as [_ [B1 [B2 _]]].
    assert (X1 : min_bi m' = min_bi m) by (etransitivity; [exact B1|]; etransitivity; [exact K1|]; symmetry; exact M1).
    assert (X2 : max_bi m' = max_bi m) by (etransitivity; [exact B2|]; etransitivity; [exact K2|]; symmetry; exact M2).
    split.
    { destruct HS1 as [A1 A2], HS2 as [A3 A4]. split; [intros bi sl; rewrite A1; apply A3|intros i j v; rewrite A2; apply A4]. }
    split; [exact X1|]. split; [exact X2|].
    split; [apply (reached_queries c c Hc (actions steps)); assumption|].
    intros H2. apply (reached_grids c c Hc ltac:(discriminate) (actions steps)); assumption.
Qed.
End Static.

Lemma static_sessions {P Po T : Type} (junk : list Z -> nat -> list Z) (po : codec Po) (tp : codec T) (yo : converter Po)
  (yt : converter T) (fmt : format P) (ok : P -> Prop) (len : nat) (c : config P) (steps : list (step (P:=P)))
  (origin : Po) (resolution : T) :
  codec_ok po -> codec_ok tp -> format_ok fmt ok len -> f_count fmt = Z.of_nat len ->
  config_ok c -> kindc c = Static -> (0 < dimc c)%nat -> Z.even (nth 0 (minc c) 0) = true ->
  Forall (fun z => 0 <= z < 2 ^ 64) (sizec c) -> int_index (minc c) -> int_index (static_max (sizec c) (minc c)) ->
  y_decode yo (y_encode yo origin) = Some origin -> y_decode yt (y_encode yt resolution) = Some resolution ->
  fits c (actions steps) -> Forall (scheduled (bin_count (dimc c))) steps -> writable c ok steps ->
  exists m m', cact_all c (actions steps) (new_map c) = Ok m /\
    session junk po tp yo yt fmt c steps origin resolution = Ok {| l_origin := origin; l_resolution := resolution; l_map := m' |} /\
    same_content c c m m' /\ min_bi m' = min_bi m /\ max_bi m' = max_bi m /\
    same_queries c c m m' /\ (dimc c = 2%nat -> same_grids c c m m').
Proof.
  intros Hpo Htp Hfmt Hcount Hc Hk Hdim Hev Hsz Hmn Hmx Hyo Hyt Hf Hs Hw.
  destruct c as [dim k size mn garb am ax offs df mg ex]. cbn [kindc] in Hk. subst k. cbn [dimc sizec minc] in *.
  exact (static_sessions_inner junk po tp yo yt fmt ok len Hpo Htp Hfmt Hcount dim size mn garb am ax offs df mg ex Hc Hdim Hev Hsz Hmn Hmx
           steps origin resolution Hyo Hyt Hf Hs Hw).
Qed.
