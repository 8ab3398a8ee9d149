(** Sessions do not change the map. *)
From Coq Require Import String.
From Verif Require Import Base SeqModel IndexModel OctreeSpec MapModel BackendModel SysModel SysSpec SysFacts MapLifeFacts GridFacts
  ConvModel ConvSpec ConvFacts InsertModel SerialModel SerialSpec SerialFacts ThreadModel ThreadSpec FileModel FileFacts
  YamlModel YamlSpec YamlFacts QuerySpec QueryFacts QueryTop SessionModel SessionSpec.
Open Scope Z_scope.

Lemma actions_app {P : Type} (a b : list (step (P:=P))) : actions (a ++ b) = actions a ++ actions b.
Proof. induction a as [|[x| |] a IH]; cbn [actions app]; rewrite ?IH; reflexivity. Qed.

Section Started.
Context {P : Type}.
Variable c : config P.
Hypothesis Hc : config_ok c.
(** Whatever follows, a program that begins with an insertion has a bundle. *)
Lemma started (bi : idx) (f : P -> P) (later : list (step (P:=P))) :
  fits c (actions (Do (Modify bi f) :: later)) -> savable c (fun _ => True) (Do (Modify bi f) :: later).
Proof.
  intros Hf before o after m E Hrun. destruct before as [|b before].
  - cbn [app] in E. injection E as <- _. exact I.
  - cbn [app] in E. injection E as <- E. subst later. cbn [actions] in Hf, Hrun. rewrite actions_app in Hf.
    set (l1 := Modify bi f :: actions before) in *.
    assert (Hf1 : fits c l1).
    { change (Modify bi f :: actions before ++ actions (o :: after)) with (l1 ++ actions (o :: after)) in Hf.
      unfold fits in *. rewrite expansions_app in Hf. apply Forall_app in Hf.
      pose proof (expansions_nonneg (actions (o :: after))). apply (fits_weaken c (expansions l1 + expansions (actions (o :: after)))); [lia|apply Hf]. }
    destruct (run_spec c Hc l1 Hf1) as [m0 [E0 [HI [HR [_ [Hn _]]]]]]. rewrite Hrun in E0. injection E0 as <-.
    assert (Hu : usable c 0 bi).
    { inversion Hf1 as [|? ? H _]; subst. cbn [act_fits] in H. pose proof (expansions_nonneg l1). fold l1 in H. eapply usable_le; [|exact H]. lia. }
    assert (Hb : exists bi sl, has_bundle c m bi sl).
    { exists bi. apply (has_b_iff c Hc m bi HI HR). pose proof HI as [_ [Hsh _]]. split.
      - rewrite Hsh. apply (usable_bdom c Hc 0); [lia|exact Hu].
      - apply (Hn bi (Modify bi f)); [left; reflexivity|apply (usable_bdom c Hc 0); [lia|exact Hu]|reflexivity]. }
    destruct o; auto.
Qed.

End Started.

Section Sessions.
Variable junk : list Z -> nat -> list Z.
Context {P Po T : Type}.
Variable po : codec Po.
Variable tp : codec T.
Variable yo : converter Po.
Variable yt : converter T.
Variable fmt : format P.
Variable ok : P -> Prop.
Variable len : nat.
Hypothesis Hpo : codec_ok po.
Hypothesis Htp : codec_ok tp.
Hypothesis Hfmt : format_ok fmt ok len.
Hypothesis Hcount : f_count fmt = Z.of_nat len.
Variable c : config P.
Hypothesis Hc : config_ok c.
Hypothesis Hk : kindc c = Dynamic.
Hypothesis Hmin : aminc c = cw_min.
Hypothesis Hmax : amaxc c = cw_max.
Hypothesis Hdim : (0 < dimc c)%nat.
Notation n := (bin_count (dimc c)).

Lemma alike_trans (a b d : cmap c) : alike c a b -> alike c b d -> alike c a d.
Proof.
  intros [A1 A2] [B1 B2]. split.
  - intros bi. rewrite (A1 bi). apply B1.
  - intros i j Hij. rewrite (A2 i j Hij). apply B2, Hij.
Qed.

Lemma restores_alike (m m' : cmap c) : cInv c m -> restores c m m' -> alike c m m'.
Proof.
  intros HI [HI' [_ [_ [_ [Hd Hb]]]]]. split.
  - intros bi. unfold has_b. pose proof HI as [_ [-> _]]. pose proof HI' as [_ [-> _]].
    split; intros [A B]; (split; [exact A|]); rewrite (Hb bi A) in *; destruct (cbget c m bi); try contradiction; discriminate.
  - intros i j Hij. symmetry. apply Hd; exact Hij.
Qed.
Lemma restores_region (k : Z) (m m' : cmap c) : region c k m -> restores c m m' -> region c k m'.
Proof.
  intros HR [_ [_ [_ [_ [_ Hb]]]]] bi Hbd Hne. apply HR; [exact Hbd|]. rewrite (Hb bi Hbd) in Hne.
  destruct (cbget c m bi); [discriminate|contradiction].
Qed.

(** Values and bundles of a map that is like a savable one. *)
Lemma alike_savable (m m' : cmap c) : cInv c m -> cInv c m' -> region c 0 m -> region c 0 m' -> alike c m m' ->
  ((exists bi sl, has_bundle c m bi sl) -> map_empty c m' = false) /\
  ((forall i j v, has_value c m i j v -> ok v) -> forall i j v, has_value c m' i j v -> ok v).
Proof.
  intros I1 I2 R1 R2 HA. pose proof (alike_same c Hc m m' I1 I2 R1 R2 HA) as [Hb Hv]. split.
  - intros [bi [sl H]]. apply Hb in H.
    destruct (tight_range c Hc Hk Hmin Hmax m' I2 R2) as [_ [_ Hr]]; [exists bi, sl; exact H|].
    destruct (Hr 0%nat Hdim) as [A [B _]]. unfold map_empty. apply Z.eqb_neq. unfold INT_MAX. lia.
  - intros Hok i j v H. apply (Hok i j v). apply Hv. exact H.
Qed.

Notation world := (loaded (Po:=Po) (T:=T) c).

Lemma region_le (a b : Z) (m : cmap c) : a <= b -> region c b m -> region c a m.
Proof. intros H HR bi Hb Hne. eapply usable_le; [exact H|]. apply HR; assumption. Qed.

(** The induction: [m] is the map of the program without restarts, [x] that of the other one. *)
Lemma session_alike (before after : list (step (P:=P))) : forall (m : cmap c) (x : world),
  fits c (actions (before ++ after)) -> Forall (scheduled n) after -> savable c ok (before ++ after) ->
  cact_all c (actions before) (new_map c) = Ok m ->
  cInv c m -> cInv c (l_map x) -> region c (expansions (actions after)) m -> region c (expansions (actions after)) (l_map x) ->
  alike c m (l_map x) ->
  y_decode yo (y_encode yo (l_origin x)) = Some (l_origin x) -> y_decode yt (y_encode yt (l_resolution x)) = Some (l_resolution x) ->
  exists m1 m2, cact_all c (actions (before ++ after)) (new_map c) = Ok m1 /\
    ofold (session_step junk po tp yo yt fmt c) after x = Ok {| l_origin := l_origin x; l_resolution := l_resolution x; l_map := m2 |} /\
    cInv c m1 /\ cInv c m2 /\ region c 0 m1 /\ region c 0 m2 /\ alike c m1 m2.
Proof.
  revert before. induction after as [|o after IH]; intros before m x Hf Hs Hsav Hrun I1 I2 R1 R2 HA Hyo Hyt.
  - exists m, (l_map x). rewrite app_nil_r in *. cbn [actions expansions ofold] in *. destruct x; auto 10.
  - inversion Hs as [|? ? Ho Hs']; subst.
    assert (Eapp : before ++ o :: after = (before ++ [o]) ++ after) by (rewrite <- app_assoc; reflexivity).
    destruct o as [a|s1 s2 g|s1 s2 g nn].
    + cbn [actions] in *.
      assert (Hsplit : expansions (a :: actions after) = expansions [a] + expansions (actions after))
        by (change (a :: actions after) with ([a] ++ actions after); apply expansions_app).
      pose proof (expansions_nonneg (actions after)) as N0.
      assert (Hfa : act_fits c (expansions (a :: actions after)) a).
      { unfold fits in Hf. rewrite actions_app in Hf. cbn [actions] in Hf. rewrite expansions_app in Hf.
        apply Forall_app in Hf. destruct Hf as [_ Hf]. inversion Hf as [|? ? H _]; subst.
        pose proof (expansions_nonneg (actions before)) as N1.
        pose proof (fits_weaken c (expansions (actions before) + expansions (a :: actions after)) (expansions (a :: actions after)) [a] ltac:(lia)
          (Forall_cons _ H (Forall_nil _))) as W. inversion W; assumption. }
      destruct (alike_step c Hc _ m (l_map x) a I1 I2 R1 R2 ltac:(lia) Hfa HA) as [y1 [y2 [E1 [E2 [J1 [J2 [S1 [S2 HA']]]]]]]].
      rewrite Hsplit in S1, S2. replace (expansions [a] + expansions (actions after) - expansions [a]) with (expansions (actions after)) in S1, S2 by lia.
      assert (Hrun' : cact_all c (actions (before ++ [Do a])) (new_map c) = Ok y1).
      { rewrite actions_app. cbn [actions]. apply (run_app c (actions before) [a] m y1 Hrun). unfold cact_all, act_all. cbn [ofold].
        fold (cact c m a). rewrite E1. reflexivity. }
      rewrite Eapp in *.
      destruct (IH (before ++ [Do a]) y1 {| l_origin := l_origin x; l_resolution := l_resolution x; l_map := y2 |} Hf Hs' Hsav Hrun' J1 J2 S1 S2 HA' Hyo Hyt)
        as [m1 [m2 [F1 [F2 H]]]].
      exists m1, m2. split; [exact F1|]. split; [|exact H]. cbn [ofold session_step]. rewrite E2. cbn [obind]. exact F2.
    + cbn [actions scheduled] in *. destruct Ho as [C1 C2].
      destruct (Hsav before _ after m eq_refl Hrun) as [Hb Hv].
      pose proof (expansions_nonneg (actions after)) as N0.
      pose proof (region_le 0 _ m N0 R1) as R10. pose proof (region_le 0 _ (l_map x) N0 R2) as R20.
      destruct (alike_savable m (l_map x) I1 I2 R10 R20 HA) as [Q1 Q2].
      destruct (save_load junk po tp fmt ok len Hpo Htp Hfmt Hcount c Hc Hk Hmin Hmax Hdim (l_map x) I2 R20 (Q2 Hv) s1 s2 g (l_origin x) (l_resolution x) C1 C2 (Q1 Hb))
        as [d [m' [E1 [E2 Hr]]]].
      assert (Hrun' : cact_all c (actions (before ++ [Restart s1 s2 g])) (new_map c) = Ok m).
      { rewrite actions_app. cbn [actions]. rewrite app_nil_r. exact Hrun. }
      rewrite Eapp in *.
      destruct (IH (before ++ [Restart s1 s2 g]) m {| l_origin := l_origin x; l_resolution := l_resolution x; l_map := m' |} Hf Hs' Hsav Hrun' I1 (proj1 Hr) R1
        (restores_region _ _ _ R2 Hr) (alike_trans m (l_map x) m' HA (restores_alike (l_map x) m' I2 Hr)) Hyo Hyt)
        as [m1 [m2 [F1 [F2 H]]]].
      exists m1, m2. split; [exact F1|]. split; [|exact H]. cbn [ofold session_step]. rewrite E1. cbn [obind fst snd]. rewrite E2.
      cbn [obind resume]. exact F2.
    + cbn [actions scheduled] in *. destruct Ho as [C1 C2].
      pose proof (Hsav before _ after m eq_refl Hrun) as Hv. cbn beta iota in Hv.
      pose proof (expansions_nonneg (actions after)) as N0.
      pose proof (region_le 0 _ m N0 R1) as R10. pose proof (region_le 0 _ (l_map x) N0 R2) as R20.
      destruct (alike_savable m (l_map x) I1 I2 R10 R20 HA) as [_ Q2].
      destruct (yaml_restores junk fmt ok len Hfmt Hcount yo yt c s1 s2 g (l_origin x) (l_origin x) (l_resolution x) (l_resolution x) nn (l_map x)
        Hyo Hyt Hc Hk Hmin Hmax Hdim I2 R20 (Q2 Hv) C1 C2) as [w [files [m' [E1 [E2 [E3 Hr]]]]]].
      assert (Hrun' : cact_all c (actions (before ++ [RestartYaml s1 s2 g nn])) (new_map c) = Ok m).
      { rewrite actions_app. cbn [actions]. rewrite app_nil_r. exact Hrun. }
      rewrite Eapp in *.
      destruct (IH (before ++ [RestartYaml s1 s2 g nn]) m {| l_origin := l_origin x; l_resolution := l_resolution x; l_map := m' |} Hf Hs' Hsav Hrun' I1 (proj1 Hr) R1
        (restores_region _ _ _ R2 Hr) (alike_trans m (l_map x) m' HA (restores_alike (l_map x) m' I2 Hr)) Hyo Hyt)
        as [m1 [m2 [F1 [F2 H]]]].
      exists m1, m2. split; [exact F1|]. split; [|exact H]. cbn [ofold session_step]. rewrite E1. cbn [obind]. rewrite E2. cbn [obind fst snd].
      rewrite (E3 w (fun _ _ => eq_refl)). cbn [obind resume]. exact F2.
Qed.

Lemma sessions (steps : list (step (P:=P))) (origin : Po) (resolution : T) :
  y_decode yo (y_encode yo origin) = Some origin -> y_decode yt (y_encode yt resolution) = Some resolution ->
  fits c (actions steps) -> Forall (scheduled n) steps -> savable c ok steps ->
  exists m m', cact_all c (actions steps) (new_map c) = Ok m /\
    session junk po tp yo yt fmt c steps origin resolution = Ok {| l_origin := origin; l_resolution := resolution; l_map := m' |} /\
    same_content c c m m' /\ min_bi m' = min_bi m /\ max_bi m' = max_bi m /\
    same_queries c c m m' /\ (dimc c = 2%nat -> same_grids c c m m').
Proof.
  intros Hyo Hyt Hf Hs Hsav.
  destruct (session_alike [] steps (new_map c) {| l_origin := origin; l_resolution := resolution; l_map := new_map c |} Hf Hs Hsav eq_refl
    (new_inv c Hc) (new_inv c Hc)) as [m [m' [E1 [E2 [I1 [I2 [R1 [R2 HA]]]]]]]].
  - intros bi _ H. rewrite new_empty_b in H. contradiction.
  - intros bi _ H. cbn [l_map] in H. rewrite new_empty_b in H. contradiction.
  - split; intros; reflexivity.
  - exact Hyo.
  - exact Hyt.
  - cbn [app l_origin l_resolution] in *. exists m, m'. split; [exact E1|]. split; [exact E2|].
    assert (HS : same_content c c m m') by (apply alike_same; assumption).
    assert (HT : twin c c m m') by (apply twin_intact; assumption || reflexivity).
    destruct (alike_range c Hc Hk Hmin Hmax m m' I1 I2 R1 R2 HA) as [X1 X2].
    split; [exact HS|]. split; [exact X1|]. split; [exact X2|].
    split; [apply (reached_queries c c Hc (actions steps)); assumption|].
    intros H2. apply (reached_grids c c Hc (fun _ => conj Hmin Hmax) (actions steps)); assumption.
Qed.
End Sessions.
