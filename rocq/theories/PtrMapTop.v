(** Pointers of dynamic maps over whole histories. *)
From Verif Require Import Base SeqModel IndexModel IndexFacts OctreeSpec OctreeModel MapModel MapFacts MapHist BackendModel BackendFacts SysModel SysSpec SysFacts ConvFacts SeqFacts.
From Verif Require Import TreeHeapModel PtrMapModel PtrMapHist.
Open Scope Z_scope.

Section Top.
Context {P : Type}.
Variable c : config P.
Hypothesis Hc : config_ok c.
Hypothesis Hk : kindc c = Dynamic.

Lemma usable_range (bi : idx) : usable c 0 bi -> in_tree_range (dimc c) bi.
Proof.
  intros [HL H]. rewrite Hk in H. split; [exact HL|]. eapply Forall_impl; [|exact H]. cbn. intros z Hz. lia.
Qed.
Lemma cell_range (bi : idx) (i : nat) : usable c 0 bi -> (i < 2 ^ dimc c)%nat -> in_tree_range (dimc c) (generate_index bi i).
Proof.
  intros Hu Hi. destruct (bundle_cell c bi i Hu Hi) as [_ [HL H]]. rewrite Hk in H. split; [exact HL|exact H].
Qed.
Lemma offsets_length : Forall (fun o => length o = dimc c) (offsetsc c).
Proof. apply Forall_forall. intros o Ho. apply (ok_sound c Hc). exact Ho. Qed.
Lemma fits_lengths (l : list (map_action (P:=P))) : fits c l -> Forall (idx_of (dimc c)) l.
Proof.
  unfold fits. intros H. apply Forall_forall. rewrite Forall_forall in H. intros a Ha. specialize (H a Ha).
  destruct a as [bi f|bi|]; cbn [act_fits idx_of] in *; [exact (proj1 H)|exact (proj1 H)|exact I].
Qed.
Lemma fits_prefix (l1 l2 : list (map_action (P:=P))) : fits c (l1 ++ l2) -> fits c l1.
Proof.
  unfold fits. rewrite expansions_app, Forall_app. intros [H _]. pose proof (expansions_nonneg l2) as N.
  eapply Forall_impl; [|exact H]. intros [bi f|bi|] Ha; cbn [act_fits] in *; [|destruct Ha as [A B]; split; [exact A|intros K; specialize (B K)]|exact I];
  (eapply usable_le; [|eassumption]; lia).
Qed.

(** State after a history: the bundle behind a pointer and the distributions behind its slots. *)
Lemma run_state (l : list (map_action (P:=P))) :
  fits c l ->
  exists m s, cact_all c l (new_map c) = Ok m /\ hrun c l = Ok s /\ pointing c m s /\
    forall bi b i, usable c 0 bi -> bundle_pointer s bi = Ok (Some b) -> (i < 2 ^ dimc c)%nat ->
      behind s b i = Ok (Some (apply_changes (changes l i (generate_index bi i)) (defaultc c))) /\
      exists d, slot_at (bmem s) b i = Ok (Some d) /\ at_cell s i (generate_index bi i) d.
Proof.
  intros Hf. assert (HN : bin_count (dimc c) = (2 ^ dimc c)%nat) by apply two_pow_spec.
  destruct (run_spec c Hc l Hf) as [m [E [HI [HR [HC _]]]]].
  pose proof (run_seen c l Hk offsets_length (fits_lengths l Hf)) as RS. rewrite E in RS. destruct RS as [s [ES [HS HP]]].
  exists m, s. split; [exact E|]. split; [exact ES|]. split; [exact HP|]. intros bi b i Hu Hb Hi.
  destruct HS as [_ [_ [_ [_ HS]]]]. specialize (HS bi (proj1 Hu)).
  rewrite (cbundle_spec c Hc m bi HI Hu) in HS. destruct (cbget c m bi) as [bu|] eqn:Eb; [|congruence].
  destruct HS as [b' [Hb' HB]]. assert (b' = b) by congruence. subst b'.
  destruct (cmap_bundles c Hc m HI HR) as [es [_ [_ [Hin Hes]]]].
  destruct (Hes bi bu i) as [Hs [Hd [v [Hv Hsv]]]]; [apply Hin; auto|rewrite HN; exact Hi|].
  assert (Hn : nth_error (slots bu) i = Some (Some (generate_index bi i))).
  { rewrite Hs. unfold full_slots. rewrite nth_error_map. rewrite (nth_error_nth' _ 0%nat) by (rewrite seq_length, HN; exact Hi). rewrite seq_nth by (rewrite HN; exact Hi). reflexivity. }
  split.
  - rewrite HB, Hn, Hsv. rewrite <- (HC i _ Hd). unfold ccontent, content. unfold cdget in Hv. rewrite Hv. reflexivity.
  - destruct HP as [HP _]. apply (HP bi b bu); [apply Hu|exact Hb| |exact Hn]. rewrite (cbundle_spec c Hc m bi HI Hu), Eb. reflexivity.
Qed.

Lemma pointers_denote (l1 l2 : list (map_action (P:=P))) :
  fits c (l1 ++ l2) ->
  exists s1 s2, hrun c l1 = Ok s1 /\ hrun c (l1 ++ l2) = Ok s2 /\
    forall bi b, usable c 0 bi -> bundle_pointer s1 bi = Ok (Some b) ->
      bundle_pointer s2 bi = Ok (Some b) /\
      (forall bi', usable c 0 bi' -> bundle_pointer s2 bi' = Ok (Some b) -> bi' = bi) /\
      forall i, (i < 2 ^ dimc c)%nat ->
        behind s2 b i = Ok (Some (apply_changes (changes (l1 ++ l2) i (generate_index bi i)) (defaultc c))) /\
        exists d, slot_at (bmem s1) b i = Ok (Some d) /\ slot_at (bmem s2) b i = Ok (Some d) /\
          forall bi' b' i', usable c 0 bi' -> bundle_pointer s2 bi' = Ok (Some b') -> (i' < 2 ^ dimc c)%nat ->
            (slot_at (bmem s2) b' i' = Ok (Some d) <-> i' = i /\ generate_index bi' i' = generate_index bi i).
Proof.
  intros Hf. destruct (run_state l1 (fits_prefix l1 l2 Hf)) as [m1 [s1 [_ [E1 [P1 S1]]]]].
  destruct (run_state (l1 ++ l2) Hf) as [m2 [s2 [_ [E2 [P2 S2]]]]].
  pose proof (run_ext c l1 l2 s1 s2 Hk offsets_length (fits_lengths _ Hf) E1 E2) as X.
  exists s1, s2. split; [exact E1|]. split; [exact E2|]. intros bi b Hu Hb.
  assert (Hb2 : bundle_pointer s2 bi = Ok (Some b)) by (eapply ext_pointer; [exact X|exact Hb]).
  split; [exact Hb2|]. split.
  - intros bi' Hu' Hb'. apply (proj2 (proj2 P2) bi' bi b); [apply usable_range; exact Hu'|apply usable_range; exact Hu|exact Hb'|exact Hb2].
  - intros i Hi. destruct (S2 bi b i Hu Hb2 Hi) as [V2 [d [D2 C2]]]. destruct (S1 bi b i Hu Hb Hi) as [_ [d1 [D1 C1]]].
    split; [exact V2|]. pose proof (at_cell_ext _ _ _ _ _ X C1) as C1'.
    assert (Same : d1 = d).
    { destruct C1' as [x [Hx Ex]]. destruct C2 as [y [Hy Ey]]. congruence. }
    subst d1. exists d. split; [exact D1|]. split; [exact D2|]. intros bi' b' i' Hu' Hb' Hi'.
    destruct (S2 bi' b' i' Hu' Hb' Hi') as [_ [d' [D' C']]]. rewrite D'. split.
    + intros E. injection E as ->. apply (proj1 (proj2 P2) i' i _ _ d); [apply cell_range; assumption|apply cell_range; assumption|exact C'|exact C2].
    + intros [-> Eg]. rewrite Eg in C'. destruct C' as [x [Hx Ex]]. destruct C2 as [y [Hy Ey]]. congruence.
Qed.
End Top.
