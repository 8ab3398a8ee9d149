(** The index range of dynamic maps for any minimum and maximum of indices. *)
From Coq Require Import Permutation.
From Verif Require Import Base SeqModel SeqFacts IndexModel IndexFacts OctreeSpec OctreeModel OctreeFacts
  MapModel MapFacts MapHist BackendModel BackendFacts SysModel SysSpec SysFacts InsertFacts MapLifeFacts RangeSpec.
Open Scope Z_scope.

Section Range.
Context {P : Type}.
Variable c : config P.
Hypothesis Hc : config_ok c.
Hypothesis Hk : kindc c = Dynamic.

(** The range is the minimum and maximum over the bundles, taken in the order of their allocation. *)
Definition folded (m : cmap c) : Prop :=
  exists order, NoDup order /\ (forall bi, In bi order <-> has_b c m bi) /\
    min_bi m = fold_left (aminc c) order (repeat INT_MAX (dimc c)) /\
    max_bi m = fold_left (amaxc c) order (repeat INT_MIN (dimc c)).

Lemma folded_step (m m' : cmap c) (bi : idx) :
  Inv (mergec c) merge_bundle (bdc c) (bbc c) (dist_laws (mergec c) (dimc c) (kindc c)) (bundle_laws (dimc c) (kindc c)) (dimc c) m ->
  cokidx c (cshape c m) bi -> cshape c m' = cshape c m ->
  (forall bi', cbdom c (cshape c m) bi' -> (cbget c m' bi' <> None <-> bi' = bi \/ cbget c m bi' <> None)) ->
  match cbget c m bi with
  | Some _ => min_bi m' = min_bi m /\ max_bi m' = max_bi m
  | None => match kindc c with
            | Static => min_bi m' = min_bi m /\ max_bi m' = max_bi m
            | Dynamic => min_bi m' = aminc c (min_bi m) bi /\ max_bi m' = amaxc c (max_bi m) bi
            end
  end -> folded m -> folded m'.
Proof.
  intros HI Hok Hsh Hb Hm [order [ND [Hin [E1 E2]]]].
  assert (Hbd : cbdom c (cshape c m) bi) by apply Hok.
  assert (Hhas : forall x, has_b c m' x <-> x = bi \/ has_b c m x).
  { intros x. unfold has_b. rewrite Hsh. split.
    - intros [A B]. apply Hb in B; [|exact A]. destruct B as [->|B]; auto.
    - intros [->|[A B]]; [split; [exact Hbd|]; apply Hb; auto|split; [exact A|]; apply Hb; auto]. }
  destruct (cbget c m bi) as [b|] eqn:Eb.
  - exists order. destruct Hm as [-> ->]. split; [exact ND|]. split; [|split; assumption].
    intros x. rewrite Hin, Hhas. split; [auto|]. intros [->|H]; [split; [exact Hbd|congruence]|exact H].
  - exists (order ++ [bi]). rewrite !fold_left_app. cbn [fold_left]. rewrite <- E1, <- E2.
    assert (Hm' : min_bi m' = aminc c (min_bi m) bi /\ max_bi m' = amaxc c (max_bi m) bi).
    { destruct (kind_cases (kindc c)) as [K|K]; [congruence|]. revert Hm. rewrite K at 1. auto. }
    split; [|split; [|exact Hm']].
    + apply (Permutation_NoDup (Permutation_cons_append order bi)). constructor; [|exact ND].
      intros Hx. apply Hin in Hx. destruct Hx as [_ Hx]. contradiction.
    + intros x. rewrite in_app_iff, Hin, Hhas. cbn [In]. intuition congruence.
Qed.

Lemma act_okay (k : Z) (m : cmap c) (a : map_action (P:=P)) :
  cInv c m -> 0 <= k - expansions [a] -> region c k m -> act_fits c k a ->
  act_ok (mergec c) merge_bundle (bdc c) (bbc c) (dist_laws (mergec c) (dimc c) (kindc c)) (bundle_laws (dimc c) (kindc c))
    (dimc c) (kindc c) (offsetsc c) m a.
Proof.
  intros HI Hk1 HR Hf. pose proof HI as [HA [Hsh Hv]].
  assert (Hk0 : 0 <= k) by (destruct a; cbn [expansions] in Hk1; lia).
  destruct a as [bi f|bi|]; cbn [act_ok act_fits] in *.
  - fold (cshape c m). rewrite Hsh. apply (usable_okidx c Hc k); assumption.
  - intros Hvb. fold (cshape c m). rewrite Hsh. fold (cvalid c m bi) in Hvb. rewrite Hv in Hvb.
    destruct Hf as [HL Hf]. apply (usable_okidx c Hc 0); [lia|].
    eapply usable_le; [exact Hk0|]. apply Hf; exact Hk.
  - intros bi Hbd Hne o Ho Hvo. fold (cshape c m) in *. rewrite Hsh in *.
    fold (cvalid c m (idx_add bi o)) in Hvo. rewrite Hv in Hvo.
    apply (usable_okidx c Hc (k - 1)); [cbn [expansions] in Hk1; lia|].
    apply neighbour_usable; [exact Hc| |exact Ho|exact Hvo]. apply HR; assumption.
Qed.

Lemma folded_hist (l : list (map_action (P:=P))) : forall (k : Z) (m m' : cmap c),
  cInv c m -> 0 <= k - expansions l -> region c k m -> Forall (act_fits c k) l -> folded m ->
  cact_all c l m = Ok m' -> folded m'.
Proof.
  induction l as [|a l IH]; intros k m m' HI Hk1 HR HF HQ E.
  - unfold cact_all, act_all in E. cbn [ofold] in E. injection E as <-. exact HQ.
  - inversion HF as [|? ? Hfa HFl]; subst.
    assert (Hsplit : expansions (a :: l) = expansions [a] + expansions l)
      by (change (a :: l) with ([a] ++ l); apply expansions_app).
    pose proof (expansions_nonneg l) as Hn0.
    destruct (cact_spec c Hc k m a HI ltac:(lia) HR Hfa) as [m1 [E1 [HI1 [HR1 _]]]].
    assert (Hok := act_okay k m a HI ltac:(lia) HR Hfa).
    pose proof HI as [[I1 [I2 [I3 _]]] _].
    destruct (act_spec _ _ _ _ _ _ _ _ _ (aminc c) (amaxc c) _ _ folded folded_step (ok_default c Hc) m a
                (conj I1 (conj I2 (conj I3 HQ))) Hok) as [m2 [E2 [[_ [_ [_ HQ2]]] _]]].
    assert (m2 = m1) by (unfold cact in E1; congruence). subst m2.
    unfold cact_all, act_all in E. cbn [ofold] in E. fold (cact c m a) in E. rewrite E1 in E. cbn [obind] in E.
    apply (IH (k - expansions [a]) m1); [exact HI1|lia|exact HR1| |exact HQ2|exact E].
    apply Forall_forall. rewrite Forall_forall in HFl. intros x Hx. specialize (HFl x Hx).
    assert (k - expansions [a] <= k) by (pose proof (expansions_nonneg [a]); lia).
    destruct x; cbn [act_fits] in *; [eapply usable_le; eassumption| |exact I].
    destruct HFl as [A B]. split; [exact A|]. intros C. eapply usable_le; [eassumption|apply B; exact C].
Qed.

Lemma folded_new : folded (new_map c).
Proof.
  exists []. destruct (new_range c Hk) as [-> ->]. split; [constructor|]. split; [|split; reflexivity].
  intros bi. split; [intros []|]. intros [_ H]. rewrite new_empty_b in H. contradiction.
Qed.

Lemma range_folded (l : list (map_action (P:=P))) : fits c l ->
  exists m bs order, cact_all c l (new_map c) = Ok m /\ cbundles c m = Ok bs /\ Permutation order (map fst bs) /\
    min_bi m = fold_left (aminc c) order (repeat INT_MAX (dimc c)) /\
    max_bi m = fold_left (amaxc c) order (repeat INT_MIN (dimc c)) /\
    forall b, In b order -> length b = dimc c /\ Forall (fun z => -32768 <= z <= 32767) b.
Proof.
  intros Hf. destruct (run_spec c Hc l Hf) as [m [E [HI [HR _]]]].
  destruct (cbundles_spec c m HI) as [bs [Eb [ND Hbs]]].
  assert (HQ : folded m).
  { refine (folded_hist l (expansions l) (new_map c) m (new_inv c Hc) ltac:(lia) _ Hf folded_new E).
    intros bi _ H. rewrite new_empty_b in H. contradiction. }
  destruct HQ as [order [NO [Hin [E1 E2]]]]. exists m, bs, order.
  split; [exact E|]. split; [exact Eb|]. split; [|split; [exact E1|split; [exact E2|]]].
  - apply NoDup_Permutation; [exact NO|exact ND|]. intros x. rewrite Hin. symmetry. apply cbundles_in; assumption.
  - intros b Hb. apply Hin in Hb. destruct Hb as [Hbd Hb]. destruct HI as [_ [Hsh _]]. rewrite Hsh in Hbd.
    specialize (HR b Hbd Hb). unfold usable in HR. rewrite Hk in HR. destruct HR as [L F]. split; [exact L|].
    revert F. apply Forall_impl. intros z Hz. lia.
Qed.
End Range.

(** ** The lexicographic minimum and maximum *)
Lemma lex_before (a b : idx) : length a = length b -> (lex_ltb a b = true <-> comes_before a b).
Proof.
  revert b; induction a as [|x a IH]; intros [|y b] L; cbn [length] in L; try lia.
  - cbn. split; [discriminate|]. intros [p [u [v [s [t [H _]]]]]]. destruct p; discriminate.
  - cbn [lex_ltb]. rewrite orb_true_iff, andb_true_iff, Z.ltb_lt, Z.eqb_eq, (IH b ltac:(lia)). split.
    + intros [H|[-> [p [u [v [s [t [-> [-> H]]]]]]]]].
      * exists [], x, y, a, b. auto.
      * exists (y :: p), u, v, s, t. auto.
    + intros [p [u [v [s [t [Ha [Hb H]]]]]]]. destruct p as [|w p]; cbn [app] in Ha, Hb.
      * injection Ha as -> ->. injection Hb as -> ->. left; exact H.
      * injection Ha as -> ->. injection Hb as -> ->. right. split; [reflexivity|]. exists p, u, v, s, t. auto.
Qed.

Lemma lex_min_fold (n : nat) (order : list idx) : forall a,
  length a = n -> (forall b, In b order -> length b = n) ->
  let m := fold_left lex_min order a in
  length m = n /\ (m = a \/ In m order) /\ lex_ltb a m = false /\ forall b, In b order -> lex_ltb b m = false.
Proof.
  induction order as [|x order IH]; intros a La Lo; cbn [fold_left].
  - split; [exact La|]. split; [auto|]. split; [apply lex_irrefl|]. intros b [].
  - assert (Lx : length x = n) by (apply Lo; left; reflexivity).
    destruct (IH (lex_min a x)) as [L [A [B C]]].
    { unfold lex_min. destruct (lex_ltb x a); assumption. }
    { intros b Hb. apply Lo. right; exact Hb. }
    set (m := fold_left lex_min order (lex_min a x)) in *. cbn zeta. split; [exact L|].
    assert (T : lex_ltb a m = false /\ lex_ltb x m = false).
    { unfold lex_min in B. destruct (lex_ltb x a) eqn:E.
      - split; [|exact B]. destruct (lex_ltb a m) eqn:F; [|reflexivity]. rewrite (lex_trans x a m E F) in B. discriminate.
      - split; [exact B|]. destruct (lex_ltb x m) eqn:F; [|reflexivity].
        destruct (lex_ltb a x) eqn:G; [rewrite (lex_trans a x m G F) in B; discriminate|].
        rewrite <- (lex_total a x G E) in F. congruence. }
    split; [|split; [apply T|]].
    + destruct A as [A|A]; [|right; right; exact A]. rewrite A. unfold lex_min. destruct (lex_ltb x a); [right; left; reflexivity|left; reflexivity].
    + intros b [<-|Hb]; [apply T|apply C; exact Hb].
Qed.

Lemma lex_max_fold (n : nat) (order : list idx) : forall a,
  length a = n -> (forall b, In b order -> length b = n) ->
  let m := fold_left lex_max order a in
  length m = n /\ (m = a \/ In m order) /\ lex_ltb m a = false /\ forall b, In b order -> lex_ltb m b = false.
Proof.
  induction order as [|x order IH]; intros a La Lo; cbn [fold_left].
  - split; [exact La|]. split; [auto|]. split; [apply lex_irrefl|]. intros b [].
  - assert (Lx : length x = n) by (apply Lo; left; reflexivity).
    destruct (IH (lex_max a x)) as [L [A [B C]]].
    { unfold lex_max. destruct (lex_ltb a x); assumption. }
    { intros b Hb. apply Lo. right; exact Hb. }
    set (m := fold_left lex_max order (lex_max a x)) in *. cbn zeta. split; [exact L|].
    assert (T : lex_ltb m a = false /\ lex_ltb m x = false).
    { unfold lex_max in B. destruct (lex_ltb a x) eqn:E.
      - split; [|exact B]. destruct (lex_ltb m a) eqn:F; [|reflexivity]. rewrite (lex_trans m a x F E) in B. discriminate.
      - split; [exact B|]. destruct (lex_ltb m x) eqn:F; [|reflexivity].
        destruct (lex_ltb x a) eqn:G; [rewrite (lex_trans m x a F G) in B; discriminate|].
        rewrite <- (lex_total x a G E) in B. congruence. }
    split; [|split; [apply T|]].
    + destruct A as [A|A]; [|right; right; exact A]. rewrite A. unfold lex_max. destruct (lex_ltb a x); [right; left; reflexivity|left; reflexivity].
    + intros b [<-|Hb]; [apply T|apply C; exact Hb].
Qed.

Lemma lex_first (a b : idx) : lex_ltb b a = false -> length a = length b -> nth 0 a 0 <= nth 0 b 0.
Proof.
  destruct a as [|x a], b as [|y b]; cbn [lex_ltb nth length]; intros H L; lia.
Qed.
Lemma lex_min_empty (n : nat) (order : list idx) : (0 < n)%nat ->
  (forall b, In b order -> length b = n /\ Forall (fun z => -32768 <= z <= 32767) b) -> order <> [] ->
  In (fold_left lex_min order (repeat INT_MAX n)) order /\ In (fold_left lex_max order (repeat INT_MIN n)) order.
Proof.
  intros Hn Ho Hne. destruct order as [|b0 order]; [congruence|]. set (l := b0 :: order) in *.
  assert (H0 : In b0 l) by (left; reflexivity). destruct (Ho b0 H0) as [L0 F0].
  assert (R : -32768 <= nth 0 b0 0 <= 32767).
  { rewrite Forall_forall in F0. apply F0. apply nth_In. lia. }
  destruct (lex_min_fold n l (repeat INT_MAX n) ltac:(apply repeat_length) ltac:(intros b Hb; apply Ho; exact Hb)) as [L [A [_ B]]].
  destruct (lex_max_fold n l (repeat INT_MIN n) ltac:(apply repeat_length) ltac:(intros b Hb; apply Ho; exact Hb)) as [L' [A' [_ B']]].
  split.
  - destruct A as [A|A]; [|exact A]. exfalso. specialize (B b0 H0). apply lex_first in B; [|lia].
    rewrite A, nth_repeat_lt in B by exact Hn. unfold INT_MAX in B. lia.
  - destruct A' as [A'|A']; [|exact A']. exfalso. specialize (B' b0 H0). apply lex_first in B'; [|lia].
    rewrite A', nth_repeat_lt in B' by exact Hn. unfold INT_MIN in B'. lia.
Qed.

Lemma lex_range {P : Type} (c : config P) (l : list (map_action (P:=P))) :
  config_ok c -> aminc c = lex_min -> amaxc c = lex_max -> kindc c = Dynamic -> (0 < dimc c)%nat -> fits c l ->
  exists m bs, cact_all c l (new_map c) = Ok m /\ cbundles c m = Ok bs /\
    (bs <> [] ->
       In (min_bi m) (map fst bs) /\ In (max_bi m) (map fst bs) /\
       forall b, In b (map fst bs) ->
         (b = min_bi m \/ comes_before (min_bi m) b) /\ (b = max_bi m \/ comes_before b (max_bi m)) /\
         nth 0 (min_bi m) 0 <= nth 0 b 0 <= nth 0 (max_bi m) 0) /\
    (bs = [] -> min_bi m = repeat INT_MAX (dimc c) /\ max_bi m = repeat INT_MIN (dimc c)) /\
    (map_empty c m = true <-> bs = []).
Proof.
  intros Hc Ha Hb Hk Hd Hf. destruct (range_folded c Hc Hk l Hf) as [m [bs [order [E [Eb [HP [E1 [E2 Ho]]]]]]]].
  rewrite Ha in E1. rewrite Hb in E2. exists m, bs. split; [exact E|]. split; [exact Eb|].
  assert (Hin : forall b, In b order <-> In b (map fst bs))
    by (intros b; split; apply Permutation_in; [exact HP|apply Permutation_sym, HP]).
  assert (Hnil : bs = [] <-> order = []).
  { split; intros ->; [apply Permutation_sym, Permutation_nil in HP; exact HP|].
    apply Permutation_nil in HP. destruct bs; [reflexivity|discriminate]. }
  assert (Ho' : forall b, In b order -> length b = dimc c) by (intros b Hx; apply Ho; exact Hx).
  destruct (lex_min_fold (dimc c) order (repeat INT_MAX (dimc c)) ltac:(apply repeat_length) Ho') as [L [_ [_ B]]].
  destruct (lex_max_fold (dimc c) order (repeat INT_MIN (dimc c)) ltac:(apply repeat_length) Ho') as [L' [_ [_ B']]].
  rewrite <- E1 in L, B. rewrite <- E2 in L', B'.
  assert (Hsome : bs <> [] -> In (min_bi m) order /\ In (max_bi m) order).
  { intros Hne. rewrite E1, E2. apply lex_min_empty; [exact Hd|exact Ho|]. rewrite <- Hnil. exact Hne. }
  split; [|split].
  - intros Hne. destruct (Hsome Hne) as [A1 A2]. split; [apply Hin, A1|]. split; [apply Hin, A2|].
    intros b Hbin. apply Hin in Hbin. specialize (B b Hbin). specialize (B' b Hbin). specialize (Ho' b Hbin).
    split; [|split; [|split; apply lex_first; congruence]].
    + destruct (lex_ltb (min_bi m) b) eqn:F; [right; apply lex_before; [congruence|exact F]|left; apply lex_total; assumption].
    + destruct (lex_ltb b (max_bi m)) eqn:F; [right; apply lex_before; [congruence|exact F]|left; apply lex_total; assumption].
  - intros He. apply Hnil in He. rewrite He in E1, E2. cbn [fold_left] in E1, E2. auto.
  - unfold map_empty. rewrite Z.eqb_eq. split.
    + intros H. destruct bs as [|e bs'] eqn:Ebs; [reflexivity|]. exfalso. rewrite <- Ebs in *.
      destruct (Hsome ltac:(rewrite Ebs; discriminate)) as [A _]. destruct (Ho _ A) as [LL F]. rewrite Forall_forall in F.
      specialize (F (nth 0 (min_bi m) 0) ltac:(apply nth_In; lia)). unfold INT_MAX in *. lia.
    + intros He. apply Hnil in He. rewrite He in E1. cbn [fold_left] in E1. rewrite E1. apply nth_repeat_lt. exact Hd.
Qed.
