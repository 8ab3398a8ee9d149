(** Lookups of bundles and scores one after another. *)
From Verif Require Import Base IndexModel IndexFacts OctreeModel OctreeSpec OctreeFacts TreeHeapSpec TreeHeapModel
  BackendFacts ShareModel ShareFacts ShareSeq ShareAlone.
Open Scope Z_scope.

Local Opaque tree_depth.
Section Lookup.
Context {D : Type}.
Variable d_new : D.
Variable d_merge : D -> D -> D.
Variable dims : nat.
Notation ranged := (in_tree_range dims).
Notation n := (2 ^ dims)%nat.
Notation gen := generate_index.
Notation shared := (shared (content D)).
Notation get := (look (V := content D)).
Notation fine := (forest (V := content D) dims).
Notation new := (@Dist D d_new).

(** All distributions are new. *)
Definition dists_new (s : shared) : Prop :=
  forall k i d e, (k < n)%nat -> ranged i -> get s (1 + k) i = Ok (Some (d, e)) -> snd e = new.
(** Entry [k] of the bundle at [bi] is the distribution of family [k]. *)
Definition filled (s : shared) (bi : idx) (l : list (option nat)) (k : nat) : Prop :=
  exists d, nth_error l k = Some (Some d) /\ get s (1 + k) (gen bi k) = Ok (Some (d, (gen bi k, new))).
Definition whole (s : shared) (bi : idx) : Prop :=
  exists b l, get s 0 bi = Ok (Some (b, (bi, Bundle l))) /\ length l = n /\ forall k, (k < n)%nat -> filled s bi l k.
Record state (s : shared) (known : list idx) : Prop := {
  st_forest : fine s;
  st_trees : length (trees s) = (1 + n)%nat;
  st_known : forall bi, ranged bi -> In bi known -> whole s bi;
  st_unknown : forall bi, ranged bi -> ~ In bi known -> get s 0 bi = Ok None;
  st_dists : dists_new s
}.

Lemma gen_ranged (bi : idx) (k : nat) : ranged bi -> ranged (gen bi k).
Proof. apply generate_index_in_range. Qed.

Lemma get_ok (s : shared) (t : nat) (i : idx) : fine s -> length (trees s) = (1 + n)%nat -> (t < 1 + n)%nat -> ranged i -> exists r, get s t i = Ok r.
Proof. intros H L Ht Hi. apply (look_ok dims); [exact H|lia|exact Hi]. Qed.

Lemma allocate_dist (s : shared) (k : nat) (i : idx) :
  fine s -> length (trees s) = (1 + n)%nat -> dists_new s -> (k < n)%nat -> ranged i ->
  exists s' d, alone (p_allocate_dist d_new d_merge dims k i) s = Ok (s', d) /\ fine s' /\ length (trees s') = (1 + n)%nat /\ dists_new s' /\
    get s' (1 + k) i = Ok (Some (d, (i, new))) /\
    (forall u j x, ranged j -> get s u j = Ok (Some x) -> get s' u j = Ok (Some x)) /\
    (forall j, ranged j -> get s' 0 j = get s 0 j).
Proof.
  intros HF L HD Hk Hi. destruct (get_ok s (1 + k) i HF L ltac:(lia) Hi) as [r E].
  unfold p_allocate_dist. rewrite alone_bind, (look_get s _ _ _ E). cbn [obind fst snd]. destruct r as [[d e]|]; cbn [option_map fst alone].
  - exists s, d. split; [reflexivity|]. split; [exact HF|]. split; [exact L|]. split; [exact HD|].
    split; [|split; auto]. rewrite E. destruct (look_data dims s _ _ _ _ HF Hi E) as [_ Ee]. specialize (HD k i d e Hk Hi E).
    destruct e as [j c]. cbn [fst snd] in *. congruence.
  - destruct (insert_absent (c_merge d_merge) dims s (1 + k) i new HF Hi E) as [s' [d [A [F' [L' G]]]]].
    exists s', d. split; [exact A|]. split; [exact F'|]. split; [congruence|]. split; [|split; [|split]].
    + intros k' j d' e' Hk' Hj. rewrite (G _ _ Hj). unfold same_cell. destruct (Nat.eqb_spec (1 + k) (1 + k')) as [Ek|_]; cbn [andb].
      * destruct (idx_eqb_spec i j); [intros [= <- <-]; reflexivity|apply HD; assumption].
      * apply HD; assumption.
    + rewrite (G _ _ Hi). unfold same_cell. rewrite Nat.eqb_refl, idx_eqb_refl. reflexivity.
    + intros u j x Hj Hx. rewrite (G _ _ Hj). unfold same_cell. destruct (Nat.eqb_spec (1 + k) u) as [<-|_]; cbn [andb]; [|exact Hx].
      destruct (idx_eqb_spec i j) as [<-|_]; [congruence|exact Hx].
    + intros j Hj. rewrite (G _ _ Hj). reflexivity.
Qed.

(** While the bundle at [bi] is being filled. *)
Record filling (s : shared) (known : list idx) (bi : idx) (b : nat) (k : nat) : Prop := {
  f_forest : fine s;
  f_trees : length (trees s) = (1 + n)%nat;
  f_known : forall x, ranged x -> In x known -> whole s x;
  f_unknown : forall x, ranged x -> ~ In x (bi :: known) -> get s 0 x = Ok None;
  f_dists : dists_new s;
  f_bundle : exists l, get s 0 bi = Ok (Some (b, (bi, Bundle l))) /\ length l = n /\
    (forall j, (j < k)%nat -> filled s bi l j) /\ (forall j, (k <= j)%nat -> (j < n)%nat -> nth_error l j = Some None)
}.

Lemma fill_one (s : shared) (known : list idx) (bi : idx) (b k : nat) :
  ranged bi -> ~ In bi known -> (k < n)%nat -> filling s known bi b k ->
  exists s', alone (p_fill d_new d_merge dims b k (gen bi k)) s = Ok (s', tt) /\ filling s' known bi b (S k) /\
    forall x, ranged x -> x <> bi -> get s' 0 x = get s 0 x.
Proof.
  intros Hbi Hnew Hk [HF L HK HU HD [l [Eb [Ll [Hlt Hge]]]]].
  destruct (look_data dims s 0 bi b _ HF Hbi Eb) as [Ed _].
  unfold p_fill. cbn [alone]. rewrite Ed. cbn [obind snd]. rewrite (Hge k ltac:(lia) Hk).
  rewrite alone_bind. destruct (allocate_dist s k (gen bi k) HF L HD Hk (gen_ranged bi k Hbi)) as [s1 [d [A [F1 [L1 [D1 [G1 [Keep Same]]]]]]]].
  rewrite A. cbn [obind fst snd].
  assert (Eb1 : get s1 0 bi = Ok (Some (b, (bi, Bundle l)))) by (rewrite Same by exact Hbi; exact Eb).
  set (f := fun c : content D => match c with Bundle l0 => match upd l0 k (Some d) with Some l' => Bundle l' | None => c end | Dist _ => c end).
  destruct (update_present dims s1 0 bi b (Bundle l) f (Ret tt) F1 Hbi Eb1) as [s2 [A2 [F2 [L2 G2]]]].
  exists s2. split; [rewrite A2; reflexivity|].
  destruct (upd_some l k (Some d)) as [l' U]; [lia|]. assert (Ef : f (Bundle l) = Bundle l') by (unfold f; rewrite U; reflexivity).
  rewrite Ef in G2.
  assert (Gd : forall j i, ranged i -> get s2 (1 + j) i = get s1 (1 + j) i) by (intros j i Hi; rewrite (G2 _ _ Hi); reflexivity).
  assert (Fil : forall x lx j, ranged x -> filled s x lx j -> filled s2 x lx j).
  { intros x lx j Hx [dx [X1 X2]]. exists dx. split; [exact X1|]. rewrite Gd by (apply gen_ranged; exact Hx). apply Keep; [apply gen_ranged; exact Hx|exact X2]. }
  assert (Oth : forall x, ranged x -> x <> bi -> get s2 0 x = get s 0 x).
  { intros x Hx Hne. rewrite (G2 _ _ Hx). unfold same_cell. cbn [Nat.eqb andb]. destruct (idx_eqb_spec bi x); [congruence|]. apply Same. exact Hx. }
  split; [|exact Oth]. split; [exact F2|congruence| | | |].
  - intros x Hx Hin. destruct (HK x Hx Hin) as [bx [lx [E1 [E2 E3]]]]. exists bx, lx. split; [|split; [exact E2|]].
    + rewrite Oth; [exact E1|exact Hx|]. intros ->. contradiction.
    + intros j Hj. apply Fil; [exact Hx|]. apply E3. exact Hj.
  - intros x Hx Hin. rewrite Oth; [apply HU; assumption|exact Hx|]. intros ->. apply Hin. left. reflexivity.
  - intros j i dx e Hj Hi. rewrite (Gd j i Hi). apply D1; assumption.
  - exists l'. split; [|split; [|split]].
    + rewrite (G2 _ _ Hbi). unfold same_cell. rewrite Nat.eqb_refl, idx_eqb_refl. reflexivity.
    + rewrite (upd_length _ _ _ _ U). exact Ll.
    + intros j Hj. destruct (Nat.eq_dec j k) as [->|Hne].
      * exists d. split; [rewrite (upd_nth_error _ _ _ _ _ U), Nat.eqb_refl; reflexivity|]. rewrite Gd by (apply gen_ranged; exact Hbi). exact G1.
      * destruct (Fil bi l j Hbi (Hlt j ltac:(lia))) as [dx [X1 X2]]. exists dx. split; [|exact X2].
        rewrite (upd_nth_error _ _ _ _ _ U). destruct (Nat.eqb_spec k j); [congruence|exact X1].
    + intros j Hj1 Hj2. rewrite (upd_nth_error _ _ _ _ _ U). destruct (Nat.eqb_spec k j); [lia|]. apply Hge; lia.
Qed.

Lemma fill_rest (m k : nat) (s : shared) (known : list idx) (bi : idx) (b : nat) :
  ranged bi -> ~ In bi known -> (k + m = n)%nat -> filling s known bi b k ->
  exists s', alone (p_fill_all d_new d_merge dims b k (map (gen bi) (seq k m))) s = Ok (s', tt) /\ filling s' known bi b n /\
    forall x, ranged x -> x <> bi -> get s' 0 x = get s 0 x.
Proof.
  revert k s; induction m as [|m IH]; intros k s Hbi Hnew Hkm HF; cbn [seq map p_fill_all].
  - exists s. split; [reflexivity|]. split; [replace n with k by lia; exact HF|reflexivity].
  - rewrite alone_bind. destruct (fill_one s known bi b k Hbi Hnew ltac:(lia) HF) as [s1 [A [F1 O1]]]. rewrite A. cbn [obind fst snd].
    destruct (IH (S k) s1 Hbi Hnew ltac:(lia) F1) as [s2 [A2 [F2 O2]]]. exists s2. split; [exact A2|]. split; [exact F2|].
    intros x Hx Hne. rewrite O2, O1 by assumption. reflexivity.
Qed.

Lemma look_up (s : shared) (known : list idx) (bi : idx) : ranged bi -> state s known ->
  exists s' b, alone (p_getAllocate d_new d_merge dims bi (map (gen bi) (seq 0 n))) s = Ok (s', b) /\
    state s' (bi :: known) /\ (exists e, get s' 0 bi = Ok (Some (b, e))) /\
    (forall x e, ranged x -> get s 0 x = Ok (Some e) -> get s' 0 x = Ok (Some e)).
Proof.
  intros Hbi [HF L HK HU HD]. unfold p_getAllocate. destruct (in_dec (list_eq_dec Z.eq_dec) bi known) as [Hin|Hin].
  - destruct (HK bi Hbi Hin) as [b [l [Eb [Ll Hl]]]]. rewrite alone_bind, (look_get s _ _ _ Eb). cbn [obind fst snd option_map alone].
    exists s, b. split; [reflexivity|]. split; [|split; [eexists; exact Eb|auto]]. split; auto.
    + intros x Hx [<-|H]; [apply HK; assumption|apply HK; assumption].
    + intros x Hx Hn. apply HU; [exact Hx|]. intros H; apply Hn; right; exact H.
  - rewrite alone_bind, (look_get s _ _ _ (HU bi Hbi Hin)). cbn [obind fst snd option_map].
    rewrite map_length, seq_length, alone_bind.
    destruct (insert_absent (c_merge d_merge) dims s 0 bi (Bundle (repeat None n)) HF Hbi (HU bi Hbi Hin)) as [s1 [b [A [F1 [L1 G]]]]].
    rewrite A. cbn [obind fst snd]. rewrite alone_bind.
    assert (Gd : forall k i, ranged i -> get s1 (1 + k) i = get s (1 + k) i) by (intros k i Hi; rewrite (G _ _ Hi); reflexivity).
    assert (Oth : forall x, ranged x -> x <> bi -> get s1 0 x = get s 0 x).
    { intros x Hx Hne. rewrite (G _ _ Hx). unfold same_cell. cbn [Nat.eqb andb]. destruct (idx_eqb_spec bi x); [congruence|reflexivity]. }
    assert (Fl : filling s1 known bi b 0).
    { split; [exact F1|congruence| | | |].
      - intros x Hx Hx'. destruct (HK x Hx Hx') as [bx [lx [E1 [E2 E3]]]]. exists bx, lx. split; [|split; [exact E2|]].
        + rewrite Oth; [exact E1|exact Hx|]. intros ->. contradiction.
        + intros j Hj. destruct (E3 j Hj) as [dx [X1 X2]]. exists dx. split; [exact X1|]. rewrite Gd by (apply gen_ranged; exact Hx). exact X2.
      - intros x Hx Hn. rewrite Oth; [apply HU; [exact Hx|]|exact Hx|]; [intros H; apply Hn; right; exact H|intros ->; apply Hn; left; reflexivity].
      - intros j i dx e Hj Hi. rewrite (Gd j i Hi). apply HD; assumption.
      - exists (repeat None n). split; [|split; [apply repeat_length|split; [intros j Hj; lia|]]].
        + rewrite (G _ _ Hbi). unfold same_cell. rewrite Nat.eqb_refl, idx_eqb_refl. reflexivity.
        + intros j _ Hj. apply nth_error_repeat. exact Hj. }
    destruct (fill_rest n 0 s1 known bi b Hbi Hin eq_refl Fl) as [s2 [A2 [[F2 L2 K2 U2 D2 [l2 [E2 [Ll2 [Hf2 _]]]]] O2]]].
    rewrite A2. cbn [obind fst snd alone]. exists s2, b. split; [reflexivity|]. split; [|split; [eexists; exact E2|]].
    + split; [exact F2|exact L2| |exact U2|exact D2]. intros x Hx [<-|H]; [exists b, l2; auto|apply K2; assumption].
    + intros x e Hx Ex. assert (Hne : x <> bi) by (intros ->; rewrite (HU bi Hbi Hin) in Ex; discriminate).
      rewrite O2, Oth by assumption. exact Ex.
Qed.

Lemma slots_read (s : shared) (bi : idx) (b : nat) (l : list (option nat)) (m k : nat) : fine s -> ranged bi ->
  get s 0 bi = Ok (Some (b, (bi, Bundle l))) -> (k + m = n)%nat -> (forall j, (j < n)%nat -> filled s bi l j) ->
  alone (p_slots b (seq k m)) s = Ok (s, repeat (Some d_new) m).
Proof.
  intros HF Hbi Eb Hkm Hl. destruct (look_data dims s 0 bi b _ HF Hbi Eb) as [Ed _].
  revert k Hkm; induction m as [|m IH]; intros k Hkm; cbn [seq p_slots repeat alone]; [reflexivity|].
  rewrite Ed. cbn [obind snd]. destruct (Hl k ltac:(lia)) as [d [X1 X2]]. rewrite X1. cbn [alone].
  destruct (look_data dims s _ _ d _ HF (gen_ranged bi k Hbi) X2) as [Edd _]. rewrite Edd. cbn [obind snd].
  rewrite alone_bind, (IH (S k) ltac:(lia)). reflexivity.
Qed.

Lemma sample (s : shared) (known : list idx) (bi : idx) : ranged bi -> state s known ->
  alone (p_sample dims bi) s = Ok (s, if in_dec (list_eq_dec Z.eq_dec) bi known then Some (repeat (Some d_new) n) else None).
Proof.
  intros Hbi [HF L HK HU HD]. unfold p_sample. rewrite alone_bind. destruct (in_dec (list_eq_dec Z.eq_dec) bi known) as [Hin|Hin].
  - destruct (HK bi Hbi Hin) as [b [l [Eb [Ll Hl]]]]. rewrite (look_get s _ _ _ Eb). cbn [obind fst snd option_map].
    rewrite alone_bind, (slots_read s bi b l n 0 HF Hbi Eb eq_refl Hl). reflexivity.
  - rewrite (look_get s _ _ _ (HU bi Hbi Hin)). reflexivity.
Qed.

(** Queries as the code makes them, and the bundles they look up. *)
Definition usual (q : query) : Prop :=
  match q with
  | LookUp bi indices => ranged bi /\ indices = map (gen bi) (seq 0 n)
  | Sample bi => ranged bi
  end.
Definition looked_up (q : query) : list idx := match q with LookUp bi _ => [bi] | Sample _ => [] end.

Definition replied (known : list idx) (s : shared) (q : query) (a : answer D) : Prop :=
  match q, a with
  | LookUp bi _, Found b => exists e, get s 0 bi = Ok (Some (b, e))
  | Sample bi, Sampled r => (In bi known /\ r = Some (repeat (Some d_new) n)) \/ (~ In bi known /\ r = None)
  | _, _ => False
  end.

Lemma queries_alone (qs : list query) : forall (s : shared) (known : list idx),
  Forall usual qs -> state s known ->
  exists s' r, alone (p_queries d_new d_merge dims qs) s = Ok (s', r) /\ state s' (rev (flat_map looked_up qs) ++ known) /\
    length r = length qs /\
    (forall k q a, nth_error qs k = Some q -> nth_error r k = Some a ->
       replied (rev (flat_map looked_up (firstn k qs)) ++ known) s' q a) /\
    (forall x e, ranged x -> get s 0 x = Ok (Some e) -> exists e', get s' 0 x = Ok (Some (fst e, e'))).
Proof.
  induction qs as [|q qs IH]; intros s known Hq HS; cbn [p_queries].
  - exists s, []. split; [reflexivity|]. split; [exact HS|]. split; [reflexivity|]. split.
    + intros [|k] q a H; discriminate.
    + intros x e Hx Ex. exists (snd e). rewrite <- surjective_pairing. exact Ex.
  - inversion Hq as [|? ? Hq1 Hq2]; subst. rewrite alone_bind.
    assert (Step : exists s1 a, alone (p_query d_new d_merge dims q) s = Ok (s1, a) /\ state s1 (rev (looked_up q) ++ known) /\
      replied known s1 q a /\ (forall x e, ranged x -> get s 0 x = Ok (Some e) -> get s1 0 x = Ok (Some e))).
    { destruct q as [bi indices|bi]; cbn [usual p_query looked_up rev app] in *.
      - destruct Hq1 as [Hbi ->]. destruct (look_up s known bi Hbi HS) as [s1 [b [A [S1 [E1 K1]]]]].
        exists s1, (Found b). rewrite alone_bind, A. split; [reflexivity|]. split; [exact S1|]. split; [exact E1|exact K1].
      - exists s. eexists. rewrite alone_bind, (sample s known bi Hq1 HS). split; [reflexivity|]. split; [exact HS|]. split; [|auto].
        cbn [replied]. cbn [fst snd]. destruct (in_dec (list_eq_dec Z.eq_dec) bi known); auto. }
    destruct Step as [s1 [a [A [S1 [R1 K1]]]]]. rewrite A. cbn [obind fst snd]. rewrite alone_bind.
    destruct (IH s1 _ Hq2 S1) as [s2 [r [B [S2 [Lr [R2 K2]]]]]]. rewrite B. cbn [obind fst snd alone].
    assert (Hr : forall l, rev (looked_up q ++ l) ++ known = rev l ++ rev (looked_up q) ++ known)
      by (intros l; rewrite rev_app_distr, app_assoc; reflexivity).
    exists s2, (a :: r). split; [reflexivity|]. split; [cbn [flat_map]; rewrite Hr; exact S2|]. split; [cbn [length]; lia|]. split.
    + intros [|k] q' a' H H'; cbn [nth_error firstn] in *.
      * injection H as <-. injection H' as <-. cbn [flat_map rev app]. destruct q as [bi indices|bi], a as [b|r0]; cbn [replied] in *; try contradiction.
        -- destruct R1 as [e E1]. destruct Hq1 as [Hbi _]. destruct (K2 bi (b, e) Hbi E1) as [e' E']. exists e'. exact E'.
        -- exact R1.
      * cbn [flat_map]. rewrite Hr. apply R2; assumption.
    + intros x e Hx Ex. apply K2; [exact Hx|]. apply K1; assumption.
Qed.

Lemma state_empty (garbage : list Z) : length garbage = (1 + n)%nat -> state (empty_trees garbage) [].
Proof.
  intros Hg. split; [apply forest_empty|cbn [empty_trees trees]; rewrite map_length; exact Hg| | |].
  - intros bi _ [].
  - intros bi _ _. apply look_empty. lia.
  - intros k i d e Hk Hi H. rewrite look_empty in H by lia. discriminate.
Qed.

Lemma one_after_another (garbage : list Z) (qs : list query) :
  length garbage = (1 + n)%nat -> Forall usual qs ->
  exists s r, alone (p_queries d_new d_merge dims qs) (empty_trees garbage) = Ok (s, r) /\ length r = length qs /\
    (forall k bi indices a, nth_error qs k = Some (LookUp bi indices) -> nth_error r k = Some a ->
       exists b l, a = Found b /\ alone (p_get 0 bi) s = Ok (s, Some b) /\ data_of (mem s) b = Ok (bi, Bundle l) /\ length l = n /\
         forall f, (f < n)%nat -> exists d, nth_error l f = Some (Some d) /\
           alone (p_get (1 + f) (gen bi f)) s = Ok (s, Some d) /\ data_of (mem s) d = Ok (gen bi f, Dist d_new)) /\
    (forall bi, ranged bi -> (forall indices, ~ In (LookUp bi indices) qs) -> alone (p_get 0 bi) s = Ok (s, None)) /\
    (forall k bi a, nth_error qs k = Some (Sample bi) -> nth_error r k = Some a ->
       ((exists indices, In (LookUp bi indices) (firstn k qs)) /\ a = Sampled (Some (repeat (Some d_new) n))) \/
       ((forall indices, ~ In (LookUp bi indices) (firstn k qs)) /\ a = Sampled None)).
Proof.
  intros Hg Hq. destruct (queries_alone qs _ _ Hq (state_empty garbage Hg)) as [s [r [A [S [Lr [R _]]]]]].
  rewrite app_nil_r in S. exists s, r. split; [exact A|]. split; [exact Lr|].
  assert (Hin : forall bi l, In bi (rev (flat_map looked_up l)) <-> exists indices, In (LookUp bi indices) l).
  { intros bi l. rewrite <- in_rev, in_flat_map. split.
    - intros [[x ix|x] [H1 H2]]; [|destruct H2]. destruct H2 as [->|[]]. eauto.
    - intros [ix H]. exists (LookUp bi ix). split; [exact H|left; reflexivity]. }
  assert (Hu : forall q, In q qs -> usual q) by (apply Forall_forall; exact Hq).
  destruct S as [HF L HK HU HD]. split; [|split].
  - intros k bi ix a Hk Ha. pose proof (R k _ a Hk Ha) as Rk. destruct a as [b|x]; cbn [replied] in Rk; [|contradiction].
    destruct Rk as [e Eb]. assert (Hi : In (LookUp bi ix) qs) by (eapply nth_error_In; exact Hk).
    destruct (Hu _ Hi) as [Hbi _]. destruct (HK bi Hbi) as [b' [l [Eb' [Ll Hl]]]]; [apply Hin; eauto|].
    rewrite Eb' in Eb. injection Eb as -> <-. exists b, l. split; [reflexivity|].
    split; [exact (look_get s _ _ _ Eb')|]. split; [apply (look_data dims s 0 bi b _ HF Hbi Eb')|]. split; [exact Ll|].
    intros f Hf. destruct (Hl f Hf) as [d [X1 X2]]. exists d. split; [exact X1|]. split; [exact (look_get s _ _ _ X2)|].
    apply (look_data dims s _ _ d _ HF (gen_ranged bi f Hbi) X2).
  - intros bi Hbi Hno. rewrite (look_get s 0 bi None); [reflexivity|]. apply HU; [exact Hbi|]. rewrite Hin. intros [ix H]. exact (Hno ix H).
  - intros k bi a Hk Ha. pose proof (R k _ a Hk Ha) as Rk. destruct a as [b|x]; cbn [replied] in Rk; [contradiction|].
    rewrite app_nil_r, Hin in Rk. destruct Rk as [[H ->]|[H ->]]; [left; auto|right; split; [|reflexivity]].
    intros ix Hx. apply H. exists ix. exact Hx.
Qed.
End Lookup.
