(** Visibility-checked insertion: what is recorded and what is lost. *)
From Coq Require Import Permutation.
From Verif Require Import Base SeqModel SeqFacts IndexModel IndexFacts OctreeSpec MapModel MapFacts MapHist BackendModel BackendFacts
  SysModel SysSpec SysFacts InsertModel InsertSpec InsertFacts MapPropFacts OccFacts VisModel VisSpec.
Open Scope Z_scope.

Lemma nth_error_same {T : Type} : forall (a b : list T), (forall n, nth_error a n = nth_error b n) -> a = b.
Proof.
  induction a as [|x a IH]; intros [|y b] H; [reflexivity| | |].
  - discriminate (H 0%nat).
  - discriminate (H 0%nat).
  - f_equal; [specialize (H 0%nat); cbn in H; congruence|]. apply IH. intros n. apply (H (S n)).
Qed.

Lemma occlusion_nearer (s bi : idx) (d : nat) : (d < length bi)%nat -> occlusion_index s bi d = nearer s bi d.
Proof.
  intros Hd. unfold occlusion_index.
  destruct (upd_some bi d (nth d bi 0 + (if nth d s 0 <? nth d bi 0 then -1 else 1)) Hd) as [t E]. rewrite E.
  pose proof (upd_length _ _ _ _ E) as HL.
  apply nth_error_same. intros n. rewrite (upd_nth_error _ _ _ n _ E). unfold nearer. rewrite nth_error_map.
  destruct (Nat.lt_ge_cases n (length bi)) as [Hn|Hn].
  - rewrite (nth_error_nth' (seq 0 (length bi)) 0%nat) by (rewrite seq_length; exact Hn).
    rewrite seq_nth by exact Hn. cbn [option_map Nat.add].
    rewrite (nth_error_nth' bi 0 Hn). destruct (Nat.eqb_spec d n) as [->|Hne].
    + rewrite Nat.eqb_refl. reflexivity.
    + destruct (Nat.eqb_spec n d); [congruence|reflexivity].
  - rewrite (proj2 (nth_error_None (seq 0 (length bi)) n)) by (rewrite seq_length; exact Hn).
    destruct (Nat.eqb_spec d n); [lia|]. apply nth_error_None. exact Hn.
Qed.

Lemma nearer_length (s bi : idx) (d : nat) : length (nearer s bi d) = length bi.
Proof. unfold nearer. rewrite map_length, seq_length. reflexivity. Qed.

Lemma part_app_r {T : Type} (a b d : list T) : part_of a b -> part_of a (b ++ d).
Proof.
  intros H. induction H as [|x l l' _ IH|x l l' _ IH]; cbn [app].
  - induction d; [constructor|apply part_skip; assumption].
  - apply part_skip; exact IH.
  - apply part_keep; exact IH.
Qed.
Lemma part_in {T : Type} (a b : list T) (x : T) : part_of a b -> In x a -> In x b.
Proof. induction 1; cbn; intuition. Qed.
Lemma part_refl {T : Type} (a : list T) : part_of a a.
Proof. induction a; constructor; assumption. Qed.

Section Vis.
Context {Pose X W Pt S A V : Type}.
Variable geo : geometry Pose X W Pt.
Variable sta : statistics Pt S.
Variable c : config (occ A S).
Hypothesis Hc : config_ok c.
Variable zero : A.
Variable plus : A -> A -> A.
Variable amount : S -> A.
Variable s_merge : S -> S -> S.
Variable ray : Pose -> S -> list idx.
Variable order : list (idx * A) -> list (idx * A).
Variable num : numbers V.
Variable sen : sensor (occ A S) V.
Variable start : Pose -> outcome idx.
Notation stat ps := (fold_left (s_add sta) ps (s_empty sta)).
Notation gen := generate_index.
Notation bins_n := (bin_count (dimc c)).
Notation near bi := (length bi = dimc c /\ (kindc c = Dynamic -> usable c 1 bi)).
Notation seen := (seen_through c num sen).
Notation blocks := (blocked c num sen).
Notation goes := (reaches c num sen).
Notation cvis m := (current_visibility c num sen m).

Definition show (m : cmap c) : view (D:=occ A S) := fun bi =>
  match cbget c m bi with
  | None => None
  | Some _ => Some (map (fun i => ccontent c m i (gen bi i)) (seq 0 bins_n))
  end.

Lemma stored_full (m : cmap c) (b : idx) (bd : bundle) (i : nat) :
  cInv c m -> cbdom c (cshape c m) b -> cbget c m b = Some bd -> (i < bins_n)%nat ->
  nth_error (slots bd) i = Some (Some (gen b i)) /\
  cstored c m i (gen b i) = Ok (Some (ccontent c m i (gen b i))) /\
  slot_value (bdc c) (bbc c) m i (Some (gen b i)) = Ok (Some (ccontent c m i (gen b i))).
Proof.
  intros [[[Hwf HInv] _] _] Hd Hb Hi. destruct (HInv b bd Hd Hb) as [[_ [_ Hdd]] [Hsl Hex]].
  destruct (store_at _ _ _ _ _ _ _ m i (gen b i) Hwf (Hdd i Hi)) as [s [Hs [_ [_ Hg]]]].
  destruct (Hex i Hi) as [v Hv]. split; [|split].
  - rewrite Hsl. unfold full_slots.
    rewrite nth_error_map, (nth_error_nth' (seq 0 bins_n) 0%nat) by (rewrite seq_length; exact Hi).
    rewrite seq_nth by exact Hi. reflexivity.
  - unfold cstored, stored, get_store. rewrite Hs. cbn [obind]. rewrite Hg. unfold ccontent, content. rewrite Hv. reflexivity.
  - unfold slot_value, get_store. rewrite Hs. cbn [obind]. rewrite Hg. cbn [obind]. rewrite Hv.
    unfold ccontent, content. rewrite Hv. reflexivity.
Qed.

Lemma usable_dom (m : cmap c) (bi : idx) : cInv c m -> usable c 0 bi -> cbdom c (cshape c m) bi.
Proof. intros [_ [Hsh _]] Hu. rewrite Hsh. apply (usable_bdom c Hc 0); [lia|exact Hu]. Qed.

Lemma show_shows (m : cmap c) : cInv c m -> shows c m (show m).
Proof.
  intros HI bi Hu. unfold show. rewrite (cbundle_spec c Hc m bi HI Hu).
  destruct (cbget c m bi) as [b|] eqn:E; [|reflexivity].
  split; [eauto|]. split; [rewrite map_length, seq_length; apply two_pow_spec|].
  intros i v Hv. rewrite nth_error_map in Hv.
  destruct (Nat.lt_ge_cases i bins_n) as [Hi|Hi].
  - rewrite (nth_error_nth' (seq 0 bins_n) 0%nat), seq_nth in Hv by (rewrite ?seq_length; exact Hi).
    injection Hv as <-. apply (stored_full m bi b i HI (usable_dom m bi HI Hu) E Hi).
  - rewrite (proj2 (nth_error_None (seq 0 bins_n) i)) in Hv by (rewrite seq_length; exact Hi). discriminate.
Qed.
Lemma shows_unique (m : cmap c) (look : view) (bi : idx) :
  cInv c m -> shows c m look -> usable c 0 bi -> look bi = show m bi.
Proof.
  intros HI Hs Hu. specialize (Hs bi Hu). unfold show. rewrite (cbundle_spec c Hc m bi HI Hu) in Hs.
  destruct (cbget c m bi) as [b|] eqn:E; destruct (look bi) as [vs|]; try reflexivity.
  - destruct Hs as [_ [HL Hv]]. f_equal. apply nth_error_same. intros i. rewrite nth_error_map.
    rewrite <- two_pow_spec in HL. fold (bin_count (dimc c)) in HL.
    destruct (Nat.lt_ge_cases i bins_n) as [Hi|Hi].
    + rewrite (nth_error_nth' (seq 0 bins_n) 0%nat), seq_nth by (rewrite ?seq_length; exact Hi). cbn [option_map Nat.add].
      destruct (nth_error vs i) as [v|] eqn:Ev.
      * specialize (Hv i v Ev).
        destruct (stored_full m bi b i HI (usable_dom m bi HI Hu) E Hi) as [_ [Hst _]]. congruence.
      * apply nth_error_None in Ev. rewrite HL in Ev. lia.
    + rewrite (proj2 (nth_error_None (seq 0 bins_n) i)) by (rewrite seq_length; exact Hi).
      apply nth_error_None. rewrite HL. exact Hi.
  - discriminate.
  - destruct Hs as [[b Hb] _]. discriminate.
Qed.

Lemma occupancy_spec (m : cmap c) (look : view) (bi : idx) :
  cInv c m -> shows c m look -> usable c 0 bi ->
  bundle_occupancy c num sen m bi = Ok (occupancy num sen look bi).
Proof.
  intros HI Hs Hu. unfold bundle_occupancy, occupancy.
  rewrite (shows_unique m look bi HI Hs Hu), (cbundle_spec c Hc m bi HI Hu). cbn [obind]. unfold show.
  destruct (cbget c m bi) as [b|] eqn:E; [|reflexivity].
  assert (Hgen : forall l r, (forall i, In i l -> (i < bins_n)%nat) ->
    ofold (fun r i => match nth_error (slots b) i with None => UB | Some sl =>
        let* d := slot_value (bdc c) (bbc c) m i sl in
        match d with None => UB | Some v => Ok (v_add num r (v_mul num (share sen) (prob_occupied sen v))) end end) l r =
    Ok (fold_left (fun r v => v_add num r (v_mul num (share sen) (prob_occupied sen v)))
          (map (fun i => ccontent c m i (gen bi i)) l) r)).
  { induction l as [|i l IH]; intros r Hl; [reflexivity|]. cbn [ofold map fold_left].
    destruct (stored_full m bi b i HI (usable_dom m bi HI Hu) E (Hl i (or_introl eq_refl))) as [-> [_ ->]].
    cbn [obind]. apply IH. intros k Hk. apply Hl. right; exact Hk. }
  apply Hgen. intros i Hi. apply in_seq in Hi. lia.
Qed.

Lemma nearer_near (s bi : idx) (d : nat) : near bi -> (d < dimc c)%nat ->
  length (nearer s bi d) = dimc c /\ (kindc c = Dynamic -> usable c 0 (nearer s bi d)).
Proof.
  intros [HL Hu] Hd. split; [rewrite nearer_length; exact HL|]. intros K. specialize (Hu K). destruct Hu as [_ Hu].
  rewrite K in Hu. split; [rewrite nearer_length; exact HL|]. rewrite K. unfold nearer.
  apply Forall_forall. intros z Hz. apply in_map_iff in Hz. destruct Hz as [e [<- He]]. apply in_seq in He.
  rewrite Forall_forall in Hu. specialize (Hu (nth e bi 0) ltac:(apply nth_In; lia)).
  destruct (e =? d)%nat; [|lia]. destruct (nth e s 0 <? nth e bi 0); lia.
Qed.

Lemma visibility_spec (m : cmap c) (look : view) (s bi : idx) :
  cInv c m -> shows c m look -> near bi -> cvis m s bi = Ok (visibility c num sen look s bi).
Proof.
  intros HI Hs Hn. pose proof HI as [_ [_ Hv]]. unfold current_visibility, visibility, occluder.
  assert (Hgen : forall l o, (forall d, In d l -> (d < dimc c)%nat) ->
    ofold (fun o i => let t := occlusion_index s bi i in
             if cvalid c m t then let* p := bundle_occupancy c num sen m t in Ok (v_min num o p) else Ok o) l o =
    Ok (fold_left (fun o t => let p := occupancy num sen look t in if v_lt num p o then p else o)
          (filter (takes c) (map (nearer s bi) l)) o)).
  { induction l as [|d l IH]; intros o Hl; [reflexivity|]. cbn [ofold map filter]. cbn zeta.
    assert (Hd : (d < dimc c)%nat) by (apply Hl; left; reflexivity).
    rewrite occlusion_nearer by (rewrite (proj1 Hn); exact Hd).
    destruct (nearer_near s bi d Hn Hd) as [HL Hu].
    rewrite Hv, (takes_valid c Hc _ HL). destruct (takes c (nearer s bi d)) eqn:Et.
    - rewrite (occupancy_spec m look _ HI Hs (takes_usable c 0 _ HL Hu Et)). cbn [obind fold_left].
      apply IH. intros k Hk; apply Hl; right; exact Hk.
    - cbn [obind]. apply IH. intros k Hk; apply Hl; right; exact Hk. }
  rewrite Hgen by (intros d Hd; apply in_seq in Hd; lia). reflexivity.
Qed.

Lemma seen_snoc (look : view) (s : idx) (pre : list idx) (bi : idx) :
  seen look s (pre ++ [bi]) = v_mul num (seen look s pre) (visibility c num sen look s bi).
Proof. unfold seen_through. rewrite fold_left_app. reflexivity. Qed.

(** One line: either it is blocked, or its valid bundles are counted. *)
Lemma walk_spec (m : cmap c) (look : view) (s : idx) (n : A) (path : list idx) : forall (pre : list idx) (f : list (idx * A)),
  cInv c m -> shows c m look -> (forall bi, In bi path -> near bi) ->
  (walk c zero plus num sen m s n path (seen look s pre) f = Ok None /\
   exists p bi q, path = p ++ bi :: q /\ v_lt num (seen look s (pre ++ p ++ [bi])) (vis_prior sen) = true) \/
  (walk c zero plus num sen m s n path (seen look s pre) f =
     Ok (Some (seen look s (pre ++ path), add_all zero plus (map (fun bi => (bi, n)) (filter (takes c) path)) f)) /\
   forall p bi q, path = p ++ bi :: q -> v_lt num (seen look s (pre ++ p ++ [bi])) (vis_prior sen) = false).
Proof.
  induction path as [|bi path IH]; intros pre f HI Hs Hp.
  - right. split; [rewrite app_nil_r; reflexivity|]. intros [|? ?] ? ? H; discriminate H.
  - cbn [walk]. rewrite (visibility_spec m look s bi HI Hs) by (apply Hp; left; reflexivity).
    cbn [obind]. cbn zeta. rewrite <- seen_snoc.
    destruct (v_lt num (seen look s (pre ++ [bi])) (vis_prior sen)) eqn:El.
    + left. split; [reflexivity|]. exists [], bi, path. split; [reflexivity|exact El].
    + assert (Hfree : forall g, (if cvalid c m bi then free_add zero plus g bi n else g) =
                       add_all zero plus (map (fun b => (b, n)) (filter (takes c) [bi])) g).
      { intros g. pose proof HI as [_ [_ Hv]]. cbn [filter].
        rewrite Hv, (takes_valid c Hc bi (proj1 (Hp bi (or_introl eq_refl)))). destruct (takes c bi); reflexivity. }
      rewrite Hfree.
      destruct (IH (pre ++ [bi]) (add_all zero plus (map (fun b => (b, n)) (filter (takes c) [bi])) f) HI Hs
                 ltac:(intros b Hb; apply Hp; right; exact Hb)) as [[E [p [b [q [-> Hlt]]]]]|[E Hno]].
      * left. split; [exact E|]. exists (bi :: p), b, q. split; [reflexivity|].
        rewrite <- app_assoc in Hlt. exact Hlt.
      * right. split.
        -- rewrite E, <- app_assoc. cbn [app]. f_equal. f_equal. f_equal. cbn [filter].
           destruct (takes c bi); reflexivity.
        -- intros [|b p] b' q Hpath; injection Hpath as <- Hpath; [exact El|].
           specialize (Hno p b' q Hpath). rewrite <- app_assoc in Hno. exact Hno.
Qed.

Notation occupied_acts := (record_hits (A:=A) (fun ps => stat ps) s_merge).
Notation fate := (fate c num sen (fun ps => stat ps) s_merge ray).
Notation cell_result := (cell_result geo sta c zero plus amount s_merge ray true).
Definition stats_of (gs : list (idx * list Pt)) : list (idx * S) := map (fun g => (fst g, stat (snd g))) gs.

Lemma occupied_no_expand (gs : list (idx * list Pt)) : expansions (occupied_acts gs) = 0.
Proof. apply (no_expand_modify fst (fun g => update_occupied s_merge (stat (snd g)))). Qed.

Lemma usable_near (bi : idx) : usable c 1 bi -> near bi.
Proof. intros H. split; [apply H|auto]. Qed.

Lemma blocked_same (m : cmap c) (l1 l2 : view) (s : idx) (path : list idx) :
  cInv c m -> shows c m l1 -> shows c m l2 -> (forall bi, In bi path -> near bi) ->
  seen l1 s path = seen l2 s path.
Proof.
  intros HI H1 H2. unfold seen_through. generalize (v_one num).
  induction path as [|b path IH]; intros v Hp; [reflexivity|]. cbn [fold_left].
  assert (E : visibility c num sen l1 s b = visibility c num sen l2 s b).
  { pose proof (visibility_spec m l1 s b HI H1 (Hp b (or_introl eq_refl))).
    pose proof (visibility_spec m l2 s b HI H2 (Hp b (or_introl eq_refl))). congruence. }
  rewrite E. apply IH. intros; apply Hp; right; assumption.
Qed.

Lemma ends_loop (o : Pose) (s : idx) (gs : list (idx * list Pt)) : forall (m : cmap c) (f : list (idx * A)),
  cInv c m -> region c 0 m -> NoDup gs ->
  (forall b ps, In (b, ps) gs -> usable c 1 b) -> (forall st bi, In bi (ray o st) -> near bi) ->
  exists m' r sn, visible_ends c zero plus amount s_merge ray num sen o s (stats_of gs) m f = Ok (m', r) /\
    part_of sn gs /\ cact_all c (occupied_acts sn) m = Ok m' /\ cInv c m' /\ region c 0 m' /\
    match r with
    | Some f' => f' = add_all zero plus (visits sta c amount ray o gs) f /\ forall g, In g gs -> fate o s m sn g
    | None => exists pre g post, gs = pre ++ g :: post /\ part_of sn pre /\
        (forall look, shows c m' look -> blocks look s (ray o (stat (snd g)))) /\
        forall g', In g' pre -> fate o s m sn g'
    end.
Proof.
  induction gs as [|[b ps] gs IH]; intros m f HI HR Hnd Hg Hr.
  - exists m, (Some f), []. split; [reflexivity|]. split; [constructor|]. split; [reflexivity|].
    split; [exact HI|]. split; [exact HR|]. split; [reflexivity|]. intros g [].
  - cbn [stats_of map visible_ends fst snd]. inversion Hnd as [|? ? Hnin Hnd']; subst.
    assert (Hu : usable c 1 b) by (apply (Hg b ps); left; reflexivity).
    assert (Hwalk := fun look Hl => walk_spec m look s (amount (stat ps)) (ray o (stat ps)) [] f HI Hl
               ltac:(intros b' Hbi; exact (Hr _ _ Hbi))).
    destruct (Hwalk (show m) (show_shows m HI)) as [[E _]|[E _]].
    + change (seen (show m) s []) with (v_one num) in E. rewrite E. cbn [obind].
      exists m, None, []. split; [reflexivity|].
      split; [clear; induction ((b, ps) :: gs); constructor; assumption|].
      split; [reflexivity|]. split; [exact HI|]. split; [exact HR|].
      exists [], (b, ps), gs. split; [reflexivity|]. split; [constructor|].
      split; [|intros g' []].
      intros look Hl. cbn [snd].
      destruct (Hwalk look Hl) as [[_ [p' [bi' [q' [Hp' Hl']]]]]|[E' _]].
      * exists p', bi', q'. split; assumption.
      * change (seen look s []) with (v_one num) in E'. congruence.
    + change (seen (show m) s []) with (v_one num) in E. rewrite E. cbn [obind app].
      rewrite (visibility_spec m (show m) s b HI (show_shows m HI) (usable_near b Hu)). cbn [obind].
      set (F := add_all zero plus (map (fun bi => (bi, amount (stat ps))) (filter (takes c) (ray o (stat ps)))) f).
      assert (HF : forall gs', add_all zero plus (visits sta c amount ray o gs') F =
                               add_all zero plus (visits sta c amount ray o ((b, ps) :: gs')) f).
      { intros gs'. unfold F, visits, add_all. cbn [flat_map snd]. rewrite fold_left_app. reflexivity. }
      assert (Hfree : forall look, shows c m look -> ~ blocks look s (ray o (stat ps))).
      { intros look Hl [p [bi [q [Hp Hlt]]]]. destruct (Hwalk look Hl) as [[E' _]|[_ Hno]].
        - change (seen look s []) with (v_one num) in E'. congruence.
        - specialize (Hno p bi q Hp). cbn [app] in Hno. congruence. }
      assert (Hsee : forall look, shows c m look ->
        v_ge num (v_mul num (seen (show m) s (ray o (stat ps))) (visibility c num sen (show m) s b)) (vis_prior sen) =
        v_ge num (seen look s (ray o (stat ps) ++ [b])) (vis_prior sen)).
      { intros look Hl. rewrite <- seen_snoc. rewrite (blocked_same m (show m) look); [reflexivity|exact HI|apply show_shows, HI|exact Hl|].
        intros bi Hbi. apply in_app_or in Hbi. destruct Hbi as [Hbi|[<-|[]]]; [exact (Hr _ _ Hbi)|apply usable_near, Hu]. }
      assert (Hmove : forall g' sn' h m1, cact_all c (occupied_acts h) m = Ok m1 ->
         g' <> (b, ps) -> (h = [] \/ h = [(b, ps)]) -> fate o s m1 sn' g' -> fate o s m (h ++ sn') g').
      { intros g' sn' h m1 Eh Hne Hh [sg [mg [Hpg [Hag Hlg]]]]. exists (h ++ sg), mg. split; [|split].
        - destruct Hh as [->| ->]; [exact Hpg|apply part_keep; exact Hpg].
        - unfold record_hits in *. rewrite map_app, cact_all_app, Eh. exact Hag.
        - intros look Hl. destruct (Hlg look Hl) as [H1 H2]. split; [exact H1|]. rewrite <- H2.
          rewrite in_app_iff. split; [|auto]. intros [H|H]; [|exact H]. destruct Hh as [->| ->]; [destruct H|].
          destruct H as [H|[]]. congruence. }
      destruct (v_ge num (v_mul num (seen (show m) s (ray o (stat ps))) (visibility c num sen (show m) s b)) (vis_prior sen)) eqn:Ege.
      * unfold cmodify.
        destruct (cact_spec c Hc 0 m (Modify b (update_occupied s_merge (stat ps))) HI ltac:(cbn; lia) HR)
          as [m1 [E1 [HI1 [HR1 _]]]].
        { cbn [act_fits]. eapply usable_le; [|exact Hu]. lia. }
        cbn [expansions] in HR1. change (0 - 0) with 0 in HR1. rewrite E1. cbn [obind].
        assert (Eh : cact_all c (occupied_acts [(b, ps)]) m = Ok m1).
        { unfold cact_all, act_all. cbn [record_hits map ofold fst snd].
          fold (cact c m (Modify b (update_occupied s_merge (stat ps)))). rewrite E1. reflexivity. }
        destruct (IH m1 F HI1 HR1 Hnd' ltac:(intros b' ps' H'; apply (Hg b' ps'); right; exact H') Hr)
          as [m' [r [sn [E2 [Hpart [Hact [HI2 [HR2 Hcase]]]]]]]].
        assert (Hhd : fate o s m ((b, ps) :: sn) (b, ps)).
        { exists [], m. split; [clear; induction ((b, ps) :: sn); constructor; assumption|]. split; [reflexivity|].
          intros look Hl. split; [apply Hfree; exact Hl|]. split; [|left; reflexivity]. intros _.
          unfold reaches. cbn [fst snd]. rewrite <- (Hsee look Hl). reflexivity. }
        exists m', r, ((b, ps) :: sn). split; [exact E2|]. split; [apply part_keep; exact Hpart|].
        split. { change ((b, ps) :: sn) with ([(b, ps)] ++ sn). unfold record_hits in *.
                 rewrite map_app, cact_all_app, Eh. exact Hact. }
        split; [exact HI2|]. split; [exact HR2|].
        assert (Htl : forall g', In g' gs -> fate o s m1 sn g' -> fate o s m ((b, ps) :: sn) g').
        { intros g' Hin. apply (Hmove g' sn [(b, ps)] m1 Eh); [congruence|right; reflexivity]. }
        destruct r as [f'|].
        -- destruct Hcase as [-> Hfate]. split; [apply HF|]. intros g [<-|Hin]; [exact Hhd|apply Htl; auto].
        -- destruct Hcase as [pre [g [post [-> [Hp [Hb Hfate]]]]]]. exists ((b, ps) :: pre), g, post.
           split; [reflexivity|]. split; [apply part_keep; exact Hp|]. split; [exact Hb|].
           intros g' [<-|Hin]; [exact Hhd|]. apply Htl; [apply in_or_app; left; exact Hin|auto].
      * cbn [obind].
        destruct (IH m F HI HR Hnd' ltac:(intros b' ps' H'; apply (Hg b' ps'); right; exact H') Hr)
          as [m' [r [sn [E2 [Hpart [Hact [HI2 [HR2 Hcase]]]]]]]].
        assert (Hhd : fate o s m sn (b, ps)).
        { exists [], m. split; [clear; induction sn; constructor; assumption|]. split; [reflexivity|].
          intros look Hl. split; [apply Hfree; exact Hl|]. split.
          - intros H. exfalso. apply Hnin. eapply part_in; eassumption.
          - unfold reaches. cbn [fst snd]. rewrite <- (Hsee look Hl). discriminate. }
        exists m', r, sn. split; [exact E2|]. split; [apply part_skip; exact Hpart|].
        split; [exact Hact|]. split; [exact HI2|]. split; [exact HR2|].
        assert (Htl : forall g', In g' gs -> fate o s m sn g' -> fate o s m sn g').
        { intros g' Hin. apply (Hmove g' sn [] m); [reflexivity|congruence|left; reflexivity]. }
        destruct r as [f'|].
        -- destruct Hcase as [-> Hfate]. split; [apply HF|]. intros g [<-|Hin]; [exact Hhd|auto].
        -- destruct Hcase as [pre [g [post [-> [Hp [Hb Hfate]]]]]]. exists ((b, ps) :: pre), g, post.
           split; [reflexivity|]. split; [apply part_skip; exact Hp|]. split; [exact Hb|].
           intros g' [<-|Hin]; [exact Hhd|auto].
Qed.

Hypothesis plus_zero : forall a, plus zero a = a.
Hypothesis plus_comm : forall a b, plus a b = plus b a.
Hypothesis plus_assoc : forall a b d, plus a (plus b d) = plus (plus a b) d.
Hypothesis order_perm : forall l, Permutation (order l) l.
Notation ends := (ends geo c).
Notation total := (total zero plus).
Notation misses := (scan_misses geo sta c amount ray true).
Notation insert_vis := (insert_visible geo sta c zero plus amount s_merge ray order num sen start).
Definition free_acts (o : Pose) (xs : list X) : list (map_action (P:=occ A S)) :=
  map (fun e => Modify (fst e) (update_free plus (snd e))) (freed geo sta c zero plus amount ray order true o xs).

Lemma ends_nodup (o : Pose) (xs : list X) : NoDup (ends o xs).
Proof. apply (NoDup_map_inv fst). unfold InsertSpec.ends. rewrite groups_keys. apply sorted_nodup, keys_sorted. Qed.

Lemma fits_ends (o : Pose) (xs : list X) : vis_fits geo c ray o xs -> forall b ps, In (b, ps) (ends o xs) -> usable c 1 b.
Proof. intros [Hf _] b ps Hin. eapply (ends_usable geo c Hc); eassumption. Qed.

Lemma insert_vis_acts (m : cmap c) (o : Pose) (xs : list X) (s : idx) :
  cInv c m -> region c 0 m -> vis_fits geo c ray o xs -> start o = Ok s ->
  exists sn (stopped : bool) m1, part_of sn (ends o xs) /\
    cact_all c (occupied_acts sn) m = Ok m1 /\ cInv c m1 /\ region c 0 m1 /\
    insert_vis m o xs = cact_all c (if stopped then [] else free_acts o xs) m1 /\
    if stopped then exists pre g post, ends o xs = pre ++ g :: post /\ part_of sn pre /\
        (forall look, shows c m1 look -> blocks look s (ray o (stat (snd g)))) /\
        forall g', In g' pre -> fate o s m sn g'
    else forall g, In g (ends o xs) -> fate o s m sn g.
Proof.
  intros HI HR Hf Hs. pose proof Hf as [Hcl Hray]. unfold insert_visible.
  rewrite (collect_all_spec geo sta c Hc true (usable c 1) m o xs) by (apply HI || exact Hcl). cbn [obind].
  rewrite Hs. cbn [obind]. unfold stat_groups.
  change (map (fun g : idx * list Pt => (fst g, stat_of sta (snd g))) (groups (accepted geo c true o xs)))
    with (stats_of (ends o xs)).
  destruct (ends_loop o s (ends o xs) m [] HI HR (ends_nodup o xs) (fits_ends o xs Hf) Hray)
    as [m1 [r [sn [E [Hp [Ha [HI1 [HR1 Hcase]]]]]]]].
  rewrite E. cbn [obind fst snd]. destruct r as [f|].
  - destruct Hcase as [-> Hfate]. exists sn, false, m1. split; [exact Hp|]. split; [exact Ha|]. split; [exact HI1|].
    split; [exact HR1|]. split; [|exact Hfate]. unfold free_acts, cact_all, act_all. rewrite ofold_map.
    unfold freed, cmodify.
    replace (filter (fun e => negb (existsb (fun u => idx_eqb (fst u) (fst e)) (stats_of (ends o xs))))
               (add_all zero plus (visits sta c amount ray o (ends o xs)) []))
      with (filter (fun e => negb (is_end geo c o xs (fst e))) (add_all zero plus (visits sta c amount ray o (ends o xs)) []));
      [reflexivity|].
    apply filter_ext. intros e. f_equal. unfold is_end, stats_of.
    clear. induction (ends o xs) as [|g l IH]; [reflexivity|]. cbn [map existsb fst]. rewrite IH. reflexivity.
  - exists sn, true, m1. split; [exact Hp|]. split; [exact Ha|]. split; [exact HI1|]. split; [exact HR1|].
    split; [reflexivity|exact Hcase].
Qed.

Lemma holds_content (m : cmap c) (i : nat) (j : idx) : cInv c m -> cell_exists c i j -> holds c m i j (ccontent c m i j).
Proof.
  intros HI Hij. destruct (content_stored c Hc m i j HI Hij) as [o [E [Hco _]]]. unfold holds. rewrite E, Hco.
  destruct o; [left|right]; auto.
Qed.
Lemma holds_unique (m : cmap c) (i : nat) (j : idx) (d : occ A S) :
  cInv c m -> cell_exists c i j -> holds c m i j d -> d = ccontent c m i j.
Proof.
  intros HI Hij H. destruct (content_stored c Hc m i j HI Hij) as [o [E [Hco _]]]. unfold holds in H. rewrite E in H.
  rewrite Hco. destruct H as [H|[H ->]]; [injection H as ->|injection H as ->]; reflexivity.
Qed.

Lemma free_fit (o : Pose) (xs : list X) : vis_fits geo c ray o xs -> Forall (act_fits c 0) (free_acts o xs).
Proof.
  intros [_ Hr]. apply Forall_forall. intros a Ha. apply in_map_iff in Ha. destruct Ha as [[b n] [<- Hin]]. cbn.
  eapply (freed_usable geo sta c zero plus amount ray order order_perm); [|exact Hin].
  intros s bi Hb. destruct (Hr s bi Hb) as [H1 H2]. split; [exact H1|]. intros K. eapply usable_le; [|exact (H2 K)]. lia.
Qed.
Lemma occupied_fit (o : Pose) (xs : list X) (sn : list (idx * list Pt)) :
  vis_fits geo c ray o xs -> part_of sn (ends o xs) -> Forall (act_fits c 0) (occupied_acts sn).
Proof.
  intros Hf Hp. apply Forall_forall. intros a Ha. apply in_map_iff in Ha. destruct Ha as [[b ps] [<- Hin]]. cbn.
  apply (usable_le c 1 0); [lia|]. apply (fits_ends o xs Hf b ps). eapply part_in; eassumption.
Qed.

Lemma visible_outcome_inv (m : cmap c) (o : Pose) (xs : list X) (s : idx) :
  cInv c m -> region c 0 m -> vis_fits geo c ray o xs -> start o = Ok s ->
  exists m' sn (stopped : bool), insert_vis m o xs = Ok m' /\ part_of sn (ends o xs) /\
    cell_result m m' o xs sn stopped /\
    if stopped then exists pre g post, ends o xs = pre ++ g :: post /\ part_of sn pre /\
        (forall look, shows c m' look -> blocks look s (ray o (stat (snd g)))) /\
        forall g', In g' pre -> fate o s m sn g'
    else forall g, In g (ends o xs) -> fate o s m sn g.
Proof.
  intros HI HR Hf Hs. destruct (insert_vis_acts m o xs s HI HR Hf Hs) as [sn [st [m1 [Hp [Ha [HI1 [HR1 [E Hcase]]]]]]]].
  assert (Hfit2 : Forall (act_fits c 0) (if st then [] else free_acts o xs))
    by (destruct st; [constructor|apply free_fit; exact Hf]).
  assert (Hex2 : expansions (if st then [] else free_acts o xs) = 0).
  { destruct st; [reflexivity|]. apply (no_expand_modify fst (fun e => update_free plus (snd e))). }
  destruct (hist_spec c Hc _ 0 m1 HI1 ltac:(rewrite Hex2; lia) HR1 Hfit2) as [m' [E2 [HI2 [_ [HC2 _]]]]].
  destruct (hist_spec c Hc (occupied_acts sn) 0 m HI ltac:(rewrite occupied_no_expand; lia) HR (occupied_fit o xs sn Hf Hp))
    as [m1' [E1 [_ [_ [HC1 _]]]]].
  assert (m1' = m1) by congruence. subst m1'.
  exists m', sn, st. split; [congruence|]. split; [exact Hp|]. split.
  - intros i j d Hij Hd. apply (holds_unique m i j d HI Hij) in Hd. subst d.
    exists (ccontent c m' i j). split; [apply holds_content; assumption|].
    rewrite (HC2 i j (cell_ddom c Hc i j Hij)), (HC1 i j (cell_ddom c Hc i j Hij)).
    unfold record_hits. rewrite (changes_modify fst (fun g => update_occupied s_merge (stat (snd g)))), apply_occupied.
    destruct st.
    + cbn [changes apply_changes fold_left missed hits]. split; reflexivity.
    + unfold free_acts.
      rewrite (changes_modify fst (fun e => update_free plus (snd e))).
      rewrite (apply_free zero plus plus_zero plus_comm plus_assoc). cbn [missed hits]. split; [|reflexivity].
      f_equal. exact (sum_freed geo sta c zero plus amount ray order plus_zero plus_comm plus_assoc order_perm true
                        (fun b => idx_eqb (gen b i) j) o xs).
  - destruct st; [|exact Hcase]. cbn in E2. injection E2 as <-. exact Hcase.
Qed.

Lemma visible_outcome (l : list (map_action (P:=occ A S))) (m : cmap c) (o : Pose) (xs : list X) (s : idx) :
  fits c l -> cact_all c l (new_map c) = Ok m -> vis_fits geo c ray o xs -> start o = Ok s ->
  exists m' sn (stopped : bool), insert_vis m o xs = Ok m' /\ part_of sn (ends o xs) /\
    cell_result m m' o xs sn stopped /\
    if stopped then exists pre g post, ends o xs = pre ++ g :: post /\ part_of sn pre /\
        (forall look, shows c m' look -> blocks look s (ray o (stat (snd g)))) /\
        forall g', In g' pre -> fate o s m sn g'
    else forall g, In g (ends o xs) -> fate o s m sn g.
Proof.
  intros Hl E. destruct (run_spec c Hc l Hl) as [m0 [E0 [HI [HR _]]]].
  assert (m0 = m) by congruence. subst m0. apply visible_outcome_inv; assumption.
Qed.

(** The first line blocked: nothing at all is recorded. *)
Lemma first_blocked (l : list (map_action (P:=occ A S))) (m : cmap c) (o : Pose) (xs : list X) (s : idx) look g gs :
  fits c l -> cact_all c l (new_map c) = Ok m -> vis_fits geo c ray o xs -> start o = Ok s ->
  shows c m look -> ends o xs = g :: gs -> blocks look s (ray o (stat (snd g))) ->
  insert_vis m o xs = Ok m.
Proof.
  intros Hl E Hf Hs Hlook Hends Hb. destruct (run_spec c Hc l Hl) as [m0 [E0 [HI [HR _]]]].
  assert (m0 = m) by congruence. subst m0. pose proof Hf as [Hcl Hray]. unfold insert_visible.
  rewrite (collect_all_spec geo sta c Hc true (usable c 1) m o xs) by (apply HI || exact Hcl). cbn [obind].
  rewrite Hs. cbn [obind]. unfold stat_groups.
  change (map (fun g : idx * list Pt => (fst g, stat_of sta (snd g))) (groups (accepted geo c true o xs)))
    with (stats_of (ends o xs)).
  rewrite Hends. cbn [stats_of map visible_ends fst snd].
  destruct (walk_spec m look s (amount (stat (snd g))) (ray o (stat (snd g))) [] [] HI Hlook
             ltac:(intros b' Hbi; exact (Hray _ _ Hbi))) as [[E1 _]|[_ Hno]].
  - change (seen look s []) with (v_one num) in E1. rewrite E1. reflexivity.
  - destruct Hb as [p [bi [q [Hp Hlt]]]]. specialize (Hno p bi q Hp). cbn [app] in Hno. congruence.
Qed.

Lemma part_all {T : Type} (a b : list T) : part_of a b -> NoDup b -> (forall x, In x b -> In x a) -> a = b.
Proof.
  induction 1 as [|x l l' Hp IH|x l l' Hp IH]; intros Hnd Hall; [reflexivity| |].
  - inversion Hnd; subst. exfalso. apply (part_in l l' x) in Hp; [contradiction|]. apply Hall. left; reflexivity.
  - inversion Hnd; subst. f_equal. apply IH; [assumption|]. intros y Hy.
    destruct (Hall y (or_intror Hy)) as [<-|H]; [contradiction|exact H].
Qed.

(** All lines visible whatever the map shows: the same as plain insertion that spares end bundles. *)
Lemma all_visible (l : list (map_action (P:=occ A S))) (m : cmap c) (o : Pose) (xs : list X) (s : idx) :
  fits c l -> cact_all c l (new_map c) = Ok m -> vis_fits geo c ray o xs -> start o = Ok s ->
  (forall look g, In g (ends o xs) ->
     ~ blocks look s (ray o (stat (snd g))) /\ goes look s (ray o (stat (snd g))) (fst g)) ->
  insert_vis m o xs = occ_insert geo sta c zero plus amount s_merge ray order true m o xs.
Proof.
  intros Hl E Hf Hs Hvis. destruct (run_spec c Hc l Hl) as [m0 [E0 [HI [HR _]]]].
  assert (m0 = m) by congruence. subst m0.
  destruct (insert_vis_acts m o xs s HI HR Hf Hs) as [sn [st [m1 [Hp [Ha [HI1 [HR1 [E1 Hcase]]]]]]]].
  destruct st.
  { destruct Hcase as [pre [g [post [He [_ [Hb _]]]]]]. exfalso.
    apply (proj1 (Hvis (show m1) g ltac:(rewrite He; apply in_elt))). apply Hb, show_shows, HI1. }
  assert (Hsn : sn = ends o xs).
  { apply part_all; [exact Hp|apply ends_nodup|]. intros g Hg. destruct (Hcase g Hg) as [sg [mg [Hpg [Hag Hfate]]]].
    assert (HIg : cInv c mg).
    { assert (Hfg : Forall (act_fits c 0) (occupied_acts sg)).
      { pose proof (occupied_fit o xs sn Hf Hp) as Hfs. rewrite Forall_forall in Hfs |- *. intros a Hin. apply Hfs.
        unfold record_hits in *. apply in_map_iff in Hin. destruct Hin as [x [<- Hx]].
        apply (in_map (fun g => Modify (fst g) (update_occupied s_merge (stat (snd g))))). eapply part_in; eassumption. }
      destruct (hist_spec c Hc (occupied_acts sg) 0 m HI ltac:(rewrite occupied_no_expand; lia) HR Hfg) as [mg' [Eg [HIg _]]].
      congruence. }
    destruct (Hfate (show mg) (show_shows mg HIg)) as [_ Hiff]. apply Hiff. apply (Hvis (show mg) g Hg). }
  rewrite E1. 
  transitivity (cact_all c (occ_acts geo sta c zero plus amount s_merge ray order true (GInsert o xs)) m).
  - cbn [occ_acts]. rewrite cact_all_app. change (map (fun g => Modify (fst g) (update_occupied s_merge (stat (snd g)))) (ends o xs))
      with (occupied_acts (ends o xs)). rewrite <- Hsn, Ha. reflexivity.
  - symmetry. 
    apply (occ_step_acts geo sta c Hc zero plus amount s_merge ray order true 0 m (GInsert o xs) HI HR).
    + cbn [occ_acts]. rewrite expansions_app. rewrite (no_expand_modify fst (fun g => update_occupied s_merge (stat (snd g)))).
      rewrite (no_expand_modify fst (fun e => update_free plus (snd e))). lia.
    + cbn [occ_opfits]. destruct Hf as [Hcl Hr]. split.
      * intros x Hx Hn. destruct (Hcl x Hx Hn) as [b [H1 [H2 H3]]]. exists b. split; [exact H1|]. split; [exact H2|].
        intros K. eapply usable_le; [|exact (H3 K)]. lia.
      * intros st bi Hb. destruct (Hr st bi Hb) as [H1 H2]. split; [exact H1|]. intros K.
        eapply usable_le; [|exact (H2 K)]. lia.
Qed.

(** Plain insertion of one scan. *)
Lemma plain_outcome (w : bool) (l : list (map_action (P:=occ A S))) (m : cmap c) (o : Pose) (xs : list X) :
  fits c l -> cact_all c l (new_map c) = Ok m -> vis_fits geo c ray o xs ->
  exists m', occ_insert geo sta c zero plus amount s_merge ray order w m o xs = Ok m' /\
    VisSpec.cell_result geo sta c zero plus amount s_merge ray w m m' o xs (ends o xs) false.
Proof.
  intros Hl E Hf. destruct (run_spec c Hc l Hl) as [m0 [E0 [HI [HR _]]]].
  assert (m0 = m) by congruence. subst m0.
  assert (Hex : expansions (occ_acts geo sta c zero plus amount s_merge ray order w (GInsert o xs)) = 0).
  { cbn [occ_acts]. rewrite expansions_app. rewrite (no_expand_modify fst (fun g => update_occupied s_merge (stat (snd g)))).
    rewrite (no_expand_modify fst (fun e => update_free plus (snd e))). lia. }
  assert (Hfit : occ_opfits geo c ray 0 (GInsert o xs)).
  { cbn [occ_opfits]. destruct Hf as [Hcl Hr]. split.
    - intros x Hx Hn. destruct (Hcl x Hx Hn) as [b [H1 [H2 H3]]]. exists b. split; [exact H1|]. split; [exact H2|].
      intros K. eapply usable_le; [|exact (H3 K)]. lia.
    - intros s' bi Hin. destruct (Hr s' bi Hin) as [H1 H2]. split; [exact H1|]. intros K.
      eapply usable_le; [|exact (H2 K)]. lia. }
  pose proof (occ_step_acts geo sta c Hc zero plus amount s_merge ray order w 0 m (GInsert o xs) HI HR
                ltac:(rewrite Hex; lia) Hfit) as Hstep. cbn [occ_step] in Hstep.
  destruct (hist_spec c Hc _ 0 m HI ltac:(rewrite Hex; lia) HR
              (occ_acts_fit geo sta c Hc zero plus amount s_merge ray order order_perm w 0 (GInsert o xs) ltac:(lia) Hfit))
    as [m' [E' [HI' [_ [HC _]]]]].
  exists m'. split; [rewrite Hstep; exact E'|].
  intros i j d Hij Hd. apply (holds_unique m i j d HI Hij) in Hd. subst d.
  exists (ccontent c m' i j). split; [apply holds_content; assumption|].
  rewrite (HC i j (cell_ddom c Hc i j Hij)). cbn [occ_acts]. rewrite changes_app, apply_changes_app.
  rewrite (changes_modify fst (fun g => update_occupied s_merge (stat (snd g)))).
  rewrite (changes_modify fst (fun e => update_free plus (snd e))).
  rewrite apply_occupied.
  rewrite (apply_free zero plus plus_zero plus_comm plus_assoc). cbn [missed hits]. split; [|reflexivity].
  f_equal. exact (sum_freed geo sta c zero plus amount ray order plus_zero plus_comm plus_assoc order_perm w
                    (fun b => idx_eqb (gen b i) j) o xs).
Qed.

End Vis.
