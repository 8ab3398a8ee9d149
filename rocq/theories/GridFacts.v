(** Facts about the conversion of maps to grids. *)
From Coq Require Import QArith Qround Lqa.
From Verif Require Import Base SeqModel SeqFacts IndexModel IndexFacts OctreeSpec OctreeModel OctreeFacts
  MapModel MapFacts MapHist BackendModel BackendFacts SysModel SysSpec SysFacts MapLifeFacts ExtentModel ExtentFacts
  SampleModel SampleSpec InterpFacts SampleFacts ConvFacts GridModel.
Open Scope Z_scope.

Lemma int_range_in (n k : Z) : In k (int_range n) <-> 0 <= k < n.
Proof.
  unfold int_range. rewrite in_map_iff. split.
  - intros [i [<- H]]. apply in_seq in H. lia.
  - intros H. exists (Z.to_nat k). split; [lia|]. apply in_seq. lia.
Qed.

(** A sequence of writes. *)
Definition set3 (g : grid) (w : Z * Z * Q) : outcome grid := grid_set g (fst (fst w)) (snd (fst w)) (snd w).
Definition in_grid (g : grid) (u v : Z) : Prop := 0 <= u < g_width g /\ 0 <= v < g_height g.

Lemma grid_set_ok (g : grid) (u v : Z) (x : Q) : in_grid g u v ->
  grid_set g u v x = Ok {| g_width := g_width g; g_height := g_height g;
             g_at := fun a b => if (a =? u) && (b =? v) then x else g_at g a b |}.
Proof.
  intros [H1 H2]. unfold grid_set.
  destruct (Z.leb_spec 0 u); [|lia]. destruct (Z.ltb_spec u (g_width g)); [|lia].
  destruct (Z.leb_spec 0 v); [|lia]. destruct (Z.ltb_spec v (g_height g)); [|lia]. reflexivity.
Qed.

Lemma write_dec (a b : Z * Z * Q) : {a = b} + {a <> b}.
Proof.
  destruct a as [[u v] [n d]], b as [[u' v'] [n' d']].
  destruct (Z.eq_dec u u') as [->|]; [|right; congruence]. destruct (Z.eq_dec v v') as [->|]; [|right; congruence].
  destruct (Z.eq_dec n n') as [->|]; [|right; congruence]. destruct (Pos.eq_dec d d') as [->|]; [left; reflexivity|right; congruence].
Qed.
Lemma writes_spec (ws : list (Z * Z * Q)) : forall g,
  (forall u v x, In (u, v, x) ws -> in_grid g u v) ->
  exists g', ofold set3 ws g = Ok g' /\ g_width g' = g_width g /\ g_height g' = g_height g /\
    (forall u v, (forall x, ~ In (u, v, x) ws) -> g_at g' u v = g_at g u v) /\
    (forall u v x, In (u, v, x) ws -> (forall y, In (u, v, y) ws -> y = x) -> g_at g' u v = x).
Proof.
  induction ws as [|[[u0 v0] x0] ws IH]; intros g H.
  - exists g. split; [reflexivity|]. split; [reflexivity|]. split; [reflexivity|]. split; [reflexivity|]. intros u v x [].
  - cbn [ofold]. unfold set3 at 1. cbn [fst snd].
    rewrite grid_set_ok by (apply (H u0 v0 x0); left; reflexivity). cbn [obind].
    match goal with |- context [ofold set3 ws ?g1] => destruct (IH g1) as [g' [E [W [Hh [A B]]]]] end.
    { intros u v x Hin. apply (H u v x). right; exact Hin. }
    exists g'. cbn [g_width g_height g_at] in *. split; [exact E|]. split; [exact W|]. split; [exact Hh|]. split.
    + intros u v Hno. rewrite A by (intros x Hx; apply (Hno x); right; exact Hx).
      destruct (Z.eqb_spec u u0) as [->|]; [|reflexivity]. destruct (Z.eqb_spec v v0) as [->|]; [|reflexivity].
      exfalso. apply (Hno x0). left; reflexivity.
    + intros u v x Hin Hf.
      destruct (in_dec write_dec (u, v, x) ws) as [Hi|Hi].
      * apply B; [exact Hi|]. intros y Hy. apply Hf. right; exact Hy.
      * destruct Hin as [Heq|Hin]; [|contradiction]. injection Heq as -> -> ->.
        rewrite A.
        -- rewrite !Z.eqb_refl. reflexivity.
        -- intros y Hy. assert (y = x) by (apply Hf; right; exact Hy). subst y. contradiction.
Qed.

Lemma ofold_concat {A B C : Type} (f : A -> C -> outcome A) (F : B -> list C) (l : list B) : forall a,
  ofold (fun a b => ofold f (F b) a) l a = ofold f (flat_map F l) a.
Proof.
  induction l as [|b l IH]; intros a; [reflexivity|]. cbn [ofold flat_map]. rewrite ofold_app.
  destruct (ofold f (F b) a); cbn [obind]; [apply IH|reflexivity|reflexivity].
Qed.
Lemma ofold_map_in {A B C : Type} (f : A -> C -> outcome A) (F : B -> C) (l : list B) : forall a,
  ofold (fun a b => f a (F b)) l a = ofold f (map F l) a.
Proof.
  induction l as [|b l IH]; intros a; [reflexivity|]. cbn [ofold map].
  destruct (f a (F b)); cbn [obind]; [apply IH|reflexivity|reflexivity].
Qed.

(** The index range of a static map never changes. *)
Section Range.
Context {P : Type}.
Variable c : config P.
Hypothesis Hk : kindc c = Static.
Definition same_range (m m' : cmap c) : Prop := min_bi m' = min_bi m /\ max_bi m' = max_bi m.

Lemma same_range_fold {B : Type} (f : cmap c -> B -> outcome (cmap c)) (l : list B) :
  (forall m b m', f m b = Ok m' -> same_range m m') ->
  forall m m', ofold f l m = Ok m' -> same_range m m'.
Proof.
  intros H. induction l as [|b l IH]; intros m m' E; cbn [ofold] in E; [injection E as <-; split; reflexivity|].
  destruct (f m b) as [m1| |] eqn:E1; cbn [obind] in E; try discriminate E.
  destruct (H _ _ _ E1) as [A B']. destruct (IH _ _ E) as [C D]. split; congruence.
Qed.
Lemma set_store_range (m m' : cmap c) i s : set_store (bdc c) (bbc c) m i s = Ok m' -> same_range m m'.
Proof. unfold set_store. destruct upd; intros E; [injection E as <-; split; reflexivity|discriminate E]. Qed.

Lemma getAllocate_range (m m' : cmap c) bi :
  getAllocate (defaultc c) (bdc c) (bbc c) (dimc c) (kindc c) (aminc c) (amaxc c) m bi = Ok m' -> same_range m m'.
Proof.
  unfold getAllocate. intros E. obreak E. destruct a as [b|]; [injection E as <-; split; reflexivity|].
  obreak E. obreak E. injection E as <-. unfold updateIndices. rewrite Hk.
  match goal with H : ofold _ _ _ = Ok _ |- _ => apply same_range_fold in H; [destruct H as [A B]; split; [rewrite A|rewrite B]; reflexivity|] end.
  clear. intros m [i j] m' E. unfold alloc_slot in E. obreak E. destruct a as [b|]; [|discriminate E].
  destruct (nth_error (slots b) i) as [[s|]|]; [injection E as <-; split; reflexivity| |discriminate E].
  obreak E. obreak E. obreak E. obreak E. injection E as <-. cbn [set_bundles min_bi max_bi].
  match goal with H : set_store _ _ _ _ _ = Ok _ |- _ => exact (set_store_range _ _ _ _ H) end.
Qed.

Lemma cact_range (m m' : cmap c) (a : map_action (P:=P)) : cact c m a = Ok m' -> same_range m m'.
Proof.
  destruct a as [bi f|bi|]; unfold cact, act; intros E.
  - unfold modify_bundle in E. obreak E.
    match goal with H : getAllocate _ _ _ _ _ _ _ _ _ = Ok _ |- _ => destruct (getAllocate_range _ _ _ H) as [A B] end.
    apply same_range_fold in E; [destruct E; split; congruence|].
    clear. intros m i m' E. unfold modify_slot in E. obreak E. destruct a as [b|]; [|discriminate E].
    destruct (nth_error (slots b) i) as [[s|]|]; [|discriminate E|discriminate E].
    obreak E. obreak E. exact (set_store_range _ _ _ _ E).
  - obreak E. injection E as <-. unfold getDistributionBundle in *. destruct valid.
    + match goal with H : _ = Ok a |- _ => obreak H; injection H as <- end. cbn [fst].
      match goal with H : getAllocate _ _ _ _ _ _ _ _ _ = Ok _ |- _ => exact (getAllocate_range _ _ _ H) end.
    + match goal with H : _ = Ok a |- _ => injection H as <- end. split; reflexivity.
  - unfold allocatePartiallyAllocatedBundles in E. obreak E. apply same_range_fold in E; [exact E|].
    clear E. intros m1 bi m2 E. unfold allocatePartiallyAllocatedBundle in E. obreak E.
    destruct a0 as [b|]; [|discriminate E]. destruct (expand b); [|injection E as <-; split; reflexivity].
    obreak E. destruct a0; [|injection E as <-; split; reflexivity].
    obreak E. obreak E. injection E as <-. cbn [set_bundles min_bi max_bi].
    match goal with H : ofold _ _ _ = Ok _ |- _ => apply same_range_fold in H; [exact H|] end.
    intros m3 o m4 E. unfold alloc_neighbour in E. destruct valid; [exact (getAllocate_range _ _ _ E)|injection E as <-; split; reflexivity].
Qed.

Lemma static_range (l : list (map_action (P:=P))) (m : cmap c) :
  cact_all c l (new_map c) = Ok m -> min_bi m = minc c /\ max_bi m = static_max (sizec c) (minc c).
Proof.
  intros E. apply same_range_fold in E; [|intros m1 a m2; apply cact_range].
  destruct E as [A B]. rewrite A, B. unfold new_map. clear -Hk.
  assert (G : forall k, k = Static ->
    min_bi (match k as k return ndmap (dist_backend (mergec c) (dimc c) k) (bundle_backend (dimc c) k) with
     | Dynamic => dynamic_new (mergec c) (dimc c) (garbagec c)
     | Static => static_new (mergec c) (dimc c) (sizec c) (minc c) end) = minc c /\
    max_bi (match k as k return ndmap (dist_backend (mergec c) (dimc c) k) (bundle_backend (dimc c) k) with
     | Dynamic => dynamic_new (mergec c) (dimc c) (garbagec c)
     | Static => static_new (mergec c) (dimc c) (sizec c) (minc c) end) = static_max (sizec c) (minc c)).
  { intros k ->. split; reflexivity. }
  exact (G (kindc c) Hk).
Qed.
End Range.

Section Convert.
Context {P : Type}.
Variable c : config P.
Hypothesis Hc : config_ok c.
Hypothesis Hdim : dimc c = 2%nat.
Hypothesis Hcw : kindc c = Dynamic -> aminc c = cw_min /\ amaxc c = cw_max.
Variable bres sres : Q.
Hypothesis Hb : (0 < bres)%Q.
Hypothesis Hs : (0 < sres)%Q.
Variable dsample : P -> list Q -> Q.

Lemma bundle_range (l : list (map_action (P:=P))) (m : cmap c) (bs : list (idx * bundle)) :
  fits c l -> cact_all c l (new_map c) = Ok m -> cbundles c m = Ok bs ->
  forall bi d, In bi (map fst bs) -> (d < dimc c)%nat -> nth d (min_bi m) 0 <= nth d bi 0 <= nth d (max_bi m) 0.
Proof.
  intros Hf E Eb bi d Hin Hd.
  destruct (run_spec c Hc l Hf) as [m0 [E0 [HI [HR _]]]]. assert (m0 = m) by congruence. subst m0.
  apply (cbundles_in c m bs HI Eb) in Hin.
  destruct (kind_cases (kindc c)) as [K|K].
  - pose proof (has_b_usable c 0 m bi HI HR Hin) as [HL Hu]. rewrite K in Hu. specialize (Hu d Hd).
    destruct (static_range c K l m E) as [-> ->].
    assert (Hz : forall (a b : list Z) n, (n < length a)%nat -> length a = length b ->
       nth n (static_max b a) 0 = nth n a 0 + nth n b 0 * 2 - 1).
    { unfold static_max. clear. induction a as [|x a IH]; intros b n Hn HL; [cbn in Hn; lia|].
      destruct b as [|y b]; [discriminate HL|]. destruct n as [|n]; [reflexivity|]. cbn [nth zip_with].
      apply IH; [cbn in Hn; lia|injection HL as HL; exact HL]. }
    rewrite Hz by (rewrite (ok_min c Hc K), ?(ok_size c Hc K); congruence || lia). lia.
  - destruct (Hcw K) as [A B]. destruct HI as [[_ [_ [_ Hbox]]] _]. destruct (Hbox A B K) as [_ [_ H]].
    destruct (H d Hd) as [H1 _]. apply H1. exact Hin.
Qed.

(** The weights of one pixel and its value. *)
Definition pixel_weights (bilinear : bool) (cs : Z) (bi : idx) (k l : Z) : nat -> Q :=
  if bilinear
  then to_bilinear_interpolation_weight [chunk_weight (nth 0 bi 0) k cs; chunk_weight (nth 1 bi 0) l cs]
  else fun _ => div_count c.
Definition pixel_value (bilinear : bool) (cs : Z) (m : cmap c) (bi : idx) (k l : Z) : Q :=
  score c dsample m bi (pixel_weights bilinear cs bi k l) (chunk_point bres sres bi k l).
Definition pix (mn : idx) (d : nat) (cs : Z) (bi : idx) (k : Z) : Z := (nth d bi 0 - nth d mn 0) * cs + k.

Lemma pix_inj (mn : idx) (d : nat) (cs : Z) (bi bi' : idx) (k k' : Z) :
  0 <= k < cs -> 0 <= k' < cs -> pix mn d cs bi k = pix mn d cs bi' k' -> nth d bi 0 = nth d bi' 0 /\ k = k'.
Proof.
  clear. unfold pix. intros H1 H2 E.
  destruct (Z.div_mod_unique cs (nth d bi 0 - nth d mn 0) (nth d bi' 0 - nth d mn 0) k k'); [left; exact H1|left; exact H2|lia|lia].
Qed.

Lemma pixel_index_ok (b mn cs k n : Z) :
  0 <= b - mn -> b - mn + 1 <= n -> 0 <= k < cs -> n * cs <= INT_MAX ->
  pixel_index b mn cs k = Ok ((b - mn) * cs + k).
Proof.
  intros. unfold pixel_index. assert (0 <= (b - mn) * cs) by nia.
  assert ((b - mn) * cs + k < n * cs) by nia. assert (b - mn <= (b-mn)*cs) by nia.
  rewrite to_int_ok by (unfold INT_MIN, INT_MAX in *; lia). cbn [obind].
  rewrite to_int_ok by (unfold INT_MIN, INT_MAX in *; lia). cbn [obind].
  rewrite to_int_ok by (unfold INT_MIN, INT_MAX in *; lia). cbn [obind].
  rewrite Z.mod_small; [reflexivity|]. unfold INT_MAX in *; lia.
Qed.

Lemma qtrunc_floor : qtrunc (bres / sres) = Qfloor (bres / sres) /\ 0 <= Qfloor (bres / sres).
Proof.
  assert (H : (0 <= bres / sres)%Q) by (apply Qle_shift_div_l; [exact Hs|lra]).
  unfold qtrunc. rewrite (proj2 (Qle_bool_iff _ _) H). split; [reflexivity|].
  rewrite <- (Qfloor_Z 0). apply Qfloor_resp_le. exact H.
Qed.

(** [n] bundles of [cs] pixels each fit between two [ceil]ed metric extents. *)
Lemma chunk_fits (n : Z) (cs := Qfloor (bres / sres)) : 0 <= n ->
  n * cs <= Qceiling (inject_Z n * bres / sres).
Proof.
  intros Hn. rewrite <- (Qceiling_Z (n * cs)). apply Qceiling_resp_le. rewrite inject_Z_mult.
  unfold Qdiv. rewrite <- Qmult_assoc. rewrite !(Qmult_comm (inject_Z n)). apply Qmult_le_compat_r.
  - apply Qfloor_le.
  - change 0%Q with (inject_Z 0). rewrite <- Zle_Qle. exact Hn.
Qed.

(** What [getExtent] returns. *)
Lemma extent_value (m : cmap c) (d : nat) (w : Q) : getExtent c bres m d = Ok w ->
  w = (inject_Z (nth d (max_bi m) 0%Z - nth d (min_bi m) 0%Z + 1) * bres)%Q.
Proof.
  unfold getExtent, to_int. intros E. obreak E. destruct andb in E0; [|discriminate E0]. injection E0 as <-.
  obreak E. destruct andb in E0; [|discriminate E0]. injection E0 as <-. injection E as <-. reflexivity.
Qed.

Lemma size_value (w : Q) : (0 <= w)%Q -> (w <= inject_Z INT_MAX * sres)%Q ->
  to_size (Qceiling (w / sres)) = Ok (Qceiling (w / sres)) /\ 0 <= Qceiling (w / sres) <= INT_MAX.
Proof.
  intros H0 H1.
  assert (A : 0 <= Qceiling (w / sres)).
  { rewrite <- (Qceiling_Z 0). apply Qceiling_resp_le. apply Qle_shift_div_l; [exact Hs|]. setoid_replace (inject_Z 0 * sres)%Q with 0%Q by ring. exact H0. }
  assert (B : Qceiling (w / sres) <= INT_MAX).
  { rewrite <- (Qceiling_Z INT_MAX). apply Qceiling_resp_le. apply Qle_shift_div_r; [exact Hs|exact H1]. }
  split; [|lia]. unfold to_size. unfold INT_MAX in B.
  destruct (Z.leb_spec 0 (Qceiling (w / sres))); [|lia]. destruct (Z.ltb_spec (Qceiling (w / sres)) (2 ^ 64)); [reflexivity|lia].
Qed.

Lemma grid_core_inv (bilinear : bool) (dv : Q) (m : cmap c) (es : list (idx * bundle)) (w0 w1 : Q)
  (cs := Qfloor (bres / sres)) :
  cInv c m -> region c 0 m -> cbundles c m = Ok es ->
  (forall bi d, In bi (map fst es) -> (d < dimc c)%nat -> nth d (min_bi m) 0 <= nth d bi 0 <= nth d (max_bi m) 0) ->
  getExtent c bres m 0 = Ok w0 -> getExtent c bres m 1 = Ok w1 ->
  (0 <= w0 /\ w0 <= inject_Z INT_MAX * sres)%Q -> (0 <= w1 /\ w1 <= inject_Z INT_MAX * sres)%Q ->
  (bres <= inject_Z INT_MAX * sres)%Q ->
  exists g,
    to_grid c bres sres dsample false bilinear dv m = Ok (m, g) /\
    g_width g = Qceiling (w0 / sres) /\ g_height g = Qceiling (w1 / sres) /\
    (forall bi k n, In bi (map fst es) -> 0 <= k < cs -> 0 <= n < cs ->
       in_grid g (pix (min_bi m) 0 cs bi k) (pix (min_bi m) 1 cs bi n) /\
       g_at g (pix (min_bi m) 0 cs bi k) (pix (min_bi m) 1 cs bi n) = pixel_value bilinear cs m bi k n) /\
    (forall u v, (forall bi k n, In bi (map fst es) -> 0 <= k < cs -> 0 <= n < cs ->
                    pix (min_bi m) 0 cs bi k = u -> pix (min_bi m) 1 cs bi n = v -> False) ->
       g_at g u v = dv).
Proof.
  intros HI HR Ees Hrange E0 E1 [W0 W0'] [W1 W1'] Hint.
  destruct (cmap_bundles c Hc m HI HR) as [es' [Ees' [_ [Hin _]]]]. assert (es' = es) by congruence. subst es'.
  destruct (size_value w0 W0 W0') as [S0 B0]. destruct (size_value w1 W1 W1') as [S1 B1].
  destruct qtrunc_floor as [Et Hcs]. fold cs in Et, Hcs.
  assert (Hci : to_int cs = Ok cs).
  { apply to_int_ok. split; [unfold INT_MIN; lia|]. unfold cs. rewrite <- (Qfloor_Z INT_MAX). apply Qfloor_resp_le.
    apply Qle_shift_div_r; [exact Hs|exact Hint]. }
  unfold to_grid. cbn [obind]. rewrite E1. cbn [obind]. rewrite S1. cbn [obind]. rewrite E0. cbn [obind].
  rewrite S0. cbn [obind]. rewrite Et, Hci. cbn [obind]. rewrite Ees. cbn [obind].
  pose proof (extent_value m 0 w0 E0) as V0. pose proof (extent_value m 1 w1 E1) as V1.
  set (g0 := {| g_width := Qceiling (w0 / sres); g_height := Qceiling (w1 / sres); g_at := fun _ _ : Z => dv |}).
  set (F := fun (bi : idx) (k n : Z) => (pix (min_bi m) 0 cs bi k, pix (min_bi m) 1 cs bi n, pixel_value bilinear cs m bi k n)).
  set (ws := flat_map (fun e : idx * bundle => flat_map (fun k => map (F (fst e) k) (int_range cs)) (int_range cs)) es).
  (* one axis *)
  assert (Hax : forall bi d k w, In bi (map fst es) -> (d < 2)%nat -> 0 <= k < cs ->
            w = (inject_Z (nth d (max_bi m) 0%Z - nth d (min_bi m) 0%Z + 1) * bres)%Q ->
            (w <= inject_Z INT_MAX * sres)%Q -> Qceiling (w / sres) <= INT_MAX ->
            pixel_index (nth d bi 0) (nth d (min_bi m) 0) cs k = Ok (pix (min_bi m) d cs bi k) /\
            0 <= pix (min_bi m) d cs bi k < Qceiling (w / sres)).
  { intros bi d k w Hbi Hd Hk Hw Hw' Hceil. pose proof (Hrange bi d Hbi ltac:(rewrite Hdim; exact Hd)) as R.
    set (n := nth d (max_bi m) 0 - nth d (min_bi m) 0 + 1) in *.
    pose proof (chunk_fits n ltac:(lia)) as C. fold cs in C. rewrite <- Hw in C.
    split.
    - unfold pix. apply (pixel_index_ok _ _ _ _ n); lia.
    - unfold pix. nia. }
  assert (Hws : forall u v x, In (u, v, x) ws <-> exists bi k n, In bi (map fst es) /\ 0 <= k < cs /\ 0 <= n < cs /\
                  u = pix (min_bi m) 0 cs bi k /\ v = pix (min_bi m) 1 cs bi n /\ x = pixel_value bilinear cs m bi k n).
  { intros u v x. unfold ws. rewrite in_flat_map. split.
    - intros [e [He H]]. apply in_flat_map in H. destruct H as [k [Hk H]]. apply in_map_iff in H.
      destruct H as [n [Hq Hn]]. injection Hq as <- <- <-. apply int_range_in in Hk, Hn.
      exists (fst e), k, n. split; [apply in_map; exact He|]. auto.
    - intros [bi [k [n [Hbi [Hk [Hn [-> [-> ->]]]]]]]]. apply in_map_iff in Hbi. destruct Hbi as [e [<- He]].
      exists e. split; [exact He|]. apply in_flat_map. exists k. split; [apply int_range_in; exact Hk|].
      apply in_map_iff. exists n. split; [reflexivity|apply int_range_in; exact Hn]. }
  assert (Hfold : ofold (write_bundle c bres sres dsample bilinear m (min_bi m) cs) es g0 = ofold set3 ws g0).
  { unfold ws. rewrite <- ofold_concat. apply ofold_ext. intros g e He. unfold write_bundle.
    rewrite <- ofold_concat. apply ofold_ext. intros g1 k Hk. apply int_range_in in Hk.
    rewrite <- ofold_map_in. apply ofold_ext. intros g2 n Hn. apply int_range_in in Hn.
    destruct e as [bi b]. cbn [fst snd] in *. assert (Hbi : In bi (map fst es)) by (apply (in_map fst) in He; exact He).
    unfold write_pixel.
    destruct (Hax bi 0%nat k w0 Hbi ltac:(lia) Hk V0 W0' ltac:(lia)) as [-> _].
    destruct (Hax bi 1%nat n w1 Hbi ltac:(lia) Hn V1 W1' ltac:(lia)) as [-> _]. cbn [obind].
    apply Hin in He. destruct He as [Hu Hget].
    assert (Hdom : cbdom c (cshape c m) bi).
    { destruct HI as [_ [Hsh _]]. rewrite Hsh. apply (usable_bdom c Hc 0 bi); [lia|exact Hu]. }
    unfold set3, F, pixel_value, pixel_weights. cbn [fst snd].
    destruct bilinear; (rewrite weighted_sum_spec with (b := bi); [reflexivity|exact HI|exact Hdom|exact Hget]). }
  rewrite Hfold.
  assert (Hins : forall u v x, In (u, v, x) ws -> in_grid g0 u v).
  { intros u v x H. apply Hws in H. destruct H as [bi [k [n [Hbi [Hk [Hn [-> [-> _]]]]]]]].
    unfold in_grid, g0. cbn [g_width g_height].
    destruct (Hax bi 0%nat k w0 Hbi ltac:(lia) Hk V0 W0' ltac:(lia)) as [_ H0].
    destruct (Hax bi 1%nat n w1 Hbi ltac:(lia) Hn V1 W1' ltac:(lia)) as [_ H1]. split; assumption. }
  destruct (writes_spec ws g0 Hins) as [g [Eg [Gw [Gh [Gold Gnew]]]]].
  rewrite Eg. cbn [obind]. exists g. split; [reflexivity|]. split; [exact Gw|]. split; [exact Gh|]. split.
  - intros bi k n Hbi Hk Hn.
    assert (Hw : In (pix (min_bi m) 0 cs bi k, pix (min_bi m) 1 cs bi n, pixel_value bilinear cs m bi k n) ws).
    { apply Hws. exists bi, k, n. auto 10. }
    split.
    + destruct (Hins _ _ _ Hw) as [A B]. split; [rewrite Gw|rewrite Gh]; assumption.
    + apply Gnew; [exact Hw|]. intros y Hy. apply Hws in Hy. destruct Hy as [bi' [k' [n' [Hbi' [Hk' [Hn' [P0 [P1 ->]]]]]]]].
      apply pix_inj in P0; [|assumption|assumption]. apply pix_inj in P1; [|assumption|assumption].
      destruct P0 as [Q0 ->], P1 as [Q1 ->]. f_equal.
      assert (L : forall b, In b (map fst es) -> length b = 2%nat).
      { intros b Hb'. apply in_map_iff in Hb'. destruct Hb' as [[b1 b2] [<- Hb']]. apply Hin in Hb'. destruct Hb' as [[HL _] _]. cbn; congruence. }
      pose proof (L bi Hbi) as L1. pose proof (L bi' Hbi') as L2.
      destruct bi as [|x [|y [|]]]; try discriminate L1. destruct bi' as [|x' [|y' [|]]]; try discriminate L2.
      cbn in Q0, Q1. congruence.
  - intros u v H. rewrite Gold; [reflexivity|]. intros x Hx. apply Hws in Hx.
    destruct Hx as [bi [k [n [Hbi [Hk [Hn [-> [-> _]]]]]]]]. exact (H bi k n Hbi Hk Hn eq_refl eq_refl).
Qed.

Lemma grid_core (bilinear : bool) (dv : Q) (l : list (map_action (P:=P))) (m : cmap c) (es : list (idx * bundle)) (w0 w1 : Q)
  (cs := Qfloor (bres / sres)) :
  fits c l -> cact_all c l (new_map c) = Ok m -> cbundles c m = Ok es ->
  getExtent c bres m 0 = Ok w0 -> getExtent c bres m 1 = Ok w1 ->
  (0 <= w0 /\ w0 <= inject_Z INT_MAX * sres)%Q -> (0 <= w1 /\ w1 <= inject_Z INT_MAX * sres)%Q ->
  (bres <= inject_Z INT_MAX * sres)%Q ->
  exists g,
    to_grid c bres sres dsample false bilinear dv m = Ok (m, g) /\
    g_width g = Qceiling (w0 / sres) /\ g_height g = Qceiling (w1 / sres) /\
    (forall bi k n, In bi (map fst es) -> 0 <= k < cs -> 0 <= n < cs ->
       in_grid g (pix (min_bi m) 0 cs bi k) (pix (min_bi m) 1 cs bi n) /\
       g_at g (pix (min_bi m) 0 cs bi k) (pix (min_bi m) 1 cs bi n) = pixel_value bilinear cs m bi k n) /\
    (forall u v, (forall bi k n, In bi (map fst es) -> 0 <= k < cs -> 0 <= n < cs ->
                    pix (min_bi m) 0 cs bi k = u -> pix (min_bi m) 1 cs bi n = v -> False) ->
       g_at g u v = dv).
Proof.
  intros Hf E Ees. destruct (run_spec c Hc l Hf) as [m' [E' [HI [HR _]]]]. assert (m' = m) by congruence. subst m'.
  apply (grid_core_inv bilinear dv m es w0 w1 HI HR Ees (bundle_range l m es Hf E Ees)).
Qed.

(** The sampling function only depends on the numbers given to it. *)
Hypothesis dsample_proper : forall v p q, Forall2 Qeq p q -> (dsample v p == dsample v q)%Q.

Lemma score_proper (m : cmap c) (bi : idx) (w w' : nat -> Q) (p q : list Q) :
  (forall i, (i < 4)%nat -> (w i == w' i)%Q) -> Forall2 Qeq p q ->
  (score c dsample m bi w p == score c dsample m bi w' q)%Q.
Proof.
  intros Hw Hp. rewrite !score_sum. apply qsum_ext. intros i Hi. apply in_seq in Hi. rewrite Hdim in Hi.
  rewrite (Hw i) by (cbn in Hi; lia). rewrite (dsample_proper _ p q Hp). reflexivity.
Qed.

Lemma weights2_proper (a b a' b' : Q) (i : nat) : (a == a')%Q -> (b == b')%Q ->
  (to_bilinear_interpolation_weight [a; b] i == to_bilinear_interpolation_weight [a'; b'] i)%Q.
Proof.
  intros Ha Hb'. unfold to_bilinear_interpolation_weight. cbn [length make_integer_sequence].
  cbn -[weight_inner]. unfold weight_inner.
  destruct (counter_bit i 0), (counter_bit i 1); rewrite ?Ha, ?Hb'; reflexivity.
Qed.

(** Along one axis, if a bundle is [n] pixels wide. *)
Variable n : Z.
Hypothesis Hn : 0 < n.
Hypothesis Hdiv : (bres == inject_Z n * sres)%Q.

Lemma chunk_is : Qfloor (bres / sres) = n.
Proof.
  rewrite <- (Qfloor_Z n). apply Qfloor_comp. rewrite Hdiv. field. lra.
Qed.
Lemma extent_pixels (k : Z) : Qceiling (inject_Z k * bres / sres) = k * n.
Proof.
  rewrite <- (Qceiling_Z (k * n)). apply Qceiling_comp. rewrite Hdiv, inject_Z_mult. field. lra.
Qed.
Lemma pixel_split (mn u : Z) :
  (inject_Z mn * bres + inject_Z u * sres == inject_Z (mn + u / n) * bres + inject_Z (u mod n) * sres)%Q.
Proof.
  rewrite Hdiv, inject_Z_plus.
  pose proof (Z.div_mod u n ltac:(lia)) as D.
  assert (D' : (inject_Z u == inject_Z n * inject_Z (u / n) + inject_Z (u mod n))%Q)
    by (rewrite <- inject_Z_mult, <- inject_Z_plus, <- D; reflexivity).
  rewrite D'. ring.
Qed.
Lemma pixel_in_bundle (b k : Z) : 0 <= k < n ->
  (inject_Z b * bres <= inject_Z b * bres + inject_Z k * sres /\
   inject_Z b * bres + inject_Z k * sres < (inject_Z b + 1) * bres)%Q.
Proof.
  intros [H1 H2].
  assert (A : (0 <= inject_Z k)%Q) by (change 0%Q with (inject_Z 0); rewrite <- Zle_Qle; exact H1).
  assert (B : (inject_Z k < inject_Z n)%Q) by (rewrite <- Zlt_Qlt; exact H2).
  split.
  - assert (0 <= inject_Z k * sres)%Q by (apply Qmult_le_0_compat; lra). lra.
  - assert (C : (inject_Z k * sres < inject_Z n * sres)%Q) by (apply Qmult_lt_compat_r; assumption).
    rewrite <- Hdiv in C. setoid_replace ((inject_Z b + 1) * bres)%Q with (inject_Z b * bres + bres)%Q by ring. lra.
Qed.
Lemma axis_weight (b k : Z) : 
  (inject_Z b * bres + inject_Z k * sres) * / bres - inject_Z b == inject_Z k / inject_Z n.
Proof.
  assert (A : ~ (inject_Z n == 0)%Q) by (intros H; assert (0 < inject_Z n)%Q by (change 0%Q with (inject_Z 0); rewrite <- Zlt_Qlt; exact Hn); lra).
  rewrite Hdiv. field. split; first [exact A|lra].
Qed.

Lemma grid_positions (bilinear : bool) (dv : Q) (l : list (map_action (P:=P))) (m : cmap c) (es : list (idx * bundle))
  (w0 w1 : Q) (g : grid) :
  fits c l -> cact_all c l (new_map c) = Ok m -> cbundles c m = Ok es ->
  getExtent c bres m 0 = Ok w0 -> getExtent c bres m 1 = Ok w1 ->
  (0 <= w0 /\ w0 <= inject_Z INT_MAX * sres)%Q -> (0 <= w1 /\ w1 <= inject_Z INT_MAX * sres)%Q ->
  (bres <= inject_Z INT_MAX * sres)%Q ->
  (forall d, (d < 2)%nat -> INT_MIN <= nth d (min_bi m) 0 /\ nth d (max_bi m) 0 <= INT_MAX) ->
  to_grid c bres sres dsample false bilinear dv m = Ok (m, g) ->
  forall u v, 0 <= u < g_width g -> 0 <= v < g_height g ->
    let p := [nth 0 (getMin c bres m) 0 + inject_Z u * sres; nth 1 (getMin c bres m) 0 + inject_Z v * sres]%Q in
    exists bi s, toBundleIndex (/ bres) p = Ok bi /\
      (if bilinear then sampleNonNormalizedBilinear c (/ bres) dsample m p
       else sampleNonNormalized c (/ bres) dsample m p) = Ok s /\
      (In bi (map fst es) -> (g_at g u v == s)%Q) /\
      (~ In bi (map fst es) -> s = 0%Q /\ g_at g u v = dv).
Proof.
  intros Hf E Ees E0 E1 W0 W1 Hint Hmm Eg u v Hu Hv p.
  destruct (grid_core bilinear dv l m es w0 w1 Hf E Ees E0 E1 W0 W1 Hint) as [g' [Eg' [Gw [Gh [Gnew Gold]]]]].
  assert (g' = g) by congruence. subst g'. clear Eg'. rewrite chunk_is in Gnew, Gold.
  pose proof (extent_value m 0 w0 E0) as V0. pose proof (extent_value m 1 w1 E1) as V1.
  set (N0 := nth 0 (max_bi m) 0 - nth 0 (min_bi m) 0 + 1) in V0. set (N1 := nth 1 (max_bi m) 0 - nth 1 (min_bi m) 0 + 1) in V1.
  rewrite V0, extent_pixels in Gw. rewrite V1, extent_pixels in Gh. rewrite Gw in Hu. rewrite Gh in Hv.
  destruct (run_spec c Hc l Hf) as [m' [E' [HI [HR _]]]]. assert (m' = m) by congruence. subst m'.
  destruct (cmap_bundles c Hc m HI HR) as [es' [Ees' [_ [Hin _]]]]. assert (es' = es) by congruence. subst es'.
  assert (Lmin : length (min_bi m) = 2%nat).
  { destruct (kind_cases (kindc c)) as [K|K].
    - destruct (static_range c K l m E) as [-> _]. rewrite (ok_min c Hc K). exact Hdim.
    - destruct (Hcw K) as [A B]. destruct HI as [[_ [_ [_ Hbox]]] _]. destruct (Hbox A B K) as [L _]. congruence. }
  assert (Du : 0 <= u / n < N0) by (split; [apply Z.div_pos; lia|apply Z.div_lt_upper_bound; lia]).
  assert (Dv : 0 <= v / n < N1) by (split; [apply Z.div_pos; lia|apply Z.div_lt_upper_bound; lia]).
  pose proof (Z.mod_pos_bound u n Hn) as Mu. pose proof (Z.mod_pos_bound v n Hn) as Mv.
  set (mn0 := nth 0 (min_bi m) 0) in *. set (mn1 := nth 1 (min_bi m) 0) in *.
  set (bi := [mn0 + u / n; mn1 + v / n]).
  assert (Gm : forall d, (d < 2)%nat -> nth d (getMin c bres m) 0%Q = (inject_Z (nth d (min_bi m) 0%Z) * bres)%Q).
  { intros d Hd. unfold getMin. rewrite (nth_indep _ 0%Q (inject_Z 0 * bres)%Q) by (rewrite map_length; lia).
    apply (map_nth (fun z => (inject_Z z * bres)%Q)). }
  assert (Hp : Forall2 Qeq p (chunk_point bres sres bi (u mod n) (v mod n))).
  { unfold p, chunk_point, bi. rewrite !Gm by lia. cbn [nth]. fold mn0 mn1. constructor; [apply pixel_split|].
    constructor; [apply pixel_split|constructor]. }
  assert (Hbi : toBundleIndex (/ bres) p = Ok bi).
  { apply (index_unique bres p bi Hb); [reflexivity| |].
    - destruct (Hmm 0%nat ltac:(lia)) as [A0 B0]. destruct (Hmm 1%nat ltac:(lia)) as [A1 B1]. fold mn0 in A0. fold mn1 in A1.
      unfold bi. constructor; [lia|]. constructor; [lia|constructor].
    - intros d Hd. inversion Hp as [|? ? ? ? P0 Hp']; subst. inversion Hp' as [|? ? ? ? P1 _]; subst.
      unfold p in P0, P1. cbn [nth bi] in P0, P1. cbn in Hd.
      destruct d as [|[|d]]; [| |lia]; unfold p, bi; cbn [nth]; [rewrite P0|rewrite P1]; apply pixel_in_bundle; assumption. }
  exists bi.
  assert (Hpix0 : pix (min_bi m) 0 n bi (u mod n) = u).
  { unfold pix, bi. cbn [nth]. fold mn0. pose proof (Z.div_mod u n ltac:(lia)). lia. }
  assert (Hpix1 : pix (min_bi m) 1 n bi (v mod n) = v).
  { unfold pix, bi. cbn [nth]. fold mn1. pose proof (Z.div_mod v n ltac:(lia)). lia. }
  assert (Hout : ~ In bi (map fst es) -> g_at g u v = dv).
  { intros Hno. apply Gold. intros bi' k k' Hbi' Hk Hk' P0 P1. apply Hno.
    rewrite <- Hpix0 in P0. rewrite <- Hpix1 in P1.
    apply pix_inj in P0; [|assumption|assumption]. apply pix_inj in P1; [|assumption|assumption].
    assert (L' : length bi' = 2%nat).
    { apply in_map_iff in Hbi'. destruct Hbi' as [[b1 b2] [<- Hb']]. apply Hin in Hb'. destruct Hb' as [[HL _] _]. cbn; congruence. }
    destruct bi' as [|x [|y [|]]]; try discriminate L'. destruct P0 as [P0 _], P1 as [P1 _]. unfold bi in *. cbn [nth] in P0, P1.
    subst x y. exact Hbi'. }
  destruct (in_dec (list_eq_dec Z.eq_dec) bi (map fst es)) as [Hi|Hi].
  - pose proof Hi as Hi'. apply in_map_iff in Hi'. destruct Hi' as [[b1 b2] [Eb Hb']]. cbn [fst] in Eb. subst b1.
    apply Hin in Hb'. destruct Hb' as [Hus Hget].
    destruct (place_usable c bi Hus) as [Ha Hpl].
    destruct (Gnew bi (u mod n) (v mod n) Hi Mu Mv) as [_ Hval]. rewrite Hpix0, Hpix1 in Hval.
    exists (score c dsample m bi (if bilinear then to_bilinear_interpolation_weight (get_bilinear_interpolation_weights bi p (/ bres))
                                   else fun _ => div_count c) p).
    split; [exact Hbi|]. split.
    { destruct bilinear; unfold sampleNonNormalized, sampleNonNormalizedBilinear; rewrite Hbi; cbn [obind].
      - rewrite (sample_bilinear_at_spec c Hc dsample (/ bres) m p bi HI HR Ha). unfold sampled. rewrite Hpl, Hget. reflexivity.
      - rewrite (sample_at_spec c Hc dsample m p bi HI HR Ha). unfold sampled. rewrite Hpl, Hget. reflexivity. }
    split; [intros _|contradiction]. rewrite Hval. unfold pixel_value. symmetry. apply score_proper; [|exact Hp].
    intros i Hi4. unfold pixel_weights. destruct bilinear; [|reflexivity].
    inversion Hp as [|? ? ? ? P0 Hp']; subst. inversion Hp' as [|? ? ? ? P1 _]; subst.
    unfold chunk_point in P0, P1.
    apply weights2_proper; cbn [length Nat.leb nth bi]; unfold chunk_weight.
    + destruct Z.odd; unfold p; cbn [nth]; rewrite P0; unfold bi; cbn [nth]; rewrite axis_weight; reflexivity.
    + change (1 + 0)%nat with 1%nat. cbn [nth bi].
      destruct Z.odd; unfold p; cbn [nth]; rewrite P1; unfold bi; cbn [nth]; rewrite axis_weight; reflexivity.
  - exists 0%Q. split; [exact Hbi|]. split; [|split; [contradiction|auto]].
    destruct (kind_cases (kindc c)) as [K|K].
    + assert (D : usable c 0 bi \/ ~ usable c 0 bi).
      { unfold usable. rewrite K, Hdim.
        destruct (Z_lt_dec (nth 0 bi 0) (nth 0 (minc c) 0 + 2 * nth 0 (sizec c) 0 - 1)) as [A|A];
        destruct (Z_lt_dec (nth 1 bi 0) (nth 1 (minc c) 0 + 2 * nth 1 (sizec c) 0 - 1)) as [B|B].
        - left. split; [reflexivity|]. destruct (static_range c K l m E) as [R _]. intros d Hd.
          assert (nth 0 (minc c) 0 <= nth 0 bi 0) by (rewrite <- R; unfold bi; cbn [nth]; fold mn0; lia).
          assert (nth 1 (minc c) 0 <= nth 1 bi 0) by (rewrite <- R; unfold bi; cbn [nth]; fold mn1; lia).
          destruct d as [|[|d]]; lia.
        - right. intros [_ H]. specialize (H 1%nat ltac:(lia)). lia.
        - right. intros [_ H]. specialize (H 0%nat ltac:(lia)). lia.
        - right. intros [_ H]. specialize (H 0%nat ltac:(lia)). lia. }
      destruct D as [D|D].
      * destruct (place_usable c bi D) as [Ha Hpl].
        assert (Hnone : cbget c m bi = None).
        { destruct (cbget c m bi) as [b|] eqn:Eb; [|reflexivity]. exfalso. apply Hi. apply in_map_iff. exists (bi, b).
          split; [reflexivity|]. apply Hin. auto. }
        destruct bilinear; unfold sampleNonNormalized, sampleNonNormalizedBilinear; rewrite Hbi; cbn [obind].
        -- rewrite (sample_bilinear_at_spec c Hc dsample (/ bres) m p bi HI HR Ha). unfold sampled. rewrite Hpl, Hnone. reflexivity.
        -- rewrite (sample_at_spec c Hc dsample m p bi HI HR Ha). unfold sampled. rewrite Hpl, Hnone. reflexivity.
      * destruct (scores_outside c Hc dsample bres l m p bi K Hf E ltac:(rewrite Hdim; reflexivity) Hbi D) as [A B].
        destruct bilinear; assumption.
    + destruct (Hcw K) as [CA CB].
      destruct (range_history c Hc l CA CB K Hf) as [m' [bs [E'' [Ebs [Hbd [Hempty _]]]]]].
      assert (m' = m) by congruence. subst m'. assert (bs = es) by congruence. subst bs.
      destruct es as [|e es'].
      { destruct (Hempty eq_refl) as [R1 R2]. exfalso. unfold N0, mn0 in Du. rewrite R1, R2, Hdim in Du. cbn in Du.
        unfold INT_MAX, INT_MIN in Du. lia. }
      destruct (Hbd ltac:(discriminate)) as [_ [_ Hd]].
      assert (Hus : usable c 0 bi).
      { unfold usable. rewrite K, Hdim. split; [reflexivity|].
        assert (R : forall b d, In b (map fst (e :: es')) -> (d < 2)%nat -> -32768 <= nth d b 0 <= 32767).
        { intros b d Hbn Hdd. apply in_map_iff in Hbn. destruct Hbn as [[b1 b2] [<- Hbn]]. apply Hin in Hbn.
          destruct Hbn as [[HL Hr] _]. rewrite K in Hr. rewrite Forall_forall in Hr. cbn [fst].
          specialize (Hr (nth d b1 0) ltac:(apply nth_In; lia)). lia. }
        destruct (Hd 0%nat ltac:(rewrite Hdim; lia)) as [_ [[a0 [A1 A2]] [b0 [B1 B2]]]].
        destruct (Hd 1%nat ltac:(rewrite Hdim; lia)) as [_ [[a1 [A3 A4]] [b1 [B3 B4]]]].
        pose proof (R a0 0%nat A1 ltac:(lia)). pose proof (R b0 0%nat B1 ltac:(lia)).
        pose proof (R a1 1%nat A3 ltac:(lia)). pose proof (R b1 1%nat B3 ltac:(lia)).
        unfold bi. constructor; [lia|]. constructor; [lia|constructor]. }
      destruct (place_usable c bi Hus) as [Ha Hpl].
      assert (Hnone : cbget c m bi = None).
      { destruct (cbget c m bi) as [b|] eqn:Eb; [|reflexivity]. exfalso. apply Hi. apply in_map_iff. exists (bi, b).
        split; [reflexivity|]. apply Hin. auto. }
      destruct bilinear; unfold sampleNonNormalized, sampleNonNormalizedBilinear; rewrite Hbi; cbn [obind].
      -- rewrite (sample_bilinear_at_spec c Hc dsample (/ bres) m p bi HI HR Ha). unfold sampled. rewrite Hpl, Hnone. reflexivity.
      -- rewrite (sample_at_spec c Hc dsample m p bi HI HR Ha). unfold sampled. rewrite Hpl, Hnone. reflexivity.
Qed.
End Convert.

Section Whole.
Context {P : Type}.
Variable c : config P.
Hypothesis Hc : config_ok c.
Hypothesis Hdim : dimc c = 2%nat.
Hypothesis Hcw : kindc c = Dynamic -> aminc c = cw_min /\ amaxc c = cw_max.
Variable bres sres : Q.
Hypothesis Hb : (0 < bres)%Q.
Hypothesis Hs : (0 < sres)%Q.
Variable dsample : P -> list Q -> Q.
Variable allocate_all bilinear : bool.
Variable dv : Q.
Variable l : list (map_action (P:=P)).
Notation l' := (l ++ if allocate_all then [ExpandAll] else []).
Hypothesis Hf : fits c l'.

Lemma allocate_first :
  exists m0 m es, cact_all c l (new_map c) = Ok m0 /\ cact_all c l' (new_map c) = Ok m /\ cbundles c m = Ok es /\
    to_grid c bres sres dsample allocate_all bilinear dv m0 = to_grid c bres sres dsample false bilinear dv m.
Proof.
  destruct (run_spec c Hc l' Hf) as [m [E [HI [HR _]]]].
  destruct (cmap_bundles c Hc m HI HR) as [es [Ees _]].
  destruct (cact_all c l (new_map c)) as [m0| |] eqn:E0;
    [|rewrite cact_all_app, E0 in E; discriminate E|rewrite cact_all_app, E0 in E; discriminate E].
  exists m0, m, es. split; [reflexivity|]. split; [exact E|]. split; [exact Ees|].
  rewrite cact_all_app, E0 in E. cbn [obind] in E. unfold to_grid. destruct allocate_all.
  - unfold cact_all, act_all in E. cbn [ofold] in E. unfold cact. destruct (act _ _ _ _ _ _ _ _ _ m0 ExpandAll); cbn [obind] in *; [|discriminate E|discriminate E].
    injection E as ->. reflexivity.
  - injection E as ->. reflexivity.
Qed.

Lemma grid_chunks :
  exists m0 m es, cact_all c l (new_map c) = Ok m0 /\ cact_all c l' (new_map c) = Ok m /\ cbundles c m = Ok es /\
    forall w0 w1, getExtent c bres m 0 = Ok w0 -> getExtent c bres m 1 = Ok w1 ->
    (0 <= w0 /\ w0 <= inject_Z INT_MAX * sres)%Q -> (0 <= w1 /\ w1 <= inject_Z INT_MAX * sres)%Q ->
    (bres <= inject_Z INT_MAX * sres)%Q ->
    let cs := Qfloor (bres / sres) in
    let pixel (bi : idx) (k n : Z) := ((nth 0 bi 0 - nth 0 (min_bi m) 0) * cs + k, (nth 1 bi 0 - nth 1 (min_bi m) 0) * cs + n) in
    let chunk (bi : idx) (k n : Z) := In bi (map fst es) /\ 0 <= k < cs /\ 0 <= n < cs in
    exists g, to_grid c bres sres dsample allocate_all bilinear dv m0 = Ok (m, g) /\
      g_width g = Qceiling (w0 / sres) /\ g_height g = Qceiling (w1 / sres) /\
      (forall bi k n, chunk bi k n ->
         0 <= fst (pixel bi k n) < g_width g /\ 0 <= snd (pixel bi k n) < g_height g) /\
      (forall bi k n bi' k' n', chunk bi k n -> chunk bi' k' n' -> pixel bi k n = pixel bi' k' n' ->
         bi = bi' /\ k = k' /\ n = n') /\
      (forall bi k n, bilinear = false -> chunk bi k n ->
         sample_at c dsample m [inject_Z (nth 0 bi 0%Z) * bres + inject_Z k * sres; inject_Z (nth 1 bi 0%Z) * bres + inject_Z n * sres]%Q bi =
           Ok (g_at g (fst (pixel bi k n)) (snd (pixel bi k n)))) /\
      (forall u v, (forall bi k n, chunk bi k n -> pixel bi k n <> (u, v)) -> g_at g u v = dv).
Proof.
  destruct allocate_first as [m0 [m [es [E0 [E [Ees Et]]]]]]. exists m0, m, es.
  split; [exact E0|]. split; [exact E|]. split; [exact Ees|]. intros w0 w1 X0 X1 W0 W1 Hint cs pixel chunk.
  destruct (grid_core c Hc Hdim Hcw bres sres Hb Hs dsample bilinear dv l' m es w0 w1 Hf E Ees X0 X1 W0 W1 Hint)
    as [g [Eg [Gw [Gh [Gnew Gold]]]]].
  destruct (run_spec c Hc l' Hf) as [m' [E' [HI [HR _]]]]. assert (m' = m) by congruence. subst m'.
  destruct (cmap_bundles c Hc m HI HR) as [es' [Ees' [_ [Hin _]]]]. assert (es' = es) by congruence. subst es'.
  exists g. split; [rewrite Et; exact Eg|]. split; [exact Gw|]. split; [exact Gh|].
  split; [|split; [|split]].
  - intros bi k n [A [B C]]. exact (proj1 (Gnew bi k n A B C)).
  - intros bi k n bi' k' n' [A [B C]] [A' [B' C']] Hq. injection Hq as P0 P1.
    destruct (pix_inj (min_bi m) 0 cs bi bi' k k' B B' P0) as [Q0 ->].
    destruct (pix_inj (min_bi m) 1 cs bi bi' n n' C C' P1) as [Q1 ->].
    assert (L : forall b, In b (map fst es) -> length b = 2%nat).
    { intros b Hb'. apply in_map_iff in Hb'. destruct Hb' as [[b1 b2] [<- Hb']]. apply Hin in Hb'. destruct Hb' as [[HL _] _]. cbn; congruence. }
    pose proof (L bi A) as L1. pose proof (L bi' A') as L2.
    destruct bi as [|x [|y [|]]]; try discriminate L1. destruct bi' as [|x' [|y' [|]]]; try discriminate L2.
    cbn in Q0, Q1. split; [congruence|auto].
  - intros bi k n Hbl [A [B C]]. destruct (Gnew bi k n A B C) as [_ V].
    unfold pixel. cbn [fst snd]. unfold pix in V. unfold cs. rewrite V. unfold pixel_value, pixel_weights. rewrite Hbl.
    apply in_map_iff in A. destruct A as [[b1 b2] [Eb Hb']]. cbn in Eb. subst b1. apply Hin in Hb'. destruct Hb' as [Hu Hget].
    destruct (place_usable c bi Hu) as [Ha Hpl].
    rewrite (sample_at_spec c Hc dsample m _ bi HI HR Ha). unfold sampled. rewrite Hpl, Hget. reflexivity.
  - intros u v H. apply Gold. intros bi k n A B C P0 P1. apply (H bi k n); [repeat split; assumption || lia|].
    unfold pixel. unfold pix in P0, P1. unfold cs. rewrite P0, P1. reflexivity.
Qed.

Lemma grid_scores (n : Z) :
  (forall v p q, Forall2 Qeq p q -> (dsample v p == dsample v q)%Q) ->
  0 < n -> (bres == inject_Z n * sres)%Q ->
  exists m0 m es, cact_all c l (new_map c) = Ok m0 /\ cact_all c l' (new_map c) = Ok m /\ cbundles c m = Ok es /\
    forall w0 w1, getExtent c bres m 0 = Ok w0 -> getExtent c bres m 1 = Ok w1 ->
    (0 <= w0 /\ w0 <= inject_Z INT_MAX * sres)%Q -> (0 <= w1 /\ w1 <= inject_Z INT_MAX * sres)%Q ->
    (bres <= inject_Z INT_MAX * sres)%Q ->
    (forall d, (d < 2)%nat -> INT_MIN <= nth d (min_bi m) 0 /\ nth d (max_bi m) 0 <= INT_MAX) ->
    exists g, to_grid c bres sres dsample allocate_all bilinear dv m0 = Ok (m, g) /\
      (inject_Z (g_width g) * sres == w0)%Q /\ (inject_Z (g_height g) * sres == w1)%Q /\
      forall u v, 0 <= u < g_width g -> 0 <= v < g_height g ->
        let p := [nth 0 (getMin c bres m) 0 + inject_Z u * sres; nth 1 (getMin c bres m) 0 + inject_Z v * sres]%Q in
        exists bi s, toBundleIndex (/ bres) p = Ok bi /\
          (if bilinear then sampleNonNormalizedBilinear c (/ bres) dsample m p
           else sampleNonNormalized c (/ bres) dsample m p) = Ok s /\
          (In bi (map fst es) -> (g_at g u v == s)%Q) /\
          (~ In bi (map fst es) -> s = 0%Q /\ g_at g u v = dv).
Proof.
  intros Hp Hn Hdiv.
  destruct allocate_first as [m0 [m [es [E0 [E [Ees Et]]]]]]. exists m0, m, es.
  split; [exact E0|]. split; [exact E|]. split; [exact Ees|]. intros w0 w1 X0 X1 W0 W1 Hint Hmm.
  destruct (grid_core c Hc Hdim Hcw bres sres Hb Hs dsample bilinear dv l' m es w0 w1 Hf E Ees X0 X1 W0 W1 Hint)
    as [g [Eg [Gw [Gh _]]]].
  exists g. split; [rewrite Et; exact Eg|].
  split; [|split].
  - pose proof (extent_value c bres m 0 w0 X0) as V. rewrite V in Gw |- *. rewrite (extent_pixels bres sres Hs n Hdiv) in Gw.
    rewrite Gw, inject_Z_mult, Hdiv. ring.
  - pose proof (extent_value c bres m 1 w1 X1) as V. rewrite V in Gh |- *. rewrite (extent_pixels bres sres Hs n Hdiv) in Gh.
    rewrite Gh, inject_Z_mult, Hdiv. ring.
  - exact (grid_positions c Hc Hdim Hcw bres sres Hb Hs dsample Hp n Hn Hdiv bilinear dv l' m es w0 w1 g Hf E Ees X0 X1 W0 W1 Hint Hmm Eg).
Qed.
End Whole.

Lemma grid_coarse {P : Type} (c : config P) (Hc : config_ok c) (bres sres : Q) (dsample : P -> list Q -> Q)
  (allocate_all bilinear : bool) (dv : Q) (l : list (map_action (P:=P))) (m0 m : cmap c) (g : grid) :
  dimc c = 2%nat -> (0 < bres)%Q -> (bres < sres)%Q ->
  fits c (l ++ if allocate_all then [ExpandAll] else []) ->
  cact_all c l (new_map c) = Ok m0 ->
  to_grid c bres sres dsample allocate_all bilinear dv m0 = Ok (m, g) ->
  forall u v, g_at g u v = dv.
Proof.
  intros Hdim Hb Hlt Hf E Eg u v. unfold to_grid in Eg. obreak Eg. obreak Eg. obreak Eg. obreak Eg. obreak Eg. obreak Eg.
  obreak Eg. obreak Eg. injection Eg as <- <-.
  assert (Hz : Qfloor (bres / sres) = 0).
  { assert (A : Qfloor (bres / sres) < 1).
    { rewrite Zlt_Qlt. eapply Qle_lt_trans; [apply Qfloor_le|]. apply Qlt_shift_div_r; [lra|]. change (inject_Z 1) with 1%Q. lra. }
    pose proof (proj2 (qtrunc_floor bres sres Hb ltac:(lra))). lia. }
  rewrite (proj1 (qtrunc_floor bres sres Hb ltac:(lra))), Hz in E5. injection E5 as <-.
  assert (G : forall es g0 g1, ofold (write_bundle c bres sres dsample bilinear a (min_bi a) 0) es g0 = Ok g1 -> g1 = g0).
  { clear. induction es as [|e es IH]; intros g0 g1 H; cbn [ofold] in H; [congruence|]. exact (IH _ _ H). }
  rewrite (G _ _ _ E7). reflexivity.
Qed.
