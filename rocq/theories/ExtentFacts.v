(** Proofs about extents and point-to-index conversion. *)
From Coq Require Import QArith Qround Lqa Permutation.
From Verif Require Import Base SeqModel IndexModel OctreeSpec MapModel MapFacts BackendModel BackendFacts
  SysModel SysSpec SysFacts MapLifeFacts ExtentModel.
Open Scope Z_scope.

Lemma to_int_ok (z : Z) : INT_MIN <= z <= INT_MAX -> to_int z = Ok z.
Proof.
  intros H. unfold to_int.
  destruct (Z.leb_spec INT_MIN z) as [_|]; [|lia]. destruct (Z.leb_spec z INT_MAX) as [_|]; [|lia]. reflexivity.
Qed.
Lemma to_int_ub (z : Z) : ~ INT_MIN <= z <= INT_MAX -> to_int z = UB.
Proof.
  intros H. unfold to_int.
  destruct (Z.leb_spec INT_MIN z) as [H1|H1]; destruct (Z.leb_spec z INT_MAX) as [H2|H2]; cbn; lia || reflexivity.
Qed.

Lemma omap_total {A B : Type} (f : A -> outcome B) (g : A -> B) (l : list A) :
  (forall x, In x l -> f x = Ok (g x)) -> omap f l = Ok (map g l).
Proof.
  induction l as [|x l IH]; intros H; [reflexivity|]. cbn.
  rewrite (H x) by (left; reflexivity). cbn. rewrite IH by (intros; apply H; right; assumption). reflexivity.
Qed.

(** The index of a point. *)
Definition fits_int (inv : Q) (x : Q) : Prop := INT_MIN <= Qfloor (x * inv) <= INT_MAX.

Lemma index_ok (inv : Q) (p : list Q) :
  Forall (fits_int inv) p -> toBundleIndex inv p = Ok (map (fun x => Qfloor (x * inv)) p).
Proof.
  intros H. unfold toBundleIndex. apply omap_total. intros x Hx. apply to_int_ok.
  rewrite Forall_forall in H. apply H; exact Hx.
Qed.
Lemma index_ub (inv : Q) (p : list Q) : ~ Forall (fits_int inv) p -> toBundleIndex inv p = UB.
Proof.
  intros H. unfold toBundleIndex. induction p as [|x p IH]; [destruct H; constructor|]. cbn [omap].
  destruct (Z_le_dec INT_MIN (Qfloor (x * inv))) as [H1|H1];
    [destruct (Z_le_dec (Qfloor (x * inv)) INT_MAX) as [H2|H2]|]; try (rewrite to_int_ub by lia; reflexivity).
  rewrite to_int_ok by lia. cbn [obind]. rewrite IH; [reflexivity|].
  intros HF. apply H. constructor; [split; assumption|exact HF].
Qed.

(** The defining inequality of the floor, scaled. *)
Lemma floor_cell (h x : Q) (i : Z) :
  (0 < h)%Q -> (Qfloor (x * / h) = i <-> (inject_Z i * h <= x /\ x < (inject_Z i + 1) * h)%Q).
Proof.
  intros Hh.
  assert (Hx : (x == x * / h * h)%Q) by (field; lra).
  set (q := (x * / h)%Q) in *. clearbody q.
  split.
  - intros <-. pose proof (Qfloor_le q) as L. pose proof (Qlt_floor q) as U.
    rewrite inject_Z_plus in U. rewrite Hx. split.
    + apply Qmult_le_compat_r; lra.
    + apply Qmult_lt_r; [exact Hh|]. exact U.
  - intros [L U]. rewrite Hx in L, U.
    apply Qmult_le_r in L; [|exact Hh]. apply Qmult_lt_r in U; [|exact Hh].
    pose proof (Qfloor_le q) as L'. pose proof (Qlt_floor q) as U'.
    assert (A : (inject_Z (Qfloor q) < inject_Z (i + 1))%Q) by (rewrite inject_Z_plus; unfold inject_Z at 3; lra).
    assert (B : (inject_Z i < inject_Z (Qfloor q + 1))%Q) by lra.
    rewrite <- Zlt_Qlt in A, B. lia.
Qed.

Lemma index_of_point (h : Q) (p : list Q) :
  (0 < h)%Q ->
  (exists bi, toBundleIndex (/ h) p = Ok bi /\ length bi = length p /\
     forall d, (d < length p)%nat ->
       (inject_Z (nth d bi 0%Z) * h <= nth d p 0 /\ nth d p 0 < (inject_Z (nth d bi 0%Z) + 1) * h)%Q) \/
  (toBundleIndex (/ h) p = UB /\
     exists d, (d < length p)%nat /\
       (nth d p 0 < inject_Z INT_MIN * h \/ (inject_Z INT_MAX + 1) * h <= nth d p 0)%Q).
Proof.
  intros Hh.
  assert (D : forall x, {fits_int (/ h) x} + {~ fits_int (/ h) x}).
  { intros x. unfold fits_int.
    destruct (Z_le_dec INT_MIN (Qfloor (x * / h))); destruct (Z_le_dec (Qfloor (x * / h)) INT_MAX);
      (left; lia) || (right; lia). }
  destruct (Forall_Exists_dec _ D p) as [HF|HE].
  - left. eexists. split; [apply index_ok; exact HF|]. split; [apply map_length|].
    intros d Hd. rewrite (nth_map_lt _ p d 0%Q) by exact Hd. apply floor_cell; [exact Hh|reflexivity].
  - right. split; [apply index_ub; intros HF; revert HE; rewrite Exists_exists; rewrite Forall_forall in HF; intros [x [Hx Hn]]; apply Hn, HF, Hx|].
    apply Exists_exists in HE. destruct HE as [x [Hx Hn]].
    apply (In_nth _ _ 0%Q) in Hx. destruct Hx as [d [Hd E]]. exists d. split; [exact Hd|]. rewrite E. clear E.
    unfold fits_int in Hn. set (i := Qfloor (x * / h)) in *.
    destruct (proj1 (floor_cell h x i Hh) eq_refl) as [L U].
    destruct (Z_lt_le_dec i INT_MIN) as [Hlt|Hge].
    + left. apply Qlt_le_trans with ((inject_Z i + 1) * h)%Q; [exact U|].
      apply Qmult_le_compat_r; [|lra]. change 1%Q with (inject_Z 1). rewrite <- inject_Z_plus, <- Zle_Qle. lia.
    + right. apply Qle_trans with (inject_Z i * h)%Q; [|exact L].
      apply Qmult_le_compat_r; [|lra]. change 1%Q with (inject_Z 1). rewrite <- inject_Z_plus, <- Zle_Qle. lia.
Qed.

(** Different points of the plane in the same bundle get the same index, and only those. *)
Lemma index_unique (h : Q) (p : list Q) (bi : idx) :
  (0 < h)%Q -> length bi = length p -> Forall (fun z => INT_MIN <= z <= INT_MAX) bi ->
  (forall d, (d < length p)%nat ->
       (inject_Z (nth d bi 0%Z) * h <= nth d p 0 /\ nth d p 0 < (inject_Z (nth d bi 0%Z) + 1) * h)%Q) ->
  toBundleIndex (/ h) p = Ok bi.
Proof.
  intros Hh. revert bi; induction p as [|x p IH]; intros [|b bi] HL HF H; try discriminate HL; [reflexivity|].
  inversion HF as [|? ? Hb HF']; subst. cbn in HL. unfold toBundleIndex. cbn [omap].
  pose proof (H 0%nat ltac:(cbn; lia)) as H0. cbn [nth] in H0. apply floor_cell in H0; [|exact Hh].
  rewrite H0, to_int_ok by exact Hb. cbn [obind].
  unfold toBundleIndex in IH. rewrite (IH bi); [reflexivity|lia|exact HF'|].
  intros d Hd. apply (H (S d)). cbn; lia.
Qed.

(** Extents of a dynamic map. *)
Section Extent.
Context {P : Type}.
Variable c : config P.
Hypothesis Hc : config_ok c.
Variable bres : Q.

Lemma extent_history (l : list (map_action (P:=P))) :
  (0 < bres)%Q -> aminc c = cw_min -> amaxc c = cw_max -> kindc c = Dynamic -> fits c l ->
  exists m bs, cact_all c l (new_map c) = Ok m /\ cbundles c m = Ok bs /\
    (bs <> [] ->
       exists hi, getMax c bres m = Ok hi /\ length hi = dimc c /\ length (getMin c bres m) = dimc c /\
       (forall d, (d < dimc c)%nat ->
          (forall b, In b (map fst bs) ->
             (nth d (getMin c bres m) 0 <= inject_Z (nth d b 0%Z) * bres /\
              (inject_Z (nth d b 0%Z) + 1) * bres <= nth d hi 0)%Q) /\
          (exists b, In b (map fst bs) /\ (nth d (getMin c bres m) 0 == inject_Z (nth d b 0%Z) * bres)%Q) /\
          (exists b, In b (map fst bs) /\ (nth d hi 0 == (inject_Z (nth d b 0%Z) + 1) * bres)%Q) /\
          exists w n, getExtent c bres m d = Ok w /\ (w == nth d hi 0 - nth d (getMin c bres m) 0)%Q /\
            getSize c m d = Ok n /\ (w == (inject_Z n + 1) * bres)%Q)).
Proof.
  intros Hb Hmin Hmax Hk Hf.
  destruct (range_history c Hc l Hmin Hmax Hk Hf) as [m [bs [E [Ebs [Hbox _]]]]].
  exists m, bs. split; [exact E|]. split; [exact Ebs|]. intros Hne.
  destruct (Hbox Hne) as [Hl1 [Hl2 Hd]].
  destruct (run_spec c Hc l Hf) as [m' [E' [HI [HR _]]]]. assert (m' = m) by congruence. subst m'.
  assert (Hrange : forall b, In b (map fst bs) -> Forall (fun z => -32768 <= z <= 32767) b /\ length b = dimc c).
  { intros b Hin. apply (cbundles_in c m bs HI Ebs) in Hin.
    pose proof (has_b_usable c 0 m b HI HR Hin) as [HL Hu]. rewrite Hk in Hu. split; [|exact HL].
    eapply Forall_impl; [|exact Hu]. cbn. intros; lia. }
  assert (Hnth : forall b d, In b (map fst bs) -> (d < dimc c)%nat -> -32768 <= nth d b 0 <= 32767).
  { intros b d Hin Hlt. destruct (Hrange b Hin) as [HF HL]. rewrite Forall_forall in HF. apply HF, nth_In. lia. }
  assert (Hmaxr : forall z, In z (max_bi m) -> -32768 <= z <= 32767).
  { intros z Hz. apply (In_nth _ _ 0) in Hz. destruct Hz as [d [Hlt <-]]. rewrite Hl2 in Hlt.
    destruct (Hd d Hlt) as [_ [_ [b [Hin <-]]]]. apply Hnth; assumption. }
  eexists. split.
  { unfold getMax. apply omap_total with (g := fun z => (inject_Z (z + 1) * bres)%Q).
    intros z Hz. rewrite to_int_ok by (specialize (Hmaxr z Hz); unfold INT_MIN, INT_MAX; lia). reflexivity. }
  split; [rewrite map_length; exact Hl2|]. split; [unfold getMin; rewrite map_length; exact Hl1|].
  intros d Hlt. destruct (Hd d Hlt) as [Hall [[b1 [Hb1 E1]] [b2 [Hb2 E2]]]].
  assert (Emin : nth d (getMin c bres m) 0%Q = (inject_Z (nth d (min_bi m) 0%Z) * bres)%Q).
  { unfold getMin. rewrite (nth_indep _ 0%Q (inject_Z 0 * bres)%Q) by (rewrite map_length; lia).
    apply (map_nth (fun z => (inject_Z z * bres)%Q)). }
  assert (Emax : nth d (map (fun z : Z => (inject_Z (z + 1) * bres)%Q) (max_bi m)) 0%Q = (inject_Z (nth d (max_bi m) 0%Z + 1) * bres)%Q).
  { rewrite (nth_indep _ 0%Q (inject_Z (0+1) * bres)%Q) by (rewrite map_length; lia).
    apply (map_nth (fun z => (inject_Z (z + 1) * bres)%Q)). }
  rewrite Emin, Emax. clear Emin Emax.
  assert (Q1 : forall z, (inject_Z (z + 1) == inject_Z z + 1)%Q) by (intros; rewrite inject_Z_plus; reflexivity).
  split; [|split; [|split]].
  - intros b Hin. destruct (Hall b Hin) as [H1 H2]. rewrite Zle_Qle in H1, H2. rewrite Q1. split.
    + apply Qmult_le_compat_r; lra.
    + apply Qmult_le_compat_r; lra.
  - exists b1. split; [exact Hb1|]. rewrite E1. reflexivity.
  - exists b2. split; [exact Hb2|]. rewrite E2, Q1. reflexivity.
  - pose proof (Hnth b1 d Hb1 Hlt) as R1. pose proof (Hnth b2 d Hb2 Hlt) as R2.
    destruct (Hall b1 Hb1) as [_ Hle]. rewrite E1 in *. rewrite E2 in *.
    unfold getExtent, getSize.
    rewrite !to_int_ok by (unfold INT_MIN, INT_MAX; lia). cbn [obind].
    rewrite to_int_ok by (unfold INT_MIN, INT_MAX; lia). cbn [obind].
    eexists. eexists. split; [reflexivity|]. split.
    + rewrite !Q1. unfold Zminus. rewrite inject_Z_plus, inject_Z_opp. ring.
    + split; [reflexivity|]. rewrite Z.mod_small by lia. rewrite Q1. reflexivity.
Qed.

(** No extent of an empty map: the difference overflows. *)
Lemma extent_empty (d : nat) : kindc c = Dynamic -> (d < dimc c)%nat -> getExtent c bres (new_map c) d = UB /\ getSize c (new_map c) d = UB.
Proof.
  intros Hk Hd. destruct (new_range c Hk) as [E1 E2].
  unfold getExtent, getSize. rewrite E1, E2. rewrite !nth_repeat_lt by exact Hd.
  rewrite to_int_ub by (unfold INT_MIN, INT_MAX; lia). auto.
Qed.

End Extent.

Lemma qadd_nth (a b : list Q) (d : nat) : length a = length b -> (d < length a)%nat ->
  nth d (qadd a b) 0%Q = (nth d a 0 + nth d b 0)%Q.
Proof.
  revert b d; induction a as [|x a IH]; intros [|y b] d HL Hd; cbn [length] in *; try lia.
  destruct d as [|d]; [reflexivity|]. cbn [qadd combine map nth]. apply IH; lia.
Qed.
Lemma origin_offset {P : Type} (c : config P) (bres : Q) (rot : list Q -> list Q) (t : list Q) (m : cmap c) (d : nat) :
  length t = length (min_bi m) -> length (rot (getMin c bres m)) = length (min_bi m) ->
  (d < length (min_bi m))%nat ->
  (nth d (getOrigin c bres t m) 0 == nth d (qadd t (rot (getMin c bres m))) 0 +
     (nth d (getMin c bres m) 0 - nth d (rot (getMin c bres m)) 0))%Q.
Proof.
  intros Ht Hr Hd. unfold getOrigin. rewrite (qadd_nth t (getMin c bres m)) by (unfold getMin; rewrite ?map_length; lia).
  rewrite (qadd_nth t (rot (getMin c bres m))) by lia.
  generalize (nth d t 0%Q) (nth d (getMin c bres m) 0%Q) (nth d (rot (getMin c bres m)) 0%Q). intros; lra.
Qed.
