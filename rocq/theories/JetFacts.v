(** The derivative part of the Jet residuals is the derivative of the residuals. *)
From Coq Require Import Reals Lra List Lia FunctionalExtensionality.
From Verif Require Import Base SeqModel IndexModel IndexFacts MapModel SysModel ExtentModel JetModel JetSpec.
Open Scope R_scope.

(** The Jet [j] carries value and derivative of [f] at [t]. *)
Definition tracks (t : R) (f : R -> R) (j : rjet) : Prop := jre j = f t /\ derivable_pt_lim f t (jde j).

Section Tracks.
Variable t : R.
Notation tr := (tracks t).

Lemma lim_ext (f g : R -> R) (d : R) : (forall s, f s = g s) -> derivable_pt_lim f t d -> derivable_pt_lim g t d.
Proof. intros E H eps He. destruct (H eps He) as [del K]. exists del. intros h H0 H1. rewrite <- !E. apply K; assumption. Qed.
Lemma lim_eq (f : R -> R) (d d' : R) : d = d' -> derivable_pt_lim f t d -> derivable_pt_lim f t d'.
Proof. intros ->. exact (fun H => H). Qed.
Lemma tr_ext (f g : R -> R) (j : rjet) : (forall s, f s = g s) -> tr f j -> tr g j.
Proof. intros E [H1 H2]. split; [rewrite <- E; exact H1|exact (lim_ext f g _ E H2)]. Qed.
Lemma tr_eq (f : R -> R) (j k : rjet) : jre j = jre k -> jde j = jde k -> tr f j -> tr f k.
Proof. intros A B [H1 H2]. split; [congruence|rewrite <- B; exact H2]. Qed.

Lemma tr_const (x : R) : tr (fun _ => x) (J x 0).
Proof. split; [reflexivity|apply derivable_pt_lim_const]. Qed.
Lemma tr_add (f g : R -> R) (j k : rjet) : tr f j -> tr g k -> tr (fun s => f s + g s) (nadd jet_number j k).
Proof. intros [A B] [C D]. split; cbn; [congruence|]. exact (derivable_pt_lim_plus f g t _ _ B D). Qed.
Lemma tr_sub (f g : R -> R) (j k : rjet) : tr f j -> tr g k -> tr (fun s => f s - g s) (nsub jet_number j k).
Proof. intros [A B] [C D]. split; cbn; [congruence|]. exact (derivable_pt_lim_minus f g t _ _ B D). Qed.
Lemma tr_mul (f g : R -> R) (j k : rjet) : tr f j -> tr g k -> tr (fun s => f s * g s) (nmul jet_number j k).
Proof.
  intros [A B] [C D]. split; cbn; [congruence|].
  apply (lim_eq _ (jde j * g t + f t * jde k)); [rewrite A, C; ring|]. exact (derivable_pt_lim_mult f g t _ _ B D).
Qed.
Lemma tr_scale (w : R) (f : R -> R) (j : rjet) : tr f j -> tr (fun s => w * f s) (scale jet_number w j).
Proof. intros [A B]. split; cbn; [congruence|]. exact (derivable_pt_lim_scal f w t _ B). Qed.
Lemma tr_comp (h h' : R -> R) (f : R -> R) (j : rjet) (r : rjet) :
  (forall y, derivable_pt_lim h y (h' y)) -> tr f j -> r = J (h (jre j)) (h' (jre j) * jde j) -> tr (fun s => h (f s)) r.
Proof.
  intros H [A B] ->. split; cbn; [congruence|]. rewrite A. exact (derivable_pt_lim_comp f h t _ _ B (H (f t))).
Qed.
Lemma tr_exp (f : R -> R) (j : rjet) : tr f j -> tr (fun s => exp (f s)) (nexp jet_number j).
Proof. intros H. apply (tr_comp exp exp f j); [exact derivable_pt_lim_exp|exact H|reflexivity]. Qed.
Lemma tr_cos (f : R -> R) (j : rjet) : tr f j -> tr (fun s => cos (f s)) (ncos jet_number j).
Proof. intros H. apply (tr_comp cos (fun y => - sin y) f j); [exact derivable_pt_lim_cos|exact H|reflexivity]. Qed.
Lemma tr_sin (f : R -> R) (j : rjet) : tr f j -> tr (fun s => sin (f s)) (nsin jet_number j).
Proof. intros H. apply (tr_comp sin cos f j); [exact derivable_pt_lim_sin|exact H|reflexivity]. Qed.

Lemma tr_sum (n : nat) (f : nat -> R -> R) (j : nat -> rjet) :
  (forall i, tr (f i) (j i)) -> tr (fun s => nsum real_number n (fun i => f i s)) (nsum jet_number n j).
Proof.
  intros H. induction n as [|n IH]; cbn [nsum]; [apply tr_const|].
  exact (tr_add _ _ _ _ IH (H n)).
Qed.
End Tracks.

Ltac tr_step :=
  lazymatch goal with
  | |- tracks _ _ (nadd jet_number _ _) => refine (tr_add _ _ _ _ _ _ _)
  | |- tracks _ _ (nsub jet_number _ _) => refine (tr_sub _ _ _ _ _ _ _)
  | |- tracks _ _ (nmul jet_number _ _) => refine (tr_mul _ _ _ _ _ _ _)
  | |- tracks _ _ (scale jet_number _ _) => refine (tr_scale _ _ _ _ _)
  | |- tracks _ _ (nexp jet_number _) => refine (tr_exp _ _ _ _)
  | |- tracks _ _ (ncos jet_number _) => refine (tr_cos _ _ _ _)
  | |- tracks _ _ (nsin jet_number _) => refine (tr_sin _ _ _ _)
  | |- tracks _ _ (of_double jet_number _) => apply tr_const
  end.

(** A pose map that propagates derivatives. *)
Definition differentiable (pose : forall N : number, (nat -> N) -> (nat -> R) -> nat -> N) : Prop :=
  forall t local (x : nat -> R -> R) (j : nat -> rjet),
    (forall i, tracks t (x i) (j i)) ->
    forall i, tracks t (fun s => pose real_number (fun k => x k s) local i) (pose jet_number j local i).

Lemma pose_2d_differentiable : differentiable pose_2d.
Proof.
  intros t local x j H i. unfold pose_2d. destruct i as [|i].
  - repeat tr_step; apply H.
  - repeat tr_step; apply H.
Qed.

Lemma tr_cross (t : R) (a b : nat -> R -> R) (j k : nat -> rjet) :
  (forall i, tracks t (a i) (j i)) -> (forall i, tracks t (b i) (k i)) ->
  forall i, tracks t (fun s => cross_n real_number (fun n => a n s) (fun n => b n s) i) (cross_n jet_number j k i).
Proof.
  intros A B i. unfold cross_n. destruct i as [|[|i]]; repeat tr_step; first [apply A|apply B].
Qed.

Lemma tr_rotate (t : R) (w : R -> R) (jw : rjet) (a b : nat -> R -> R) (j k : nat -> rjet) :
  tracks t w jw -> (forall i, tracks t (a i) (j i)) -> (forall i, tracks t (b i) (k i)) ->
  forall i, tracks t (fun s => rotate_n real_number (w s) (fun n => a n s) (fun n => b n s) i) (rotate_n jet_number jw j k i).
Proof.
  intros W A B i. unfold rotate_n.
  assert (C2 : forall n, tracks t (fun s => cross_n real_number (fun n => a n s) (fun n => b n s) n +
                                           cross_n real_number (fun n => a n s) (fun n => b n s) n)
                              (nadd jet_number (cross_n jet_number j k n) (cross_n jet_number j k n))).
  { intros n. apply tr_add; apply tr_cross; assumption. }
  apply tr_add; [apply tr_add; [apply B|apply tr_mul; [exact W|apply C2]]|].
  exact (tr_cross t a (fun n s => cross_n real_number (fun n => a n s) (fun n => b n s) n +
                                  cross_n real_number (fun n => a n s) (fun n => b n s) n) j _ A C2 i).
Qed.

Lemma pose_quaternion_differentiable : differentiable pose_quaternion.
Proof.
  intros t local x j H i. unfold pose_quaternion. apply tr_add; [|apply H].
  exact (tr_rotate t (x 3%nat) (j 3%nat) (fun n => x (4 + n)%nat) (fun n _ => local n) (fun n => j (4 + n)%nat)
           (fun n => of_double jet_number (local n)) (H 3%nat) (fun n => H (4 + n)%nat) (fun n => tr_const t (local n)) i).
Qed.

Lemma pose_rpy_differentiable : differentiable pose_rpy.
Proof.
  intros t local x j H i. unfold pose_rpy. apply tr_add; [|apply H].
  set (hr := fun s => 1 / 2 * x 3%nat s). set (hp := fun s => 1 / 2 * x 4%nat s). set (hy := fun s => 1 / 2 * x 5%nat s).
  refine (tr_rotate t
           (fun s => cos (hr s) * cos (hp s) * cos (hy s) + sin (hr s) * sin (hp s) * sin (hy s)) _
           (fun n s => match n with
                       | O => sin (hr s) * cos (hp s) * cos (hy s) - cos (hr s) * sin (hp s) * sin (hy s)
                       | S O => cos (hr s) * sin (hp s) * cos (hy s) + sin (hr s) * cos (hp s) * sin (hy s)
                       | _ => cos (hr s) * cos (hp s) * sin (hy s) - sin (hr s) * sin (hp s) * cos (hy s)
                       end)
           (fun n _ => local n) _ (fun n => of_double jet_number (local n)) _ _ (fun n => tr_const t (local n)) i).
  - repeat tr_step; apply H.
  - intros [|[|n]]; repeat tr_step; apply H.
Qed.

Lemma tr_to_map (t : R) (dim : nat) (rot : nat -> nat -> R) (trans : nat -> R) (p : nat -> R -> R) (j : nat -> rjet) :
  (forall i, tracks t (p i) (j i)) ->
  forall i, tracks t (fun s => to_map_frame real_number dim rot trans (fun k => p k s) i) (to_map_frame jet_number dim rot trans j i).
Proof.
  intros H i. unfold to_map_frame. apply tr_add; [|apply tr_const].
  apply (tr_sum t dim (fun k s => rot i k * p k s)). intros k. apply tr_scale. apply H.
Qed.

Lemma tr_exponent (t : R) (dim : nat) (mean : nat -> R) (inf : nat -> nat -> R) (p : nat -> R -> R) (j : nat -> rjet) :
  (forall i, tracks t (p i) (j i)) ->
  tracks t (fun s => exponent real_number dim mean inf (fun k => p k s)) (exponent jet_number dim mean inf j).
Proof.
  intros H. unfold exponent.
  assert (D : forall i, tracks t (fun s => p i s - mean i) (nsub jet_number (j i) (of_double jet_number (mean i)))).
  { intros i. apply tr_sub; [apply H|apply tr_const]. }
  apply (tr_sum t dim (fun k s => nsum real_number dim (fun i => inf i k * (- (1 / 2) * (p i s - mean i))) * (p k s - mean k))).
  intros k. apply (tr_mul t (fun s => nsum real_number dim (fun i => inf i k * (- (1 / 2) * (p i s - mean i))))); [|apply D].
  apply (tr_sum t dim (fun i s => inf i k * (- (1 / 2) * (p i s - mean i)))).
  intros i. apply tr_scale. apply tr_scale. apply D.
Qed.

(** ** The index does not change near a point off the borders *)

Lemma lim_continuous (f : R -> R) (t d : R) (e : R) :
  derivable_pt_lim f t d -> 0 < e -> exists del, 0 < del /\ forall s, Rabs (s - t) < del -> Rabs (f s - f t) < e.
Proof.
  intros H He.
  assert (C : continuity_pt f t) by (apply derivable_continuous_pt; exists d; exact H).
  destruct (C e He) as [del [Hd K]]. exists del. split; [exact Hd|]. intros s Hs.
  destruct (Req_dec t s) as [E|E].
  - subst s. replace (f t - f t) with 0 by ring. rewrite Rabs_R0. exact He.
  - apply (K s). split; [split; [exact I|exact E]|exact Hs].
Qed.

Lemma part_unique (r : R) (z : Z) : IZR z <= r -> r < IZR z + 1 -> Int_part r = z.
Proof.
  intros H1 H2. destruct (base_Int_part r) as [A B].
  assert (K1 : IZR (Int_part r) < IZR (z + 1)) by (rewrite plus_IZR; lra).
  assert (K2 : IZR z < IZR (Int_part r + 1)) by (rewrite plus_IZR; lra).
  apply lt_IZR in K1. apply lt_IZR in K2. lia.
Qed.

Lemma part_stable (r : R) : (forall z, r <> IZR z) -> exists e, 0 < e /\ forall r', Rabs (r' - r) < e -> Int_part r' = Int_part r.
Proof.
  intros H. destruct (base_Int_part r) as [A B]. pose proof (H (Int_part r)) as Hn.
  exists (Rmin (r - IZR (Int_part r)) (IZR (Int_part r) + 1 - r)). split.
  - apply Rmin_case; lra.
  - intros r' Hr. pose proof (Rmin_l (r - IZR (Int_part r)) (IZR (Int_part r) + 1 - r)).
    pose proof (Rmin_r (r - IZR (Int_part r)) (IZR (Int_part r) + 1 - r)).
    apply Rabs_def2 in Hr. apply part_unique; lra.
Qed.

Lemma index_stable (dim : nat) (inv t : R) (p : nat -> R -> R) (d : nat -> R) :
  (forall i, derivable_pt_lim (p i) t (d i)) -> off_border dim inv (fun i => p i t) ->
  exists del, 0 < del /\ forall s, Rabs (s - t) < del ->
    bundle_index dim inv (fun i => p i s) = bundle_index dim inv (fun i => p i t).
Proof.
  intros Hd Ho. unfold bundle_index.
  assert (G : forall l, (forall i, In i l -> (i < dim)%nat) -> exists del, 0 < del /\ forall s, Rabs (s - t) < del ->
            omap (fun i => to_int (Int_part (p i s * inv))) l = omap (fun i => to_int (Int_part (p i t * inv))) l).
  { induction l as [|i l IH]; intros Hl.
    - exists 1. split; [lra|reflexivity].
    - destruct IH as [d1 [H1 K1]]; [intros k Hk; apply Hl; right; exact Hk|].
      destruct (part_stable (p i t * inv)) as [e [He Ke]]; [intros z; apply Ho; apply Hl; left; reflexivity|].
      destruct (lim_continuous (fun s => inv * p i s) t (inv * d i) e) as [d2 [H2 K2]];
        [exact (derivable_pt_lim_scal (p i) inv t _ (Hd i))|exact He|].
      exists (Rmin d1 d2). split; [apply Rmin_case; assumption|]. intros s Hs.
      cbn [omap]. rewrite (K1 s) by (eapply Rlt_le_trans; [exact Hs|apply Rmin_l]).
      rewrite (Ke (p i s * inv)); [reflexivity|].
      replace (p i s * inv - p i t * inv) with (inv * p i s - inv * p i t) by ring.
      apply K2. eapply Rlt_le_trans; [exact Hs|apply Rmin_r]. }
  apply G. intros i Hi. apply in_seq in Hi. lia.
Qed.

(** ** The loop over the distributions of a bundle *)

Lemma loop_tracks {A : Type} (t : R) (sj : rjet -> A -> outcome rjet) (sr : R -> R -> A -> outcome R) (l : list A) :
  (forall a j f j', tracks t (fun s => 1 - f s) j -> sj j a = Ok j' ->
     exists f', (forall s, sr s (f s) a = Ok (f' s)) /\ tracks t (fun s => 1 - f' s) j') ->
  forall j f j', tracks t (fun s => 1 - f s) j -> ofold sj l j = Ok j' ->
  exists f', (forall s, ofold (sr s) l (f s) = Ok (f' s)) /\ tracks t (fun s => 1 - f' s) j'.
Proof.
  intros H. induction l as [|a l IH]; intros j f j' Ht E; cbn [ofold] in *.
  - injection E as <-. exists f. split; [reflexivity|exact Ht].
  - destruct (sj j a) as [j1| |] eqn:E1; cbn [obind] in E; try discriminate.
    destruct (H a j f j1 Ht E1) as [f1 [K1 K2]].
    destruct (IH j1 f1 j' K2 E) as [f' [L1 L2]]. exists f'. split; [|exact L2].
    intros s. rewrite K1. cbn [obind]. apply L1.
Qed.

Lemma loop_bound {A : Type} (w : R) (sr : R -> A -> outcome R) (l : list A) :
  (forall acc a r, sr acc a = Ok r -> r <= acc + w) ->
  forall acc r, ofold sr l acc = Ok r -> r <= acc + INR (length l) * w.
Proof.
  intros H. induction l as [|a l IH]; intros acc r E; cbn [ofold] in E.
  - injection E as <-. cbn. lra.
  - destruct (sr acc a) as [x| |] eqn:E1; cbn [obind] in E; try discriminate.
    pose proof (H _ _ _ E1). pose proof (IH _ _ E). cbn [length]. rewrite S_INR. lra.
Qed.

(** ** Evaluate *)

(** [ej] differentiates [er] off the borders of the bundles; both are functions of a point. *)
Definition derives (dim : nat) (inv : R) (er : (nat -> R) -> outcome R) (ej : (nat -> rjet) -> outcome rjet) : Prop :=
  forall t (p : nat -> R -> R) (j : nat -> rjet) (r : rjet),
    (forall i, tracks t (p i) (j i)) -> off_border dim inv (fun i => p i t) -> ej j = Ok r ->
    exists f eps, 0 < eps /\ (forall s, Rabs (s - t) < eps -> er (fun i => p i s) = Ok (f s)) /\ tracks t f r.
Definition nonneg (er : (nat -> R) -> outcome R) : Prop := forall p r, er p = Ok r -> 0 <= r.

Lemma bins_positive {P : Type} (c : config P) : 0 < INR (bin_count (dimc c)).
Proof. apply lt_0_INR. unfold bin_count. rewrite two_pow_spec. apply Nat.neq_0_lt_0, Nat.pow_nonzero. lia. Qed.

Lemma exponent_spec (dim : nat) (mean : nat -> R) (inf : nat -> nat -> R) (p : nat -> R) :
  @eq R (exponent real_number dim mean inf p)
  (- (1 / 2) * rsum dim (fun j => rsum dim (fun i => (p i - mean i) * inf i j * (p j - mean j)))).
Proof.
  assert (S : forall n f g (w : R), (forall i, @eq R (f i) (w * g i)) -> @eq R (nsum real_number n f) (w * rsum n g)).
  { intros n f g w H. induction n as [|n IH]; cbn [nsum rsum]; [cbn; ring|].
    change (nadd real_number) with Rplus. rewrite IH, H. ring. }
  unfold exponent. apply S. intros j.
  rewrite (S dim _ (fun i => (p i - mean i) * inf i j) (- (1 / 2))) by (intros i; cbn; ring).
  cbn [nsub nmul of_double real_number].
  assert (T : forall n g (y : R), rsum n (fun i => g i * y) = rsum n g * y).
  { intros n g y. induction n as [|n IH]; cbn [rsum]; [ring|]. rewrite IH. ring. }
  rewrite T. ring.
Qed.

Lemma sample_unit (dim : nat) (valid : bool) (mean : nat -> R) (inf : nat -> nat -> R) (p : nat -> R) :
  (valid = true -> semidefinite dim inf) -> 0 <= rsample dim valid mean inf p <= 1.
Proof.
  intros H. unfold rsample. destruct valid; [|lra]. split; [left; apply exp_pos|].
  rewrite exponent_spec. specialize (H eq_refl (fun i => p i - mean i)).
  pose proof exp_0 as E0. set (q := rsum dim _) in *. assert (Hq : - (1 / 2) * q <= 0) by (unfold q in *; lra).
  destruct Hq as [Hq|Hq]; [|rewrite Hq; lra]. pose proof (exp_increasing _ _ Hq). lra.
Qed.

Section Loops.
Context {P : Type}.
Variable c : config P.
Variable inv : R.
(** What a distribution contributes, as a number and as a Jet subtracted from the value. *)
Variable term : P -> (nat -> R) -> R.
Variable minus : P -> (nat -> rjet) -> rjet -> rjet.
Hypothesis Hterm : forall v t (p : nat -> R -> R) j f r, (forall i, tracks t (p i) (j i)) ->
  tracks t (fun s => 1 - f s) r -> tracks t (fun s => 1 - (f s + rdiv_count c * term v (fun i => p i s))) (minus v j r).

Definition loop_real (m : cmap c) (p : nat -> R) : outcome R :=
  let* bi := bundle_index (dimc c) inv p in
  let* ob := cbundle c m bi in
  match ob with
  | None => Ok (1 - 0)
  | Some b =>
      let* s := ofold (fun acc i =>
                  match nth_error (slots b) i with
                  | None => UB
                  | Some sl =>
                      let* d := slot_value (bdc c) (bbc c) m i sl in
                      Ok (acc + rdiv_count c * match d with Some v => term v p | None => 0 end)
                  end) (seq 0 (bin_count (dimc c))) 0 in
      Ok (1 - s)
  end.
Definition loop_jet (m : cmap c) (p : nat -> rjet) : outcome rjet :=
  let* bi := bundle_index (dimc c) inv (fun i => jre (p i)) in
  let* ob := cbundle c m bi in
  match ob with
  | None => Ok (J 1 0)
  | Some b =>
      ofold (fun value i =>
               match nth_error (slots b) i with
               | None => UB
               | Some sl =>
                   let* d := slot_value (bdc c) (bbc c) m i sl in
                   Ok (match d with Some v => minus v p value | None => value end)
               end)
            (seq 0 (bin_count (dimc c))) (J 1 0)
  end.

Lemma index_same (dim : nat) (p q : nat -> R) : (forall i, p i = q i) -> bundle_index dim inv p = bundle_index dim inv q.
Proof.
  intros H. unfold bundle_index. induction (seq 0 dim) as [|i l IH]; cbn [omap]; [reflexivity|]. rewrite H, IH. reflexivity.
Qed.

Lemma loops_derive (m : cmap c) : derives (dimc c) inv (loop_real m) (loop_jet m).
Proof.
  intros t p j r Hp Ho E.
  destruct (index_stable (dimc c) inv t p (fun i => jde (j i)) (fun i => proj2 (Hp i)) Ho) as [del [Hdel Hidx]].
  unfold loop_jet in E. rewrite (index_same _ _ (fun i => p i t) (fun i => proj1 (Hp i))) in E.
  unfold loop_real.
  destruct (bundle_index (dimc c) inv (fun i => p i t)) as [bi| |]; cbn [obind] in E; try discriminate.
  destruct (cbundle c m bi) as [[b|]| |] eqn:Eb; cbn [obind] in E; try discriminate.
  - match type of E with ofold ?sj ?l _ = _ =>
      destruct (loop_tracks t sj
        (fun s acc i =>
           match nth_error (slots b) i with
           | None => UB
           | Some sl =>
               let* d := slot_value (bdc c) (bbc c) m i sl in
               Ok (acc + rdiv_count c * match d with Some v => term v (fun i => p i s) | None => 0 end)
           end) l) with (j := J 1 0) (f := fun _ : R => 0) (j' := r) as [f [K1 K2]]; [| |exact E|]
    end.
    + intros i ja f jb Ht Es. destruct (nth_error (slots b) i) as [sl|]; [|discriminate].
      destruct (slot_value (bdc c) (bbc c) m i sl) as [[v|]| |]; cbn [obind] in *; try discriminate; injection Es as <-.
      * exists (fun s => f s + rdiv_count c * term v (fun i => p i s)). split; [reflexivity|]. apply Hterm; assumption.
      * exists (fun s => f s + rdiv_count c * 0). split; [reflexivity|].
        apply (tr_ext t (fun s => 1 - f s)); [intros s; ring|exact Ht].
    + apply (tr_ext t (fun _ => 1)); [intros s; ring|apply tr_const].
    + exists (fun s => 1 - f s), del. split; [exact Hdel|]. split; [|exact K2]. intros s Hs.
      rewrite (Hidx s Hs). cbn [obind]. rewrite Eb. cbn [obind]. rewrite K1. reflexivity.
  - injection E as <-. exists (fun _ => 1 - 0), del. split; [exact Hdel|]. split.
    + intros s Hs. rewrite (Hidx s Hs). cbn [obind]. rewrite Eb. reflexivity.
    + apply (tr_ext t (fun _ => 1)); [intros s; ring|apply tr_const].
Qed.

Lemma loop_nonneg (m : cmap c) : (forall v p, term v p <= 1) -> nonneg (loop_real m).
Proof.
  intros Ht p r E. unfold loop_real in E.
  destruct (bundle_index (dimc c) inv p) as [bi| |]; cbn [obind] in E; try discriminate.
  destruct (cbundle c m bi) as [[b|]| |]; cbn [obind] in E; try discriminate.
  - match type of E with obind (ofold ?f ?l ?a) _ = _ => destruct (ofold f l a) as [s| |] eqn:Es; cbn [obind] in E; try discriminate;
      pose proof (loop_bound (rdiv_count c) f l) as B end.
    injection E as <-.
    assert (H1 : s <= 0 + INR (length (seq 0 (bin_count (dimc c)))) * rdiv_count c).
    { apply B; [|exact Es]. intros acc i x Ex. destruct (nth_error (slots b) i) as [sl|]; [|discriminate].
      destruct (slot_value (bdc c) (bbc c) m i sl) as [d| |]; cbn [obind] in Ex; try discriminate. injection Ex as <-.
      assert (0 < rdiv_count c) by (unfold rdiv_count, Rdiv; rewrite Rmult_1_l; apply Rinv_0_lt_compat; apply bins_positive).
      destruct d as [v|]; [pose proof (Ht v p)|]; nra. }
    rewrite seq_length in H1. pose proof (bins_positive c).
    replace (INR (bin_count (dimc c)) * rdiv_count c) with 1 in H1 by (unfold rdiv_count; field; lra). lra.
  - injection E as <-. lra.
Qed.
End Loops.

(** ** The residual *)

Lemma minimum_derivative (f : R -> R) (t d eps : R) :
  0 < eps -> (forall s, Rabs (s - t) < eps -> 0 <= f s) -> f t = 0 -> derivable_pt_lim f t d -> d = 0.
Proof.
  intros He Hf Ht Hd.
  pose (pr := exist _ d Hd : derivable_pt f t).
  assert (E : derive_pt f t pr = 0).
  { apply (deriv_minimum f (t - eps) (t + eps)); [lra|lra|]. intros x H1 H2. rewrite Ht. apply Hf. apply Rabs_def1; lra. }
  exact E.
Qed.

Lemma weighted_value (w r : R) : weighted_real w r = w * r.
Proof. unfold weighted_real. destruct (Req_EM_T r (- r)) as [E|E]; [|reflexivity]. replace r with 0 by lra. ring. Qed.

Lemma residual_derives (pose : forall N : number, (nat -> N) -> (nat -> R) -> nat -> N) (dim : nat) (inv : R)
  (rot : nat -> nat -> R) (trans : nat -> R) (weight : R) (er : (nat -> R) -> outcome R) (ej : (nat -> rjet) -> outcome rjet)
  (local x v : nat -> R) (r : rjet) :
  differentiable pose -> derives dim inv er ej -> nonneg er ->
  off_border dim inv (to_map_frame real_number dim rot trans (pose real_number x local)) ->
  residual_rjet pose dim rot trans weight ej local (fun i => J (x i) (v i)) = Ok r ->
  residual_real pose dim rot trans weight er local x = Ok (jre r) /\
  has_derivative (fun s => residual_real pose dim rot trans weight er local (moved x v s)) 0 (jde r).
Proof.
  intros Hp Hd Hn Ho E.
  set (p := fun i s => to_map_frame real_number dim rot trans (pose real_number (moved x v s) local) i).
  assert (Hx : forall i, tracks 0 (fun s => moved x v s i) (J (x i) (v i))).
  { intros i. unfold moved. split; cbn [jre jde]; [ring|].
    apply (lim_eq 0 _ (0 + 1 * v i)); [ring|]. apply (lim_ext 0 (fun s => x i + s * v i)); [reflexivity|].
    refine (derivable_pt_lim_plus (fun _ => x i) (fun s => s * v i) 0 _ _ (derivable_pt_lim_const _ _) _).
    apply (lim_ext 0 (fun s => v i * s)); [intros s; ring|].
    apply (lim_eq 0 _ (v i * 1)); [ring|]. exact (derivable_pt_lim_scal id (v i) 0 1 (derivable_pt_lim_id 0)). }
  assert (Tp : forall i, tracks 0 (p i) (to_map_frame jet_number dim rot trans (pose jet_number (fun i => J (x i) (v i)) local) i)).
  { intros i. unfold p. apply (tr_to_map 0 dim rot trans (fun k s => pose real_number (moved x v s) local k)).
    intros k. apply (Hp 0 local (fun k s => moved x v s k)). exact Hx. }
  assert (M0 : moved x v 0 = x) by (apply functional_extensionality; intros i; unfold moved; ring).
  assert (P0 : off_border dim inv (fun i => p i 0)) by (unfold p; rewrite M0; exact Ho).
  unfold residual_rjet in E.
  destruct (ej (to_map_frame jet_number dim rot trans (pose jet_number (fun i => J (x i) (v i)) local))) as [r0| |] eqn:E0;
    cbn [obind] in E; try discriminate.
  injection E as E.
  destruct (Hd 0 p _ r0 Tp P0 E0) as [f [eps [He [Hf [F1 F2]]]]].
  assert (R0 : Rabs (0 - 0) < eps) by (rewrite Rminus_0_r, Rabs_R0; exact He).
  assert (Ej : jre r = weight * jre r0 /\ jde r = weight * jde r0).
  { rewrite <- E. unfold weighted_rjet. destruct (Req_EM_T (jre r0) (- jre r0)) as [Z|Z]; [|split; reflexivity].
    assert (Z0 : jre r0 = 0) by lra. cbn. rewrite Z0.
    rewrite (minimum_derivative f 0 (jde r0) eps He); [split; reflexivity| |congruence|exact F2].
    intros s Hs. exact (Hn _ _ (Hf s Hs)). }
  destruct Ej as [-> ->]. split.
  - pose proof (Hf 0 R0) as H. unfold p in H. rewrite M0 in H. unfold residual_real.
    change (fun i => to_map_frame real_number dim rot trans (pose real_number x local) i)
      with (to_map_frame real_number dim rot trans (pose real_number x local)) in H.
    rewrite H. cbn [obind]. rewrite weighted_value, F1. reflexivity.
  - exists (fun s => weight * f s), eps. split; [exact He|]. split.
    + intros s Hs. unfold residual_real. pose proof (Hf s Hs) as H. unfold p in H.
      change (fun i => to_map_frame real_number dim rot trans (pose real_number (moved x v s) local) i)
        with (to_map_frame real_number dim rot trans (pose real_number (moved x v s) local)) in H.
      rewrite H. cbn [obind]. rewrite weighted_value. reflexivity.
    + exact (derivable_pt_lim_scal f weight 0 _ F2).
Qed.

(** ** The two functors *)

Section Functors.
Context {P : Type}.
Variable c : config P.
Variable inv : R.
Variable valid : P -> bool.
Variable mean : P -> nat -> R.
Variable inf : P -> nat -> nat -> R.

Lemma plain_derives (m : cmap c) :
  derives (dimc c) inv (evaluate_real c inv valid mean inf m) (evaluate_rjet c inv valid mean inf m).
Proof.
  apply (loops_derive c inv (fun v p => rsample (dimc c) (valid v) (mean v) (inf v) p)
           (fun v p value =>
              if valid v
              then nsub jet_number value
                     (scale jet_number (rdiv_count c)
                        (nexp jet_number (exponent jet_number (dimc c) (mean v) (inf v) p)))
              else value)).
  intros v t p j f r Hp Hr. unfold rsample. destruct (valid v).
  - apply (tr_ext t (fun s => (1 - f s) - rdiv_count c * exp (exponent real_number (dimc c) (mean v) (inf v) (fun i => p i s))));
      [intros s; ring|].
    apply tr_sub; [exact Hr|]. apply tr_scale. apply tr_exp. apply tr_exponent. exact Hp.
  - apply (tr_ext t (fun s => 1 - f s)); [intros s; ring|exact Hr].
Qed.

Lemma plain_nonneg (m : cmap c) :
  (forall v, valid v = true -> semidefinite (dimc c) (inf v)) -> nonneg (evaluate_real c inv valid mean inf m).
Proof.
  intros H. apply (loop_nonneg c inv (fun v p => rsample (dimc c) (valid v) (mean v) (inf v) p)).
  intros v p. apply sample_unit. apply H.
Qed.
End Functors.

Section OccFunctors.
Context {P D M : Type}.
Variable c : config P.
Variable inv : R.
Variable inner : P -> option D.
Variable valid : D -> bool.
Variable mean : D -> nat -> R.
Variable inf : D -> nat -> nat -> R.
Variable occupancy : M -> P -> R.
Variable ivm : M.

Lemma occ_derives (m : cmap c) :
  derives (dimc c) inv (occ_evaluate_real c inv inner valid mean inf occupancy ivm m)
    (occ_evaluate_rjet c inv inner valid mean inf occupancy ivm m).
Proof.
  apply (loops_derive c inv
           (fun v p => match inner v with
                       | Some s => rsample (dimc c) (valid s) (mean s) (inf s) p * occupancy ivm v
                       | None => 0
                       end)
           (fun v p value =>
              match inner v with
              | Some s =>
                  if valid s
                  then nsub jet_number value
                         (scale jet_number (occupancy ivm v)
                            (scale jet_number (rdiv_count c)
                               (nexp jet_number (exponent jet_number (dimc c) (mean s) (inf s) p))))
                  else value
              | None => value
              end)).
  intros v t p j f r Hp Hr. unfold rsample. destruct (inner v) as [s|]; [destruct (valid s)|].
  - apply (tr_ext t (fun u => (1 - f u) - occupancy ivm v * (rdiv_count c * exp (exponent real_number (dimc c) (mean s) (inf s) (fun i => p i u)))));
      [intros u; ring|].
    apply tr_sub; [exact Hr|]. do 2 apply tr_scale. apply tr_exp. apply tr_exponent. exact Hp.
  - apply (tr_ext t (fun s => 1 - f s)); [intros u; ring|exact Hr].
  - apply (tr_ext t (fun s => 1 - f s)); [intros u; ring|exact Hr].
Qed.

Lemma occ_nonneg (m : cmap c) :
  (forall s, valid s = true -> semidefinite (dimc c) (inf s)) -> (forall v, 0 <= occupancy ivm v <= 1) ->
  nonneg (occ_evaluate_real c inv inner valid mean inf occupancy ivm m).
Proof.
  intros H Ho. apply (loop_nonneg c inv
           (fun v p => match inner v with
                       | Some s => rsample (dimc c) (valid s) (mean s) (inf s) p * occupancy ivm v
                       | None => 0
                       end)).
  intros v p. destruct (inner v) as [s|]; [|lra].
  pose proof (sample_unit (dimc c) (valid s) (mean s) (inf s) p (H s)). pose proof (Ho v). nra.
Qed.
End OccFunctors.

Lemma pose_of_differentiable (k : matcher) : differentiable (pose_of k).
Proof. destruct k; [exact pose_2d_differentiable|exact pose_quaternion_differentiable|exact pose_rpy_differentiable]. Qed.

(** ** At a border *)

Lemma no_derivative (F : R -> outcome R) (t a b : R) :
  (forall s, t - 1 < s < t -> F s = Ok a) -> F t = Ok b -> a <> b -> forall d, ~ has_derivative F t d.
Proof.
  intros Hl Ht Hab d [f [eps [He [Hf Hd]]]].
  destruct (lim_continuous f t d (Rabs (a - b)) Hd) as [del [Hdel K]]; [apply Rabs_pos_lt; lra|].
  set (h := Rmin (1 / 2) (Rmin (eps / 2) (del / 2))).
  assert (Hh : 0 < h /\ h < 1 /\ h < eps /\ h < del).
  { unfold h. pose proof (Rmin_l (1 / 2) (Rmin (eps / 2) (del / 2))). pose proof (Rmin_r (1 / 2) (Rmin (eps / 2) (del / 2))).
    pose proof (Rmin_l (eps / 2) (del / 2)). pose proof (Rmin_r (eps / 2) (del / 2)).
    split; [repeat apply Rmin_case; lra|lra]. }
  assert (Ha : Rabs (t - h - t) = h) by (replace (t - h - t) with (- h) by ring; rewrite Rabs_Ropp; apply Rabs_pos_eq; lra).
  pose proof (Hf (t - h) ltac:(rewrite Ha; lra)) as E1. rewrite Hl in E1 by lra. injection E1 as E1.
  pose proof (Hf t ltac:(unfold Rminus; rewrite Rplus_opp_r, Rabs_R0; lra)) as E2. rewrite Ht in E2. injection E2 as E2.
  pose proof (K (t - h) ltac:(rewrite Ha; lra)) as E3. rewrite <- E1, <- E2 in E3. lra.
Qed.

Lemma gaussian (dim : nat) (mean : nat -> R) (inf : nat -> nat -> R) (p : nat -> R) :
  rsample dim true mean inf p =
  exp (- (1 / 2) * rsum dim (fun j => rsum dim (fun i => (p i - mean i) * inf i j * (p j - mean j)))).
Proof. unfold rsample. rewrite exponent_spec. reflexivity. Qed.
