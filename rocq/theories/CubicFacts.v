(** The interpolated residual is differentiable everywhere. *)
From Coq Require Import Reals Lra List Lia ZArith.
From Verif Require Import Base JetModel JetSpec JetFacts CubicModel.
Open Scope R_scope.

(** A function that near [t] is always one of two functions with common value and derivative at [t]. *)
Lemma either_derives (t eps d : R) (F G H : R -> R) :
  0 < eps -> (forall s, Rabs (s - t) < eps -> F s = G s \/ F s = H s) -> F t = G t -> F t = H t ->
  derivable_pt_lim G t d -> derivable_pt_lim H t d -> derivable_pt_lim F t d.
Proof.
  intros He E EG EH DG DH e Hp. destruct (DG e Hp) as [d1 K1]. destruct (DH e Hp) as [d2 K2].
  exists (mkposreal (Rmin eps (Rmin d1 d2)) (Rmin_stable_in_posreal (mkposreal eps He)
    (mkposreal _ (Rmin_stable_in_posreal d1 d2)))).
  intros h H0 Hh. cbn in Hh.
  pose proof (Rmin_l eps (Rmin d1 d2)). pose proof (Rmin_r eps (Rmin d1 d2)).
  pose proof (Rmin_l d1 d2). pose proof (Rmin_r d1 d2).
  destruct (E (t + h)) as [X|X]; [replace (t + h - t) with h by ring; lra| |].
  - rewrite X, EG. apply K1; [exact H0|lra].
  - rewrite X, EH. apply K2; [exact H0|lra].
Qed.

(** Near [t] the integer part is that at [t], or one less if that is reached exactly. *)
Lemma part_near (r : R) :
  exists e, 0 < e /\ forall r', Rabs (r' - r) < e ->
    Int_part r' = Int_part r \/ (r = IZR (Int_part r) /\ Int_part r' = (Int_part r - 1)%Z).
Proof.
  destruct (base_Int_part r) as [A B]. destruct (Req_dec r (IZR (Int_part r))) as [E|E].
  - exists 1. split; [lra|]. intros r' Hr. apply Rabs_def2 in Hr. destruct (Rlt_dec r' r) as [L|L].
    + right. split; [exact E|]. apply part_unique; rewrite minus_IZR; lra.
    + left. apply part_unique; lra.
  - destruct (part_stable r) as [e [He K]].
    + intros z C. assert (z = Int_part r).
      { symmetry. rewrite C. apply part_unique; lra. }
      subst z. contradiction.
    + exists e. split; [exact He|]. intros r' Hr. left. apply K. exact Hr.
Qed.

Lemma tr_hermite (t : R) (f0 f1 f2 f3 x : R -> R) (j0 j1 j2 j3 jx : rjet) :
  tracks t f0 j0 -> tracks t f1 j1 -> tracks t f2 j2 -> tracks t f3 j3 -> tracks t x jx ->
  tracks t (fun s => hermite (f0 s) (f1 s) (f2 s) (f3 s) (x s))
    (J (hermite (jre j0) (jre j1) (jre j2) (jre j3) (jre jx))
       (hermite_dx (jre j0) (jre j1) (jre j2) (jre j3) (jre jx) * jde jx +
        hermite (jde j0) (jde j1) (jde j2) (jde j3) (jre jx))).
Proof.
  intros T0 T1 T2 T3 TX.
  set (N := jet_number).
  set (ja := scale N (1 / 2) (nadd N (nsub N (nadd N (scale N (-1) j0) (scale N 3 j1)) (scale N 3 j2)) j3)).
  set (jb := scale N (1 / 2) (nsub N (nadd N (nsub N (scale N 2 j0) (scale N 5 j1)) (scale N 4 j2)) j3)).
  set (jc := scale N (1 / 2) (nadd N (scale N (-1) j0) j2)).
  apply (tr_eq t _ (nadd N j1 (nmul N jx (nadd N jc (nmul N jx (nadd N jb (nmul N jx ja))))))).
  - unfold ja, jb, jc, N, hermite. cbn [jet_number nadd nsub nmul scale jre jde]. ring.
  - unfold ja, jb, jc, N, hermite, hermite_dx. cbn [jet_number nadd nsub nmul scale jre jde]. ring.
  - apply (tr_ext t (fun s => f1 s + x s * (1 / 2 * (-1 * f0 s + f2 s) + x s *
       (1 / 2 * (2 * f0 s - 5 * f1 s + 4 * f2 s - f3 s) + x s * (1 / 2 * (-1 * f0 s + 3 * f1 s - 3 * f2 s + f3 s)))))).
    + intros s. unfold hermite. ring.
    + unfold ja, jb, jc, N. repeat tr_step; assumption.
Qed.

(** Splines through moving values. *)
Lemma tr_spline (t : R) (g : Z -> R -> R) (jg : Z -> rjet) (x : R -> R) (jx : rjet) :
  (forall k, tracks t (g k) (jg k)) -> tracks t x jx ->
  tracks t (fun s => spline (fun k => g k s) (x s))
    (J (spline (fun k => jre (jg k)) (jre jx))
       (spline_dx (fun k => jre (jg k)) (jre jx) * jde jx + spline (fun k => jde (jg k)) (jre jx))).
Proof.
  intros Hg Hx. set (n := Int_part (jre jx)).
  (* the piece that starts at m *)
  set (piece := fun (m : Z) s => hermite (g (m - 1)%Z s) (g m s) (g (m + 1)%Z s) (g (m + 2)%Z s) (x s - IZR m)).
  assert (Tp : forall m, tracks t (piece m)
            (J (hermite (jre (jg (m - 1)%Z)) (jre (jg m)) (jre (jg (m + 1)%Z)) (jre (jg (m + 2)%Z)) (jre jx - IZR m))
               (hermite_dx (jre (jg (m - 1)%Z)) (jre (jg m)) (jre (jg (m + 1)%Z)) (jre (jg (m + 2)%Z)) (jre jx - IZR m) * jde jx +
                hermite (jde (jg (m - 1)%Z)) (jde (jg m)) (jde (jg (m + 1)%Z)) (jde (jg (m + 2)%Z)) (jre jx - IZR m)))).
  { intros m. pose proof (tr_hermite t _ _ _ _ _ _ _ _ _ _ (Hg (m - 1)%Z) (Hg m) (Hg (m + 1)%Z) (Hg (m + 2)%Z)
                            (tr_sub t _ _ _ _ Hx (tr_const t (IZR m)))) as T.
    cbn [nsub jet_number jre jde] in T. rewrite Rminus_0_r in T. exact T. }
  destruct Hx as [X1 X2].
  assert (V : forall s, spline (fun k => g k s) (x s) = piece (Int_part (x s)) s) by reflexivity.
  destruct (Tp n) as [P1 P2]. cbn [jre jde] in P1, P2.
  assert (Vt : spline (fun k => g k t) (x t) = piece n t) by (rewrite V; unfold n; rewrite X1; reflexivity).
  split; cbn [jre jde].
  - rewrite Vt, <- P1. reflexivity.
  - destruct (part_near (x t)) as [e [He K]].
    destruct (lim_continuous x t (jde jx) e X2 He) as [del [Hdel C]].
    destruct (Req_dec (x t) (IZR n)) as [Ei|Ei].
    + destruct (Tp (n - 1)%Z) as [Q1 Q2]. cbn [jre jde] in Q1, Q2.
      apply (either_derives t del _ _ (piece n) (piece (n - 1)%Z) Hdel).
      * intros s Hs. rewrite V. destruct (K (x s) (C s Hs)) as [-> |[_ ->]]; rewrite <- X1; fold n; [left|right]; reflexivity.
      * exact Vt.
      * rewrite Vt. rewrite <- P1, <- Q1. rewrite minus_IZR. rewrite X1, Ei.
        replace (n - 1 + 1)%Z with n by lia. replace (n - 1 + 2)%Z with (n + 1)%Z by lia. unfold hermite. field.
      * exact P2.
      * revert Q2. apply lim_eq. unfold spline_dx, spline. fold n. rewrite minus_IZR. rewrite X1, Ei.
        replace (n - 1 + 1)%Z with n by lia. replace (n - 1 + 2)%Z with (n + 1)%Z by lia. unfold hermite, hermite_dx. field.
    + apply (either_derives t del _ _ (piece n) (piece n) Hdel); [|exact Vt|exact Vt|exact P2|exact P2].
      intros s Hs. rewrite V. destruct (K (x s) (C s Hs)) as [-> |[E _]]; rewrite <- ?X1; fold n; [left; reflexivity|].
      exfalso. apply Ei. unfold n. rewrite X1. exact E.
Qed.

Lemma spline_scale (a b : Z -> R) (w c : R) : (forall k, a k = b k * w) -> spline a c = spline b c * w.
Proof. intros H. unfold spline, hermite. rewrite !H. ring. Qed.

Lemma tr_bicubic (t : R) (g : Z -> Z -> R) (r c : R -> R) (jr jc : rjet) :
  tracks t r jr -> tracks t c jc ->
  tracks t (fun s => bicubic g (r s) (c s))
    (J (bicubic g (jre jr) (jre jc))
       (bicubic_dr g (jre jr) (jre jc) * jde jr + bicubic_dc g (jre jr) (jre jc) * jde jc)).
Proof.
  intros Tr Tc. unfold bicubic.
  pose proof (fun k => tr_spline t (fun l _ => g k l) (fun l => J (g k l) 0) c jc (fun l => tr_const t (g k l)) Tc) as R1.
  cbn [jre jde] in R1.
  pose proof (tr_spline t (fun k s => spline (g k) (c s)) _ r jr R1 Tr) as T. cbn [jre jde] in T.
  revert T. apply tr_eq; cbn [jre jde]; [reflexivity|].
  unfold bicubic_dr, bicubic_dc. f_equal.
  apply spline_scale. intros k. change (fun k0 : Z => g k k0) with (g k). unfold spline, hermite. ring.
Qed.

Lemma interpolation_derives (value : R -> R -> R) (res x y vx vy : R) :
  let j := interpolation_rjet value res (J x vx) (J y vy) in
  jre j = bicubic (get_value value res) (x / res) (y / res) /\
  has_derivative (fun s => Ok (jre (interpolation_rjet value res (J (x + s * vx) vx) (J (y + s * vy) vy)))) 0 (jde j).
Proof.
  intros j.
  assert (L : forall a v, tracks 0 (fun s => 1 / res * (a + s * v)) (scale jet_number (1 / res) (J a v))).
  { intros a v. apply tr_scale. split; cbn [jre jde]; [ring|].
    intros e He. exists (mkposreal 1 Rlt_0_1). intros h H0 _.
    replace ((a + (0 + h) * v - (a + 0 * v)) / h - v) with 0 by (field; exact H0). rewrite Rabs_R0. exact He. }
  pose proof (tr_bicubic 0 (get_value value res) _ _ _ _ (L x vx) (L y vy)) as [T1 T2]. split.
  - unfold j, interpolation_rjet. cbn [jre scale jet_number]. f_equal; unfold Rdiv; ring.
  - exists (fun s => bicubic (get_value value res) (1 / res * (x + s * vx)) (1 / res * (y + s * vy))), 1.
    split; [lra|]. split; [reflexivity|exact T2].
Qed.

Lemma spline_node (g : Z -> R) (n : Z) : spline g (IZR n) = g n.
Proof.
  unfold spline. rewrite (part_unique (IZR n) n) by lra. unfold hermite. ring.
Qed.

Lemma interpolation_node (value : R -> R -> R) (res vx vy : R) (i k : Z) : res <> 0 ->
  jre (interpolation_rjet value res (J (IZR i * res) vx) (J (IZR k * res) vy)) = value (IZR i * res) (IZR k * res).
Proof.
  intros Hr. unfold interpolation_rjet. cbn [jre scale jet_number].
  replace (1 / res * (IZR i * res)) with (IZR i) by (field; exact Hr).
  replace (1 / res * (IZR k * res)) with (IZR k) by (field; exact Hr).
  unfold bicubic. rewrite !spline_node. reflexivity.
Qed.
