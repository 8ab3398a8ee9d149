(** Both evaluations of a ceres cost functor give the same value. *)
From Coq Require Import QArith Qround Lqa.
From Verif Require Import Base SeqModel IndexModel MapModel SysModel ExtentModel SampleModel EvalModel.
Open Scope Z_scope.

(** Equal outcomes, values compared as rationals. *)
Definition same_outcome (x y : outcome Q) : Prop :=
  match x, y with
  | Ok a, Ok b => (a == b)%Q
  | UB, UB => True
  | Throw, Throw => True
  | _, _ => False
  end.

Lemma fold_dual {A : Type} (f g : Q -> A -> outcome Q) (l : list A) :
  (forall a b x, (b == 1 - a)%Q ->
     match f a x, g b x with
     | Ok a', Ok b' => (b' == 1 - a')%Q
     | UB, UB => True
     | Throw, Throw => True
     | _, _ => False
     end) ->
  forall a b, (b == 1 - a)%Q ->
  match ofold f l a, ofold g l b with
  | Ok a', Ok b' => (b' == 1 - a')%Q
  | UB, UB => True
  | Throw, Throw => True
  | _, _ => False
  end.
Proof.
  intros H. induction l as [|x l IH]; intros a b E; cbn [ofold]; [exact E|].
  specialize (H a b x E). destruct (f a x) as [a'| |], (g b x) as [b'| |]; cbn [obind]; try contradiction; try exact I.
  apply IH; exact H.
Qed.

Lemma evaluate_same {P : Type} (c : config P) (inv : Q) (valid : P -> bool) (kernel : P -> list Q -> Q)
  (m : cmap c) (p : list Q) :
  same_outcome (evaluate_double c inv valid kernel m p) (evaluate_jet c inv valid kernel m p).
Proof.
  unfold evaluate_double, evaluate_jet, sampleNonNormalized, sample_at.
  destruct (toBundleIndex inv p) as [bi| |]; cbn [obind]; try exact I.
  destruct (cbundle c m bi) as [[b|]| |]; cbn [obind]; try exact I; [|cbn; lra].
  unfold weighted_sum.
  match goal with |- same_outcome (obind (ofold ?f ?l 0%Q) _) (ofold ?g ?l 1%Q) =>
    generalize (fold_dual f g l) end.
  intros H. match type of H with ?A -> _ => assert (HA : A) end.
  { intros a b' i E. destruct (nth_error (slots b) i) as [sl|]; [|exact I].
    destruct (slot_value _ _ m i sl) as [[v|]| |]; cbn [obind]; try exact I; unfold dsample.
    - destruct (valid v); rewrite E; ring.
    - rewrite E; ring. }
  specialize (H HA 0%Q 1%Q ltac:(reflexivity)).
  destruct (ofold _ _ 0%Q), (ofold _ _ 1%Q); cbn [obind same_outcome]; try contradiction; try exact I.
  rewrite H. reflexivity.
Qed.

Lemma occ_evaluate_same {P D M : Type} (c : config P) (inv : Q) (inner : P -> option D) (valid : D -> bool)
  (kernel : D -> list Q -> Q) (occupancy : M -> P -> Q) (m : cmap c) (p : list Q) (ivm : M) :
  same_outcome (occ_evaluate_double c inv inner valid kernel occupancy m p (Some ivm))
               (occ_evaluate_jet c inv inner valid kernel occupancy m p (Some ivm)).
Proof.
  unfold occ_evaluate_double, occ_evaluate_jet, occ_sampleNonNormalized, sample_at.
  destruct (toBundleIndex inv p) as [bi| |]; cbn [obind]; try exact I.
  destruct (cbundle c m bi) as [[b|]| |]; cbn [obind]; try exact I; [|cbn; lra].
  unfold weighted_sum.
  match goal with |- same_outcome (obind (ofold ?f ?l 0%Q) _) (ofold ?g ?l 1%Q) =>
    generalize (fold_dual f g l) end.
  intros H. match type of H with ?A -> _ => assert (HA : A) end.
  { intros a b' i E. destruct (nth_error (slots b) i) as [sl|]; [|exact I].
    destruct (slot_value _ _ m i sl) as [[v|]| |]; cbn [obind]; try exact I; unfold occ_contribution, dsample.
    - destruct (inner v) as [s|]; [destruct (valid s)|]; rewrite E; ring.
    - rewrite E; ring. }
  specialize (H HA 0%Q 1%Q ltac:(reflexivity)).
  destruct (ofold _ _ 0%Q), (ofold _ _ 1%Q); cbn [obind same_outcome]; try contradiction; try exact I.
  rewrite H. reflexivity.
Qed.
