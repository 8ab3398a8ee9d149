(** The accepted points of a history depend only on the multiset of sensor points. *)
From Coq Require Import Permutation.
From Verif Require Import Base IndexModel OctreeSpec MapModel BackendModel SysModel SysSpec SysFacts
  InsertModel InsertSpec InsertFacts MapPropFacts.
Open Scope Z_scope.

Section Raw.
Context {Pose X W Pt S P : Type}.
Variable geo : geometry Pose X W Pt.
Variable sta : statistics Pt S.
Variable c : config P.
Hypothesis Hc : config_ok c.
Variable upd_d : P -> S -> P.
Notation gop := (grid_op (Pose:=Pose) (X:=X)).

Definition accept_list (r : Pose * X) : list (idx * Pt) :=
  match accept geo c false (fst r) (snd r) with Some e => [e] | None => [] end.

Lemma accepted_raw (o : Pose) (xs : list X) : accepted geo c false o xs = flat_map accept_list (map (pair o) xs).
Proof.
  induction xs as [|x xs IH]; [reflexivity|]. cbn [accepted map flat_map]. rewrite IH.
  replace (accept_list (o, x)) with (match accept geo c false o x with Some e => [e] | None => [] end) by reflexivity.
  destruct (accept geo c false o x); reflexivity.
Qed.
Lemma history_raw (ops : list gop) : history_points geo c ops = flat_map accept_list (raw_points ops).
Proof.
  induction ops as [|op ops IH]; [reflexivity|]. unfold raw_points. cbn [history_points flat_map].
  destruct op; cbn [app]; try exact IH.
  rewrite flat_map_app, <- accepted_raw. f_equal. exact IH.
Qed.

Lemma raw_perm (ops1 ops2 : list gop) :
  Permutation (raw_points ops1) (raw_points ops2) ->
  Permutation (history_points geo c ops1) (history_points geo c ops2).
Proof. intros H. rewrite !history_raw. now apply Permutation_flat_map. Qed.

Lemma inserts_no_expand (ops : list gop) : only_inserts ops -> expand_calls ops = 0.
Proof.
  induction ops as [|op ops IH]; intros H; [reflexivity|]. inversion H; subst.
  destruct op; cbn; try contradiction. apply IH; assumption.
Qed.

Definition point_fits (r : Pose * X) : Prop :=
  (negb false || normal_in geo (snd r)) && normal_world geo (transform geo (fst r) (snd r)) = true ->
  exists bi, locate geo (to_map geo (transform geo (fst r) (snd r))) = Ok bi /\ length bi = dimc c /\
    (kindc c = Dynamic -> usable c 0 bi).

Lemma grid_fits_raw (ops : list gop) :
  only_inserts ops -> (grid_fits geo c (usable c) ops <-> forall r, In r (raw_points ops) -> point_fits r).
Proof.
  intros Hi. unfold grid_fits. rewrite (inserts_no_expand ops Hi). rewrite Forall_forall.
  unfold only_inserts in Hi. rewrite Forall_forall in Hi. split.
  - intros H [o x] Hr. apply in_flat_map in Hr. destruct Hr as [op [Hop Hr]].
    specialize (H op Hop). destruct op as [o' xs|b|]; try contradiction.
    apply in_map_iff in Hr. destruct Hr as [x' [E Hx]]. injection E as -> ->.
    intros Hn. apply (H x Hx Hn).
  - intros H op Hop. specialize (Hi op Hop). destruct op as [o xs|b|]; try contradiction.
    intros x Hx Hn. apply (H (o, x)); [|exact Hn].
    apply in_flat_map. exists (GInsert o xs). split; [exact Hop|]. apply in_map. exact Hx.
Qed.

Section Commutative.
Variable addP : P -> Pt -> P.
Hypothesis add_batch : forall d ps, upd_d d (fold_left (s_add sta) ps (s_empty sta)) = fold_left addP ps d.
Hypothesis add_comm : forall d p q, addP (addP d p) q = addP (addP d q) p.

Lemma grid_order_raw (ops1 ops2 : list gop) :
  only_inserts ops1 -> only_inserts ops2 -> grid_fits geo c (usable c) ops1 ->
  Permutation (raw_points ops1) (raw_points ops2) ->
  exists m1 m2, grid_run geo sta c upd_d ops1 (new_map c) = Ok m1 /\
    grid_run geo sta c upd_d ops2 (new_map c) = Ok m2 /\
    (forall i j, cell_exists c i j -> cstored c m1 i j = cstored c m2 i j) /\
    (forall bi, usable c 0 bi -> exists o1 o2, cbundle c m1 bi = Ok o1 /\ cbundle c m2 bi = Ok o2 /\
       (o1 <> None <-> o2 <> None)).
Proof.
  intros H1 H2 Hf Hp. apply (grid_order geo sta c Hc upd_d addP add_batch add_comm); auto.
  - apply grid_fits_raw; [exact H2|]. intros r Hr. apply (proj1 (grid_fits_raw ops1 H1) Hf).
    apply (Permutation_in _ (Permutation_sym Hp)). exact Hr.
  - apply raw_perm; exact Hp.
Qed.
End Commutative.

End Raw.
