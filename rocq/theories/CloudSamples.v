(** Concrete cases for the conversions to point clouds and markers. *)
From Coq Require Import String Reals Lra.
From Verif Require Import Base IndexModel OctreeSpec MapModel BackendModel SysModel SysSpec Samples SerialModel SerialFacts
  JetModel CloudModel CloudSpec.
Open Scope Z_scope.

(** Three dimensions; a distribution is the list of its points' first coordinates and is expanded if it has
    more than two of them. *)
Definition offsets3 : list idx :=
  flat_map (fun x => flat_map (fun y => map (fun z => [x; y; z]) [-1; 0; 1]) [-1; 0; 1]) [-1; 0; 1].
Definition log3 : config (list Z) :=
  {| dimc := 3; kindc := Dynamic; sizec := []; minc := []; garbagec := fun _ => 0;
     aminc := cw_min; amaxc := cw_max; offsetsc := offsets3; defaultc := [];
     mergec := @app Z; expandc := fun d => 2 <? Z.of_nat (length d) |}.
Lemma log3_ok : config_ok log3.
Proof.
  constructor; cbn -[offsets3]; try discriminate; try reflexivity.
  - intros o H. cbn in H. repeat (destruct H as [<-|H]; [split; [reflexivity|repeat constructor; lia]|]). contradiction.
  - intros [|x [|y [|z [|]]]] HL HF HE; try discriminate HL.
    inversion HF as [|? ? Hx HF']; subst. inversion HF' as [|? ? Hy HF'']; subst. inversion HF'' as [|? ? Hz _]; subst.
    clear HF HF' HF'' HE HL.
    assert (Cx : x = -1 \/ x = 0 \/ x = 1) by lia. assert (Cy : y = -1 \/ y = 0 \/ y = 1) by lia.
    assert (Cz : z = -1 \/ z = 0 \/ z = 1) by lia.
    destruct Cx as [->|[->| ->]]; destruct Cy as [->|[->| ->]]; destruct Cz as [->|[->| ->]]; cbn; auto 40.
Qed.

(** Three points in one bundle, one in another. *)
Definition three_points : list (map_action (P := list Z)) :=
  [Modify [0; 0; 0] (fun d => d ++ [1; 2; 3]); Modify [4; 0; -1] (fun d => d ++ [40])].
Lemma three_points_fit (allocate_all : bool) : fits log3 (history allocate_all three_points).
Proof.
  destruct allocate_all; unfold fits; cbn [history three_points app expansions];
  repeat (first [apply Forall_nil | apply Forall_cons]); cbn; unfold usable; cbn; try exact I;
  split; try reflexivity; repeat constructor; cbn; lia.
Qed.

(** Without completion every entry has points, with it most have none. *)
Lemma three_points_shown {E : Type} (show : list Z -> E) :
  (let* m := cact_all log3 three_points (new_map log3) in
   let* r := cloud_convert log3 (fun d => Ok (Some (show d))) false m in Ok (snd r)) =
  Ok (map show [[40]; [1; 2; 3]; [40]; [1; 2; 3]; [40]; [1; 2; 3]; [40]; [1; 2; 3]; [1; 2; 3]; [40];
                [1; 2; 3]; [40]; [1; 2; 3]; [40]; [1; 2; 3]; [40]]).
Proof. vm_compute. reflexivity. Qed.
Lemma three_points_completed {E : Type} (show : list Z -> E) :
  exists out, (let* m := cact_all log3 three_points (new_map log3) in
   let* r := cloud_convert log3 (fun d => Ok (Some (show d))) true m in Ok (snd r)) = Ok out /\
   length out = 72%nat /\ In (show []) out.
Proof.
  eexists. split; [vm_compute; reflexivity|]. split; [reflexivity|].
  repeat (first [left; reflexivity | right]).
Qed.

(** An occupancy map: numbers of hits and misses, the occupancy is 3/4 if there are more hits. *)
Definition occ3 : config (nat * nat) :=
  {| dimc := 3; kindc := Dynamic; sizec := []; minc := []; garbagec := fun _ => 0;
     aminc := cw_min; amaxc := cw_max; offsetsc := offsets3; defaultc := (0, 0)%nat;
     mergec := fun a b => (fst a + fst b, snd a + snd b)%nat; expandc := fun d => (2 <? fst d)%nat |}.
Lemma occ3_ok : config_ok occ3.
Proof. destruct log3_ok as [A B C D F]. constructor; cbn -[offsets3] in *; auto; discriminate. Qed.
Definition hits_and_misses : list (map_action (P := nat * nat)) :=
  [Modify [0; 0; 0] (fun d => (fst d + 2, snd d)%nat); Modify [8; 0; 0] (fun d => (fst d, snd d + 1)%nat)].
Lemma hits_and_misses_fit (allocate_all : bool) : fits occ3 (history allocate_all hits_and_misses).
Proof.
  destruct allocate_all; unfold fits; cbn [history hits_and_misses app expansions];
  repeat (first [apply Forall_nil | apply Forall_cons]); cbn; unfold usable; cbn; try exact I;
  split; try reflexivity; repeat constructor; cbn; lia.
Qed.
