(** Concrete configurations used by the examples next to the theorems. *)
From Verif Require Import Base SeqModel IndexModel OctreeSpec MapModel BackendModel SysModel SysSpec
  InsertModel InsertSpec.
Open Scope Z_scope.

(** The eight neighbours of a 2D index. *)
Definition offsets2 : list idx :=
  [[-1; -1]; [0; -1]; [1; -1]; [-1; 0]; [1; 0]; [-1; 1]; [0; 1]; [1; 1]].

(** A 2D map whose distributions are lists of numbers; a list of more than two is "valid". *)
Definition log_dynamic : config (list Z) :=
  {| dimc := 2; kindc := Dynamic; sizec := []; minc := []; garbagec := fun i => Z.of_nat i + 1234;
     aminc := cw_min; amaxc := cw_max; offsetsc := offsets2; defaultc := [];
     mergec := @app Z; expandc := fun l => (2 <? length l)%nat |}.
Definition log_static (size : list Z) (min : idx) : config (list Z) :=
  {| dimc := 2; kindc := Static; sizec := size; minc := min; garbagec := fun _ => 0;
     aminc := cw_min; amaxc := cw_max; offsetsc := offsets2; defaultc := [];
     mergec := @app Z; expandc := fun l => (2 <? length l)%nat |}.

Lemma offsets2_sound : forall o, In o offsets2 -> length o = 2%nat /\ Forall (fun z => -1 <= z <= 1) o.
Proof.
  intros o H. cbn in H.
  repeat (destruct H as [<-|H]; [split; [reflexivity|repeat constructor; lia]|]). contradiction.
Qed.
Lemma offsets2_complete : forall o, length o = 2%nat -> Forall (fun z => -1 <= z <= 1) o ->
  Exists (fun z => z <> 0) o -> In o offsets2.
Proof.
  intros [|x [|y [|]]] HL HF HE; try discriminate HL.
  inversion HF as [|? ? Hx HF']; subst. inversion HF' as [|? ? Hy _]; subst. clear HF HF'.
  assert (Cx : x = -1 \/ x = 0 \/ x = 1) by lia. assert (Cy : y = -1 \/ y = 0 \/ y = 1) by lia.
  destruct Cx as [->|[->| ->]]; destruct Cy as [->|[->| ->]]; cbn; auto 10.
  inversion HE as [? ? H|? ? H]; subst; [lia|]. inversion H as [? ? H'|? ? H']; subst; [lia|]. inversion H'.
Qed.

Lemma log_dynamic_ok : config_ok log_dynamic.
Proof. constructor; cbn; try discriminate; try reflexivity; [exact offsets2_sound|exact offsets2_complete]. Qed.
Lemma log_static_ok (sx sy mx my : Z) : config_ok (log_static [sx; sy] [mx; my]).
Proof. constructor; cbn; try reflexivity; [exact offsets2_sound|exact offsets2_complete]. Qed.

(** Integer geometry: points are integer pairs, a bundle is 10 wide, a pose is a shift, points with
    a first coordinate above 1000 are "not normal". *)
Definition shift_geometry : geometry (list Z) (list Z) (list Z) (list Z) :=
  {| transform := fun o x => idx_add o x;
     normal_in := fun x => nth 0 x 0 <=? 1000;
     normal_world := fun x => nth 0 x 0 <=? 1000;
     to_map := fun x => x;
     locate := fun p => Ok (map (fun z => z / 10) p) |}.
(** Statistics that remember the first coordinates. *)
Definition log_statistics : statistics (list Z) (list Z) :=
  {| s_empty := []; s_add := fun s p => s ++ [nth 0 p 0] |}.

(** Solves [fits] for concrete 2D histories. *)
Ltac fits_2d_goal :=
  lazymatch goal with
  | |- _ /\ _ => split; fits_2d_goal
  | |- forall d : nat, _ => let d := fresh "d" in intros d ?; destruct d as [|[|d]]; cbn in *; lia
  | |- Forall _ _ => repeat constructor; cbn; lia
  | |- True => exact I
  | |- _ -> _ => intros ?; try discriminate; fits_2d_goal
  | |- _ => first [reflexivity | lia]
  end.
Ltac fits_2d :=
  unfold fits; cbn [expansions];
  repeat (first [apply Forall_nil | apply Forall_cons]);
  cbn; unfold usable; cbn; fits_2d_goal.

(** Solves a conjunction of equations between closed terms and existential variables, in order. *)
Ltac compute_all :=
  lazymatch goal with
  | |- _ /\ _ => split; [compute_all|compute_all]
  | |- _ => vm_compute; reflexivity
  end.

(** Exact first moments: number of points and sum of their first coordinates. *)
Definition moment_statistics : statistics (list Z) (Z * Z) :=
  {| s_empty := (0, 0); s_add := fun s p => (fst s + 1, snd s + nth 0 p 0) |}.
Definition moment_add (d s : Z * Z) : Z * Z := (fst d + fst s, snd d + snd s).
Definition moment_map (kd : kind) (size min : list Z) : config (Z * Z) :=
  {| dimc := 2; kindc := kd; sizec := size; minc := min; garbagec := fun _ => -1;
     aminc := cw_min; amaxc := cw_max; offsetsc := offsets2; defaultc := (0, 0);
     mergec := moment_add; expandc := fun d => 2 <? fst d |}.
Lemma moment_map_ok (kd : kind) (sx sy mx my : Z) : config_ok (moment_map kd [sx; sy] [mx; my]).
Proof. constructor; cbn; try reflexivity; [exact offsets2_sound|exact offsets2_complete]. Qed.

(** Solves [grid_fits] for concrete histories over [shift_geometry]. *)
Ltac cloud_fits_2d :=
  let x := fresh "x" in let Hx := fresh "Hx" in let Hn := fresh "Hn" in
  intros x Hx Hn; cbn in Hx;
  repeat (destruct Hx as [<-|Hx];
    [first [discriminate Hn
           | eexists; split; [reflexivity|]; split; [reflexivity|];
             intros Hk; first [discriminate Hk | split; [reflexivity|repeat constructor; cbn; lia]]]|]);
  contradiction.
Ltac grid_fits_2d :=
  unfold InsertSpec.grid_fits; cbn [InsertSpec.expand_calls];
  repeat (first [apply Forall_nil | apply Forall_cons]); try exact I;
  try (first [cloud_fits_2d
             | split; [reflexivity|]; intros Hk; first [discriminate Hk | split; [reflexivity|repeat constructor; cbn; lia]]]).
