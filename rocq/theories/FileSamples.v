(** Concrete maps for the examples about files. *)
From Verif Require Import Base SeqModel IndexModel OctreeSpec OctreeModel MapModel BackendModel SysModel SysSpec
  Samples InsertModel SerialModel SerialSpec SerialSamples ThreadModel ThreadSpec ThreadFacts FileModel CrashModel.
Open Scope Z_scope.

(** A two-dimensional dynamic map of 48-byte distributions whose first byte counts the points. *)
Definition plain_map : config (word 48) :=
  {| dimc := 2; kindc := Dynamic; sizec := []; minc := []; garbagec := fun i => 77 - Z.of_nat i;
     aminc := cw_min; amaxc := cw_max; offsetsc := offsets2; defaultc := word_of 48 0;
     mergec := fun a b => word_of 48 (word_bits a + word_bits b); expandc := fun w => 2 <? word_count w |}.
Lemma plain_map_ok : config_ok plain_map.
Proof. constructor; try discriminate; [reflexivity|exact offsets2_sound|exact offsets2_complete]. Qed.
Definition add_points (k : Z) (w : word 48) : word 48 := word_of 48 (word_bits w + k).
Definition plain_history : list (map_action (P:=word 48)) :=
  [Modify [0; 0] (add_points 3); Modify [-5; 2] (add_points 1); ExpandAll; Modify [0; 0] (add_points 1)].
Lemma plain_history_fits : fits plain_map plain_history.
Proof.
  unfold fits, plain_history. cbn [expansions].
  repeat (first [apply Forall_nil | apply Forall_cons]); cbn [act_fits]; try exact I;
    (split; [reflexivity|]); cbn [kindc plain_map];
    repeat (first [apply Forall_nil | apply Forall_cons]); lia.
Qed.
(** Threads one after the other. *)
Definition in_order (n : nat) : list nat := one_by_one (seq 0 n).
Lemma in_order_complete (n : nat) : complete n (in_order n).
Proof.
  pose proof (complete_one_by_one (repeat (@UB (bool * option unit)) n) (seq 0 n)) as H.
  rewrite repeat_length in H. apply H. apply Permutation_refl.
Qed.

Definition pose_codec := word_codec 24.
Definition real_codec := word_codec 8.
Definition plain_format := distribution_format no_junk (word_codec 48).

(** The same with occupancy distributions. *)
Definition occ_merge (a b : word 48) : word 48 := word_of 48 (word_bits a + word_bits b).
Definition occ_map : config (occ Z (word 48)) :=
  {| dimc := 2; kindc := Dynamic; sizec := []; minc := []; garbagec := fun i => 0;
     aminc := cw_min; amaxc := cw_max; offsetsc := offsets2; defaultc := Build_occ 0 None;
     mergec := fun a b => a; expandc := fun o => match hits o with Some w => 2 <? word_count w | None => false end |}.
Lemma occ_map_ok : config_ok occ_map.
Proof. constructor; try discriminate; [reflexivity|exact offsets2_sound|exact offsets2_complete]. Qed.
Definition occ_history : list (map_action (P:=occ Z (word 48))) :=
  [Modify [3; 0] (update_free Z.add 4); Modify [3; 1] (update_occupied occ_merge (word_of 48 3)); ExpandAll].
Lemma occ_history_fits : fits occ_map occ_history.
Proof.
  unfold fits, occ_history. cbn [expansions].
  repeat (first [apply Forall_nil | apply Forall_cons]); cbn [act_fits]; try exact I;
    (split; [reflexivity|]); cbn [kindc occ_map];
    repeat (first [apply Forall_nil | apply Forall_cons]); lia.
Qed.
Definition occ_format := occupancy_format no_junk (word_codec 48) (word_of 48 0) word_count.

(** A static map of the same distributions. *)
Definition plain_static (size : list Z) (min : idx) : config (word 48) :=
  {| dimc := 2; kindc := Static; sizec := size; minc := min; garbagec := fun i => 0;
     aminc := cw_min; amaxc := cw_max; offsetsc := offsets2; defaultc := word_of 48 0;
     mergec := fun a b => word_of 48 (word_bits a + word_bits b); expandc := fun w => 2 <? word_count w |}.
Lemma plain_static_ok (a b x y : Z) : config_ok (plain_static [a; b] [x; y]).
Proof. constructor; try reflexivity; [exact offsets2_sound|exact offsets2_complete]. Qed.
