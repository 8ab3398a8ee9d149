(** C19, C20: copies and merges of occupancy distributions. *)
From Verif Require Import Base HeapModel HeapSpec HeapFacts.

Section Statements.
Context {D C : Type}.
Variable d_empty : D.
Variable d_plus : D -> D -> D.
Variable c_plus : C -> C -> C.

(** C19, occupancy distributions: a copy-constructed object shows its source's value and the two
    are independent from then on, for every interleaving of later updates. *)
Theorem C19_copy_construction_independent (s : memory D C) (i : nat) :
  sound_memory s -> (i < length (objects s))%nat ->
  let j := length (objects s) in
  exists s' v, copy_construct true s i = Ok s' /\ show s i = Ok v /\ show s' i = Ok v /\ show s' j = Ok v /\
    independent d_empty d_plus c_plus s' i j.
Proof. exact (deep_copy d_empty d_plus c_plus s i). Qed.

(** C19, occupancy distributions: the same for assignment. *)
Theorem C19_assignment_independent (s : memory D C) (i j : nat) :
  sound_memory s -> (i < length (objects s))%nat -> (j < length (objects s))%nat -> i <> j ->
  exists s' v, assign true s i j = Ok s' /\ show s j = Ok v /\ show s' j = Ok v /\ show s' i = Ok v /\
    independent d_empty d_plus c_plus s' i j.
Proof. exact (deep_assign d_empty d_plus c_plus s i j). Qed.

(** C19: assigning an object to itself keeps its value. *)
Theorem C19_self_assignment (s : memory D C) (i : nat) :
  sound_memory s -> (i < length (objects s))%nat ->
  exists s' v, assign true s i i = Ok s' /\ show s i = Ok v /\ show s' i = Ok v.
Proof. exact (deep_assign_self s i). Qed.

(** C19, weighted occupancy distributions (shallow copies): independent if the source has no
    statistics yet. Missing: sources with statistics, for which it is false, see below. *)
Theorem C19_weighted_copy_partial (s : memory D C) (i : nat) (n : C) :
  show s i = Ok (n, None) ->
  let j := length (objects s) in
  exists s', copy_construct false s i = Ok s' /\ show s' j = Ok (n, None) /\
    independent d_empty d_plus c_plus s' i j.
Proof. exact (shallow_copy_null d_empty d_plus c_plus s i n). Qed.
Theorem C19_weighted_assignment_partial (s : memory D C) (i j : nat) (n : C) :
  (i < length (objects s))%nat -> i <> j -> show s j = Ok (n, None) ->
  exists s', assign false s i j = Ok s' /\ show s' i = Ok (n, None) /\
    independent d_empty d_plus c_plus s' i j.
Proof. exact (shallow_assign_null d_empty d_plus c_plus s i j n). Qed.

(** C20: merging adds the other's counts and statistics and does not change the other. *)
Theorem C20_merge_adds (s : memory D C) (i j : nat) (v w : C * option D) :
  sound_memory s -> (i < length (objects s))%nat -> (j < length (objects s))%nat -> i <> j -> unshared s i j ->
  show s i = Ok v -> show s j = Ok w ->
  exists s', merge d_plus c_plus s i j = Ok s' /\
    show s' i = Ok (plain_merge d_plus c_plus v w) /\ show s' j = Ok w.
Proof. exact (merge_shows d_plus c_plus s i j v w). Qed.

(** C20: no sharing if the target already has statistics or the other one has none. Missing:
    a target without statistics, for which it is false, see below. *)
Theorem C20_merge_independent_partial (s : memory D C) (i j : nat) (v w : C * option D) :
  sound_memory s -> (i < length (objects s))%nat -> (j < length (objects s))%nat -> i <> j -> unshared s i j ->
  show s i = Ok v -> show s j = Ok w -> (snd v <> None \/ snd w = None) ->
  exists s', merge d_plus c_plus s i j = Ok s' /\
    show s' i = Ok (plain_merge d_plus c_plus v w) /\ show s' j = Ok w /\
    independent d_empty d_plus c_plus s' i j.
Proof. exact (merge_independent d_empty d_plus c_plus s i j v w). Qed.
End Statements.
Print Assumptions C19_copy_construction_independent.
Print Assumptions C19_assignment_independent.
Print Assumptions C19_self_assignment.
Print Assumptions C19_weighted_copy_partial.
Print Assumptions C19_weighted_assignment_partial.
Print Assumptions C20_merge_adds.
Print Assumptions C20_merge_independent_partial.

(** Samples: statistics are lists of numbers, two objects, the second without statistics. *)
Definition two_objects : memory (list nat) nat :=
  {| heap := [[1; 2]]; objects := [{| misses_ := 4; pointer := Some 0 |}; {| misses_ := 7; pointer := None |}] |}%nat.
Definition run_updates := ofold (update_object (D:=list nat) (C:=nat) [] (@app nat) Nat.add).

Lemma two_objects_sound : sound_memory two_objects.
Proof. repeat constructor. Qed.

(** C19, weighted: a copy of an object with statistics shares them: updating the copy changes the
    source, by construction and by assignment. *)
Theorem C19_weighted_copy_refuted :
  exists (s : memory (list nat) nat) (i j : nat) s1 s2 v v',
    sound_memory s /\ copy_construct false s i = Ok s1 /\ j = length (objects s) /\ show s1 i = Ok v /\
    run_updates [(j, UPoint (fun l => l ++ [3%nat]))] s1 = Ok s2 /\ show s2 i = Ok v' /\ v <> v'.
Proof.
  exists two_objects, 0%nat, 2%nat. eexists _, _, _, _. split; [exact two_objects_sound|].
  do 5 (split; [reflexivity|]). discriminate.
Qed.
Print Assumptions C19_weighted_copy_refuted.
Theorem C19_weighted_assignment_refuted :
  exists (s : memory (list nat) nat) (i j : nat) s1 s2 v v',
    sound_memory s /\ i <> j /\ assign false s i j = Ok s1 /\ show s1 j = Ok v /\
    run_updates [(i, UPoint (fun l => l ++ [3%nat]))] s1 = Ok s2 /\ show s2 j = Ok v' /\ v <> v'.
Proof.
  exists two_objects, 1%nat, 0%nat. eexists _, _, _, _. split; [exact two_objects_sound|].
  split; [discriminate|]. do 4 (split; [reflexivity|]). discriminate.
Qed.
Print Assumptions C19_weighted_assignment_refuted.

(** C20: merging into an object without statistics makes it share the other's: a later update of
    the target changes the other. *)
Theorem C20_merge_sharing_refuted :
  exists (s : memory (list nat) nat) (i j : nat) s1 s2 w w',
    sound_memory s /\ i <> j /\ unshared s i j /\ merge (@app nat) Nat.add s i j = Ok s1 /\ show s1 j = Ok w /\
    run_updates [(i, UPoint (fun l => l ++ [3%nat]))] s1 = Ok s2 /\ show s2 j = Ok w' /\ w <> w'.
Proof.
  exists two_objects, 1%nat, 0%nat. eexists _, _, _, _. split; [exact two_objects_sound|].
  split; [discriminate|]. split; [cbn; discriminate|]. do 4 (split; [reflexivity|]). discriminate.
Qed.
Print Assumptions C20_merge_sharing_refuted.

(** The hypotheses are met, with visible values. *)
Example C19_example :
  sound_memory two_objects /\
  (let* s := copy_construct true two_objects 0 in
   let* s' := run_updates [(2, UPoint (fun l => l ++ [3])); (0, UFree 1); (2, UDist [5]); (0, UDist [6])]%nat s in
   let* a := show s' 0 in let* b := show s' 2 in Ok (a, b))
  = Ok ((5, Some [1; 2; 6]), (4, Some [1; 2; 3; 5]))%nat.
Proof. split; [exact two_objects_sound|reflexivity]. Qed.
Example C20_example :
  unshared two_objects 0 1 /\
  (let* s := run_updates [(1, UDist [8])]%nat two_objects in
   let* s' := merge (@app nat) Nat.add s 0 1 in
   let* s'' := run_updates [(0, UDist [9]); (1, UFree 2)]%nat s' in
   let* a := show s'' 0 in let* b := show s'' 1 in Ok (a, b))
  = Ok ((11, Some [1; 2; 8; 9]), (9, Some [8]))%nat.
Proof. split; [cbn; intros p H; discriminate|reflexivity]. Qed.
