(** C21: copies of maps. *)
From Verif Require Import Base IndexModel MapModel BackendModel SysModel CopyModel CopySpec CopyFacts Samples.
Open Scope Z_scope.

Section Statements.
Context {P : Type}.
Variable c : config P.

(** C21: right after copy construction, from any history, source and copy show the same. *)
Theorem C21_copy_shows_same (l : list (map_action (P:=P))) (w w1 : cworld c) (o o1 : mapobj) :
  cw_act_all c l (cw_new c) = Ok (w, o) -> cw_copy c w o = Ok (w1, o1) ->
  (forall i j, cw_stored c w1 o1 i j = cw_stored c w o i j) /\
  (forall bi, cw_shown c w1 o1 bi = cw_shown c w o bi) /\ same_view c w w1 o.
Proof. exact (fun H => copy_shows c w w1 o o1 (run_reached c l w o H)). Qed.

(** C21 for maps copied while empty: whatever happens to the two maps, in any interleaving, no
    further history of one changes what the other shows. Missing: non-empty sources, for which
    it is false, see below. *)
Theorem C21_empty_copy_independent_partial (w1 w w' : cworld c) (o1 oa ob o' : mapobj)
    (l : list (bool * map_action (P:=P))) (l' : list (map_action (P:=P))) :
  cw_copy c (fst (cw_new c)) (snd (cw_new c)) = Ok (w1, o1) ->
  two_run c l (w1, snd (cw_new c), o1) = Ok (w, oa, ob) ->
  (cw_act_all c l' (w, oa) = Ok (w', o') -> same_view c w w' ob) /\
  (cw_act_all c l' (w, ob) = Ok (w', o') -> same_view c w w' oa).
Proof. exact (fresh_copy_independent c w1 w w' o1 oa ob o' l l'). Qed.

(** C21 for static maps: no history of the source changes the copy's stored distributions.
    Missing: what the copy's bundles show, which does change, see below. *)
Theorem C21_static_source_history_partial (l l' : list (map_action (P:=P))) (w w1 w2 : cworld c) (o o1 o2 : mapobj) :
  kindc c = Static ->
  cw_act_all c l (cw_new c) = Ok (w, o) -> cw_copy c w o = Ok (w1, o1) ->
  cw_act_all c l' (w1, o) = Ok (w2, o2) ->
  forall i j, cw_stored c w2 o1 i j = cw_stored c w1 o1 i j.
Proof. exact (fun Hk H => source_history c w w1 w2 o o1 o2 l' Hk (run_reached c l w o H)). Qed.

(** C21 for static maps: a history of the copy that writes only to bundles the source did not have
    when it was copied (allocation and completion are not restricted) leaves the source alone.
    Missing: writes to bundles of the source, which do change it, see below. *)
Theorem C21_static_copy_history_partial (l l' : list (map_action (P:=P))) (w w1 w2 : cworld c) (o o1 o2 : mapobj) :
  kindc c = Static ->
  cw_act_all c l (cw_new c) = Ok (w, o) -> cw_copy c w o = Ok (w1, o1) ->
  Forall (fun a => match a with Modify bi _ => cw_shown c w o bi = Ok None | _ => True end) l' ->
  cw_act_all c l' (w1, o1) = Ok (w2, o2) -> same_view c w1 w2 o.
Proof. exact (fun Hk H => copy_history c w w1 w2 o o1 o2 l' Hk (run_reached c l w o H)). Qed.
End Statements.
Print Assumptions C21_copy_shows_same.
Print Assumptions C21_empty_copy_independent_partial.
Print Assumptions C21_static_source_history_partial.
Print Assumptions C21_static_copy_history_partial.

(** C21, static maps: the copy's bundles point into the source. A history of the copy changes what
    the source stores ([a] to [a']) although the copy's own storages do not change ([b]). *)
Theorem C21_static_copy_refuted :
  exists (c : config (list Z)) (l l' : list (map_action (P:=list Z))) (i : nat) (j : idx) a a' b,
    kindc c = Static /\
    (let* (w, o) := cw_act_all c l (cw_new c) in
     let* (w1, o1) := cw_copy c w o in
     let* (w2, o2) := cw_act_all c l' (w1, o1) in
     let* source_before := cw_stored c w1 o i j in
     let* source_after := cw_stored c w2 o i j in
     let* copy_before := cw_stored c w1 o1 i j in
     let* copy_after := cw_stored c w2 o2 i j in
     Ok (source_before, source_after, copy_before, copy_after)) = Ok (a, a', b, b) /\ a <> a'.
Proof.
  exists (log_static [4; 4] [0; 0]), [Modify [2; 2] (fun l => l ++ [1])], [Modify [2; 2] (fun l => l ++ [7])], 0%nat, [1; 1].
  exists (Some [1]), (Some [1; 7]), (Some [1]). split; [reflexivity|]. split; [vm_compute; reflexivity|discriminate].
Qed.
Print Assumptions C21_static_copy_refuted.

(** C21, static maps: the source's history changes what the copy's bundles show. *)
Theorem C21_static_source_refuted :
  exists (c : config (list Z)) (l l' : list (map_action (P:=list Z))) (bi : idx) a a',
    kindc c = Static /\
    (let* (w, o) := cw_act_all c l (cw_new c) in
     let* (w1, o1) := cw_copy c w o in
     let* (w2, o2) := cw_act_all c l' (w1, o) in
     let* copy_before := cw_shown c w1 o1 bi in
     let* copy_after := cw_shown c w2 o1 bi in
     Ok (copy_before, copy_after)) = Ok (a, a') /\ a <> a'.
Proof.
  exists (log_static [4; 4] [0; 0]), [Modify [2; 2] (fun l => l ++ [1])], [Modify [2; 2] (fun l => l ++ [7])], [2; 2].
  exists (Some [[1]; [1]; [1]; [1]]), (Some [[1; 7]; [1; 7]; [1; 7]; [1; 7]]).
  split; [reflexivity|]. split; [vm_compute; reflexivity|discriminate].
Qed.
Print Assumptions C21_static_source_refuted.

(** C21, static maps: once the source is destroyed, reading the copy's bundles is undefined. *)
Theorem C21_static_copy_dangling_refuted :
  exists (c : config (list Z)) (l : list (map_action (P:=list Z))) (bi : idx) a,
    kindc c = Static /\
    (let* (w, o) := cw_act_all c l (cw_new c) in let* (w1, o1) := cw_copy c w o in cw_shown c w1 o1 bi) = Ok a /\
    (let* (w, o) := cw_act_all c l (cw_new c) in let* (w1, o1) := cw_copy c w o in cw_shown c (cw_destroy c w1 o) o1 bi) = UB.
Proof.
  exists (log_static [4; 4] [0; 0]), [Modify [2; 2] (fun l => l ++ [1])], [2; 2], (Some [[1]; [1]; [1]; [1]]).
  split; [reflexivity|]. split; vm_compute; reflexivity.
Qed.
Print Assumptions C21_static_copy_dangling_refuted.

(** C21, dynamic maps: a copy of a map with content uses the same nodes; the copy's history changes
    what the source stores and shows. *)
Theorem C21_dynamic_copy_refuted :
  exists (c : config (list Z)) (l l' : list (map_action (P:=list Z))) (i : nat) (j bi : idx) a a' s s',
    kindc c = Dynamic /\
    (let* (w, o) := cw_act_all c l (cw_new c) in
     let* (w1, o1) := cw_copy c w o in
     let* (w2, o2) := cw_act_all c l' (w1, o1) in
     let* stored_before := cw_stored c w1 o i j in
     let* stored_after := cw_stored c w2 o i j in
     let* shown_before := cw_shown c w1 o bi in
     let* shown_after := cw_shown c w2 o bi in
     Ok (stored_before, stored_after, shown_before, shown_after)) = Ok (a, a', s, s') /\ a <> a' /\ s <> s'.
Proof.
  exists log_dynamic, [Modify [2; 2] (fun l => l ++ [1])], [Modify [2; 2] (fun l => l ++ [7])], 0%nat, [1; 1], [2; 2].
  exists (Some [1]), (Some [1; 7]), (Some [[1]; [1]; [1]; [1]]), (Some [[1; 7]; [1; 7]; [1; 7]; [1; 7]]).
  split; [reflexivity|]. split; [vm_compute; reflexivity|split; discriminate].
Qed.
Print Assumptions C21_dynamic_copy_refuted.

(** C21, dynamic maps: source and copy share their tree. A bundle the copy allocates appears in the
    source, although the source's index range does not contain it. *)
Theorem C21_dynamic_shared_tree_refuted :
  exists (c : config (list Z)) (l l' : list (map_action (P:=list Z))) (i : nat) (j bi : idx) a s lo hi,
    kindc c = Dynamic /\
    (let* (w, o) := cw_act_all c l (cw_new c) in
     let* (w1, o1) := cw_copy c w o in
     let* (w2, o2) := cw_act_all c l' (w1, o1) in
     let* stored_before := cw_stored c w1 o i j in
     let* stored_after := cw_stored c w2 o i j in
     let* shown_before := cw_shown c w1 o bi in
     let* shown_after := cw_shown c w2 o bi in
     Ok (stored_before, stored_after, shown_before, shown_after, (m_min o, m_max o))) =
    Ok (None, Some a, None, Some s, (lo, hi)) /\
    ~ (nth 0 lo 0 <= nth 0 bi 0 <= nth 0 hi 0).
Proof.
  exists log_dynamic, [Modify [2; 2] (fun l => l ++ [1])], [Modify [6; 2] (fun l => l ++ [7])], 0%nat, [3; 1], [6; 2].
  exists [7], [[7]; [7]; [7]; [7]], [2; 2], [2; 2].
  split; [reflexivity|]. split; [vm_compute; reflexivity|cbn; lia].
Qed.
Print Assumptions C21_dynamic_shared_tree_refuted.

(** Reachable cases of the positive theorems. *)
Example C21_empty_example :
  (let c := log_dynamic in
   let* (w1, o1) := cw_copy c (fst (cw_new c)) (snd (cw_new c)) in
   let* s := two_run c [(true, Modify [2; 2] (fun l => l ++ [1])); (false, Modify [2; 3] (fun l => l ++ [7])); (true, ExpandAll)]
              (w1, snd (cw_new c), o1) in
   match s with (w, oa, ob) =>
     let* a := cw_shown c w oa [2; 2] in let* b := cw_shown c w ob [2; 2] in
     let* b' := cw_shown c w ob [2; 3] in let* a' := cw_stored c w oa 0 [1; 1] in let* b'' := cw_stored c w ob 0 [1; 1] in
     Ok (a, b, b', a', b'') end)
  = Ok (Some [[1]; [1]; [1]; [1]], None, Some [[7]; [7]; [7]; [7]], Some [1], Some [7]).
Proof. vm_compute. reflexivity. Qed.
Example C21_static_example :
  (let c := log_static [4; 4] [0; 0] in
   let* (w, o) := cw_act_all c [Modify [2; 2] (fun l => l ++ [1; 2; 3]); ExpandAll] (cw_new c) in
   let* (w1, o1) := cw_copy c w o in
   let* n := cw_shown c w o [5; 5] in
   let* (w2, o2) := cw_act_all c [Modify [5; 5] (fun l => l ++ [7]); ExpandAll] (w1, o1) in
   let* a := cw_shown c w2 o2 [5; 5] in let* a' := cw_stored c w2 o2 0 [2; 2] in
   let* b := cw_shown c w2 o [5; 5] in let* b' := cw_stored c w2 o 0 [2; 2] in
   Ok (n, a, a', b, b')) = Ok (None, Some [[7]; [7]; [7]; [7]], Some [7], None, None).
Proof. vm_compute. reflexivity. Qed.
