(** C82: moving a map. *)
From Verif Require Import Base IndexModel MapModel BackendModel SysModel SysSpec CopyModel CopySpec MoveModel MoveSpec MoveTop Samples.
Open Scope Z_scope.

Section Statements.
Context {P : Type}.
Variable c : config P.

(** C82: a program that moves its map now and then, each time destroying the source, ends as the
    program without the moves does: with a map that looks the same, or wrong in the same way. For
    dynamic maps with moves anywhere, for static maps with moves before the first operation.
    Missing: static maps moved later, for which it is false, see below. *)
Theorem C82_moves_partial (l : list (move_step (P:=P))) :
  kindc c = Dynamic \/ moves_early l ->
  same_end c (move_run c l (cw_new c)) (cw_act_all c (without_moves l) (cw_new c)).
Proof. exact (safe_moves c l). Qed.

(** C82: such a program, if it keeps to indices the map can hold, does not go wrong. Index range,
    storages and the set of bundles are those of the map [m] of MapModel.v, so that all theorems about
    that map apply. Read through its pointers, every bundle shows for each of its cells exactly what
    the program did to the cell, before and after the moves; bundles that were changed are there, and
    without allocation of neighbours nothing but the bundles named by the program is there. Missing:
    static maps moved later. *)
Theorem C82_bundles_partial (l : list (move_step (P:=P))) :
  config_ok c -> kindc c = Dynamic \/ moves_early l -> fits c (without_moves l) ->
  exists w o m, move_run c l (cw_new c) = Ok (w, o) /\ cact_all c (without_moves l) (new_map c) = Ok m /\
    m_min o = min_bi m /\ m_max o = max_bi m /\ (forall i j, cw_stored c w o i j = cstored c m i j) /\
    (forall bi, usable c 0 bi -> exists ob, cbundle c m bi = Ok ob /\
       cw_shown c w o bi = Ok (option_map (fun _ => bundle_values c (without_moves l) bi) ob)) /\
    (forall bi f, In (Do (Modify bi f)) l -> cw_shown c w o bi = Ok (Some (bundle_values c (without_moves l) bi))) /\
    (forall bi, usable c 0 bi -> ~ In (Do ExpandAll) l -> (forall f, ~ In (Do (Modify bi f)) l) -> ~ In (Do (Touch bi)) l ->
       cw_shown c w o bi = Ok None).
Proof. exact (safe_shown c l). Qed.

(** C82, static maps: from every history, after a move the stored distributions and the index range
    are right, but reading any bundle the map has is undefined. *)
Theorem C82_static_partial (l : list (map_action (P:=P))) (w : cworld c) (o : mapobj) :
  kindc c = Static -> cw_act_all c l (cw_new c) = Ok (w, o) ->
  exists w1 o1, cw_move c w o = Ok (w1, o1) /\ m_min o1 = m_min o /\ m_max o1 = m_max o /\
    (forall i j, cw_stored c w1 o1 i j = cw_stored c w o i j) /\
    (forall bi, cw_shown c w o bi = Ok None -> cw_shown c w1 o1 bi = Ok None) /\
    (forall bi b, cw_shown c w o bi = Ok (Some b) -> cw_shown c w1 o1 bi = UB).
Proof. exact (static_move c l w o). Qed.
End Statements.
Print Assumptions C82_moves_partial.
Print Assumptions C82_bundles_partial.
Print Assumptions C82_static_partial.

(** C82, static maps: a map with one bundle, moved; then the next change of the bundle is undefined. *)
Theorem C82_static_refuted :
  exists (c : config (list Z)) (l : list (move_step (P:=list Z))),
    config_ok c /\ kindc c = Static /\ fits c (without_moves l) /\
    move_run c l (cw_new c) = UB /\
    exists w o, cw_act_all c (without_moves l) (cw_new c) = Ok (w, o).
Proof.
  exists (log_static [4; 4] [0; 0]), [Do (Modify [2; 2] (fun l => l ++ [1])); Move; Do (Modify [2; 2] (fun l => l ++ [7]))].
  split; [apply log_static_ok|]. split; [reflexivity|]. split; [|split; [vm_compute; reflexivity|]].
  - cbn [without_moves flat_map app]. fits_2d.
  - eexists. eexists. vm_compute. reflexivity.
Qed.
Print Assumptions C82_static_refuted.

(** Reachable cases. *)
Example C82_dynamic_example :
  let l := [Move; Do (Modify [2; 2] (fun l => l ++ [1; 2; 3])); Move; Do ExpandAll; Move; Do (Modify [3; 2] (fun l => l ++ [7]))] in
  config_ok log_dynamic /\ fits log_dynamic (without_moves l) /\
  (let* (w, o) := move_run log_dynamic l (cw_new log_dynamic) in
   let* a := cw_shown log_dynamic w o [2; 2] in let* b := cw_shown log_dynamic w o [3; 2] in Ok (a, b)) =
  Ok (Some [[1; 2; 3; 7]; [1; 2; 3]; [1; 2; 3; 7]; [1; 2; 3]], Some [[1; 2; 3; 7]; [7]; [1; 2; 3; 7]; [7]]).
Proof.
  split; [exact log_dynamic_ok|]. split; [|vm_compute; reflexivity].
  change (fits log_dynamic [Modify [2; 2] (fun l => l ++ [1; 2; 3]); ExpandAll; Modify [3; 2] (fun l => l ++ [7])]). fits_2d.
Qed.
Example C82_static_example :
  let c := log_static [4; 4] [0; 0] in
  let l := [Move; Move; Do (Modify [2; 2] (fun l => l ++ [1]))] in
  moves_early l /\ fits c (without_moves l) /\
  (let* (w, o) := move_run c l (cw_new c) in
   let* a := cw_shown c w o [2; 2] in let* s := cw_stored c w o 0 [1; 1] in
   let* (w1, o1) := cw_move c w o in
   let* s1 := cw_stored c w1 o1 0 [1; 1] in Ok (a, s, s1)) = Ok (Some [[1]; [1]; [1]; [1]], Some [1], Some [1]).
Proof.
  split; [exists 2%nat, [Modify [2; 2] (fun l => l ++ [1])]; reflexivity|]. split; [|vm_compute; reflexivity].
  cbn [without_moves flat_map app]. fits_2d.
Qed.
