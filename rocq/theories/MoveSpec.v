(** What a program does if its moves are left out, and what a map shows. Independent of moves. *)
From Verif Require Import Base IndexModel MapModel SysModel SysSpec CopyModel MoveModel.

Definition without_moves {P : Type} (l : list (move_step (P:=P))) : list (map_action (P:=P)) :=
  flat_map (fun s => match s with Do a => [a] | Move => [] end) l.
(** Two maps, each in its memory, look the same: stored distributions, distributions behind the
    pointers of the bundles, index range. *)
Definition look_same {P : Type} (c : config P) (w : cworld c) (o : mapobj) (w' : cworld c) (o' : mapobj) : Prop :=
  (forall i j, cw_stored c w' o' i j = cw_stored c w o i j) /\
  (forall bi, cw_shown c w' o' bi = cw_shown c w o bi) /\ m_min o' = m_min o /\ m_max o' = m_max o.

(** Programs that move their map only before they work on it. *)
Definition moves_early {P : Type} (l : list (move_step (P:=P))) : Prop :=
  exists n l', l = repeat Move n ++ map Do l'.
(** Two runs end alike: both with maps that look the same, or both go wrong in the same way. *)
Definition same_end {P : Type} (c : config P) (a b : outcome (cworld c * mapobj)) : Prop :=
  match a, b with
  | Ok (w', o'), Ok (w, o) => look_same c w o w' o'
  | UB, UB => True
  | Throw, Throw => True
  | _, _ => False
  end.
(** What bundle [bi] should show after a history: for each of its cells what the history did to the cell. *)
Definition bundle_values {P : Type} (c : config P) (l : list (map_action (P:=P))) (bi : idx) : list P :=
  map (fun i => apply_changes (changes l i (generate_index bi i)) (defaultc c)) (seq 0 (bin_count (dimc c))).
