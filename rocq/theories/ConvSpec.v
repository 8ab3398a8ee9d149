(** When two maps, of possibly different kinds, have the same content. *)
From Verif Require Import Base IndexModel OctreeSpec MapModel BackendModel SysModel SysSpec InsertModel.
Open Scope Z_scope.

(** The map accepts [bi] and has a bundle there that refers to the cells [sl]. *)
Definition has_bundle {P : Type} (c : config P) (m : cmap c) (bi : idx) (sl : list (option idx)) : Prop :=
  usable c 0 bi /\ exists b, cbundle c m bi = Ok (Some b) /\ slots b = sl.
(** The storage of family [i] has [v] at cell [j]. *)
Definition has_value {P : Type} (c : config P) (m : cmap c) (i : nat) (j : idx) (v : P) : Prop :=
  cell_exists c i j /\ cstored c m i j = Ok (Some v).
Definition same_content {P : Type} (c c' : config P) (m : cmap c) (m' : cmap c') : Prop :=
  (forall bi sl, has_bundle c m bi sl <-> has_bundle c' m' bi sl) /\
  (forall i j v, has_value c m i j v <-> has_value c' m' i j v).

(** Occupancy histories: only [updateFree(n)] and [updateOccupied(d)] with a non-empty [d]. *)
Definition occupancy_action {S : Type} (amount : S -> Z) (s_merge : S -> S -> S)
  (a : map_action (P:=occ Z S)) : Prop :=
  match a with
  | Modify _ f => (exists n, 0 <= n /\ f = update_free Z.add n) \/
                  (exists s, 0 < amount s /\ f = update_occupied s_merge s)
  | _ => True
  end.
