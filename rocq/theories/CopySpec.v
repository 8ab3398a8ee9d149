(** What independence of maps means. *)
From Verif Require Import Base MapModel SysModel CopyModel.

(** Map [o] shows the same in two states of the memory: the same stored distributions and, what
    sampling reads, the same distributions in every bundle. *)
Definition same_view {P : Type} (c : config P) (w w' : cworld c) (o : mapobj) : Prop :=
  (forall i j, cw_stored c w' o i j = cw_stored c w o i j) /\
  (forall bi, cw_shown c w' o bi = cw_shown c w o bi).
