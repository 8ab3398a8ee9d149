(** Static-map part of serialization/loader.hpp: the arrays the loader allocates. Definitions only. *)
From Verif Require Import Base SeqModel IndexModel MapModel BackendModel.
Open Scope Z_scope.

(** loader.hpp:52-59 [load(i, path, storage)]: size [size_ + off] with [off = (i > 1) ? 1 : 0] and
    offset [div(min_index, 2)]. [cslibs_math::common::div<int>] (outside of /repo) is taken to
    round down, as the map's own offset [min >> 1] does. *)
Definition loader_store {P : Type} (size : list Z) (min : idx) (i : nat) : arr P :=
  {| a_size := if (1 <? i)%nat then map (fun n => n + 1) size else size;
     a_offset := map (fun z => z / 2) min; a_cells := [] |}.

(** loader.hpp:64-65: the bundle array. *)
Definition loader_bundles (size : list Z) (min : idx) : arr bundle :=
  {| a_size := map (fun n => n * 2) size; a_offset := min; a_cells := [] |}.

(** storage.hpp:138-164 [loadStorage], the insertions (records already decoded). *)
Definition load_records {P : Type} (mergeP : P -> P -> P) (s : arr P) (l : list (idx * P)) : outcome (arr P) :=
  ofold (fun s r => bins (array_backend mergeP) s (fst r) (snd r)) l s.
