(** Conversion between static and dynamic maps: conversion/map.hpp. Definitions only. *)
From Verif Require Import Base SeqModel IndexModel OctreeSpec OctreeModel MapModel BackendModel SysModel InsertModel.
Open Scope Z_scope.

(** conversion/map.hpp:14-21 [impl::convert<Distribution>]: [*t = *f]; a null [f] is UB. The
    result is what happens to [*t]. *)
Definition convert_distribution {P : Type} (f : option P) : outcome (P -> P) :=
  match f with Some v => Ok (fun _ => v) | None => UB end.
(** conversion/map.hpp:23-30 [impl::convert<OccupancyDistribution>]. The assignment is a deep copy
    (HeapModel.v); [amount] is [getN()], [positive] is [> 0]. *)
Definition convert_occupancy {A S : Type} (zero : A) (positive : A -> bool) (amount : S -> A)
  (f : option (occ A S)) : outcome (occ A S -> occ A S) :=
  match f with
  | Some v =>
      if positive (missed v) || positive (match hits v with Some h => amount h | None => zero end)
      then Ok (fun _ => v) else Ok (fun t => t)
  | None => Ok (fun t => t)
  end.

Section Convert.
Context {P : Type}.
Variable conv : option P -> outcome (P -> P).
Variable c c' : config P.

(** conversion/map.hpp:64-65 and 106-107: one slot of the bundle [b] at [bi]. *)
Definition convert_slot (m : cmap c) (bi : idx) (b : bundle) (m' : cmap c') (i : nat) : outcome (cmap c') :=
  match nth_error (slots b) i with
  | None => UB
  | Some sl =>
      let* v := slot_value (bdc c) (bbc c) m i sl in
      let* g := conv v in
      modify_slot (bdc c') (bbc c') bi g m' i
  end.
(** conversion/map.hpp:62-67 and 104-109. *)
Definition convert_bundle (m : cmap c) (m' : cmap c') (e : idx * bundle) : outcome (cmap c') :=
  let* r := getDistributionBundle (defaultc c') (bdc c') (bbc c') (dimc c') (kindc c') (aminc c') (amaxc c') m' (fst e) in
  if snd r then ofold (convert_slot m (fst e) (snd e)) (seq 0 (bin_count (dimc c'))) (fst r) else Ok (fst r).
(** conversion/map.hpp:53-71 and 96-113: a new map of configuration [c'], filled by [traverse]. *)
Definition convert_map (m : cmap c) : outcome (cmap c') :=
  let* bs := cbundles c m in ofold (convert_bundle m) bs (new_map c').

(** conversion/map.hpp:91-96 for one dimension; the floating-point operations are exact on halves
    of ints, the casts and the subtraction are UB outside [int]. Result: size, minimum. *)
Definition box_1 (mn mx : Z) : outcome (Z * Z) :=
  let mn' := 2 * (mn / 2) in
  let mx' := 2 * (- ((- mx) / 2)) + 1 in
  if int_ok mn' && int_ok mx' && int_ok (mx' - mn') then Ok (- ((- (mx' - mn')) / 2), mn') else UB.
Fixpoint box_of (mn mx : idx) : outcome (list Z * idx) :=
  match mn, mx with
  | a :: mn', b :: mx' =>
      let* (s, m) := box_1 a b in
      let* (ss, ms) := box_of mn' mx' in Ok (s :: ss, m :: ms)
  | _, _ => Ok ([], [])
  end.

(** The destination's template arguments: same dimension and distribution type. *)
Definition static_like (size : list Z) (min : idx) : config P :=
  {| dimc := dimc c; kindc := Static; sizec := size; minc := min; garbagec := garbagec c;
     aminc := aminc c; amaxc := amaxc c; offsetsc := offsetsc c; defaultc := defaultc c;
     mergec := mergec c; expandc := expandc c |}.
Definition dynamic_like (garbage : nat -> Z) : config P :=
  {| dimc := dimc c; kindc := Dynamic; sizec := []; minc := []; garbagec := garbage;
     aminc := aminc c; amaxc := amaxc c; offsetsc := offsetsc c; defaultc := defaultc c;
     mergec := mergec c; expandc := expandc c |}.

End Convert.

(** conversion/map.hpp:80-114 and 48-72. Origin and resolution are handed over unchanged (56-57 and
    99-100) and are not part of the map model. *)
Definition to_static {P : Type} (conv : option P -> outcome (P -> P)) (c : config P) (m : cmap c) :
  outcome { b : list Z * idx & cmap (static_like c (fst b) (snd b)) } :=
  let* b := box_of (min_bi m) (max_bi m) in
  let* m' := convert_map conv c (static_like c (fst b) (snd b)) m in Ok (existT _ b m').
Definition to_dynamic {P : Type} (conv : option P -> outcome (P -> P)) (c : config P) (garbage : nat -> Z) (m : cmap c) :
  outcome (cmap (dynamic_like c garbage)) :=
  convert_map conv c (dynamic_like c garbage) m.
