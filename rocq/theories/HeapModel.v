(** Occupancy distributions as objects holding a [std::shared_ptr] to their statistics:
    common/occupancy_distribution.hpp and common/weighted_occupancy_distribution.hpp.
    Definitions only. *)
From Verif Require Import Base.

Section Heap.
(** Statistics ([StableDistribution], [StableWeightedDistribution]): default value and [+=];
    counter of misses ([std::size_t] or [T]): [+=]. *)
Context {D C : Type}.
Variable d_empty : D.
Variable d_plus : D -> D -> D.
Variable c_zero : C.
Variable c_plus : C -> C -> C.

(** occupancy_distribution.hpp:149-151, weighted_occupancy_distribution.hpp:144-146: the counter
    and the pointer (an address in [heap], or null). *)
Record object : Type := { misses_ : C; pointer : option nat }.

(** Statistics on the heap (never freed: a shared pointer keeps what it points to) and objects. *)
Record memory : Type := { heap : list D; objects : list object }.

Definition get_object (s : memory) (i : nat) : outcome object :=
  match nth_error (objects s) i with Some o => Ok o | None => UB end.
Definition set_object (s : memory) (i : nat) (o : object) : outcome memory :=
  match upd (objects s) i o with Some l => Ok {| heap := heap s; objects := l |} | None => UB end.
Definition deref (s : memory) (a : nat) : outcome D :=
  match nth_error (heap s) a with Some d => Ok d | None => UB end.
Definition write (s : memory) (a : nat) (d : D) : outcome memory :=
  match upd (heap s) a d with Some l => Ok {| heap := l; objects := objects s |} | None => UB end.
(** [new distribution_t(d)]. *)
Definition allocate (s : memory) (d : D) : memory * nat :=
  ({| heap := heap s ++ [d]; objects := objects s |}, length (heap s)).

(** [if (!distribution_) distribution_.reset(new distribution_t(d))]; returns the pointer. *)
Definition ensure (s : memory) (i : nat) (d : D) : outcome (memory * nat) :=
  let* o := get_object s i in
  match pointer o with
  | Some a => Ok (s, a)
  | None =>
      let (s1, a) := allocate s d in
      let* s2 := set_object s1 i {| misses_ := misses_ o; pointer := Some a |} in Ok (s2, a)
  end.

(** occupancy_distribution.hpp:60-68, weighted_occupancy_distribution.hpp:57-60 [updateFree(n)]. *)
Definition updateFree (s : memory) (i : nat) (n : C) : outcome memory :=
  let* o := get_object s i in
  set_object s i {| misses_ := c_plus (misses_ o) n; pointer := pointer o |}.
(** occupancy_distribution.hpp:70-76, weighted_occupancy_distribution.hpp:62-68
    [updateOccupied(point)]; [f] is [+= p] resp. [add(p, w)]. *)
Definition updateOccupied_point (s : memory) (i : nat) (f : D -> D) : outcome memory :=
  let* (s1, a) := ensure s i d_empty in
  let* d := deref s1 a in write s1 a (f d).
(** occupancy_distribution.hpp:78-84, weighted_occupancy_distribution.hpp:70-76
    [updateOccupied(distribution)]. *)
Definition updateOccupied_dist (s : memory) (i : nat) (d : D) : outcome memory :=
  let* o := get_object s i in
  match pointer o with
  | None => let* (s1, _) := ensure s i d in Ok s1
  | Some a => let* e := deref s a in write s a (d_plus e d)
  end.

(** occupancy_distribution.hpp:44-48: copy construction allocates a copy ([deep]);
    weighted_occupancy_distribution.hpp:44-48: it copies the pointer. *)
Definition copy_pointer (deep : bool) (s : memory) (p : option nat) : outcome (memory * option nat) :=
  match p with
  | None => Ok (s, None)
  | Some a =>
      if deep then let* d := deref s a in let (s1, b) := allocate s d in Ok (s1, Some b)
      else Ok (s, Some a)
  end.
(** The new object is the last one. *)
Definition copy_construct (deep : bool) (s : memory) (i : nat) : outcome memory :=
  let* o := get_object s i in
  let* (s1, p) := copy_pointer deep s (pointer o) in
  Ok {| heap := heap s1; objects := objects s1 ++ [{| misses_ := misses_ o; pointer := p |}] |}.
(** occupancy_distribution.hpp:50-58 and weighted_occupancy_distribution.hpp:50-55:
    [object i = object j]. *)
Definition assign (deep : bool) (s : memory) (i j : nat) : outcome memory :=
  let* o := get_object s j in
  let* (s1, p) := copy_pointer deep s (pointer o) in
  set_object s1 i {| misses_ := misses_ o; pointer := p |}.
(** occupancy_distribution.hpp:124-133 and weighted_occupancy_distribution.hpp:127-136:
    [object i . merge(object j)]. *)
Definition merge (s : memory) (i j : nat) : outcome memory :=
  let* o := get_object s i in
  let* o' := get_object s j in
  let* s1 := set_object s i {| misses_ := c_plus (misses_ o) (misses_ o'); pointer := pointer o |} in
  let* p := get_object s1 j in
  match pointer p with
  | None => Ok s1
  | Some b =>
      match pointer o with
      | Some a =>
          let* d := deref s1 a in let* e := deref s1 b in write s1 a (d_plus d e)
      | None => set_object s1 i {| misses_ := c_plus (misses_ o) (misses_ o'); pointer := Some b |}
      end
  end.

(** One later update of an object. *)
Inductive object_update : Type :=
| UFree (n : C) | UPoint (f : D -> D) | UDist (d : D).
Definition update_object (s : memory) (iu : nat * object_update) : outcome memory :=
  match snd iu with
  | UFree n => updateFree s (fst iu) n
  | UPoint f => updateOccupied_point s (fst iu) f
  | UDist d => updateOccupied_dist s (fst iu) d
  end.

(** What an object shows: [numFree()]/[weightFree()] and the statistics behind its pointer. *)
Definition show (s : memory) (i : nat) : outcome (C * option D) :=
  let* o := get_object s i in
  match pointer o with
  | None => Ok (misses_ o, None)
  | Some a => let* d := deref s a in Ok (misses_ o, Some d)
  end.

End Heap.
Arguments object C : clear implicits.
Arguments memory D C : clear implicits.
Arguments object_update D C : clear implicits.
