(** Distributions as plain values: what copies and merges should look like. *)
From Verif Require Import Base HeapModel.

Section Spec.
Context {D C : Type}.
Variable d_empty : D.
Variable d_plus : D -> D -> D.
Variable c_plus : C -> C -> C.

Definition plain : Type := C * option D.
Definition plain_update (v : plain) (u : object_update D C) : plain :=
  match u with
  | UFree n => (c_plus (fst v) n, snd v)
  | UPoint f => (fst v, Some (f (match snd v with Some d => d | None => d_empty end)))
  | UDist d => (fst v, Some (match snd v with Some e => d_plus e d | None => d end))
  end.
Definition plain_merge (v w : plain) : plain :=
  (c_plus (fst v) (fst w),
   match snd w with
   | None => snd v
   | Some e => Some (match snd v with Some d => d_plus d e | None => e end)
   end).

(** The updates of object [i] in an interleaving. *)
Definition updates_of (i : nat) (l : list (nat * object_update D C)) : list (object_update D C) :=
  map snd (filter (fun iu => Nat.eqb (fst iu) i) l).

(** Every pointer is null or valid: the state of a program without memory errors. *)
Definition sound_memory (s : memory D C) : Prop :=
  Forall (fun o => match pointer o with Some a => (a < length (heap s))%nat | None => True end) (objects s).

(** The two objects do not point to the same statistics. *)
Definition unshared (s : memory D C) (i j : nat) : Prop :=
  match nth_error (objects s) i, nth_error (objects s) j with
  | Some a, Some b => forall p, pointer a = Some p -> pointer b <> Some p
  | _, _ => True
  end.

(** From [s] on, objects [i] and [j] do not influence one another: whatever updates of the two
    follow, in any interleaving, each shows its own updates applied to its present value. *)
Definition independent (s : memory D C) (i j : nat) : Prop :=
  exists v w, show s i = Ok v /\ show s j = Ok w /\
  forall l, Forall (fun iu => fst iu = i \/ fst iu = j) l ->
    exists s', ofold (update_object d_empty d_plus c_plus) l s = Ok s' /\
      show s' i = Ok (fold_left plain_update (updates_of i l) v) /\
      show s' j = Ok (fold_left plain_update (updates_of j l) w).
End Spec.
