(** What the occupancy properties mean, independent of the counters. *)
From Coq Require Import Reals.
From Verif Require Import Base OddsModel.
Open Scope Z_scope.

Fixpoint misses (l : list occ_update) : Z :=
  match l with [] => 0 | Free n :: l' => n + misses l' | Hit _ :: l' => misses l' end.
Fixpoint hit_points (l : list occ_update) : Z :=
  match l with [] => 0 | Hit n :: l' => n + hit_points l' | Free _ :: l' => hit_points l' end.
(** Updates with data in them, fewer than 2^64 in total. *)
Definition real_updates (l : list occ_update) : Prop :=
  Forall (fun u => match u with Free n => 0 <= n | Hit n => 1 <= n end) l /\ misses l + hit_points l < 2 ^ 64.

Fixpoint w_misses (l : list w_update) : R :=
  match l with [] => 0%R | WFree w :: l' => (w + w_misses l')%R | WHit _ :: l' => w_misses l' end.
Fixpoint w_hits (l : list w_update) : R :=
  match l with [] => 0%R | WHit w :: l' => (w + w_hits l')%R | WFree _ :: l' => w_hits l' end.
Definition w_real_updates (l : list w_update) : Prop :=
  Forall (fun u => match u with WFree w => (0 <= w)%R | WHit w => (0 < w)%R end) l.

(** A hit is evidence for, a miss evidence against the cell being occupied. *)
Definition sane (iv : inverse_model) : Prop := (l_free iv <= l_prior iv <= l_occupied iv)%R.

Definition log_odds (p : R) : R := ln (p / (1 - p)).
