(** Occupancy values: common/occupancy_distribution.hpp and common/weighted_occupancy_distribution.hpp
    without their pointers (for those see HeapModel.v). A distribution is only its number of
    samples (resp. its weight). Reals are exact. Definitions only. *)
From Coq Require Import Reals.
From Verif Require Import Base.
Open Scope Z_scope.

(** [std::size_t] arithmetic. *)
Definition size_t (z : Z) : Z := z mod 2 ^ 64.

(** [cslibs_gridmaps::utility::InverseModel]: only its three log-odds are used here. *)
Record inverse_model : Type := { l_prior : R; l_free : R; l_occupied : R }.

(** [cslibs_math::common::LogOdds::from] (not part of /repo): log-odds to probability. *)
Definition from_log_odds (l : R) : R := (1 - 1 / (1 + exp l))%R.

(** occupancy_distribution.hpp:150-152: [num_free_] and [distribution_->getN()]. *)
Record occupancy : Type := { num_free : Z; hits_n : option Z }.

(** occupancy_distribution.hpp:27-30. *)
Definition occ_new : occupancy := {| num_free := 0; hits_n := None |}.
(** occupancy_distribution.hpp:65-68 (60-63 is [n] = 1). *)
Definition occ_updateFree (n : Z) (d : occupancy) : occupancy :=
  {| num_free := size_t (num_free d + n); hits_n := hits_n d |}.
(** occupancy_distribution.hpp:78-84; 70-76 (one point) is [n] = 1. *)
Definition occ_updateOccupied (n : Z) (d : occupancy) : occupancy :=
  {| num_free := num_free d;
     hits_n := Some (match hits_n d with None => n | Some k => size_t (k + n) end) |}.
(** occupancy_distribution.hpp:124-133, on numbers. *)
Definition occ_merge (d other : occupancy) : occupancy :=
  {| num_free := size_t (num_free d + num_free other);
     hits_n := match hits_n other with
               | None => hits_n d
               | Some n => Some (match hits_n d with None => n | Some k => size_t (k + n) end)
               end |}.
(** occupancy_distribution.hpp:104-112; products of a [std::size_t] and a real. *)
Definition occ_value (d : occupancy) (iv : inverse_model) : R :=
  match hits_n d with
  | None => 0%R
  | Some n => from_log_odds (IZR (num_free d) * l_free iv + IZR n * l_occupied iv
                             - IZR (size_t (size_t (num_free d + n) - 1)) * l_prior iv)%R
  end.
(** occupancy_distribution.hpp:96-102. *)
Definition getOccupancy (d : occupancy) (iv : option inverse_model) : outcome R :=
  match iv with None => Throw | Some m => Ok (occ_value d m) end.

(** weighted_occupancy_distribution.hpp:138-140. *)
Record weighted : Type := { weight_free : R; weight_hit : option R }.
Definition w_new : weighted := {| weight_free := 0; weight_hit := None |}.
(** weighted_occupancy_distribution.hpp:57-60 *)
Definition w_updateFree (w : R) (d : weighted) : weighted :=
  {| weight_free := weight_free d + w; weight_hit := weight_hit d |}.
(** weighted_occupancy_distribution.hpp:62-87 *)
Definition w_updateOccupied (w : R) (d : weighted) : weighted :=
  {| weight_free := weight_free d;
     weight_hit := Some (match weight_hit d with None => w | Some k => (k + w)%R end) |}.
(** weighted_occupancy_distribution.hpp:127-136, on weights. *)
Definition w_merge (d other : weighted) : weighted :=
  {| weight_free := weight_free d + weight_free other;
     weight_hit := match weight_hit other with
                   | None => weight_hit d
                   | Some n => Some (match weight_hit d with None => n | Some k => (k + n)%R end)
                   end |}.
(** weighted_occupancy_distribution.hpp:107-115 *)
Definition w_value (d : weighted) (iv : inverse_model) : R :=
  match weight_hit d with
  | None => 0%R
  | Some n => from_log_odds (weight_free d * l_free iv + n * l_occupied iv
                             - (weight_free d + n - 1) * l_prior iv)%R
  end.
Definition w_getOccupancy (d : weighted) (iv : option inverse_model) : outcome R :=
  match iv with None => Throw | Some m => Ok (w_value d m) end.

(** A client's updates. *)
Inductive occ_update : Type := Free (n : Z) | Hit (n : Z).
Definition occ_apply (d : occupancy) (u : occ_update) : occupancy :=
  match u with Free n => occ_updateFree n d | Hit n => occ_updateOccupied n d end.
Inductive w_update : Type := WFree (w : R) | WHit (w : R).
Definition w_apply (d : weighted) (u : w_update) : weighted :=
  match u with WFree w => w_updateFree w d | WHit w => w_updateOccupied w d end.
