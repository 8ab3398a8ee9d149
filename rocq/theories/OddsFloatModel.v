(** Occupancy values in IEEE-754 arithmetic of either precision (Coq's [spec_float]):
    common/occupancy_distribution.hpp and common/weighted_occupancy_distribution.hpp without their
    pointers, as OddsModel does with exact reals. Definitions only. *)
From Coq Require Import ZArith List Floats.SpecFloat.
From Verif Require Import Base ResidualModel RoundModel FloatModel OddsModel.
Open Scope Z_scope.

(** [cslibs_gridmaps::utility::InverseModel<T>]: only its three log-odds are used here. *)
Record float_model : Type := { fl_prior : spec_float; fl_free : spec_float; fl_occupied : spec_float }.

Section Format.
(** The format of [T]. *)
Variables prec emax : Z.
(** The format [LogOdds<T>::from] computes in: that of [T], or that of [double] if its constants are
    [double]s. *)
Variables wprec wemax : Z.
(** [std::exp] of [T]. *)
Variable fexp : spec_float -> spec_float.

(** [cslibs_math::common::LogOdds<T>::from] (not part of /repo): [1 - 1 / (1 + std::exp(l))]. *)
Definition float_from_log_odds (l : spec_float) : spec_float :=
  let one := float_of_int wprec wemax 1 in
  float_convert prec emax
    (fsub wprec wemax one (SFdiv wprec wemax one (fadd wprec wemax one (float_convert wprec wemax (fexp l))))).

(** occupancy_distribution.hpp:108-110, the argument; a [std::size_t] is converted to [T]. *)
Definition float_log_odds (free n : Z) (iv : float_model) : spec_float :=
  fsub prec emax
    (fadd prec emax (fmul prec emax (float_of_int prec emax free) (fl_free iv))
                    (fmul prec emax (float_of_int prec emax n) (fl_occupied iv)))
    (fmul prec emax (float_of_int prec emax (size_t (size_t (free + n) - 1))) (fl_prior iv)).
(** occupancy_distribution.hpp:104-112. *)
Definition float_occ_value (d : occupancy) (iv : float_model) : spec_float :=
  match hits_n d with
  | None => float_zero
  | Some n => float_from_log_odds (float_log_odds (num_free d) n iv)
  end.
(** occupancy_distribution.hpp:96-102. *)
Definition float_getOccupancy (d : occupancy) (iv : option float_model) : outcome spec_float :=
  match iv with None => Throw | Some m => Ok (float_occ_value d m) end.

(** weighted_occupancy_distribution.hpp:138-140; a distribution is only its weight. *)
Record float_weighted : Type := { fw_free : spec_float; fw_hit : option spec_float }.
(** weighted_occupancy_distribution.hpp:111-113, the argument. *)
Definition float_weighted_log_odds (free w : spec_float) (iv : float_model) : spec_float :=
  fsub prec emax
    (fadd prec emax (fmul prec emax free (fl_free iv)) (fmul prec emax w (fl_occupied iv)))
    (fmul prec emax (fsub prec emax (fadd prec emax free w) (float_of_int prec emax 1)) (fl_prior iv)).
(** weighted_occupancy_distribution.hpp:107-115. *)
Definition float_w_value (d : float_weighted) (iv : float_model) : spec_float :=
  match fw_hit d with
  | None => float_zero
  | Some w => float_from_log_odds (float_weighted_log_odds (fw_free d) w iv)
  end.
(** weighted_occupancy_distribution.hpp:99-105. *)
Definition float_w_getOccupancy (d : float_weighted) (iv : option float_model) : outcome spec_float :=
  match iv with None => Throw | Some m => Ok (float_w_value d m) end.

(** weighted_occupancy_distribution.hpp:31-34. *)
Definition fw_new : float_weighted := {| fw_free := float_zero; fw_hit := None |}.
(** weighted_occupancy_distribution.hpp:57-60. *)
Definition fw_updateFree (w : spec_float) (d : float_weighted) : float_weighted :=
  {| fw_free := fadd prec emax (fw_free d) w; fw_hit := fw_hit d |}.
(** weighted_occupancy_distribution.hpp:62-87: the weight of a new distribution is that of the first
    data; adding data adds the weights (distributions are not part of /repo). *)
Definition fw_updateOccupied (w : spec_float) (d : float_weighted) : float_weighted :=
  {| fw_free := fw_free d;
     fw_hit := Some (match fw_hit d with None => w | Some k => fadd prec emax k w end) |}.
(** A client's updates. *)
Inductive fw_update : Type := FWFree (w : spec_float) | FWHit (w : spec_float).
Definition fw_apply (d : float_weighted) (x : fw_update) : float_weighted :=
  match x with FWFree w => fw_updateFree w d | FWHit w => fw_updateOccupied w d end.
End Format.
