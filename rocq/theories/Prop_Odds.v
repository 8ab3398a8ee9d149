(** C18: occupancy values. *)
From Coq Require Import Reals Lra.
From Verif Require Import Base OddsModel OddsSpec OddsFacts.
Open Scope Z_scope.

(** C18: after any updates with data in them (fewer than 2^64 counts), the occupancy is in [0,1);
    without a hit it is 0; its log-odds are the prior's plus the evidence of every update, whatever
    their order; without a model it throws. *)
Theorem C18_occupancy_is_probability (l : list occ_update) (iv : inverse_model) :
  real_updates l ->
  let d := fold_left occ_apply l occ_new in
  exists p, getOccupancy d (Some iv) = Ok p /\ (0 <= p < 1)%R /\
    (hit_points l = 0 -> p = 0%R) /\
    (0 < hit_points l ->
       log_odds p = (l_prior iv + IZR (misses l) * (l_free iv - l_prior iv)
                                + IZR (hit_points l) * (l_occupied iv - l_prior iv))%R) /\
    getOccupancy d None = Throw.
Proof.
  exact (fun Hr => ex_intro _ _ (conj eq_refl (conj (occ_range l iv Hr) (conj (occ_zero l iv Hr) (conj (occ_log_odds l iv Hr) eq_refl))))).
Qed.
Print Assumptions C18_occupancy_is_probability.

(** C18: with a sane model a hit never lowers it and a miss never raises it. *)
Theorem C18_hit_never_lowers (l : list occ_update) (n : Z) (iv : inverse_model) :
  sane iv -> real_updates (l ++ [Hit n]) ->
  exists p q, getOccupancy (fold_left occ_apply l occ_new) (Some iv) = Ok p /\
              getOccupancy (fold_left occ_apply (l ++ [Hit n]) occ_new) (Some iv) = Ok q /\ (p <= q)%R.
Proof. exact (fun Hs Hr => ex_intro _ _ (ex_intro _ _ (conj eq_refl (conj eq_refl (occ_hit_up l n iv Hs Hr))))). Qed.
Print Assumptions C18_hit_never_lowers.

Theorem C18_miss_never_raises (l : list occ_update) (n : Z) (iv : inverse_model) :
  sane iv -> real_updates (l ++ [Free n]) ->
  exists p q, getOccupancy (fold_left occ_apply l occ_new) (Some iv) = Ok p /\
              getOccupancy (fold_left occ_apply (l ++ [Free n]) occ_new) (Some iv) = Ok q /\ (q <= p)%R.
Proof. exact (fun Hs Hr => ex_intro _ _ (ex_intro _ _ (conj eq_refl (conj eq_refl (occ_miss_down l n iv Hs Hr))))). Qed.
Print Assumptions C18_miss_never_raises.

(** C18, weighted distributions: the same for any non-negative weights. *)
Theorem C18_weighted (l : list w_update) (w : R) (iv : inverse_model) :
  (0 <= w_value (fold_left w_apply l w_new) iv < 1)%R /\
  ((forall u, ~ In (WHit u) l) -> w_value (fold_left w_apply l w_new) iv = 0%R) /\
  (forall u, In (WHit u) l ->
     log_odds (w_value (fold_left w_apply l w_new) iv) =
     (l_prior iv + w_misses l * (l_free iv - l_prior iv) + w_hits l * (l_occupied iv - l_prior iv))%R) /\
  (sane iv -> (0 <= w)%R ->
     (w_value (fold_left w_apply l w_new) iv <= w_value (fold_left w_apply (l ++ [WHit w]) w_new) iv)%R /\
     (w_value (fold_left w_apply (l ++ [WFree w]) w_new) iv <= w_value (fold_left w_apply l w_new) iv)%R) /\
  w_getOccupancy (fold_left w_apply l w_new) None = Throw /\
  w_getOccupancy (fold_left w_apply l w_new) (Some iv) = Ok (w_value (fold_left w_apply l w_new) iv).
Proof.
  exact (conj (w_range l iv) (conj (w_zero l iv) (conj (w_log_odds l iv)
          (conj (fun Hs Hw => conj (w_hit_up l w iv Hs Hw) (w_miss_down l w iv Hs Hw)) (conj eq_refl eq_refl))))).
Qed.
Print Assumptions C18_weighted.

(** C18: merging two distributions gives the occupancy of all their updates together, with and
    without hits on either side. *)
Theorem C18_merge (l l' : list occ_update) (iv : option inverse_model) :
  real_updates (l ++ l') ->
  getOccupancy (occ_merge (fold_left occ_apply l occ_new) (fold_left occ_apply l' occ_new)) iv =
  getOccupancy (fold_left occ_apply (l ++ l') occ_new) iv.
Proof. exact (fun Hr => f_equal (fun d => getOccupancy d iv) (occ_merged l l' Hr)). Qed.
Print Assumptions C18_merge.
Theorem C18_weighted_merge (l l' : list w_update) (iv : option inverse_model) :
  w_getOccupancy (w_merge (fold_left w_apply l w_new) (fold_left w_apply l' w_new)) iv =
  w_getOccupancy (fold_left w_apply (l ++ l') w_new) iv.
Proof. exact (f_equal (fun d => w_getOccupancy d iv) (w_merged l l')). Qed.
Print Assumptions C18_weighted_merge.
Example C18_merge_example :
  real_updates ([Free 3] ++ [Free 1; Hit 7]) /\
  occ_merge (fold_left occ_apply [Free 3] occ_new) (fold_left occ_apply [Free 1; Hit 7] occ_new) =
    {| num_free := 4; hits_n := Some 7 |}.
Proof. split; [split; [repeat constructor; lia|reflexivity]|reflexivity]. Qed.

(** C18: the data-free corner. Occupying a cell with an empty distribution makes the unsigned
    [num_free_ + n - 1] wrap around to 2^64-1, and the value is that of 2^64-1 reversed priors:
    here a following hit lowers it. *)
Theorem C18_empty_distribution_refuted :
  exists (iv : inverse_model) (d : occupancy),
    sane iv /\ d = fold_left occ_apply [Hit 0] occ_new /\
    (occ_value (occ_apply d (Hit 1)) iv < occ_value d iv)%R.
Proof. exact empty_hit_witness. Qed.
Print Assumptions C18_empty_distribution_refuted.

Example C18_example :
  let l := [Free 3; Hit 2; Free 1; Hit 7] in
  real_updates l /\ fold_left occ_apply l occ_new = {| num_free := 4; hits_n := Some 9 |} /\
  sane {| l_prior := 0; l_free := -1; l_occupied := 2 |} /\
  occ_value (fold_left occ_apply l occ_new) {| l_prior := 0; l_free := -1; l_occupied := 2 |} = from_log_odds 14.
Proof.
  cbv zeta. split; [split; [repeat constructor; lia|reflexivity]|]. split; [reflexivity|].
  split; [unfold sane; cbn; lra|]. cbn. unfold occ_value; cbn [num_free hits_n l_free l_occupied l_prior].
  f_equal. lra.
Qed.
