(** C90: occupancy values in [float] and [double]. *)
From Coq Require Import Reals QArith Qabs Qreals Lra Lia List Floats.SpecFloat.
From Flocq Require Import Core BinarySingleNaN.
From Verif Require Import Base IndexModel OctreeSpec MapModel BackendModel ExtentModel SampleModel SampleSpec ResidualModel RoundModel FloatModel FloatFacts FloatIndexFacts FloatScoreFacts SysModel SysSpec Prop_Float.
From Verif Require Import OddsModel OddsSpec OddsFloatModel OddsFloatSpec OddsFloatFacts OddsFloatTop OddsFloatSamples.
Import ListNotations.
Open Scope R_scope.

Notation val := (SF2R radix2).

(** C90: whatever the history of a cell (counters may wrap around), its occupancy is a number from 0
    to 1; without inverse model there is an exception. *)
Theorem C90_occupancy_in_unit (prec emax wprec wemax : Z) (fexp : spec_float -> spec_float) (eps : R)
  (l : list occ_update) (iv : float_model) :
  formats prec emax wprec wemax -> exp_accurate prec emax fexp eps -> moderate_model prec emax iv -> size_updates l ->
  (exists v, float_getOccupancy prec emax wprec wemax fexp (fold_left occ_apply l occ_new) (Some iv) = Ok v /\ unit_float prec emax v) /\
  float_getOccupancy prec emax wprec wemax fexp (fold_left occ_apply l occ_new) None = Throw.
Proof.
  intros Hf He Mo Hl. split; [|reflexivity]. eexists. split; [reflexivity|].
  exact (value_unit prec emax wprec wemax Hf fexp eps _ iv He Mo (history_counters l Hl)).
Qed.
Print Assumptions C90_occupancy_in_unit.

(** C90: the same for weighted cells with finite weights. *)
Theorem C90_weighted_in_unit (prec emax wprec wemax : Z) (fexp : spec_float -> spec_float) (eps : R)
  (d : float_weighted) (iv : float_model) :
  formats prec emax wprec wemax -> exp_accurate prec emax fexp eps -> moderate_model prec emax iv -> cell_weights prec emax d ->
  (exists v, float_w_getOccupancy prec emax wprec wemax fexp d (Some iv) = Ok v /\ unit_float prec emax v) /\
  float_w_getOccupancy prec emax wprec wemax fexp d None = Throw.
Proof.
  intros Hf He Mo [W1 W2]. split; [|reflexivity]. eexists. split; [reflexivity|].
  exact (wvalue_unit prec emax wprec wemax Hf fexp eps d iv He Mo W1 W2).
Qed.
Print Assumptions C90_weighted_in_unit.

(** C90: the occupancy is the probability of the accumulated evidence, up to the error of the
    exponential function and 2S + 6 roundings, S the size of the evidence without cancellation. *)
Theorem C90_accuracy (prec emax wprec wemax : Z) (fexp : spec_float -> spec_float) (eps : R)
  (l : list occ_update) (iv : float_model) :
  formats prec emax wprec wemax -> exp_accurate prec emax fexp eps -> 0 <= eps <= 1 -> moderate_model prec emax iv ->
  real_updates l -> (1 <= hit_points l)%Z ->
  Rabs (val (float_occ_value prec emax wprec wemax fexp (fold_left occ_apply l occ_new) iv) -
        logistic (OddsFloatSpec.evidence iv (IZR (misses l)) (IZR (hit_points l)))) <=
  eps + bpow radix2 (- prec) * (2 * evidence_size iv (IZR (misses l)) (IZR (hit_points l)) + 6).
Proof. intros Hf. exact (value_accurate prec emax wprec wemax Hf fexp eps l iv). Qed.
Print Assumptions C90_accuracy.

Theorem C90_weighted_accuracy (prec emax wprec wemax : Z) (fexp : spec_float -> spec_float) (eps : R)
  (f w : spec_float) (iv : float_model) :
  formats prec emax wprec wemax -> exp_accurate prec emax fexp eps -> 0 <= eps <= 1 -> moderate_model prec emax iv ->
  weight prec emax f -> weight prec emax w ->
  Rabs (val (float_w_value prec emax wprec wemax fexp {| fw_free := f; fw_hit := Some w |} iv) -
        logistic (OddsFloatSpec.evidence iv (val f) (val w))) <=
  eps + bpow radix2 (- prec) * (2 * evidence_size iv (val f) (val w) + 6).
Proof. intros Hf. exact (wvalue_accurate prec emax wprec wemax Hf fexp eps f w iv). Qed.
Print Assumptions C90_weighted_accuracy.

(** C90, what holds of the order: with a prior of 1/2 a hit never lowers the occupancy ... *)
Theorem C90_hit_never_lowers_partial (prec emax wprec wemax : Z) (fexp : spec_float -> spec_float) (eps : R)
  (l : list occ_update) (n : Z) (iv : float_model) :
  formats prec emax wprec wemax -> exp_accurate prec emax fexp eps -> exp_monotone prec emax fexp -> moderate_model prec emax iv ->
  val (fl_prior iv) = 0 -> val (fl_free iv) <= 0 <= val (fl_occupied iv) -> real_updates (l ++ [Hit n]) ->
  val (float_occ_value prec emax wprec wemax fexp (fold_left occ_apply l occ_new) iv) <=
  val (float_occ_value prec emax wprec wemax fexp (fold_left occ_apply (l ++ [Hit n]) occ_new) iv).
Proof. intros Hf. exact (hit_up prec emax wprec wemax Hf fexp eps l n iv). Qed.
Print Assumptions C90_hit_never_lowers_partial.

(** ... and a miss never raises it; ... *)
Theorem C90_miss_never_raises_partial (prec emax wprec wemax : Z) (fexp : spec_float -> spec_float) (eps : R)
  (l : list occ_update) (n : Z) (iv : float_model) :
  formats prec emax wprec wemax -> exp_accurate prec emax fexp eps -> exp_monotone prec emax fexp -> moderate_model prec emax iv ->
  val (fl_prior iv) = 0 -> val (fl_free iv) <= 0 <= val (fl_occupied iv) -> real_updates (l ++ [Free n]) ->
  val (float_occ_value prec emax wprec wemax fexp (fold_left occ_apply (l ++ [Free n]) occ_new) iv) <=
  val (float_occ_value prec emax wprec wemax fexp (fold_left occ_apply l occ_new) iv).
Proof. intros Hf. exact (miss_down prec emax wprec wemax Hf fexp eps l n iv). Qed.
Print Assumptions C90_miss_never_raises_partial.

(** ... the same for weights. *)
Theorem C90_weighted_order_partial (prec emax wprec wemax : Z) (fexp : spec_float -> spec_float) (eps : R)
  (d : float_weighted) (w : spec_float) (iv : float_model) :
  formats prec emax wprec wemax -> exp_accurate prec emax fexp eps -> exp_monotone prec emax fexp -> moderate_model prec emax iv ->
  val (fl_prior iv) = 0 -> val (fl_free iv) <= 0 <= val (fl_occupied iv) -> cell_weights prec emax d -> weight prec emax w ->
  (cell_weights prec emax (fw_updateOccupied prec emax w d) ->
   val (float_w_value prec emax wprec wemax fexp d iv) <=
   val (float_w_value prec emax wprec wemax fexp (fw_updateOccupied prec emax w d) iv)) /\
  (cell_weights prec emax (fw_updateFree prec emax w d) ->
   val (float_w_value prec emax wprec wemax fexp (fw_updateFree prec emax w d) iv) <=
   val (float_w_value prec emax wprec wemax fexp d iv)).
Proof.
  intros Hf He Hm Mo P0 S Wd Ww. split; intros W'.
  - apply (w_hit_up prec emax wprec wemax Hf fexp eps); assumption.
  - apply (w_miss_down prec emax wprec wemax Hf fexp eps); assumption.
Qed.
Print Assumptions C90_weighted_order_partial.

(** C90 fails for other priors: with InverseModel(0.3, 0.2, 0.4) in [float], after 2298710 misses and
    2804223 hits one more hit lowers the occupancy by more than 1/16, for any exponential function that
    is not wildly wrong. *)
Theorem C90_hit_lowers_refuted (wprec wemax : Z) (fexp : spec_float -> spec_float) (eps : R) :
  formats 24 128 wprec wemax -> exp_accurate 24 128 fexp eps -> 0 <= eps <= / 256 ->
  exists (l : list occ_update) (iv : float_model),
    moderate_model 24 128 iv /\ val (fl_free iv) <= val (fl_prior iv) <= val (fl_occupied iv) /\ real_updates (l ++ [Hit 1]) /\
    val (float_occ_value 24 128 wprec wemax fexp (fold_left occ_apply (l ++ [Hit 1]) occ_new) iv) <
    val (float_occ_value 24 128 wprec wemax fexp (fold_left occ_apply l occ_new) iv) - / 16.
Proof.
  intros Hf He E0. exists crowded, skewed_float. split; [exact skewed_float_moderate|]. split; [exact skewed_order|].
  split; [exact crowded_real|]. exact (crowded_drop wprec wemax fexp eps Hf He E0).
Qed.
Print Assumptions C90_hit_lowers_refuted.

(** C90 fails to keep cells uncertain: 2000 hits in [double] make the occupancy exactly 1. *)
Theorem C90_never_certain_refuted (wprec wemax : Z) (fexp : spec_float -> spec_float) (eps : R) :
  formats 53 1024 wprec wemax -> exp_accurate 53 1024 fexp eps -> eps <= / 2 ->
  exists (l : list occ_update) (iv : float_model), moderate_model 53 1024 iv /\ real_updates l /\
    val (float_occ_value 53 1024 wprec wemax fexp (fold_left occ_apply l occ_new) iv) = 1.
Proof.
  intros Hf He E0. exists [Hit 2000], loader_double. split; [exact loader_double_moderate|].
  split; [split; [repeat constructor; discriminate|reflexivity]|]. exact (many_hits wprec wemax fexp eps Hf He E0).
Qed.
Print Assumptions C90_never_certain_refuted.

(** C90 needs finite log-odds: with a probability of 0 for misses, one hit and no miss give NaN. *)
Theorem C90_certain_model_refuted (wprec wemax : Z) (fexp : spec_float -> spec_float) : fexp S754_nan = S754_nan ->
  exists (l : list occ_update) (iv : float_model), real_updates l /\ ~ In (Free 1) l /\ fl_free iv = S754_infinity true /\
    float_getOccupancy 24 128 wprec wemax fexp (fold_left occ_apply l occ_new) (Some iv) = Ok S754_nan.
Proof.
  intros F. exists [Hit 1], certain_float. split; [split; [repeat constructor; discriminate|reflexivity]|].
  split; [intros [E|[]]; discriminate E|]. split; [reflexivity|]. unfold float_getOccupancy. f_equal. exact (certain_nan wprec wemax fexp F).
Qed.
Print Assumptions C90_certain_model_refuted.

(** C90, what is stored of misses and hits of weight 1: their number up to 2^prec, ... *)
Theorem C90_unit_weights_partial (prec emax : Z) (n : nat) : standard_format prec emax ->
  let one := float_of_int prec emax 1 in
  let d := fold_left (fw_apply prec emax) (repeat (FWFree one) n) fw_new in
  let d' := fold_left (fw_apply prec emax) (repeat (FWHit one) (S n)) fw_new in
  val (fw_free d) = IZR (Z.min (Z.of_nat n) (2 ^ prec)) /\ fw_hit d = None /\
  val (fw_free d') = 0 /\ exists w, fw_hit d' = Some w /\ val w = IZR (Z.min (Z.of_nat (S n)) (2 ^ prec)).
Proof.
  intros Hs. cbv zeta. destruct (unit_misses prec emax Hs n) as [_ [A B]]. destruct (unit_hits prec emax Hs n) as [C [w [D [_ E]]]].
  split; [exact A|]. split; [exact B|]. split; [exact C|]. exists w. split; assumption.
Qed.
Print Assumptions C90_unit_weights_partial.

(** ... so that in [float] misses after the first 16777216 are lost, however many. *)
Theorem C90_every_miss_counts_refuted : exists n : nat, Z.of_nat n = 16777216%Z /\ forall k : nat,
  let weight_after i := val (fw_free (fold_left (fw_apply 24 128) (repeat (FWFree (float_of_int 24 128 1)) i) fw_new)) in
  weight_after (n + k)%nat = 16777216.
Proof.
  destruct (Z_of_nat_complete (2 ^ 24) ltac:(discriminate)) as [n En]. exists n. split; [rewrite <- En; reflexivity|]. intros k. cbv zeta.
  destruct (unit_misses 24 128 float_standard (n + k)) as [_ [-> _]]. f_equal. rewrite Nat2Z.inj_add, <- En. apply eq_trans with (2 ^ 24)%Z; lia.
Qed.
Print Assumptions C90_every_miss_counts_refuted.

(** C90 and C67 together: scores of an occupancy map with cells of either kind of counter need no
    assumption about the occupancy values. *)
Theorem C90_map_scores (prec emax wprec wemax : Z) (fexp : spec_float -> spec_float) (eps : R) {P D : Type}
  (c : config P) (Hc : config_ok c) (cell : P -> occupancy)
  (inner : P -> option D) (sample : D -> list spec_float -> spec_float) (inv : spec_float)
  (l : list (map_action (P:=P))) (m : cmap c) (p : list spec_float) (bi : idx) (iv : float_model) :
  formats prec emax wprec wemax -> exp_accurate prec emax fexp eps -> moderate_model prec emax iv -> (forall v, counters (cell v)) ->
  (dimc c <= 8)%nat -> fits c l -> cact_all c l (new_map c) = Ok m ->
  float_bundle_index prec emax inv p = Ok bi -> addressable c bi ->
  (forall d, unit_float prec emax (sample d p)) ->
  exists s,
    float_occ_sampleNonNormalized prec emax c inv inner sample
      (fun iv v => float_occ_value prec emax wprec wemax fexp (cell v) iv) m p (Some iv) = Ok s /\
    unit_float prec emax s.
Proof.
  intros Hf He Mo Hv HD Hl Em Eb Ha Hs.
  destruct (C67_occupancy_plain_scores prec emax c Hc inner sample
    (fun iv v => float_occ_value prec emax wprec wemax fexp (cell v) iv) inv l m p bi iv (proj1 Hf) HD Hl Em Eb Ha Hs) as [[s [t [E [_ [U _]]]]] _].
  - intros v. exact (value_unit prec emax wprec wemax Hf fexp eps (cell v) iv He Mo (Hv v)).
  - exists s. split; assumption.
Qed.
Print Assumptions C90_map_scores.

(** The hypotheses hold of the correctly rounded exponential function, in all combinations of formats
    of a [float] or [double] map, and of the inverse models of the map loaders. *)
Example C90_exp_example (prec emax : Z) : standard_format prec emax ->
  exp_accurate prec emax (rounded_exp prec emax) (bpow radix2 (- prec)) /\ exp_monotone prec emax (rounded_exp prec emax).
Proof. exact (fun H => conj (rounded_exp_accurate prec emax H) (rounded_exp_monotone prec emax H)). Qed.
Example C90_model_example :
  moderate_model 24 128 loader_float /\ moderate_model 53 1024 loader_double /\
  val (fl_prior loader_float) = 0 /\ val (fl_free loader_float) <= 0 <= val (fl_occupied loader_float).
Proof. exact (conj loader_float_moderate (conj loader_double_moderate loader_order)). Qed.
Example C90_formats_example : formats 24 128 24 128 /\ formats 24 128 53 1024 /\ formats 53 1024 53 1024.
Proof. exact (conj float_formats (conj float_double_formats double_formats)). Qed.
(** Three hits and two misses in [float]: the occupancy is within 2^-20 of the probability of log-odds
    3 * 0.6190 - 2 * 0.2007. *)
Example C90_accuracy_example :
  Rabs (val (float_occ_value 24 128 24 128 (rounded_exp 24 128) (fold_left occ_apply [Free 2; Hit 3] occ_new) loader_float) -
        logistic (3 * (10385755 / 16777216) - 2 * (13466782 / 67108864))) <= bpow radix2 (-20).
Proof. exact accuracy_sample. Qed.
(** The map of C67_example with cells that have one miss and as many hits as points. *)
Definition point_cell (v : list Z) : occupancy :=
  {| num_free := 1; hits_n := match v with [] => None | _ => Some (size_t (Z.of_nat (length v))) end |}.
Example C90_map_scores_example :
  (forall v, counters (point_cell v)) /\ fits Samples.log_dynamic shared_history /\
  float_bundle_index 24 128 (float_resolution_inv 24 128 (resolution_one 24 128)) shared_point = Ok [1; 1]%Z /\
  (forall v, unit_float 24 128 (sample_three_quarters v shared_point)).
Proof.
  split; [|split; [exact (proj1 C67_example)|split; [vm_compute; reflexivity|]]].
  - intros [|x v]; split; cbn [point_cell num_free hits_n]; [lia|exact I|lia|apply size_t_range].
  - destruct C67_example as [_ [_ [A [B _]]]]. intros [|x v]; assumption.
Qed.
