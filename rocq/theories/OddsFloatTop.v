(** Occupancy values in floating-point arithmetic, on histories. *)
From Coq Require Import Reals Lra Lia List Floats.SpecFloat.
From Flocq Require Import Core Relative BinarySingleNaN.
From Verif Require Import Base ResidualModel RoundModel FloatModel RoundFacts FloatFacts FloatScoreFacts.
From Verif Require Import OddsModel OddsSpec OddsFacts OddsFloatModel OddsFloatSpec LogisticFacts OddsFloatFacts.
Import ListNotations.
Open Scope R_scope.

Notation evidence := OddsFloatSpec.evidence.

(** ** Counters of a cell *)
Lemma size_t_range (z : Z) : (0 <= size_t z < 2 ^ 64)%Z.
Proof. apply Z.mod_pos_bound. reflexivity. Qed.
Lemma history_counters (l : list occ_update) : size_updates l -> counters (fold_left occ_apply l occ_new).
Proof.
  induction l as [|x l IH] using rev_ind; [split; [cbn; lia|exact I]|].
  intros H. apply Forall_app in H. destruct H as [H Hx]. inversion Hx as [|? ? Hx' _]; subst.
  rewrite fold_left_app. cbn [fold_left]. destruct (IH H) as [A B].
  destruct x as [n|n]; cbn [occ_apply]; unfold occ_updateFree, occ_updateOccupied; split; cbn [num_free hits_n].
  - apply size_t_range.
  - exact B.
  - exact A.
  - destruct (hits_n _); [apply size_t_range|exact Hx'].
Qed.

Section Values.
Variables prec emax wprec wemax : Z.
Hypothesis Hf : formats prec emax wprec wemax.
Variable fexp : spec_float -> spec_float.
Notation u := (bpow radix2 (- prec)).
Notation good := (good_float prec emax).
Notation value := (float_occ_value prec emax wprec wemax fexp).
Notation wvalue := (float_w_value prec emax wprec wemax fexp).

Lemma unit_of (x : spec_float) : good x -> 0 <= val x <= 1 -> unit_float prec emax x.
Proof. intros G B. apply (unit_iff prec emax). split; assumption. Qed.
Lemma zero_unit : unit_float prec emax float_zero.
Proof. apply unit_of; [split; reflexivity|cbn; lra]. Qed.

Lemma value_unit (eps : R) (d : occupancy) (iv : float_model) : exp_accurate prec emax fexp eps -> moderate_model prec emax iv -> counters d ->
  unit_float prec emax (value d iv).
Proof.
  intros He Mo [Hm Hn]. unfold float_occ_value. destruct (hits_n d) as [n|]; [|apply zero_unit].
  destruct (counts_odds prec emax (proj1 Hf) (num_free d) n iv Hm Hn Mo) as [G _].
  destruct (from_unit prec emax wprec wemax Hf fexp eps _ He G) as [G' B]. apply unit_of; assumption.
Qed.
Lemma wvalue_unit (eps : R) (d : float_weighted) (iv : float_model) : exp_accurate prec emax fexp eps -> moderate_model prec emax iv ->
  weight prec emax (fw_free d) -> (forall w, fw_hit d = Some w -> weight prec emax w) -> unit_float prec emax (wvalue d iv).
Proof.
  intros He Mo Hm Hn. unfold float_w_value. destruct (fw_hit d) as [w|]; [|apply zero_unit].
  destruct (weights_odds prec emax (proj1 Hf) (fw_free d) w iv Hm (Hn w eq_refl) Mo) as [G _].
  destruct (from_unit prec emax wprec wemax Hf fexp eps _ He G) as [G' B]. apply unit_of; assumption.
Qed.

Lemma through_logistic (eps x s : R) (l : spec_float) : exp_accurate prec emax fexp eps -> 0 <= eps <= 1 -> good l -> 0 <= s ->
  Rabs (val l - x) <= 7 * u * s + u ->
  Rabs (val (float_from_log_odds prec emax wprec wemax fexp l) - logistic x) <= eps + u * (2 * s + 6).
Proof.
  intros He E0 G Hs H. pose proof (from_accurate prec emax wprec wemax Hf fexp eps l He E0 G) as A.
  pose proof (logistic_lipschitz (val l) x) as L. fold (logistic (val l)) in L. fold (logistic x) in L.
  pose proof (bpow_gt_0 radix2 (- prec)) as U. assert (0 <= u * s) by (apply Rmult_le_pos; lra).
  apply Rabs_le_inv in A, L. apply Rabs_le. lra.
Qed.
Lemma size_nonneg (iv : float_model) (m n : R) : 0 <= m -> 0 <= n -> 0 <= evidence_size iv m n.
Proof.
  intros Hm Hn. unfold evidence_size.
  pose proof (Rabs_pos (val (fl_free iv))). pose proof (Rabs_pos (val (fl_occupied iv))). pose proof (Rabs_pos (val (fl_prior iv))).
  repeat apply Rplus_le_le_0_compat; apply Rmult_le_pos; lra.
Qed.
Lemma value_accurate (eps : R) (l : list occ_update) (iv : float_model) :
  exp_accurate prec emax fexp eps -> 0 <= eps <= 1 -> moderate_model prec emax iv -> real_updates l -> (1 <= hit_points l)%Z ->
  Rabs (val (value (fold_left occ_apply l occ_new) iv) - logistic (evidence iv (IZR (misses l)) (IZR (hit_points l)))) <=
  eps + u * (2 * evidence_size iv (IZR (misses l)) (IZR (hit_points l)) + 6).
Proof.
  intros He E0 Mo Hr Hh. rewrite (run_counts l Hr). destruct Hr as [HF Hb]. destruct (counts_nonneg l HF) as [H1 H2].
  rewrite (proj2 (hit_pos l HF) Hh). unfold float_occ_value. cbn [hits_n num_free]. apply through_logistic; [exact He|exact E0| | |].
  - apply (counts_odds prec emax (proj1 Hf)); [lia|lia|exact Mo].
  - apply size_nonneg; apply (IZR_le 0); lia.
  - apply (counts_accurate prec emax (proj1 Hf)); [lia|lia|lia|exact Mo].
Qed.
Lemma wvalue_accurate (eps : R) (f w : spec_float) (iv : float_model) :
  exp_accurate prec emax fexp eps -> 0 <= eps <= 1 -> moderate_model prec emax iv -> weight prec emax f -> weight prec emax w ->
  Rabs (val (wvalue {| fw_free := f; fw_hit := Some w |} iv) - logistic (evidence iv (val f) (val w))) <=
  eps + u * (2 * evidence_size iv (val f) (val w) + 6).
Proof.
  intros He E0 Mo Wf Ww. unfold float_w_value. cbn [fw_free fw_hit]. apply through_logistic; [exact He|exact E0| | |].
  - apply (weights_odds prec emax (proj1 Hf)); [exact Wf|exact Ww|exact Mo].
  - apply size_nonneg; [apply Wf|apply Ww].
  - apply (weights_accurate prec emax (proj1 Hf)); [exact Wf|exact Ww|exact Mo].
Qed.

(** Order. *)
Lemma exp_sign (eps : R) : exp_accurate prec emax fexp eps -> forall x, good x -> fexp x = infinity \/ (good (fexp x) /\ 0 <= val (fexp x)).
Proof. intros H x G. destruct (H x G) as [[E _]|[E [P _]]]; [left; exact E|right; split; assumption]. Qed.
Lemma value_order (eps : R) (m n m' n' : Z) (iv : float_model) :
  exp_accurate prec emax fexp eps -> exp_monotone prec emax fexp -> moderate_model prec emax iv ->
  val (fl_prior iv) = 0 -> val (fl_free iv) <= 0 <= val (fl_occupied iv) ->
  (0 <= m' <= m)%Z -> (m < 2 ^ 64)%Z -> (0 <= n <= n')%Z -> (n' < 2 ^ 64)%Z ->
  val (value {| num_free := m; hits_n := Some n |} iv) <= val (value {| num_free := m'; hits_n := Some n' |} iv).
Proof.
  intros He Hm Mo P0 S B1 B2 B3 B4. unfold float_occ_value. cbn [num_free hits_n].
  apply (from_mono prec emax wprec wemax Hf fexp); [exact Hm|exact (exp_sign eps He)| | |].
  - apply (counts_odds prec emax (proj1 Hf)); [lia|lia|exact Mo].
  - apply (counts_odds prec emax (proj1 Hf)); [lia|lia|exact Mo].
  - apply (counts_mono prec emax (proj1 Hf)); assumption.
Qed.
Lemma wvalue_order (eps : R) (f w f' w' : spec_float) (iv : float_model) :
  exp_accurate prec emax fexp eps -> exp_monotone prec emax fexp -> moderate_model prec emax iv ->
  val (fl_prior iv) = 0 -> val (fl_free iv) <= 0 <= val (fl_occupied iv) ->
  weight prec emax f -> weight prec emax w -> weight prec emax f' -> weight prec emax w' -> val f' <= val f -> val w <= val w' ->
  val (wvalue {| fw_free := f; fw_hit := Some w |} iv) <= val (wvalue {| fw_free := f'; fw_hit := Some w' |} iv).
Proof.
  intros He Hm Mo P0 S B1 B2 B3 B4 L1 L2. unfold float_w_value. cbn [fw_free fw_hit].
  apply (from_mono prec emax wprec wemax Hf fexp); [exact Hm|exact (exp_sign eps He)| | |].
  - apply (weights_odds prec emax (proj1 Hf)); assumption.
  - apply (weights_odds prec emax (proj1 Hf)); assumption.
  - apply (weights_mono prec emax (proj1 Hf)); assumption.
Qed.
Lemma run_some (l : list occ_update) : real_updates l -> (1 <= hit_points l)%Z ->
  fold_left occ_apply l occ_new = {| num_free := misses l; hits_n := Some (hit_points l) |}.
Proof. intros Hr Hh. rewrite (run_counts l Hr). rewrite (proj2 (hit_pos l (proj1 Hr)) Hh). reflexivity. Qed.
Lemma hit_up (eps : R) (l : list occ_update) (n : Z) (iv : float_model) :
  exp_accurate prec emax fexp eps -> exp_monotone prec emax fexp -> moderate_model prec emax iv ->
  val (fl_prior iv) = 0 -> val (fl_free iv) <= 0 <= val (fl_occupied iv) -> real_updates (l ++ [Hit n]) ->
  val (value (fold_left occ_apply l occ_new) iv) <= val (value (fold_left occ_apply (l ++ [Hit n]) occ_new) iv).
Proof.
  intros He Hm Mo P0 S Hr. pose proof (real_prefix _ _ Hr) as Hl. pose proof Hr as [HF Hb].
  apply Forall_app in HF. destruct HF as [HF Hn]. inversion Hn as [|? ? Hn' _]; subst.
  destruct (counts_nonneg l HF) as [A B]. rewrite misses_app, hits_app in Hb. cbn [misses hit_points] in Hb.
  rewrite (run_some (l ++ [Hit n]) Hr) by (rewrite hits_app; cbn [hit_points]; lia). rewrite misses_app, hits_app. cbn [misses hit_points].
  destruct (Z.le_gt_cases 1 (hit_points l)) as [C|C].
  - rewrite (run_some l Hl C). apply (value_order eps); try assumption; lia.
  - rewrite (run_counts l Hl). destruct (existsb _ l) eqn:E; [apply (hit_pos l HF) in E; lia|].
    unfold float_occ_value at 1. cbn [hits_n]. cbn [val float_zero SF2R].
    assert (K : unit_float prec emax (value {| num_free := misses l + 0; hits_n := Some (hit_points l + (n + 0))%Z |} iv)).
    { apply (value_unit eps); [exact He|exact Mo|]. split; cbn [num_free hits_n]; lia. }
    apply (unit_iff prec emax) in K. apply K.
Qed.
Lemma miss_down (eps : R) (l : list occ_update) (n : Z) (iv : float_model) :
  exp_accurate prec emax fexp eps -> exp_monotone prec emax fexp -> moderate_model prec emax iv ->
  val (fl_prior iv) = 0 -> val (fl_free iv) <= 0 <= val (fl_occupied iv) -> real_updates (l ++ [Free n]) ->
  val (value (fold_left occ_apply (l ++ [Free n]) occ_new) iv) <= val (value (fold_left occ_apply l occ_new) iv).
Proof.
  intros He Hm Mo P0 S Hr. pose proof (real_prefix _ _ Hr) as Hl. pose proof Hr as [HF Hb].
  apply Forall_app in HF. destruct HF as [HF Hn]. inversion Hn as [|? ? Hn' _]; subst.
  destruct (counts_nonneg l HF) as [A B]. rewrite misses_app, hits_app in Hb. cbn [misses hit_points] in Hb.
  destruct (Z.le_gt_cases 1 (hit_points l)) as [C|C].
  - rewrite (run_some (l ++ [Free n]) Hr) by (rewrite hits_app; cbn [hit_points]; lia). rewrite misses_app, hits_app. cbn [misses hit_points].
    rewrite (run_some l Hl C). apply (value_order eps); try assumption; lia.
  - rewrite (run_counts l Hl), (run_counts _ Hr), existsb_app. destruct (existsb _ l) eqn:E; [apply (hit_pos l HF) in E; lia|].
    cbn [existsb orb]. unfold float_occ_value. cbn [hits_n]. lra.
Qed.

(** The cell after an update by a weight. *)
Lemma w_hit_up (eps : R) (d : float_weighted) (w : spec_float) (iv : float_model) :
  exp_accurate prec emax fexp eps -> exp_monotone prec emax fexp -> moderate_model prec emax iv ->
  val (fl_prior iv) = 0 -> val (fl_free iv) <= 0 <= val (fl_occupied iv) ->
  cell_weights prec emax d -> cell_weights prec emax (fw_updateOccupied prec emax w d) -> weight prec emax w ->
  val (wvalue d iv) <= val (wvalue (fw_updateOccupied prec emax w d) iv).
Proof.
  intros He Hm Mo P0 S [Wf Wh] W' Ww. destruct d as [f [k|]]; cbn [fw_free fw_hit] in *.
  - apply (wvalue_order eps); try assumption; try apply Rle_refl.
    + apply Wh. reflexivity.
    + destruct W' as [_ W']. apply W'. reflexivity.
    + apply (weight_add prec emax (proj1 Hf)); [apply Wh; reflexivity|exact Ww].
  - change (val (wvalue {| fw_free := f; fw_hit := None |} iv)) with 0.
    assert (K : unit_float prec emax (wvalue (fw_updateOccupied prec emax w {| fw_free := f; fw_hit := None |}) iv)).
    { apply (wvalue_unit eps); [exact He|exact Mo|exact Wf|apply W']. }
    apply (unit_iff prec emax) in K. apply K.
Qed.
Lemma w_miss_down (eps : R) (d : float_weighted) (w : spec_float) (iv : float_model) :
  exp_accurate prec emax fexp eps -> exp_monotone prec emax fexp -> moderate_model prec emax iv ->
  val (fl_prior iv) = 0 -> val (fl_free iv) <= 0 <= val (fl_occupied iv) ->
  cell_weights prec emax d -> cell_weights prec emax (fw_updateFree prec emax w d) -> weight prec emax w ->
  val (wvalue (fw_updateFree prec emax w d) iv) <= val (wvalue d iv).
Proof.
  intros He Hm Mo P0 S [Wf Wh] [W' _] Ww. destruct d as [f [k|]]; cbn [fw_free fw_hit fw_updateFree] in *.
  - apply (wvalue_order eps); try assumption; try apply Rle_refl.
    + apply Wh. reflexivity.
    + apply Wh. reflexivity.
    + apply (weight_add prec emax (proj1 Hf)); [exact Wf|exact Ww].
  - unfold float_w_value. cbn [fw_hit]. apply Rle_refl.
Qed.
End Values.

(** ** A correctly rounded exponential function *)
Section Exact.
Variables prec emax : Z.
Hypothesis Hs : standard_format prec emax.
#[local] Instance Xp : Prec_gt_0 prec.
Proof. destruct Hs as [[-> ->]|[-> ->]]; reflexivity. Qed.
#[local] Instance Xe : Prec_lt_emax prec emax.
Proof. destruct Hs as [[-> ->]|[-> ->]]; reflexivity. Qed.
Notation emin := (3 - emax - prec)%Z.
Notation rnd := (round radix2 (FLT_exp emin prec) ZnearestE).
Notation good := (good_float prec emax).

Definition rounded_exp (x : spec_float) : spec_float :=
  SpecFloat.binary_normalize prec emax
    (ZnearestE (scaled_mantissa radix2 (FLT_exp emin prec) (exp (val x)))) (cexp radix2 (FLT_exp emin prec) (exp (val x))) false.
Lemma rounded_exp_spec (x : spec_float) :
  (bpow radix2 emax <= rnd (exp (val x)) /\ rounded_exp x = infinity) \/
  (rnd (exp (val x)) < bpow radix2 emax /\ good (rounded_exp x) /\ val (rounded_exp x) = rnd (exp (val x))).
Proof.
  set (E := exp (val x)). assert (P : 0 <= rnd E) by (rewrite <- (rnd_0 prec emax); apply rnd_mono; [exact Xp|apply Rlt_le, exp_pos]).
  set (m := ZnearestE (scaled_mantissa radix2 (FLT_exp emin prec) E)). set (e := cexp radix2 (FLT_exp emin prec) E).
  assert (F : F2R (Float radix2 m e) = rnd E) by reflexivity.
  assert (RR : rnd (rnd E) = rnd E) by (apply (rnd_id prec emax); apply generic_format_round; auto with typeclass_instances).
  destruct (Rlt_or_le (rnd E) (bpow radix2 emax)) as [L|L]; [right|left].
  - pose proof (normalize_round prec emax Xp Xe m e false) as K. rewrite F, RR, Rabs_pos_eq in K by exact P.
    destruct (K L) as [V G]. split; [exact L|]. split; [exact G|exact V].
  - split; [exact L|]. unfold rounded_exp. fold E m e.
    pose proof (binary_normalize_correct prec emax _ _ mode_NE m e false) as K. cbn zeta in K. unfold round_mode in K. rewrite F in K.
    change (if Rlt_bool (Rabs (rnd (rnd E))) (bpow radix2 emax) then
      B2R (binary_normalize prec emax Xp Xe mode_NE m e false) = rnd (rnd E) /\ is_finite (binary_normalize prec emax Xp Xe mode_NE m e false) = true /\
      Bsign (binary_normalize prec emax Xp Xe mode_NE m e false) = match Rcompare (rnd E) 0 with Eq => false | Lt => true | Gt => false end
      else B2SF (binary_normalize prec emax Xp Xe mode_NE m e false) = binary_overflow prec emax mode_NE (Rlt_bool (rnd E) 0)) in K.
    rewrite RR, Rabs_pos_eq, Rlt_bool_false in K by assumption. rewrite (normalize_equiv prec emax Xp Xe), K. rewrite Rlt_bool_false by exact P. reflexivity.
Qed.
Lemma rounded_exp_accurate : exp_accurate prec emax rounded_exp (bpow radix2 (- prec)).
Proof.
  intros x G. pose proof (exp_pos (val x)) as P. destruct (rounded_exp_spec x) as [[B E]|[B [Ge Ve]]].
  - left. split; [exact E|]. destruct (Rle_or_lt (bpow radix2 (emax - 1)) (exp (val x))) as [C|C]; [exact C|exfalso].
    assert (D : Rabs (rnd (exp (val x))) <= bpow radix2 (emax - 1)).
    { apply (rnd_le_bpow prec emax Xp); [pose proof (c_range prec emax Hs); lia|]. rewrite Rabs_pos_eq; lra. }
    apply Rabs_le_inv in D. assert (bpow radix2 (emax - 1) < bpow radix2 emax) by (apply bpow_lt; lia). lra.
  - right. split; [exact Ge|]. rewrite Ve. split.
    + rewrite <- (rnd_0 prec emax). apply rnd_mono; [exact Xp|lra].
    + pose proof (error_any prec emax Xp (exp (val x))) as K. rewrite (Rabs_pos_eq (exp _)) in K by lra. exact K.
Qed.
Lemma exp_le (x y : R) : x <= y -> exp x <= exp y.
Proof. intros [H|H]; [left; apply exp_increasing; exact H|rewrite H; apply Rle_refl]. Qed.
Lemma rounded_exp_monotone : exp_monotone prec emax rounded_exp.
Proof.
  intros x y Gx Gy L. assert (M : rnd (exp (val x)) <= rnd (exp (val y))) by (apply rnd_mono; [exact Xp|apply exp_le; exact L]).
  destruct (rounded_exp_spec y) as [[_ E]|[B [Ge Ve]]]; [left; exact E|right].
  destruct (rounded_exp_spec x) as [[B' _]|[B' [Ge' Ve']]]; [lra|]. split; [exact Ge'|]. split; [exact Ge|]. rewrite Ve, Ve'. split; [|exact M].
  rewrite <- (rnd_0 prec emax). apply rnd_mono; [exact Xp|apply Rlt_le, exp_pos].
Qed.
End Exact.
