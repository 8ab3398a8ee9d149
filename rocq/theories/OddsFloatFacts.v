(** Occupancy values in floating-point arithmetic. *)
From Coq Require Import Reals Lra Lia List Floats.SpecFloat.
From Flocq Require Import Core Relative BinarySingleNaN.
From Verif Require Import Base ResidualModel RoundModel FloatModel RoundFacts FloatFacts OddsModel OddsSpec OddsFloatModel OddsFloatSpec LogisticFacts.
Import ListNotations.
Open Scope R_scope.

Notation val := (SF2R radix2).
Notation infinity := (S754_infinity false).

(** ** Operations of one format, with overflow *)
Section Ops.
Variables prec emax : Z.
Context (Hp : Prec_gt_0 prec) (He : Prec_lt_emax prec emax).
Hypothesis Hr : (2 <= prec /\ 24 <= prec /\ prec + 64 <= emax)%Z.
Notation emin := (3 - emax - prec)%Z.
Notation rnd := (round radix2 (FLT_exp emin prec) ZnearestE).
Notation u := (bpow radix2 (- prec)).
Notation eta := (bpow radix2 (2 - emax - prec)).
Notation good := (good_float prec emax).
Notation one := (float_of_int prec emax 1).

Lemma error_any (x : R) : Rabs (rnd x - x) <= u * Rabs x + eta.
Proof.
  destruct (error_N_FLT radix2 emin prec Hp (fun x => negb (Z.even x)) x) as [d [t [Hd [Ht [_ E]]]]].
  rewrite E. replace (x * (1 + d) + t - x) with (x * d + t) by ring. eapply Rle_trans; [apply Rabs_triang|].
  rewrite Rabs_mult. apply Rplus_le_compat.
  - rewrite Rmult_comm. apply Rmult_le_compat_r; [apply Rabs_pos|]. eapply Rle_trans; [exact Hd|].
    change (/ 2) with (bpow radix2 (-1)). rewrite <- bpow_plus. apply bpow_le. lia.
  - eapply Rle_trans; [exact Ht|]. change (/ 2) with (bpow radix2 (-1)). rewrite <- bpow_plus. apply bpow_le. lia.
Qed.
Lemma rnd_le_bpow (x : R) (k : Z) : (emin <= k)%Z -> Rabs x <= bpow radix2 k -> Rabs (rnd x) <= bpow radix2 k.
Proof.
  intros Hk H. apply abs_round_le_generic; auto with typeclass_instances. apply generic_format_FLT_bpow; [exact Hp|exact Hk].
Qed.
Lemma rnd_fits (x : R) (k : Z) : (0 <= k < emax)%Z -> Rabs x <= bpow radix2 k -> Rabs (rnd x) < bpow radix2 emax.
Proof. intros Hk H. eapply Rle_lt_trans; [apply (rnd_le_bpow x k); [lia|exact H]|]. apply bpow_lt. lia. Qed.

Lemma one_good : val one = 1 /\ good one.
Proof.
  pose proof (normalize_round prec emax Hp He 1 0 false) as K.
  assert (F : F2R (Float radix2 1 0) = 1) by (unfold F2R; cbn; ring). rewrite F in K.
  assert (R1 : rnd 1 = 1) by (apply (rnd_id prec emax); change 1 with (bpow radix2 0); apply format_bpow; [exact Hp|lia]).
  rewrite R1 in K. apply K. rewrite Rabs_R1. change 1 with (bpow radix2 0). apply bpow_lt. lia.
Qed.
Lemma rnd_unit (x : R) : 0 <= x <= 1 -> 0 <= rnd x <= 1.
Proof.
  intros [A B]. split.
  - rewrite <- (rnd_0 prec emax). apply rnd_mono; assumption.
  - apply Rle_trans with (rnd 1); [apply rnd_mono; assumption|]. apply Req_le. apply (rnd_id prec emax).
    change 1 with (bpow radix2 0). apply format_bpow; [exact Hp|lia].
Qed.
Lemma rnd_near (x : R) : 0 <= x <= 1 -> Rabs (rnd x - x) <= u.
Proof. intros [A B]. apply (rnd_small prec emax Hp); [lia|apply Rabs_le; lra]. Qed.

Lemma fdiv_round (x y : spec_float) : good x -> good y -> val y <> 0 -> Rabs (rnd (val x / val y)) < bpow radix2 emax ->
  val (SFdiv prec emax x y) = rnd (val x / val y) /\ good (SFdiv prec emax x y).
Proof.
  intros [Vx Fx] [Vy Fy] Hy H.
  pose proof (Bdiv_correct prec emax _ _ mode_NE (SF2B x Vx) (SF2B y Vy)) as K.
  rewrite !B2R_SF2B in K. specialize (K Hy). unfold round_mode in K.
  rewrite Rlt_bool_true in K by exact H. destruct K as [K1 [K2 _]].
  assert (E : B2SF (Bdiv mode_NE (SF2B x Vx) (SF2B y Vy)) = SFdiv prec emax x y).
  { destruct x as [sx|sx| |sx mx ex]; destruct y as [sy|sy| |sy my ey]; try reflexivity; try discriminate.
    cbn [SF2B Bdiv]. rewrite B2SF_SF2B. cbn [SFdiv].
    destruct (SFdiv_core_binary prec emax (Z.pos mx) ex (Z.pos my) ey) as [[mz ez] lz]. symmetry. apply round_aux. }
  rewrite <- E. rewrite SF2R_B2SF. split; [exact K1|]. split; [apply valid_binary_B2SF|].
  transitivity (is_finite_SF (B2SF (Bdiv mode_NE (SF2B x Vx) (SF2B y Vy)))).
  - destruct (B2SF _); reflexivity.
  - rewrite is_finite_SF_B2SF, K2. rewrite <- is_finite_SF_B2SF, B2SF_SF2B. destruct x; try reflexivity; discriminate.
Qed.

(** One plus a number that is not negative. *)
Lemma add_one (y : spec_float) : good y -> 0 <= val y ->
  (fadd prec emax one y = infinity /\ bpow radix2 emax <= rnd (1 + val y)) \/
  (val (fadd prec emax one y) = rnd (1 + val y) /\ good (fadd prec emax one y) /\ 1 <= rnd (1 + val y) < bpow radix2 emax).
Proof.
  intros G P. destruct one_good as [V1 G1].
  assert (L : 1 <= rnd (1 + val y)).
  { rewrite <- (rnd_id prec emax 1) at 1; [apply rnd_mono; [exact Hp|lra]|].
    change 1 with (bpow radix2 0). apply format_bpow; [exact Hp|lia]. }
  destruct (Rlt_or_le (rnd (1 + val y)) (bpow radix2 emax)) as [H|H].
  - right. assert (A : Rabs (rnd (val one + val y)) < bpow radix2 emax) by (rewrite V1, Rabs_pos_eq by lra; exact H).
    destruct (fadd_round prec emax Hp He one y G1 G A) as [E G']. rewrite V1 in E. split; [exact E|]. split; [exact G'|]. split; assumption.
  - left. split; [|exact H]. pose proof G1 as [Vo Fo]. pose proof G as [Vy Fy].
    pose proof (Bplus_correct prec emax Hp He mode_NE (SF2B one Vo) (SF2B y Vy)) as K.
    rewrite !B2R_SF2B in K. unfold round_mode in K. rewrite V1 in K.
    rewrite Rlt_bool_false in K by (change (bpow radix2 emax <= Rabs (rnd (1 + val y))); rewrite Rabs_pos_eq by lra; exact H).
    destruct K as [K _]; [rewrite <- is_finite_SF_B2SF, B2SF_SF2B, <- is_finite_good; assumption..|].
    rewrite Bsign_SF2B in K.
    assert (E : B2SF (Bplus mode_NE (SF2B one Vo) (SF2B y Vy)) = fadd prec emax one y).
    { clear K. destruct one as [sx|sx| |sx mx ex]; destruct y as [sy|sy| |sy my ey]; try reflexivity; try discriminate.
      - unfold fadd. cbn [SF2B Bplus SFadd]. destruct (Bool.eqb sx sy); reflexivity.
      - unfold fadd. cbn [SF2B Bplus SFadd]. unfold Fplus_naive. symmetry. apply normalize_equiv. }
    rewrite <- E, K. cbn [binary_overflow overflow_to_inf].
    assert (S : sign_SF one = false).
    { destruct one as [sx|sx| |sx mx ex]; try discriminate.
      - cbn in V1. lra.
      - destruct sx; [|reflexivity]. cbn [SF2R] in V1. unfold cond_Zopp in V1.
        assert (F2R (Float radix2 (- Z.pos mx) ex) < 0) by (apply F2R_lt_0; reflexivity). lra. }
    rewrite S. reflexivity.
Qed.
End Ops.

(** ** From log-odds to probabilities *)
Section From.
Variables prec emax wprec wemax : Z.
Hypothesis Hf : formats prec emax wprec wemax.
#[local] Instance Tp : Prec_gt_0 prec.
Proof. destruct Hf as [[[-> ->]|[-> ->]] _]; reflexivity. Qed.
#[local] Instance Te : Prec_lt_emax prec emax.
Proof. destruct Hf as [[[-> ->]|[-> ->]] _]; reflexivity. Qed.
#[local] Instance Wp : Prec_gt_0 wprec.
Proof. destruct Hf as [[[-> ->]|[-> ->]] [[-> ->]|[-> ->]]]; reflexivity. Qed.
#[local] Instance We : Prec_lt_emax wprec wemax.
Proof. destruct Hf as [[[-> ->]|[-> ->]] [[-> ->]|[-> ->]]]; reflexivity. Qed.
Lemma format_facts : (24 <= prec <= wprec)%Z /\ (128 <= emax <= wemax)%Z /\ (prec + 64 <= emax)%Z /\ (wprec + 64 <= wemax)%Z.
Proof. destruct Hf as [[[-> ->]|[-> ->]] [[-> ->]|[-> ->]]]; lia. Qed.
Notation emin := (3 - emax - prec)%Z.
Notation rnd := (round radix2 (FLT_exp emin prec) ZnearestE).
Notation wrnd := (round radix2 (FLT_exp (3 - wemax - wprec) wprec) ZnearestE).
Notation u := (bpow radix2 (- prec)).
Notation wu := (bpow radix2 (- wprec)).
Notation eta := (bpow radix2 (2 - emax - prec)).
Notation weta := (bpow radix2 (2 - wemax - wprec)).
Notation good := (good_float prec emax).
Notation wgood := (good_float wprec wemax).
Notation wone := (float_of_int wprec wemax 1).
Notation widened := (float_convert wprec wemax).

Lemma w_range : (2 <= wprec /\ 24 <= wprec /\ wprec + 64 <= wemax)%Z.
Proof. pose proof format_facts. lia. Qed.
Lemma t_range : (2 <= prec /\ 24 <= prec /\ prec + 64 <= emax)%Z.
Proof. pose proof format_facts. lia. Qed.
Lemma wu_le : 0 < wu <= u.
Proof. split; [apply bpow_gt_0|]. apply bpow_le. pose proof format_facts. lia. Qed.
Lemma eta_le : 0 < eta <= u * / 16 /\ 0 < weta <= u * / 16.
Proof.
  change (/ 16) with (bpow radix2 (-4)). rewrite <- bpow_plus. pose proof format_facts.
  repeat split; try apply bpow_gt_0; apply bpow_le; lia.
Qed.

Lemma widened_exact (x : spec_float) : good x -> val (widened x) = val x /\ wgood (widened x).
Proof.
  intros G. assert (F : generic_format radix2 (FLT_exp (3 - wemax - wprec) wprec) (val x)).
  { apply generic_inclusion_mag with (2 := good_format prec emax x G). intros _. unfold FLT_exp. pose proof format_facts. lia. }
  destruct (convert_round wprec wemax _ _ x (proj2 G)) as [A B].
  - rewrite rnd_id by exact F. eapply Rlt_le_trans; [apply (good_bound prec emax); exact G|]. apply bpow_le. pose proof format_facts; lia.
  - split; [|exact B]. rewrite A. apply rnd_id. exact F.
Qed.

(** The steps after [std::exp], on real numbers. *)
Definition inv_step (d : R) : R := rnd (wrnd (1 - wrnd (/ d))).
Lemma inv_step_unit (d : R) : 1 <= d -> 0 <= wrnd (/ d) <= 1 /\ 0 <= wrnd (1 - wrnd (/ d)) <= 1 /\ 0 <= inv_step d <= 1.
Proof.
  intros H. assert (A : 0 <= / d <= 1) by (split; [apply Rlt_le, Rinv_0_lt_compat; lra|rewrite <- Rinv_1; apply Rinv_le; lra]).
  pose proof (rnd_unit wprec wemax Wp w_range _ A) as B. split; [exact B|].
  assert (C : 0 <= wrnd (1 - wrnd (/ d)) <= 1) by (apply (rnd_unit wprec wemax Wp w_range); lra). split; [exact C|].
  apply (rnd_unit prec emax Tp t_range). exact C.
Qed.
Lemma inv_step_near (d : R) : 1 <= d -> Rabs (inv_step d - (1 - / d)) <= 3 * u.
Proof.
  intros H. assert (A : 0 <= / d <= 1) by (split; [apply Rlt_le, Rinv_0_lt_compat; lra|rewrite <- Rinv_1; apply Rinv_le; lra]).
  destruct (inv_step_unit d H) as [B [C _]]. pose proof wu_le as [_ W].
  pose proof (rnd_near wprec wemax Wp w_range _ A) as E1.
  assert (E2 : Rabs (wrnd (1 - wrnd (/ d)) - (1 - wrnd (/ d))) <= wu) by (apply (rnd_near wprec wemax Wp w_range); lra).
  pose proof (rnd_near prec emax Tp t_range _ C) as E3. fold (inv_step d) in E3.
  apply Rabs_le_inv in E1, E2, E3. apply Rabs_le. lra.
Qed.
Lemma inv_step_mono (d d' : R) : 1 <= d <= d' -> inv_step d <= inv_step d'.
Proof.
  intros H. unfold inv_step. apply rnd_mono; [exact Tp|]. apply rnd_mono; [exact Wp|].
  assert (wrnd (/ d') <= wrnd (/ d)) by (apply rnd_mono; [exact Wp|]; apply Rinv_le; lra). lra.
Qed.

Definition tail_of (e : spec_float) : spec_float :=
  float_convert prec emax (fsub wprec wemax wone (SFdiv wprec wemax wone (fadd wprec wemax wone (widened e)))).

Lemma one_minus (q : spec_float) : wgood q -> 0 <= val q <= 1 ->
  val (float_convert prec emax (fsub wprec wemax wone q)) = rnd (wrnd (1 - val q)) /\
  good (float_convert prec emax (fsub wprec wemax wone q)).
Proof.
  intros G H. destruct (one_good wprec wemax Wp We w_range) as [V1 G1].
  assert (B : 0 <= wrnd (1 - val q) <= 1) by (apply (rnd_unit wprec wemax Wp w_range); lra).
  destruct (fsub_round wprec wemax _ _ wone q G1 G) as [E G'].
  { rewrite V1, Rabs_pos_eq by lra. eapply Rle_lt_trans; [apply B|]. change 1 with (bpow radix2 0). apply bpow_lt. pose proof w_range; lia. }
  rewrite V1 in E.
  assert (C : 0 <= rnd (wrnd (1 - val q)) <= 1) by (apply (rnd_unit prec emax Tp t_range); exact B).
  destruct (convert_round prec emax _ _ _ (proj2 G')) as [E2 G2].
  - rewrite E, Rabs_pos_eq by lra. eapply Rle_lt_trans; [apply C|]. change 1 with (bpow radix2 0). apply bpow_lt. pose proof t_range; lia.
  - rewrite E in E2. split; assumption.
Qed.

(** An infinite exponential gives 1. *)
Lemma tail_infinite (d : spec_float) : d = infinity ->
  val (float_convert prec emax (fsub wprec wemax wone (SFdiv wprec wemax wone d))) = 1 /\
  good (float_convert prec emax (fsub wprec wemax wone (SFdiv wprec wemax wone d))).
Proof.
  intros ->. destruct (one_good wprec wemax Wp We w_range) as [V1 [Vo Fo]].
  assert (Z : val (SFdiv wprec wemax wone infinity) = 0 /\ wgood (SFdiv wprec wemax wone infinity)).
  { destruct wone as [s|s| |s m e]; try discriminate; split; try reflexivity; split; reflexivity. }
  destruct Z as [Z G]. destruct (one_minus _ G ltac:(lra)) as [E G']. split; [|exact G'].
  rewrite E, Z, Rminus_0_r.
  assert (W1 : wrnd 1 = 1) by (apply (rnd_id wprec wemax); change 1 with (bpow radix2 0); apply format_bpow; [exact Wp|pose proof w_range; lia]).
  rewrite W1. apply (rnd_id prec emax). change 1 with (bpow radix2 0). apply format_bpow; [exact Tp|pose proof t_range; lia].
Qed.
Lemma tail_of_infinity : val (tail_of infinity) = 1 /\ good (tail_of infinity).
Proof.
  unfold tail_of. apply tail_infinite. cbn [float_convert]. destruct (one_good wprec wemax Wp We w_range) as [V1 [Vo Fo]].
  destruct wone as [s|s| |s m e]; try discriminate; reflexivity.
Qed.
Lemma tail_of_finite (e : spec_float) : good e -> 0 <= val e ->
  good (tail_of e) /\
  ((val (tail_of e) = 1 /\ bpow radix2 wemax <= wrnd (1 + val e)) \/
   (val (tail_of e) = inv_step (wrnd (1 + val e)) /\ 1 <= wrnd (1 + val e) < bpow radix2 wemax)).
Proof.
  intros G P. destruct (widened_exact e G) as [Ve Gw]. unfold tail_of.
  destruct (add_one wprec wemax Wp We w_range (widened e) Gw ltac:(lra)) as [[E B]|[E [G' B]]]; rewrite Ve in *.
  - destruct (tail_infinite _ E) as [V G']. split; [exact G'|left; split; assumption].
  - destruct (inv_step_unit _ (proj1 B)) as [U1 [U2 U3]]. destruct (one_good wprec wemax Wp We w_range) as [V1 G1].
    destruct (fdiv_round wprec wemax Wp We wone _ G1 G') as [Eq Gq].
    + rewrite E. lra.
    + rewrite V1, E. replace (1 / wrnd (1 + val e)) with (/ wrnd (1 + val e)) by (field; lra). rewrite Rabs_pos_eq by lra.
      eapply Rle_lt_trans; [apply U1|]. change 1 with (bpow radix2 0). apply bpow_lt. pose proof w_range; lia.
    + rewrite V1, E in Eq. replace (1 / wrnd (1 + val e)) with (/ wrnd (1 + val e)) in Eq by (field; lra).
      destruct (one_minus _ Gq ltac:(rewrite Eq; exact U1)) as [Er Gr]. split; [exact Gr|right]. split; [|exact B].
      rewrite Er, Eq. reflexivity.
Qed.
Lemma tail_unit (e : spec_float) : e = infinity \/ (good e /\ 0 <= val e) -> good (tail_of e) /\ 0 <= val (tail_of e) <= 1.
Proof.
  intros [->|[G P]].
  - destruct tail_of_infinity as [-> G]. split; [exact G|lra].
  - destruct (tail_of_finite e G P) as [G' [[-> _]|[-> [B _]]]]; (split; [exact G'|]); [lra|]. apply inv_step_unit. exact B.
Qed.
Lemma tail_mono (e e' : spec_float) : e' = infinity \/ (good e /\ good e' /\ 0 <= val e <= val e') ->
  (e = infinity \/ (good e /\ 0 <= val e)) -> val (tail_of e) <= val (tail_of e').
Proof.
  intros [->|[G [G' H]]] He.
  - destruct tail_of_infinity as [-> _]. apply tail_unit. exact He.
  - destruct (tail_of_finite e G ltac:(lra)) as [_ V]. destruct (tail_of_finite e' G' ltac:(lra)) as [_ V'].
    assert (M : wrnd (1 + val e) <= wrnd (1 + val e')) by (apply rnd_mono; [exact Wp|lra]).
    destruct V' as [[-> _]|[-> B']]; [apply tail_unit; exact He|].
    destruct V as [[_ B]|[-> B]]; [lra|]. apply inv_step_mono. lra.
Qed.

(** *** With an exponential function *)
Variable fexp : spec_float -> spec_float.
Lemma from_unit (eps : R) (x : spec_float) : exp_accurate prec emax fexp eps -> good x ->
  good (float_from_log_odds prec emax wprec wemax fexp x) /\ 0 <= val (float_from_log_odds prec emax wprec wemax fexp x) <= 1.
Proof.
  intros H G. apply tail_unit. destruct (H x G) as [[E _]|[E [P _]]]; [left; exact E|right; split; assumption].
Qed.
Lemma from_mono (x y : spec_float) : exp_monotone prec emax fexp -> (forall x, good x -> fexp x = infinity \/ (good (fexp x) /\ 0 <= val (fexp x))) ->
  good x -> good y -> val x <= val y ->
  val (float_from_log_odds prec emax wprec wemax fexp x) <= val (float_from_log_odds prec emax wprec wemax fexp y).
Proof. intros H N Gx Gy L. apply tail_mono; [apply (H x y); assumption|apply N; exact Gx]. Qed.

Lemma from_accurate (eps : R) (x : spec_float) : exp_accurate prec emax fexp eps -> 0 <= eps <= 1 -> good x ->
  Rabs (val (float_from_log_odds prec emax wprec wemax fexp x) - logistic (val x)) <= eps + 5 * u.
Proof.
  intros H E0 G. unfold logistic. rewrite logistic_alt. change (float_from_log_odds prec emax wprec wemax fexp x) with (tail_of (fexp x)).
  pose proof (exp_pos (val x)) as Ep. pose proof wu_le as [Wu0 Wu]. pose proof eta_le as [[T0 T] [W0 W]].
  assert (U1 : u <= 1) by (change 1 with (bpow radix2 0); apply bpow_le; pose proof format_facts; lia).
  assert (Big : forall E, bpow radix2 (emax - 3) <= E -> 0 < / (1 + E) <= u).
  { intros E B. pose proof (bpow_gt_0 radix2 (emax - 3)). split; [apply Rinv_0_lt_compat; lra|].
    apply Rle_trans with (/ bpow radix2 (emax - 3)); [apply Rinv_le; lra|]. rewrite <- bpow_opp. apply bpow_le. pose proof format_facts. lia. }
  destruct (H x G) as [[E B]|[Ge [P A]]].
  - rewrite E. destruct tail_of_infinity as [-> _].
    assert (S : 0 < / (1 + exp (val x)) <= u) by (apply Big; eapply Rle_trans; [|exact B]; apply bpow_le; lia).
    apply Rabs_le. lra.
  - destruct (tail_of_finite (fexp x) Ge P) as [_ [[-> B]|[-> [B _]]]]; set (e := val (fexp x)) in *; set (E := exp (val x)) in *.
    + assert (S : 0 < / (1 + E) <= u).
      { apply Big. apply Rabs_le_inv in A. destruct (Rle_or_lt (bpow radix2 (wemax - 1)) (1 + e)) as [C|C].
        - assert (bpow radix2 (emax - 1) <= bpow radix2 (wemax - 1)) by (apply bpow_le; pose proof format_facts; lia).
          assert (D : bpow radix2 (emax - 1) = 4 * bpow radix2 (emax - 3)).
          { replace (emax - 1)%Z with (2 + (emax - 3))%Z by ring. rewrite bpow_plus. reflexivity. }
          assert (F : 1 <= bpow radix2 (emax - 3)) by (change 1 with (bpow radix2 0); apply bpow_le; pose proof format_facts; lia).
          assert (eps * E <= E) by nra. lra.
        - exfalso. assert (D : Rabs (wrnd (1 + e)) <= bpow radix2 (wemax - 1)).
          { apply (rnd_le_bpow wprec wemax Wp); [pose proof w_range; lia|]. apply Rabs_le. pose proof (bpow_gt_0 radix2 (wemax - 1)). lra. }
          apply Rabs_le_inv in D. assert (bpow radix2 (wemax - 1) < bpow radix2 wemax) by (apply bpow_lt; lia). lra. }
      apply Rabs_le. lra.
    + set (D := wrnd (1 + e)) in *. pose proof (inv_step_near D B) as N.
      assert (D1 : Rabs (/ D - / (1 + e)) <= 17 / 16 * u).
      { replace (/ D - / (1 + e)) with ((1 + e - D) / (D * (1 + e))) by (field; lra).
        unfold Rdiv. rewrite Rabs_mult, (Rabs_pos_eq (/ _)) by (apply Rlt_le, Rinv_0_lt_compat; nra).
        apply Rmult_le_reg_r with (D * (1 + e)); [nra|]. rewrite Rmult_assoc, Rinv_l, Rmult_1_r by nra.
        rewrite Rabs_minus_sym. pose proof (error_any wprec wemax Wp (1 + e)) as X. fold D in X. rewrite (Rabs_pos_eq (1 + e)) in X by lra.
        assert (u * (1 + e) <= u * (D * (1 + e))) by (apply Rmult_le_compat_l; nra).
        assert (wu * (1 + e) <= u * (1 + e)) by (apply Rmult_le_compat_r; lra).
        assert (u * / 16 <= u * / 16 * (1 + e)) by nra. lra. }
      assert (D2 : Rabs (/ (1 + e) - / (1 + E)) <= eps + / 16 * u).
      { replace (/ (1 + e) - / (1 + E)) with ((E - e) / ((1 + e) * (1 + E))) by (field; lra).
        unfold Rdiv. rewrite Rabs_mult, (Rabs_pos_eq (/ _)) by (apply Rlt_le, Rinv_0_lt_compat; nra).
        apply Rmult_le_reg_r with ((1 + e) * (1 + E)); [nra|]. rewrite Rmult_assoc, Rinv_l, Rmult_1_r by nra.
        rewrite Rabs_minus_sym. eapply Rle_trans; [exact A|].
        assert (K : eps * E + / 16 * u <= (eps + / 16 * u) * (1 + E)) by nra.
        assert (0 <= (eps + / 16 * u) * (1 + E)) by nra.
        assert ((eps + / 16 * u) * (1 + E) <= (eps + / 16 * u) * ((1 + e) * (1 + E))) by nra. lra. }
      apply Rabs_le_inv in N, D1, D2. apply Rabs_le. lra.
Qed.
End From.

(** ** Log-odds of counts and weights *)
Section Counts.
Variables prec emax : Z.
Hypothesis Hs : standard_format prec emax.
#[local] Instance Cp : Prec_gt_0 prec.
Proof. destruct Hs as [[-> ->]|[-> ->]]; reflexivity. Qed.
#[local] Instance Ce : Prec_lt_emax prec emax.
Proof. destruct Hs as [[-> ->]|[-> ->]]; reflexivity. Qed.
Lemma c_range : (2 <= prec /\ 24 <= prec /\ prec + 64 <= emax)%Z /\ (128 <= emax)%Z.
Proof. destruct Hs as [[-> ->]|[-> ->]]; lia. Qed.
Notation emin := (3 - emax - prec)%Z.
Notation rnd := (round radix2 (FLT_exp emin prec) ZnearestE).
Notation u := (bpow radix2 (- prec)).
Notation eta := (bpow radix2 (2 - emax - prec)).
Notation good := (good_float prec emax).
Notation moderate := (moderate_odds prec emax).

(** The sum of three products, in floating point and exactly. *)
Definition sum3 (a b c : R) : R := rnd (rnd (rnd a + rnd b) - rnd c).
Lemma sum3_mono (a b c a' b' c' : R) : a <= a' -> b <= b' -> c' <= c -> sum3 a b c <= sum3 a' b' c'.
Proof.
  intros A B C. unfold sum3. apply rnd_mono; [exact Cp|].
  assert (rnd c' <= rnd c) by (apply rnd_mono; [exact Cp|exact C]).
  assert (rnd (rnd a + rnd b) <= rnd (rnd a' + rnd b')); [|lra]. apply rnd_mono; [exact Cp|].
  assert (rnd a <= rnd a') by (apply rnd_mono; [exact Cp|exact A]).
  assert (rnd b <= rnd b') by (apply rnd_mono; [exact Cp|exact B]). lra.
Qed.
Lemma odds_float (M N C lf lo lp : spec_float) : good M -> good N -> good C ->
  Rabs (val M) <= bpow radix2 66 -> Rabs (val N) <= bpow radix2 66 -> Rabs (val C) <= bpow radix2 66 ->
  moderate lf -> moderate lo -> moderate lp ->
  let r := fsub prec emax (fadd prec emax (fmul prec emax M lf) (fmul prec emax N lo)) (fmul prec emax C lp) in
  good r /\ val r = sum3 (val M * val lf) (val N * val lo) (val C * val lp).
Proof.
  intros GM GN GC BM BN BC [Gf Bf] [Go Bo] [Gp Bp]. pose proof c_range as CR.
  assert (Pr : forall x l, Rabs x <= bpow radix2 66 -> Rabs l <= bpow radix2 20 -> Rabs (rnd (x * l)) <= bpow radix2 86).
  { intros x l Hx Hl. apply (rnd_le_bpow prec emax Cp); [lia|]. rewrite Rabs_mult. replace 86%Z with (66 + 20)%Z by ring. rewrite bpow_plus.
    apply Rmult_le_compat; auto using Rabs_pos. }
  assert (Lt : forall k x, (0 <= k < emax)%Z -> Rabs x <= bpow radix2 k -> Rabs x < bpow radix2 emax).
  { intros k x Hk H. eapply Rle_lt_trans; [exact H|]. apply bpow_lt. lia. }
  assert (D87 : bpow radix2 87 = 2 * bpow radix2 86) by (change 87%Z with (1 + 86)%Z; rewrite bpow_plus; reflexivity).
  assert (D88 : bpow radix2 88 = 2 * bpow radix2 87) by (change 88%Z with (1 + 87)%Z; rewrite bpow_plus; reflexivity).
  pose proof (bpow_gt_0 radix2 86) as P86.
  pose proof (Pr _ _ BM Bf) as P1. pose proof (Pr _ _ BN Bo) as P2. pose proof (Pr _ _ BC Bp) as P3.
  destruct (fmul_round prec emax Cp Ce M lf GM Gf) as [E1 G1]; [apply (Lt 86%Z); [lia|exact P1]|].
  destruct (fmul_round prec emax Cp Ce N lo GN Go) as [E2 G2]; [apply (Lt 86%Z); [lia|exact P2]|].
  destruct (fmul_round prec emax Cp Ce C lp GC Gp) as [E3 G3]; [apply (Lt 86%Z); [lia|exact P3]|].
  rewrite <- E1 in P1. rewrite <- E2 in P2. rewrite <- E3 in P3.
  assert (S1 : Rabs (rnd (val (fmul prec emax M lf) + val (fmul prec emax N lo))) <= bpow radix2 87).
  { apply (rnd_le_bpow prec emax Cp); [lia|]. apply Rabs_le_inv in P1, P2. apply Rabs_le. lra. }
  destruct (fadd_round prec emax Cp Ce _ _ G1 G2) as [E4 G4]; [apply (Lt 87%Z); [lia|exact S1]|].
  rewrite <- E4 in S1.
  destruct (fsub_round prec emax Cp Ce _ _ G4 G3) as [E5 G5].
  { apply (Lt 88%Z); [lia|]. apply (rnd_le_bpow prec emax Cp); [lia|]. apply Rabs_le_inv in S1, P3. apply Rabs_le. lra. }
  cbv zeta. split; [exact G5|]. rewrite E5, E4, E1, E2, E3. reflexivity.
Qed.

Definition tiny : R := u * / 64.
Lemma u_small : 0 < u <= / 1024.
Proof. split; [apply bpow_gt_0|]. change (/ 1024) with (bpow radix2 (-10)). apply bpow_le. pose proof c_range; lia. Qed.
Lemma eta_tiny : 0 < eta /\ eta * (1 + 2 * bpow radix2 20) <= tiny.
Proof.
  split; [apply bpow_gt_0|]. apply Rle_trans with (eta * bpow radix2 22).
  - apply Rmult_le_compat_l; [apply bpow_ge_0|]. change (bpow radix2 22) with (4194304). change (bpow radix2 20) with (1048576). lra.
  - unfold tiny. change (/ 64) with (bpow radix2 (-6)). rewrite <- !bpow_plus. apply bpow_le. pose proof c_range; lia.
Qed.
Lemma sum3_accurate (A B C a b c sa sb sc : R) :
  Rabs (A - a) <= 3 * u * sa + tiny -> Rabs (B - b) <= 3 * u * sb + tiny -> Rabs (C - c) <= 3 * u * sc + tiny ->
  Rabs a <= sa -> Rabs b <= sb -> Rabs c <= sc ->
  Rabs (sum3 A B C - (a + b - c)) <= 7 * u * (sa + sb + sc) + u.
Proof.
  intros HA HB HC Ha Hb Hc. pose proof u_small as [U0 U]. pose proof eta_tiny as [T0 T].
  assert (Te : eta <= tiny) by (change (bpow radix2 20) with 1048576 in T; lra).
  assert (Ti : 0 <= tiny /\ 64 * tiny = u) by (unfold tiny; lra). destruct Ti as [Ti0 Ti].
  assert (Any : forall x X, Rabs x <= X -> Rabs (rnd x - x) <= u * X + tiny).
  { intros x X H. eapply Rle_trans; [apply (error_any prec emax Cp)|]. assert (u * Rabs x <= u * X) by (apply Rmult_le_compat_l; lra). lra. }
  assert (Sm : forall s, 0 <= s -> 0 <= u * s /\ 0 <= u * (u * s) <= u * s * / 1024).
  { intros s H. assert (0 <= u * s) by nra. split; [assumption|]. split; nra. }
  assert (P0 : 0 <= sa /\ 0 <= sb /\ 0 <= sc) by (pose proof (Rabs_pos a); pose proof (Rabs_pos b); pose proof (Rabs_pos c); lra).
  destruct P0 as [Pa [Pb Pc]]. destruct (Sm sa Pa) as [Ua Va]. destruct (Sm sb Pb) as [Ub Vb]. destruct (Sm sc Pc) as [Uc Vc].
  assert (UT : 0 <= u * tiny <= tiny * / 1024) by nra.
  assert (UUT : 0 <= u * (u * tiny) <= tiny * / 1024) by nra.
  assert (Xa : Rabs A <= sa + 3 * u * sa + tiny) by (apply Rabs_le_inv in HA, Ha; apply Rabs_le; lra).
  assert (Xb : Rabs B <= sb + 3 * u * sb + tiny) by (apply Rabs_le_inv in HB, Hb; apply Rabs_le; lra).
  assert (Xc : Rabs C <= sc + 3 * u * sc + tiny) by (apply Rabs_le_inv in HC, Hc; apply Rabs_le; lra).
  assert (Ra : Rabs (rnd A - a) <= 4.01 * u * sa + 2.01 * tiny).
  { pose proof (Any _ _ Xa) as K. apply Rabs_le_inv in K, HA. apply Rabs_le. lra. }
  assert (Rb : Rabs (rnd B - b) <= 4.01 * u * sb + 2.01 * tiny).
  { pose proof (Any _ _ Xb) as K. apply Rabs_le_inv in K, HB. apply Rabs_le. lra. }
  assert (Rc : Rabs (rnd C - c) <= 4.01 * u * sc + 2.01 * tiny).
  { pose proof (Any _ _ Xc) as K. apply Rabs_le_inv in K, HC. apply Rabs_le. lra. }
  assert (Rab : Rabs (rnd (rnd A + rnd B) - (a + b)) <= 5.1 * u * (sa + sb) + 6 * tiny).
  { assert (X : Rabs (rnd A + rnd B) <= (sa + sb) + 4.01 * u * (sa + sb) + 5 * tiny).
    { apply Rabs_le_inv in Ra, Rb, Ha, Hb. apply Rabs_le. lra. }
    pose proof (Any _ _ X) as K. apply Rabs_le_inv in K, Ra, Rb. apply Rabs_le. lra. }
  assert (X : Rabs (rnd (rnd A + rnd B) - rnd C) <= (sa + sb + sc) + 5.1 * u * (sa + sb + sc) + 9 * tiny).
  { apply Rabs_le_inv in Rab, Rc, Ha, Hb, Hc. apply Rabs_le. lra. }
  pose proof (Any _ _ X) as K. fold (sum3 A B C) in K. apply Rabs_le_inv in K, Rab, Rc. apply Rabs_le. lra.
Qed.

(** *** Counts *)
Lemma count_float (z : Z) : (0 <= z <= 2 ^ 64)%Z ->
  good (float_of_int prec emax z) /\ val (float_of_int prec emax z) = rnd (IZR z) /\
  0 <= rnd (IZR z) <= bpow radix2 66 /\ Rabs (rnd (IZR z) - IZR z) <= u * IZR z + eta.
Proof.
  intros [A B]. pose proof c_range as CR. assert (A' : 0 <= IZR z) by (apply (IZR_le 0); exact A).
  assert (B' : IZR z <= bpow radix2 64) by (change (bpow radix2 64) with (IZR (2 ^ 64)); apply IZR_le; exact B).
  pose proof (normalize_round prec emax Cp Ce z 0 false) as K.
  assert (F : F2R (Float radix2 z 0) = IZR z) by (unfold F2R; cbn; ring). rewrite F in K.
  assert (P : 0 <= rnd (IZR z)) by (rewrite <- (rnd_0 prec emax); apply rnd_mono; [exact Cp|exact A']).
  assert (R1 : Rabs (rnd (IZR z)) <= bpow radix2 64) by (apply (rnd_le_bpow prec emax Cp); [lia|rewrite Rabs_pos_eq; assumption]).
  destruct K as [V G].
  { eapply Rle_lt_trans; [exact R1|]. apply bpow_lt. lia. }
  split; [exact G|]. split; [exact V|]. split.
  - split; [exact P|]. rewrite Rabs_pos_eq in R1 by exact P. eapply Rle_trans; [exact R1|]. apply bpow_le. lia.
  - pose proof (error_any prec emax Cp (IZR z)) as X. rewrite (Rabs_pos_eq (IZR z)) in X by exact A'. exact X.
Qed.
Lemma counts_odds (m n : Z) (iv : float_model) : (0 <= m < 2 ^ 64)%Z -> (0 <= n < 2 ^ 64)%Z -> moderate_model prec emax iv ->
  good (float_log_odds prec emax m n iv) /\
  val (float_log_odds prec emax m n iv) =
    sum3 (rnd (IZR m) * val (fl_free iv)) (rnd (IZR n) * val (fl_occupied iv))
         (rnd (IZR (size_t (size_t (m + n) - 1))) * val (fl_prior iv)).
Proof.
  intros Hm Hn [Hp [Hf Ho]].
  assert (Hc : (0 <= size_t (size_t (m + n) - 1) <= 2 ^ 64)%Z).
  { unfold size_t at 1 3. pose proof (Z.mod_pos_bound (size_t (m + n) - 1) (2 ^ 64) ltac:(reflexivity)). lia. }
  destruct (count_float m ltac:(lia)) as [Gm [Vm [Bm _]]]. destruct (count_float n ltac:(lia)) as [Gn [Vn [Bn _]]].
  destruct (count_float _ Hc) as [Gc [Vc [Bc _]]].
  pose proof (odds_float _ _ _ _ _ _ Gm Gn Gc
    ltac:(rewrite Vm, Rabs_pos_eq by lra; lra) ltac:(rewrite Vn, Rabs_pos_eq by lra; lra) ltac:(rewrite Vc, Rabs_pos_eq by lra; lra) Hf Ho Hp) as [G V].
  cbv zeta in *. split; [exact G|]. unfold float_log_odds. rewrite V, Vm, Vn, Vc. reflexivity.
Qed.
Lemma counts_accurate (m n : Z) (iv : float_model) : (0 <= m)%Z -> (0 <= n)%Z -> (1 <= m + n < 2 ^ 64)%Z -> moderate_model prec emax iv ->
  Rabs (val (float_log_odds prec emax m n iv) - evidence iv (IZR m) (IZR n)) <= 7 * u * evidence_size iv (IZR m) (IZR n) + u.
Proof.
  intros Hm Hn Hc Mo. destruct (counts_odds m n iv ltac:(lia) ltac:(lia) Mo) as [_ ->]. destruct Mo as [[_ Hp] [[_ Hf] [_ Ho]]].
  assert (Ec : size_t (size_t (m + n) - 1) = (m + n - 1)%Z).
  { unfold size_t. rewrite (Z.mod_small (m + n)) by lia. apply Z.mod_small. lia. }
  rewrite Ec. destruct (count_float m ltac:(lia)) as [_ [_ [_ Em]]]. destruct (count_float n ltac:(lia)) as [_ [_ [_ En]]].
  destruct (count_float (m + n - 1) ltac:(lia)) as [_ [_ [_ Ed]]].
  assert (Pm : 0 <= IZR m) by (apply (IZR_le 0); exact Hm). assert (Pn : 0 <= IZR n) by (apply (IZR_le 0); exact Hn).
  assert (Pc : 0 <= IZR (m + n - 1)) by (apply (IZR_le 0); lia). rewrite minus_IZR, plus_IZR in *.
  pose proof u_small as [U0 U]. pose proof eta_tiny as [T0 T]. pose proof (bpow_gt_0 radix2 20) as B20.
  assert (Pr : forall X x s l, 0 <= x <= s -> Rabs (X - x) <= u * x + eta -> Rabs l <= bpow radix2 20 -> Rabs (X * l - x * l) <= 3 * u * (s * Rabs l) + tiny).
  { intros X x s l Hx HX Hl. replace (X * l - x * l) with ((X - x) * l) by ring. rewrite Rabs_mult. pose proof (Rabs_pos l) as L0.
    apply Rle_trans with ((u * x + eta) * Rabs l); [apply Rmult_le_compat_r; assumption|].
    assert (eta * Rabs l <= tiny) by (apply Rle_trans with (eta * (1 + 2 * bpow radix2 20)); [apply Rmult_le_compat_l; lra|exact T]).
    assert (0 <= u * (x * Rabs l)) by (apply Rmult_le_pos; [lra|apply Rmult_le_pos; lra]).
    assert (u * (x * Rabs l) <= u * (s * Rabs l)) by (apply Rmult_le_compat_l; [lra|apply Rmult_le_compat_r; lra]). lra. }
  replace (evidence iv (IZR m) (IZR n)) with
    (IZR m * val (fl_free iv) + IZR n * val (fl_occupied iv) - (IZR m + IZR n - 1) * val (fl_prior iv)) by (unfold evidence; ring).
  apply sum3_accurate.
  - apply Pr; [lra|exact Em|exact Hf].
  - apply Pr; [lra|exact En|exact Ho].
  - apply Pr; [lra|exact Ed|exact Hp].
  - rewrite Rabs_mult, (Rabs_pos_eq (IZR m)) by lra. lra.
  - rewrite Rabs_mult, (Rabs_pos_eq (IZR n)) by lra. lra.
  - rewrite Rabs_mult, (Rabs_pos_eq (IZR m + IZR n - 1)) by lra. apply Rmult_le_compat_r; [apply Rabs_pos|lra].
Qed.
Lemma counts_mono (m n m' n' : Z) (iv : float_model) : (0 <= m' <= m)%Z -> (m < 2 ^ 64)%Z -> (0 <= n <= n')%Z -> (n' < 2 ^ 64)%Z ->
  moderate_model prec emax iv -> val (fl_prior iv) = 0 -> val (fl_free iv) <= 0 <= val (fl_occupied iv) ->
  val (float_log_odds prec emax m n iv) <= val (float_log_odds prec emax m' n' iv).
Proof.
  intros Hm Hm2 Hn Hn2 Mo P0 S. destruct (counts_odds m n iv ltac:(lia) ltac:(lia) Mo) as [_ ->].
  destruct (counts_odds m' n' iv ltac:(lia) ltac:(lia) Mo) as [_ ->]. rewrite P0, !Rmult_0_r. apply sum3_mono; [| |lra].
  - assert (rnd (IZR m') <= rnd (IZR m)) by (apply rnd_mono; [exact Cp|apply IZR_le; lia]). nra.
  - assert (rnd (IZR n) <= rnd (IZR n')) by (apply rnd_mono; [exact Cp|apply IZR_le; lia]). nra.
Qed.

(** *** Weights *)
Notation weight := (weight prec emax).
Lemma weights_total (f w : spec_float) : weight f -> weight w ->
  let c := fsub prec emax (fadd prec emax f w) (float_of_int prec emax 1) in
  good c /\ val c = rnd (rnd (val f + val w) - 1) /\ Rabs (val c) <= bpow radix2 66.
Proof.
  intros [Gf Bf] [Gw Bw] c. pose proof c_range as [CR CR']. destruct (one_good prec emax Cp Ce CR) as [V1 G1].
  assert (D65 : bpow radix2 65 = 2 * bpow radix2 64) by (change 65%Z with (1 + 64)%Z; rewrite bpow_plus; reflexivity).
  assert (D66 : bpow radix2 66 = 2 * bpow radix2 65) by (change 66%Z with (1 + 65)%Z; rewrite bpow_plus; reflexivity).
  assert (B64 : 1 <= bpow radix2 64) by (change 1 with (bpow radix2 0); apply bpow_le; lia).
  assert (S1 : Rabs (rnd (val f + val w)) <= bpow radix2 65) by (apply (rnd_le_bpow prec emax Cp); [lia|apply Rabs_le; lra]).
  destruct (fadd_round prec emax Cp Ce f w Gf Gw) as [E G].
  { eapply Rle_lt_trans; [exact S1|]. apply bpow_lt. lia. }
  assert (S2 : Rabs (rnd (rnd (val f + val w) - 1)) <= bpow radix2 66).
  { apply (rnd_le_bpow prec emax Cp); [lia|]. apply Rabs_le_inv in S1. apply Rabs_le. lra. }
  destruct (fsub_round prec emax Cp Ce _ _ G G1) as [E2 G2]; rewrite E, V1 in *.
  { eapply Rle_lt_trans; [exact S2|]. apply bpow_lt. lia. }
  unfold c. rewrite E2. repeat split; assumption || apply G2.
Qed.
Lemma weights_odds (f w : spec_float) (iv : float_model) : weight f -> weight w -> moderate_model prec emax iv ->
  good (float_weighted_log_odds prec emax f w iv) /\
  val (float_weighted_log_odds prec emax f w iv) =
    sum3 (val f * val (fl_free iv)) (val w * val (fl_occupied iv)) (rnd (rnd (val f + val w) - 1) * val (fl_prior iv)).
Proof.
  intros Hf Hw [Mp [Mf Mo]]. destruct (weights_total f w Hf Hw) as [Gc [Vc Bc]]. destruct Hf as [Gf Bf], Hw as [Gw Bw].
  assert (B66 : bpow radix2 64 <= bpow radix2 66) by (apply bpow_le; lia).
  pose proof (odds_float _ _ _ _ _ _ Gf Gw Gc ltac:(rewrite Rabs_pos_eq; lra) ltac:(rewrite Rabs_pos_eq; lra) Bc Mf Mo Mp) as [G V].
  cbv zeta in *. split; [exact G|]. unfold float_weighted_log_odds. rewrite V, Vc. reflexivity.
Qed.
Lemma weights_accurate (f w : spec_float) (iv : float_model) : weight f -> weight w -> moderate_model prec emax iv ->
  Rabs (val (float_weighted_log_odds prec emax f w iv) - evidence iv (val f) (val w)) <= 7 * u * evidence_size iv (val f) (val w) + u.
Proof.
  intros Hf Hw Mo. destruct (weights_odds f w iv Hf Hw Mo) as [_ ->]. destruct Mo as [[_ Hp] _], Hf as [_ Hf], Hw as [_ Hw].
  pose proof u_small as [U0 U]. pose proof eta_tiny as [T0 T]. pose proof (bpow_gt_0 radix2 20) as B20.
  assert (Ti : 0 <= tiny) by (unfold tiny; lra).
  replace (evidence iv (val f) (val w)) with
    (val f * val (fl_free iv) + val w * val (fl_occupied iv) - (val f + val w - 1) * val (fl_prior iv)) by (unfold evidence; ring).
  pose proof (Rabs_pos (val (fl_free iv))). pose proof (Rabs_pos (val (fl_occupied iv))). pose proof (Rabs_pos (val (fl_prior iv))) as L0.
  apply sum3_accurate.
  - replace (_ - _) with 0 by ring. rewrite Rabs_R0. apply Rplus_le_le_0_compat; [|exact Ti].
    apply Rmult_le_pos; [lra|apply Rmult_le_pos; lra].
  - replace (_ - _) with 0 by ring. rewrite Rabs_R0. apply Rplus_le_le_0_compat; [|exact Ti].
    apply Rmult_le_pos; [lra|apply Rmult_le_pos; lra].
  - rewrite <- Rmult_minus_distr_r, Rabs_mult. set (s := val f + val w) in *.
    pose proof (error_any prec emax Cp s) as E1. rewrite (Rabs_pos_eq s) in E1 by (unfold s; lra).
    pose proof (error_any prec emax Cp (rnd s - 1)) as E2.
    assert (S0 : 0 <= s) by (unfold s; lra).
    assert (Us : 0 <= u * s /\ 0 <= u * (u * s) <= u * s * / 1024) by (assert (0 <= u * s) by nra; split; [assumption|split; nra]).
    assert (Eu : 0 <= u * eta <= eta) by nra.
    assert (A : Rabs (rnd s - 1) <= s + 1 + (u * s + eta)) by (apply Rabs_le_inv in E1; apply Rabs_le; lra).
    assert (B : u * Rabs (rnd s - 1) <= u * (s + 1 + (u * s + eta))) by (apply Rmult_le_compat_l; lra).
    assert (K : Rabs (rnd (rnd s - 1) - (s - 1)) <= 3 * u * (s + 1) + 3 * eta).
    { apply Rabs_le_inv in E1, E2. apply Rabs_le. lra. }
    apply Rle_trans with ((3 * u * (s + 1) + 3 * eta) * Rabs (val (fl_prior iv))); [apply Rmult_le_compat_r; assumption|].
    assert (3 * eta * Rabs (val (fl_prior iv)) <= 3 * eta * bpow radix2 20) by (apply Rmult_le_compat_l; lra).
    assert (TT : 3 * eta * bpow radix2 20 <= tiny).
    { change (bpow radix2 20) with 1048576. unfold tiny. apply Rle_trans with (eta * bpow radix2 22).
      - change (bpow radix2 22) with 4194304. lra.
      - change (/ 64) with (bpow radix2 (-6)). rewrite <- !bpow_plus. apply bpow_le. pose proof c_range; lia. }
    replace (val f + val w + 1) with (s + 1) by reflexivity. lra.
  - rewrite Rabs_mult, (Rabs_pos_eq (val f)) by lra. lra.
  - rewrite Rabs_mult, (Rabs_pos_eq (val w)) by lra. lra.
  - rewrite Rabs_mult. apply Rmult_le_compat_r; [apply Rabs_pos|]. apply Rabs_le. lra.
Qed.
Lemma weights_mono (f w f' w' : spec_float) (iv : float_model) : weight f -> weight w -> weight f' -> weight w' ->
  val f' <= val f -> val w <= val w' ->
  moderate_model prec emax iv -> val (fl_prior iv) = 0 -> val (fl_free iv) <= 0 <= val (fl_occupied iv) ->
  val (float_weighted_log_odds prec emax f w iv) <= val (float_weighted_log_odds prec emax f' w' iv).
Proof.
  intros Hf Hw Hf' Hw' Lf Lw Mo P0 S. destruct (weights_odds f w iv Hf Hw Mo) as [_ ->].
  destruct (weights_odds f' w' iv Hf' Hw' Mo) as [_ ->]. rewrite P0, !Rmult_0_r. apply sum3_mono; [| |lra]; nra.
Qed.
(** Adding a weight. *)
Lemma weight_add (f w : spec_float) : weight f -> weight w -> val f <= val (fadd prec emax f w).
Proof.
  intros [Gf Bf] [Gw Bw]. pose proof c_range as CR.
  assert (D65 : bpow radix2 65 = 2 * bpow radix2 64) by (change 65%Z with (1 + 64)%Z; rewrite bpow_plus; reflexivity).
  destruct (fadd_round prec emax Cp Ce f w Gf Gw) as [-> _].
  { apply (rnd_fits prec emax Cp (proj1 CR) _ 65); [lia|apply Rabs_le; lra]. }
  rewrite <- (rnd_id prec emax (val f)) at 1 by (apply good_format; exact Gf). apply rnd_mono; [exact Cp|lra].
Qed.
End Counts.
