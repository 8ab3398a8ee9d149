(** Facts about occupancy values. *)
From Coq Require Import Reals Lra.
From Verif Require Import Base OddsModel OddsSpec.
Open Scope Z_scope.

Lemma from_range (l : R) : (0 < from_log_odds l < 1)%R.
Proof.
  unfold from_log_odds. pose proof (exp_pos l) as H.
  assert (H1 : (0 < / (1 + exp l) < 1)%R).
  { split; [apply Rinv_0_lt_compat; lra|]. rewrite <- Rinv_1 at 2. apply Rinv_lt_contravar; lra. }
  unfold Rdiv. lra.
Qed.

Lemma from_mono (a b : R) : (a <= b)%R -> (from_log_odds a <= from_log_odds b)%R.
Proof.
  intros H. unfold from_log_odds. pose proof (exp_pos a) as Ha.
  assert (He : (exp a <= exp b)%R) by (destruct H as [H| ->]; [left; apply exp_increasing; exact H|right; reflexivity]).
  assert (/ (1 + exp b) <= / (1 + exp a))%R by (apply Rinv_le_contravar; lra). unfold Rdiv. lra.
Qed.

Lemma log_odds_from (l : R) : log_odds (from_log_odds l) = l.
Proof.
  unfold log_odds, from_log_odds. pose proof (exp_pos l) as H.
  replace ((1 - 1 / (1 + exp l)) / (1 - (1 - 1 / (1 + exp l))))%R with (exp l) by (field; split; lra).
  apply ln_exp.
Qed.

Lemma misses_app (a b : list occ_update) : misses (a ++ b) = misses a + misses b.
Proof. induction a as [|[n|n] a IH]; cbn [app misses]; lia. Qed.
Lemma hits_app (a b : list occ_update) : hit_points (a ++ b) = hit_points a + hit_points b.
Proof. induction a as [|[n|n] a IH]; cbn [app hit_points]; lia. Qed.

Lemma counts_nonneg (l : list occ_update) :
  Forall (fun u => match u with Free n => 0 <= n | Hit n => 1 <= n end) l -> 0 <= misses l /\ 0 <= hit_points l.
Proof. intros H; induction H as [|[n|n] l Hu _ IH]; cbn [misses hit_points]; lia. Qed.

Lemma run_counts (l : list occ_update) :
  real_updates l ->
  fold_left occ_apply l occ_new =
  {| num_free := misses l;
     hits_n := if existsb (fun u => match u with Hit _ => true | _ => false end) l then Some (hit_points l) else None |}.
Proof.
  intros [HF Hb]. induction l as [|u l IH] using rev_ind; [reflexivity|].
  apply Forall_app in HF. destruct HF as [HF Hu]. inversion Hu as [|? ? Hu0 _]; subst.
  rewrite misses_app, hits_app in Hb. destruct (counts_nonneg l HF) as [H1 H2].
  rewrite fold_left_app, IH by (try assumption; destruct u; cbn [misses hit_points] in Hb; lia).
  rewrite misses_app, hits_app, existsb_app. cbn [fold_left].
  destruct u as [n|n]; cbn [occ_apply misses hit_points existsb] in *; unfold occ_updateFree, occ_updateOccupied; cbn [num_free hits_n].
  - unfold size_t. rewrite Z.mod_small by lia. rewrite !Z.add_0_r, !orb_false_r. reflexivity.
  - rewrite !Z.add_0_r, orb_true_r. f_equal. f_equal.
    destruct (existsb _ l) eqn:E; [unfold size_t; rewrite Z.mod_small by lia; reflexivity|].
    assert (hit_points l = 0); [|lia]. clear -E. induction l as [|[k|k] l IH]; cbn [existsb hit_points] in *; [reflexivity|auto|discriminate].
Qed.

Lemma hit_pos (l : list occ_update) :
  Forall (fun u => match u with Free n => 0 <= n | Hit n => 1 <= n end) l ->
  (existsb (fun u => match u with Hit _ => true | _ => false end) l = true <-> 1 <= hit_points l).
Proof.
  intros H; induction H as [|[n|n] l Hu Hl IH]; cbn [existsb hit_points orb]; [split; [discriminate|lia]|exact IH|].
  pose proof (counts_nonneg l Hl). split; [lia|reflexivity].
Qed.

(** Accumulated evidence. *)
Definition evidence (iv : inverse_model) (nf nh : R) : R :=
  (l_prior iv + nf * (l_free iv - l_prior iv) + nh * (l_occupied iv - l_prior iv))%R.

Lemma value_after (l : list occ_update) (iv : inverse_model) :
  real_updates l ->
  occ_value (fold_left occ_apply l occ_new) iv =
  if hit_points l =? 0 then 0%R else from_log_odds (evidence iv (IZR (misses l)) (IZR (hit_points l))).
Proof.
  intros Hr. rewrite (run_counts l Hr). destruct Hr as [HF Hb]. destruct (counts_nonneg l HF) as [H1 H2].
  pose proof (hit_pos l HF) as Hp. unfold occ_value. cbn [hits_n num_free].
  destruct (existsb _ l).
  - assert (Hh : 1 <= hit_points l) by (apply Hp; reflexivity).
    destruct (Z.eqb_spec (hit_points l) 0); [lia|]. f_equal. unfold evidence, size_t.
    rewrite (Z.mod_small (misses l + hit_points l)) by lia. rewrite Z.mod_small by lia.
    rewrite minus_IZR, plus_IZR. ring.
  - destruct (Z.eqb_spec (hit_points l) 0); [reflexivity|]. assert (false = true) by (apply Hp; lia). discriminate.
Qed.

Lemma occ_range (l : list occ_update) (iv : inverse_model) :
  real_updates l -> (0 <= occ_value (fold_left occ_apply l occ_new) iv < 1)%R.
Proof.
  intros Hr. rewrite (value_after l iv Hr). destruct (hit_points l =? 0); [lra|].
  pose proof (from_range (evidence iv (IZR (misses l)) (IZR (hit_points l)))). lra.
Qed.

Lemma evidence_hit (iv : inverse_model) (nf a b : R) : sane iv -> (a <= b)%R -> (evidence iv nf a <= evidence iv nf b)%R.
Proof.
  intros [_ H] Hab. unfold evidence.
  assert (0 <= (b - a) * (l_occupied iv - l_prior iv))%R by (apply Rmult_le_pos; lra). lra.
Qed.
Lemma evidence_miss (iv : inverse_model) (nh a b : R) : sane iv -> (a <= b)%R -> (evidence iv b nh <= evidence iv a nh)%R.
Proof.
  intros [H _] Hab. unfold evidence.
  assert (0 <= (b - a) * (l_prior iv - l_free iv))%R by (apply Rmult_le_pos; lra). lra.
Qed.

Lemma real_prefix (l l' : list occ_update) : real_updates (l ++ l') -> real_updates l.
Proof.
  intros [HF Hb]. apply Forall_app in HF. destruct HF as [HF HF']. split; [exact HF|].
  rewrite misses_app, hits_app in Hb. pose proof (counts_nonneg l' HF'). lia.
Qed.

Lemma occ_hit_up (l : list occ_update) (n : Z) (iv : inverse_model) :
  sane iv -> real_updates (l ++ [Hit n]) ->
  (occ_value (fold_left occ_apply l occ_new) iv <= occ_value (fold_left occ_apply (l ++ [Hit n]) occ_new) iv)%R.
Proof.
  intros Hs Hr. rewrite (value_after _ iv Hr), (value_after _ iv (real_prefix _ _ Hr)).
  destruct Hr as [HF _]. apply Forall_app in HF. destruct HF as [HF Hn]. inversion Hn as [|? ? Hn0 _]; subst.
  pose proof (counts_nonneg l HF). rewrite misses_app, hits_app. cbn [misses hit_points]. rewrite !Z.add_0_r.
  destruct (Z.eqb_spec (hit_points l + n) 0); [lia|].
  destruct (Z.eqb_spec (hit_points l) 0).
  - pose proof (from_range (evidence iv (IZR (misses l)) (IZR (hit_points l + n)))). lra.
  - apply from_mono, evidence_hit; [exact Hs|]. apply IZR_le. lia.
Qed.

Lemma occ_miss_down (l : list occ_update) (n : Z) (iv : inverse_model) :
  sane iv -> real_updates (l ++ [Free n]) ->
  (occ_value (fold_left occ_apply (l ++ [Free n]) occ_new) iv <= occ_value (fold_left occ_apply l occ_new) iv)%R.
Proof.
  intros Hs Hr. rewrite (value_after _ iv Hr), (value_after _ iv (real_prefix _ _ Hr)).
  destruct Hr as [HF _]. apply Forall_app in HF. destruct HF as [HF Hn]. inversion Hn as [|? ? Hn0 _]; subst.
  rewrite misses_app, hits_app. cbn [misses hit_points]. rewrite !Z.add_0_r.
  destruct (Z.eqb_spec (hit_points l) 0); [lra|].
  apply from_mono, evidence_miss; [exact Hs|]. apply IZR_le. lia.
Qed.

(** Weighted version. *)
Lemma w_misses_app (a b : list w_update) : w_misses (a ++ b) = (w_misses a + w_misses b)%R.
Proof. induction a as [|[n|n] a IH]; cbn [app w_misses]; lra. Qed.
Lemma w_hits_app (a b : list w_update) : w_hits (a ++ b) = (w_hits a + w_hits b)%R.
Proof. induction a as [|[n|n] a IH]; cbn [app w_hits]; lra. Qed.

Definition w_any (l : list w_update) : bool := existsb (fun u => match u with WHit _ => true | _ => false end) l.

Lemma w_run_counts (l : list w_update) :
  weight_free (fold_left w_apply l w_new) = w_misses l /\
  weight_hit (fold_left w_apply l w_new) = (if w_any l then Some (w_hits l) else None) /\
  (w_any l = false -> w_hits l = 0%R).
Proof.
  induction l as [|u l [IH1 [IH2 IH3]]] using rev_ind; [cbn; auto|].
  rewrite fold_left_app, w_misses_app, w_hits_app. unfold w_any in *. rewrite existsb_app. cbn [fold_left].
  destruct u as [n|n]; cbn [w_apply w_misses w_hits existsb]; unfold w_updateFree, w_updateOccupied; cbn [weight_free weight_hit].
  - rewrite IH1, IH2, orb_false_r. split; [lra|]. split; [|intros H; rewrite (IH3 H); lra].
    destruct (existsb _ l); [f_equal; lra|reflexivity].
  - rewrite IH1, IH2, orb_true_r. split; [lra|]. split; [|discriminate].
    destruct (existsb _ l); f_equal; [lra|]. rewrite (IH3 eq_refl). lra.
Qed.

Lemma w_value_after (l : list w_update) (iv : inverse_model) :
  w_value (fold_left w_apply l w_new) iv =
  if w_any l then from_log_odds (evidence iv (w_misses l) (w_hits l)) else 0%R.
Proof.
  destruct (w_run_counts l) as [A [B _]]. unfold w_value. rewrite B. destruct (w_any l); [|reflexivity].
  f_equal. rewrite A. unfold evidence. ring.
Qed.

Lemma w_range (l : list w_update) (iv : inverse_model) : (0 <= w_value (fold_left w_apply l w_new) iv < 1)%R.
Proof.
  rewrite w_value_after. destruct (w_any l); [|lra]. pose proof (from_range (evidence iv (w_misses l) (w_hits l))). lra.
Qed.

Lemma w_hit_up (l : list w_update) (w : R) (iv : inverse_model) :
  sane iv -> (0 <= w)%R ->
  (w_value (fold_left w_apply l w_new) iv <= w_value (fold_left w_apply (l ++ [WHit w]) w_new) iv)%R.
Proof.
  intros Hs Hw. rewrite !w_value_after. unfold w_any. rewrite existsb_app, w_misses_app, w_hits_app.
  cbn [existsb w_misses w_hits]. rewrite orb_true_r. fold (w_any l). destruct (w_any l).
  - rewrite Rplus_0_r. apply from_mono, evidence_hit; [exact Hs|lra].
  - pose proof (from_range (evidence iv (w_misses l + 0) (w_hits l + (w + 0)))). lra.
Qed.

Lemma w_miss_down (l : list w_update) (w : R) (iv : inverse_model) :
  sane iv -> (0 <= w)%R ->
  (w_value (fold_left w_apply (l ++ [WFree w]) w_new) iv <= w_value (fold_left w_apply l w_new) iv)%R.
Proof.
  intros Hs Hw. rewrite !w_value_after. unfold w_any. rewrite existsb_app, w_misses_app, w_hits_app.
  cbn [existsb w_misses w_hits]. rewrite orb_false_r. fold (w_any l). destruct (w_any l); [|lra].
  rewrite (Rplus_0_r (w_hits l)). apply from_mono, evidence_miss; [exact Hs|lra].
Qed.

Lemma occ_zero (l : list occ_update) (iv : inverse_model) :
  real_updates l -> hit_points l = 0 -> occ_value (fold_left occ_apply l occ_new) iv = 0%R.
Proof. intros Hr H. rewrite (value_after l iv Hr), H. reflexivity. Qed.

Lemma occ_log_odds (l : list occ_update) (iv : inverse_model) :
  real_updates l -> 0 < hit_points l ->
  log_odds (occ_value (fold_left occ_apply l occ_new) iv) =
  (l_prior iv + IZR (misses l) * (l_free iv - l_prior iv) + IZR (hit_points l) * (l_occupied iv - l_prior iv))%R.
Proof.
  intros Hr H. rewrite (value_after l iv Hr). destruct (Z.eqb_spec (hit_points l) 0); [lia|].
  rewrite log_odds_from. reflexivity.
Qed.

Lemma w_any_in (l : list w_update) : w_any l = true <-> exists u, In (WHit u) l.
Proof.
  unfold w_any. rewrite existsb_exists. split.
  - intros [[w|w] [H E]]; [discriminate|]. exists w; exact H.
  - intros [w H]. exists (WHit w). auto.
Qed.

Lemma w_zero (l : list w_update) (iv : inverse_model) :
  (forall u, ~ In (WHit u) l) -> w_value (fold_left w_apply l w_new) iv = 0%R.
Proof.
  intros H. rewrite w_value_after. destruct (w_any l) eqn:E; [|reflexivity].
  apply w_any_in in E. destruct E as [u Hu]. exfalso. apply (H u Hu).
Qed.

Lemma w_log_odds (l : list w_update) (iv : inverse_model) (u : R) :
  In (WHit u) l ->
  log_odds (w_value (fold_left w_apply l w_new) iv) =
  (l_prior iv + w_misses l * (l_free iv - l_prior iv) + w_hits l * (l_occupied iv - l_prior iv))%R.
Proof.
  intros H. rewrite w_value_after. assert (E : w_any l = true) by (apply w_any_in; exists u; exact H). rewrite E.
  rewrite log_odds_from. reflexivity.
Qed.

Lemma from_strict (a b : R) : (a < b)%R -> (from_log_odds a < from_log_odds b)%R.
Proof.
  intros H. unfold from_log_odds. pose proof (exp_pos a) as Ha. pose proof (exp_increasing a b H).
  assert (/ (1 + exp b) < / (1 + exp a))%R by (apply Rinv_lt_contravar; [apply Rmult_lt_0_compat; lra|lra]). unfold Rdiv. lra.
Qed.

Lemma empty_hit_witness :
  exists (iv : inverse_model) (d : occupancy),
    sane iv /\ d = fold_left occ_apply [Hit 0] occ_new /\
    (occ_value (occ_apply d (Hit 1)) iv < occ_value d iv)%R.
Proof.
  exists {| l_prior := -1; l_free := -2; l_occupied := 2 |}. eexists. split; [unfold sane; cbn; lra|].
  split; [reflexivity|]. unfold occ_value. cbn [fold_left occ_apply occ_updateOccupied occ_new hits_n num_free l_free l_occupied l_prior].
  apply from_strict.
  change (size_t (size_t (0 + size_t (0 + 1)) - 1)) with 0. change (size_t (size_t (0 + 0) - 1)) with 18446744073709551615.
  change (size_t (0 + 1)) with 1. lra.
Qed.

(** Merging two distributions adds their updates. *)
Lemma occ_merged (l l' : list occ_update) :
  real_updates (l ++ l') ->
  occ_merge (fold_left occ_apply l occ_new) (fold_left occ_apply l' occ_new) = fold_left occ_apply (l ++ l') occ_new.
Proof.
  intros Hr. pose proof Hr as [HF Hb]. apply Forall_app in HF. destruct HF as [HF HF'].
  rewrite misses_app, hits_app in Hb.
  destruct (counts_nonneg l HF) as [H1 H2]. destruct (counts_nonneg l' HF') as [H1' H2'].
  pose proof (hit_pos l HF) as Hp. pose proof (hit_pos l' HF') as Hp'.
  rewrite (run_counts (l ++ l') Hr), (run_counts l), (run_counts l') by (split; [assumption|lia]).
  rewrite misses_app, hits_app, existsb_app. unfold occ_merge, size_t. cbn [num_free hits_n].
  rewrite (Z.mod_small (misses l + misses l')) by lia. f_equal.
  destruct (existsb _ l); destruct (existsb _ l'); cbn [orb].
  - rewrite Z.mod_small by lia. reflexivity.
  - f_equal. destruct (Z.eq_dec (hit_points l') 0); [lia|]. assert (false = true) by (apply Hp'; lia). discriminate.
  - f_equal. destruct (Z.eq_dec (hit_points l) 0); [lia|]. assert (false = true) by (apply Hp; lia). discriminate.
  - reflexivity.
Qed.
Lemma w_merged (l l' : list w_update) :
  w_merge (fold_left w_apply l w_new) (fold_left w_apply l' w_new) = fold_left w_apply (l ++ l') w_new.
Proof.
  destruct (w_run_counts l) as [A [B C]]. destruct (w_run_counts l') as [A' [B' C']].
  destruct (w_run_counts (l ++ l')) as [A2 [B2 _]]. unfold w_merge. rewrite A, B, A', B'.
  destruct (fold_left w_apply (l ++ l') w_new) as [f h]. cbn [weight_free weight_hit] in A2, B2. subst f h.
  rewrite w_misses_app, w_hits_app. unfold w_any in *. rewrite existsb_app. f_equal.
  destruct (existsb _ l); destruct (existsb _ l'); cbn [orb]; try reflexivity; f_equal.
  - rewrite (C' eq_refl). ring.
  - rewrite (C eq_refl). ring.
Qed.
