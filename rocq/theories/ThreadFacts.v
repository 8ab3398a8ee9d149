(** Facts about worker threads. *)
From Verif Require Import Base HeapFacts ThreadModel ThreadSpec.
Open Scope nat_scope.

Lemma upd_exists {A : Type} (l : list A) (n : nat) (x : A) : n < length l -> exists l', upd l n x = Some l'.
Proof. intros H. destruct (upd l n x) as [l'|] eqn:E; [eauto|]. exfalso.
  revert l E H; induction n as [|n IH]; intros [|y l] E H; cbn [upd length] in *; try lia; try discriminate.
  destruct (upd l n x) eqn:E'; [discriminate|]. apply (IH l); [exact E'|lia].
Qed.
Lemma upd_length {A : Type} (l : list A) : forall (n : nat) (x : A) l', upd l n x = Some l' -> length l' = length l.
Proof.
  induction l as [|y l IH]; intros [|n] x l' E; cbn [upd] in E; try discriminate.
  - injection E as <-. reflexivity.
  - destruct (upd l n x) eqn:E'; [|discriminate]. injection E as <-. cbn [length]. f_equal. eapply IH; exact E'.
Qed.

Lemma nth_error_ext_list {A : Type} (l l' : list A) : length l = length l' ->
  (forall i, i < length l -> nth_error l i = nth_error l' i) -> l = l'.
Proof.
  revert l'; induction l as [|x l IH]; intros [|y l'] HL H; cbn [length] in *; try lia; [reflexivity|].
  pose proof (H 0 ltac:(lia)) as H0. cbn in H0. injection H0 as ->. f_equal. apply IH; [lia|].
  intros i Hi. apply (H (S i)). lia.
Qed.

Section Facts.
Context {R : Type}.

Lemma set_phase_length l i p : length (set_phase l i p) = length l.
Proof. unfold set_phase. destruct (upd l i p) eqn:E; [eapply upd_length; exact E|reflexivity]. Qed.
Lemma set_made_length (l : list (option R)) i p : length (set_made l i p) = length l.
Proof. unfold set_made. destruct (upd l i p) eqn:E; [eapply upd_length; exact E|reflexivity]. Qed.
Lemma set_phase_same l i p : i < length l -> nth_error (set_phase l i p) i = Some p.
Proof. intros H. unfold set_phase. destruct (upd_exists l i p H) as [l' E]. rewrite E. eapply nth_error_upd_same; exact E. Qed.
Lemma set_phase_other l i k p : i <> k -> nth_error (set_phase l i p) k = nth_error l k.
Proof.
  intros H. unfold set_phase. destruct (upd l i p) as [l'|] eqn:E; [|reflexivity].
  eapply nth_error_upd_other; [exact E|exact H].
Qed.
Lemma set_made_same (l : list (option R)) i p : i < length l -> nth_error (set_made l i p) i = Some p.
Proof. intros H. unfold set_made. destruct (upd_exists l i p H) as [l' E]. rewrite E. eapply nth_error_upd_same; exact E. Qed.
Lemma set_made_other (l : list (option R)) i k p : i <> k -> nth_error (set_made l i p) k = nth_error l k.
Proof.
  intros H. unfold set_made. destruct (upd l i p) as [l'|] eqn:E; [|reflexivity].
  eapply nth_error_upd_other; [exact E|exact H].
Qed.

Variable ops : list (operation R).
Notation n := (length ops).
Notation step := (worker_step ops).

Lemma run_ok_inv (I : workers R -> Prop) (sched : list nat) :
  (forall w i, I w -> exists w', step w i = Ok w' /\ I w') ->
  forall w, I w -> exists w', ofold step sched w = Ok w' /\ I w'.
Proof.
  intros H. induction sched as [|i l IH]; intros w Hw; cbn [ofold]; [eauto|].
  destruct (H w i Hw) as [w1 [-> H1]]. cbn [obind]. apply IH; exact H1.
Qed.
Lemma run_inv (I : workers R -> Prop) (sched : list nat) :
  (forall w i w', I w -> step w i = Ok w' -> I w') ->
  forall w w', I w -> ofold step sched w = Ok w' -> I w'.
Proof.
  intros H. induction sched as [|i l IH]; intros w w' Hw E; cbn [ofold] in E; [injection E as <-; exact Hw|].
  destruct (step w i) as [w1| |] eqn:E1; try discriminate E. cbn [obind] in E. eapply IH; [|exact E]. eapply H; eassumption.
Qed.

Lemma nth_repeat_error {A : Type} (x : A) (k i : nat) : i < k -> nth_error (repeat x k) i = Some x.
Proof. revert i; induction k as [|k IH]; intros [|i] H; cbn; try lia; [reflexivity|]. apply IH; lia. Qed.

Definition rank (p : phase) : nat := match p with Start => 0 | Running => 1 | Pending _ => 2 | Done => 3 end.

(** A step changes nothing but the phase of its thread, which advances. *)
Lemma step_shape (w : workers R) (i : nat) (w' : workers R) : step w i = Ok w' ->
  length (phases w') = length (phases w) /\ length (made w') = length (made w) /\
  (forall k, k <> i -> nth_error (phases w') k = nth_error (phases w) k /\ nth_error (made w') k = nth_error (made w) k) /\
  (forall p, nth_error (phases w) i = Some p -> exists p', nth_error (phases w') i = Some p' /\
     (rank p' = 3 \/ rank p < rank p')).
Proof.
  intros E. unfold worker_step in E.
  assert (Hi : forall p, nth_error (phases w) i = Some p -> i < length (phases w)).
  { intros p Hp. apply nth_error_Some. congruence. }
  destruct (nth_error (phases w) i) as [[| |b|]|] eqn:Ep.
  - injection E as <-. cbn [phases made]. rewrite set_phase_length. split; [reflexivity|]. split; [reflexivity|].
    split; [intros k Hk; rewrite set_phase_other by congruence; auto|]. intros p Hp. injection Hp as <-.
    eexists. split; [apply set_phase_same, (Hi _ eq_refl)|]. right. destruct (flag w); cbn; lia.
  - destruct (nth_error ops i) as [op|]; [|discriminate E]. destruct op as [r| |]; try discriminate E.
    cbn [obind] in E. injection E as <-. cbn [phases made]. rewrite set_phase_length, set_made_length.
    split; [reflexivity|]. split; [reflexivity|].
    split; [intros k Hk; rewrite set_phase_other, set_made_other by congruence; auto|].
    intros p Hp. injection Hp as <-.
    eexists. split; [apply set_phase_same, (Hi _ eq_refl)|]. right. cbn; lia.
  - injection E as <-. cbn [phases made]. rewrite set_phase_length. split; [reflexivity|]. split; [reflexivity|].
    split; [intros k Hk; rewrite set_phase_other by congruence; auto|]. intros p Hp. injection Hp as <-.
    eexists. split; [apply set_phase_same, (Hi _ eq_refl)|]. left. reflexivity.
  - injection E as <-. split; [reflexivity|]. split; [reflexivity|]. split; [auto|]. intros p Hp. injection Hp as <-.
    exists Done. split; [exact Ep|]. left. reflexivity.
  - injection E as <-. split; [reflexivity|]. split; [reflexivity|]. split; [auto|]. discriminate.
Qed.

Lemma rank_grows (sched : list nat) : forall (w w' : workers R) (k : nat) (p : phase),
  ofold step sched w = Ok w' -> nth_error (phases w) k = Some p ->
  exists p', nth_error (phases w') k = Some p' /\ Nat.min 3 (rank p + count_occ Nat.eq_dec sched k) <= rank p'.
Proof.
  induction sched as [|i l IH]; intros w w' k p E Hp; cbn [ofold] in E.
  - injection E as <-. exists p. split; [exact Hp|]. cbn [count_occ]. lia.
  - destruct (step w i) as [w1| |] eqn:E1; try discriminate E. cbn [obind] in E.
    destruct (step_shape w i w1 E1) as [_ [_ [Ho Hs]]]. cbn [count_occ].
    destruct (Nat.eq_dec i k) as [->|Hne].
    + destruct (Hs p Hp) as [p1 [Hp1 Hr]]. destruct (IH w1 w' k p1 E Hp1) as [p' [Hp' Hr']].
      exists p'. split; [exact Hp'|]. destruct Hr; lia.
    + destruct (IH w1 w' k p E) as [p' [Hp' Hr']]; [rewrite (proj1 (Ho k (not_eq_sym Hne))); exact Hp|]. eauto.
Qed.

Lemma complete_done (sched : list nat) (w : workers R) :
  complete n sched -> workers_run ops sched = Ok w ->
  forall i, i < n -> nth_error (phases w) i = Some Done.
Proof.
  intros Hs E i Hi. destruct (rank_grows sched _ w i Start E) as [p [Hp Hr]].
  { cbn [workers_start phases]. apply nth_repeat_error; exact Hi. }
  specialize (Hs i Hi). cbn [rank] in Hr. rewrite Hp. destruct p; cbn [rank] in Hr; try lia. reflexivity.
Qed.

(** ** Every operation succeeds *)
Section AllOk.
Variable rs : list (option R).
Hypothesis Hops : ops = map (fun r => Ok (true, r)) rs.

Definition good_worker (p : phase) (m r : option R) : Prop :=
  match p with Start | Running => m = None | Pending b => b = true /\ m = r | Done => m = r end.
Definition good_state (w : workers R) : Prop :=
  flag w = true /\ length (phases w) = length rs /\ length (made w) = length rs /\
  forall i r, nth_error rs i = Some r -> exists p m, nth_error (phases w) i = Some p /\ nth_error (made w) i = Some m /\
    good_worker p m r.

Lemma good_step (w : workers R) (i : nat) : good_state w -> exists w', step w i = Ok w' /\ good_state w'.
Proof.
  intros [Hf [L1 [L2 Hg]]]. unfold worker_step.
  destruct (nth_error rs i) as [r|] eqn:Er.
  2:{ assert (Hn : nth_error (phases w) i = None) by (apply nth_error_None; apply nth_error_None in Er; lia).
      rewrite Hn. eexists. split; [reflexivity|]. repeat split; auto. }
  assert (Hi : i < length rs) by (apply nth_error_Some; congruence).
  destruct (Hg i r Er) as [p [m [Hp [Hm Hpm]]]]. rewrite Hp.
  assert (Hother : forall w', length (phases w') = length rs -> length (made w') = length rs -> flag w' = true ->
            (forall k, k <> i -> nth_error (phases w') k = nth_error (phases w) k /\ nth_error (made w') k = nth_error (made w) k) ->
            (exists p' m', nth_error (phases w') i = Some p' /\ nth_error (made w') i = Some m' /\ good_worker p' m' r) ->
            good_state w').
  { intros w' A B C D F. split; [exact C|]. split; [exact A|]. split; [exact B|]. intros k r' Hr'.
    destruct (Nat.eq_dec k i) as [->|Hk]; [rewrite Er in Hr'; injection Hr' as <-; exact F|].
    destruct (D k Hk) as [-> ->]. apply Hg; exact Hr'. }
  destruct p as [| |b|]; cbn [good_worker] in Hpm.
  - rewrite Hf. eexists. split; [reflexivity|]. apply Hother; cbn [phases made flag]; auto.
    + rewrite set_phase_length; exact L1.
    + intros k Hk. rewrite set_phase_other by congruence. auto.
    + exists Running, m. rewrite set_phase_same by lia. auto.
  - rewrite Hops, nth_error_map, Er. cbn [option_map obind fst snd]. eexists. split; [reflexivity|].
    apply Hother; cbn [phases made flag]; auto.
    + rewrite set_phase_length; exact L1.
    + rewrite set_made_length; exact L2.
    + intros k Hk. rewrite set_phase_other, set_made_other by congruence. auto.
    + exists (Pending true), r. rewrite set_phase_same, set_made_same by lia. cbn. auto.
  - destruct Hpm as [-> ->]. eexists. split; [reflexivity|]. apply Hother; cbn [phases made flag]; auto.
    + rewrite set_phase_length; exact L1.
    + intros k Hk. rewrite set_phase_other by congruence. auto.
    + exists Done, r. rewrite set_phase_same by lia. cbn. auto.
  - eexists. split; [reflexivity|]. repeat split; auto.
Qed.

Lemma all_ok_run (sched : list nat) : complete n sched ->
  exists w, workers_run ops sched = Ok w /\ flag w = true /\ made w = rs.
Proof.
  intros Hs. destruct (run_ok_inv good_state sched good_step (workers_start n)) as [w [E [Hf [L1 [L2 Hg]]]]].
  { unfold good_state, workers_start. cbn [flag phases made]. split; [reflexivity|].
    rewrite !repeat_length, Hops, map_length.
    split; [reflexivity|]. split; [reflexivity|]. intros i r Hr.
    assert (Hi : i < length rs) by (apply nth_error_Some; congruence).
    exists Start, None. rewrite !nth_repeat_error by exact Hi. cbn. auto. }
  exists w. split; [exact E|]. split; [exact Hf|]. apply nth_error_ext_list; [exact L2|].
  intros i Hi. destruct (nth_error rs i) as [r|] eqn:Er; [|apply nth_error_None in Er; lia].
  destruct (Hg i r Er) as [p [m [Hp [Hm Hpm]]]].
  assert (Hn : i < n) by (rewrite Hops, map_length; lia).
  pose proof (complete_done sched w Hs E i Hn) as Hd. rewrite Hd in Hp. injection Hp as <-. cbn in Hpm. congruence.
Qed.
End AllOk.

(** ** The result is false only if an operation failed *)
Definition some_failed : Prop := exists i r, nth_error ops i = Some (Ok (false, r)).
Lemma false_failed (sched : list nat) (w : workers R) :
  workers_run ops sched = Ok w -> flag w = false -> some_failed.
Proof.
  intros E Hf.
  assert (H : (flag w = false \/ exists i, nth_error (phases w) i = Some (Pending false)) -> some_failed).
  { revert E. apply (run_inv (fun w => (flag w = false \/ exists i, nth_error (phases w) i = Some (Pending false)) -> some_failed)).
    - clear. intros w i w' IH E H. unfold worker_step in E.
      assert (Hp0 : forall p k, i < length (phases w) -> nth_error (set_phase (phases w) i p) k = Some (Pending false) ->
                p = Pending false \/ exists k, nth_error (phases w) k = Some (Pending false)).
      { intros p k Hi Hk. destruct (Nat.eq_dec i k) as [<-|Hne].
        - rewrite set_phase_same in Hk by exact Hi. left; congruence.
        - rewrite set_phase_other in Hk by exact Hne. eauto. }
      destruct (nth_error (phases w) i) as [[| |b|]|] eqn:Ep;
        try (assert (Hi : i < length (phases w)) by (apply nth_error_Some; congruence)).
      + injection E as <-. cbn [flag phases] in H. destruct H as [H|[k H]]; [auto|].
        destruct (flag w) eqn:Ef; [|auto]. destruct (Hp0 _ k Hi H) as [A|A]; [discriminate A|auto].
      + destruct (nth_error ops i) as [op|] eqn:Eo; [|discriminate E]. destruct op as [[b r]| |]; try discriminate E.
        cbn [obind] in E. injection E as <-. cbn [flag phases fst] in H. destruct H as [H|[k H]]; [auto|].
        destruct (Hp0 _ k Hi H) as [A|A]; [|auto]. injection A as ->. exists i, r. exact Eo.
      + injection E as <-. cbn [flag phases] in H. destruct H as [H|[k H]].
        * subst b. apply IH. right. exists i. exact Ep.
        * destruct (Hp0 _ k Hi H) as [A|A]; [discriminate A|auto].
      + injection E as <-. auto.
      + injection E as <-. auto.
    - cbn [workers_start flag phases]. intros [H|[i H]]; [discriminate H|]. exfalso.
      apply nth_error_In, repeat_spec in H. discriminate H. }
  apply H. left; exact Hf.
Qed.

(** ** One thread after the other *)
Definition returns (o : operation R) : bool := match o with Ok (b, _) => b | _ => false end.
Definition leaves (o : operation R) : option R := match o with Ok (_, r) => r | _ => None end.
Definition defined (o : operation R) : Prop := exists b r, o = Ok (b, r).

Lemma three_steps (w : workers R) (i : nat) (o : operation R) :
  length (phases w) = n -> length (made w) = n ->
  nth_error ops i = Some o -> defined o -> nth_error (phases w) i = Some Start ->
  exists w', ofold step [i; i; i] w = Ok w' /\ flag w' = flag w && returns o /\
    length (phases w') = n /\ length (made w') = n /\
    (forall k, k <> i -> nth_error (phases w') k = nth_error (phases w) k /\ nth_error (made w') k = nth_error (made w) k) /\
    nth_error (made w') i = (if flag w then Some (leaves o) else nth_error (made w) i).
Proof.
  intros L1 L2 Ho [b [r ->]] Hs.
  assert (Hi : i < n) by (apply nth_error_Some; congruence).
  cbn [ofold]. unfold worker_step at 1. rewrite Hs. cbn [obind]. destruct (flag w) eqn:Ef.
  - unfold worker_step at 1. cbn [phases flag made]. rewrite set_phase_same by lia. rewrite Ho. cbn [obind fst snd].
    unfold worker_step. cbn [phases flag made]. rewrite set_phase_same by (rewrite set_phase_length; lia). cbn [obind].
    eexists. split; [reflexivity|]. cbn [phases flag made]. rewrite !set_phase_length, set_made_length.
    split; [reflexivity|]. split; [exact L1|]. split; [exact L2|]. split.
    + intros k Hk. rewrite !set_phase_other, set_made_other by congruence. auto.
    + rewrite set_made_same by lia. reflexivity.
  - unfold worker_step at 1. cbn [phases flag made]. rewrite set_phase_same by lia. cbn [obind].
    unfold worker_step. cbn [phases flag made]. rewrite set_phase_same by (rewrite set_phase_length; lia). cbn [obind].
    eexists. split; [reflexivity|]. cbn [phases flag made]. rewrite !set_phase_length.
    split; [reflexivity|]. split; [exact L1|]. split; [exact L2|]. split; [|reflexivity].
    intros k Hk. rewrite !set_phase_other by congruence. auto.
Qed.

Lemma one_by_one_run (order : list nat) : forall (w : workers R),
  length (phases w) = n -> length (made w) = n -> NoDup order -> Forall (fun i => i < n) order -> Forall defined ops ->
  (forall i, In i order -> nth_error (phases w) i = Some Start) ->
  exists w', ofold step (one_by_one order) w = Ok w' /\
    flag w' = flag w && forallb (fun i => match nth_error ops i with Some o => returns o | None => false end) order /\
    length (made w') = n /\
    (forall i, ~ In i order -> nth_error (made w') i = nth_error (made w) i) /\
    (flag w' = true -> forall i o, In i order -> nth_error ops i = Some o -> nth_error (made w') i = Some (leaves o)).
Proof.
  induction order as [|i order IH]; intros w L1 L2 Hn Hb Hd Hs.
  - exists w. cbn [one_by_one flat_map ofold forallb]. rewrite andb_true_r. repeat split; auto. intros _ i o [].
  - inversion Hn as [|? ? Hni Hn']; subst. inversion Hb as [|? ? Hi Hb']; subst.
    destruct (nth_error ops i) as [o|] eqn:Eo; [|apply nth_error_None in Eo; lia].
    assert (Ho : defined o) by (rewrite Forall_forall in Hd; apply Hd; eapply nth_error_In; exact Eo).
    destruct (three_steps w i o L1 L2 Eo Ho (Hs i (or_introl eq_refl))) as [w1 [E1 [F1 [A1 [B1 [O1 M1]]]]]].
    destruct (IH w1 A1 B1 Hn' Hb' Hd) as [w' [E [F [L [O M]]]]].
    { intros k Hk. rewrite (proj1 (O1 k ltac:(intros ->; contradiction))). apply Hs. right; exact Hk. }
    exists w'. change (one_by_one (i :: order)) with ([i; i; i] ++ one_by_one order). rewrite ofold_app, E1. cbn [obind].
    split; [exact E|]. cbn [forallb]. rewrite Eo, F, F1, andb_assoc. split; [reflexivity|]. split; [exact L|]. split.
    + intros k Hk. rewrite O by (intros H; apply Hk; right; exact H). apply O1. intros ->. apply Hk. left; reflexivity.
    + intros Hf k o' [<-|Hk] Ho'.
      * rewrite Eo in Ho'. injection Ho' as <-. rewrite (O i Hni), M1.
        destruct (flag w); [reflexivity|]. discriminate Hf.
      * apply M; auto. rewrite F, F1. exact Hf.
Qed.

Lemma forallb_seq (f : operation R -> bool) (l : list (operation R)) (order : list nat) :
  Permutation order (seq 0 (length l)) ->
  forallb (fun i => match nth_error l i with Some o => f o | None => false end) order = forallb f l.
Proof.
  intros Hp. apply eq_true_iff_eq. rewrite !forallb_forall. split.
  - intros H o Ho. apply In_nth_error in Ho. destruct Ho as [i Hi].
    assert (Hl : i < length l) by (apply nth_error_Some; congruence).
    specialize (H i). rewrite Hi in H. apply H. apply (Permutation_in _ (Permutation_sym Hp)), in_seq. lia.
  - intros H i Hi. apply (Permutation_in _ Hp), in_seq in Hi.
    destruct (nth_error l i) as [o|] eqn:E; [|apply nth_error_None in E; lia]. apply H. eapply nth_error_In; exact E.
Qed.

Lemma one_by_one_spec (order : list nat) : Permutation order (seq 0 n) -> Forall defined ops ->
  exists w, workers_run ops (one_by_one order) = Ok w /\ flag w = forallb returns ops /\
    (flag w = true -> made w = map leaves ops).
Proof.
  intros Hp Hd.
  destruct (one_by_one_run order (workers_start n)) as [w [E [F [L [_ M]]]]].
  - cbn [workers_start phases]. apply repeat_length.
  - cbn [workers_start made]. apply repeat_length.
  - apply (Permutation_NoDup (Permutation_sym Hp)), seq_NoDup.
  - apply Forall_forall. intros i Hi. apply (Permutation_in _ Hp), in_seq in Hi. lia.
  - exact Hd.
  - intros i Hi. apply (Permutation_in _ Hp), in_seq in Hi. cbn [workers_start phases]. apply nth_repeat_error. lia.
  - exists w. split; [exact E|]. split; [rewrite F; cbn [workers_start flag andb]; apply forallb_seq; exact Hp|].
    intros Hf. apply nth_error_ext_list; [rewrite map_length; exact L|]. intros i Hi. rewrite L in Hi.
    destruct (nth_error ops i) as [o|] eqn:Eo; [|apply nth_error_None in Eo; lia].
    rewrite nth_error_map, Eo. apply M; auto. apply (Permutation_in _ (Permutation_sym Hp)), in_seq. lia.
Qed.

Lemma complete_one_by_one (order : list nat) : Permutation order (seq 0 n) -> complete n (one_by_one order).
Proof.
  intros Hp i Hi.
  assert (Hin : In i order) by (apply (Permutation_in _ (Permutation_sym Hp)), in_seq; lia).
  clear Hp Hi. induction order as [|k l IH]; [destruct Hin|].
  change (one_by_one (k :: l)) with ([k; k; k] ++ one_by_one l). rewrite count_occ_app.
  destruct Hin as [->|Hin]; [|specialize (IH Hin); lia]. cbn [count_occ]. destruct (Nat.eq_dec i i); [lia|contradiction].
Qed.

(** ** Any failure can be hidden by any success *)
(** Threads in [l] make a step that takes them from phase [from i] to phase [to i], flag unchanged. *)
Lemma sweep (from to : nat -> phase) (fl : bool) (mk : nat -> option R -> option R) :
  (forall (w : workers R) i, i < n -> length (phases w) = n -> length (made w) = n -> flag w = fl -> nth_error (phases w) i = Some (from i) ->
     forall m, nth_error (made w) i = Some m ->
     exists w', step w i = Ok w' /\ flag w' = fl /\ nth_error (phases w') i = Some (to i) /\ nth_error (made w') i = Some (mk i m)) ->
  forall (l : list nat) (w : workers R), NoDup l -> Forall (fun i => i < n) l ->
  length (phases w) = n -> length (made w) = n -> flag w = fl -> (forall i, In i l -> nth_error (phases w) i = Some (from i)) ->
  exists w', ofold step l w = Ok w' /\ flag w' = fl /\ length (phases w') = n /\ length (made w') = n /\
    (forall i, In i l -> nth_error (phases w') i = Some (to i)) /\
    (forall i, ~ In i l -> nth_error (phases w') i = nth_error (phases w) i).
Proof.
  intros H. induction l as [|i l IH]; intros w Hn Hb L1 L2 Hf Hs; cbn [ofold].
  - exists w. repeat split; auto. intros i [].
  - inversion Hn as [|? ? Hni Hn']; subst. inversion Hb as [|? ? Hi Hb']; subst.
    destruct (nth_error (made w) i) as [m|] eqn:Em; [|apply nth_error_None in Em; lia].
    destruct (H w i Hi L1 L2 eq_refl (Hs i (or_introl eq_refl)) m Em) as [w1 [E1 [F1 [P1 M1]]]].
    destruct (step_shape w i w1 E1) as [A1 [B1 [O1 _]]].
    destruct (IH w1 Hn' Hb' ltac:(congruence) ltac:(congruence) F1) as [w' [E [F [A [B [P O]]]]]].
    { intros k Hk. rewrite (proj1 (O1 k ltac:(intros ->; contradiction))). apply Hs. right; exact Hk. }
    exists w'. rewrite E1. cbn [obind]. split; [exact E|]. split; [exact F|]. split; [exact A|]. split; [exact B|]. split.
    + intros k [<-|Hk]; [rewrite (O i Hni); exact P1|apply P; exact Hk].
    + intros k Hk. rewrite O by (intros Hk'; apply Hk; right; exact Hk'). apply O1. intros ->. apply Hk. left; reflexivity.
Qed.

Lemma hide (i : nat) (o : operation R) : Forall defined ops -> nth_error ops i = Some o -> returns o = true ->
  exists sched w, complete n sched /\ workers_run ops sched = Ok w /\ flag w = true.
Proof.
  intros Hd Ho Hr. assert (Hi : i < n) by (apply nth_error_Some; congruence).
  set (res := fun k => match nth_error ops k with Some o => returns o | None => false end).
  set (lv := fun k => match nth_error ops k with Some o => leaves o | None => None end).
  set (others := remove Nat.eq_dec i (seq 0 n)).
  assert (Hseq : Forall (fun k => k < n) (seq 0 n)) by (apply Forall_forall; intros k Hk; apply in_seq in Hk; lia).
  (* every thread reads *)
  destruct (sweep (fun _ => Start) (fun _ => Running) true (fun _ m => m)) with (l := seq 0 n) (w := @workers_start R n)
    as [w1 [E1 [F1 [A1 [B1 [P1 _]]]]]].
  { intros w k Hk L1 L2 Hf Hp m Hm. unfold worker_step. rewrite Hp, Hf. eexists. split; [reflexivity|].
    cbn [flag phases made]. rewrite set_phase_same by lia. auto. }
  { apply seq_NoDup. } { exact Hseq. } { apply repeat_length. } { apply repeat_length. } { reflexivity. }
  { intros k Hk. apply in_seq in Hk. cbn [workers_start phases]. apply nth_repeat_error. lia. }
  (* every thread runs its operation *)
  destruct (sweep (fun _ => Running) (fun k => Pending (res k)) true (fun k _ => lv k)) with (l := seq 0 n) (w := w1)
    as [w2 [E2 [F2 [A2 [B2 [P2 _]]]]]].
  { intros w k Hk L1 L2 Hf Hp m Hm. unfold worker_step. rewrite Hp. subst res lv. cbv beta.
    destruct (nth_error ops k) as [o'|] eqn:Eo; [|apply nth_error_None in Eo; lia].
    destruct (proj1 (Forall_forall defined ops) Hd o' (nth_error_In _ _ Eo)) as [b [r ->]]. cbn [obind fst snd returns leaves].
    eexists. split; [reflexivity|]. cbn [flag phases made]. rewrite set_phase_same, set_made_same by lia. auto. }
  { apply seq_NoDup. } { exact Hseq. } { exact A1. } { exact B1. } { exact F1. } { exact P1. }
  (* all but thread i write *)
  assert (Hw3 : exists w3, ofold step others w2 = Ok w3 /\ length (phases w3) = n /\
            nth_error (phases w3) i = Some (Pending (res i))).
  { destruct (run_ok_inv (fun w => length (phases w) = n /\ length (made w) = n /\
        forall k, k < n -> nth_error (phases w) k = Some (Pending (res k)) \/ nth_error (phases w) k = Some Done) others)
      with (w := w2) as [w3 [E3 [A3 [B3 P3]]]].
    - intros w k [L1 [L2 Hk]]. unfold worker_step. destruct (nth_error (phases w) k) as [p|] eqn:Ep; [|eauto].
      assert (Hkn : k < n) by (rewrite <- L1; apply nth_error_Some; congruence).
      destruct (Hk k Hkn) as [H|H]; rewrite Ep in H; injection H as ->; [|eauto].
      eexists. split; [reflexivity|]. cbn [phases made]. rewrite set_phase_length. split; [exact L1|]. split; [exact L2|].
      intros k' Hk'. destruct (Nat.eq_dec k k') as [<-|Hne].
      + rewrite set_phase_same by lia. auto.
      + rewrite set_phase_other by exact Hne. apply Hk; exact Hk'.
    - split; [exact A2|]. split; [exact B2|]. intros k Hk. left. apply P2, in_seq. lia.
    - exists w3. split; [exact E3|]. split; [exact A3|].
      assert (Hkeep : forall l w w', ~ In i l -> ofold step l w = Ok w' -> nth_error (phases w') i = nth_error (phases w) i).
      { induction l as [|k l IH]; intros w w' Hni E; cbn [ofold] in E; [injection E as <-; reflexivity|].
        destruct (step w k) as [wk| |] eqn:Ek; try discriminate E. cbn [obind] in E.
        rewrite (IH wk w' (fun H => Hni (or_intror H)) E).
        apply (step_shape w k wk Ek). intros ->. apply Hni. left; reflexivity. }
      rewrite (Hkeep others w2 w3 (remove_In _ _ _) E3). apply P2, in_seq. lia. }
  destruct Hw3 as [w3 [E3 [A3 P3]]].
  exists (seq 0 n ++ seq 0 n ++ others ++ [i]). eexists. split; [|split].
  - intros k Hk. rewrite !count_occ_app.
    assert (H1 : count_occ Nat.eq_dec (seq 0 n) k >= 1).
    { apply count_occ_In, in_seq. lia. }
    assert (H2 : count_occ Nat.eq_dec others k + count_occ Nat.eq_dec [i] k >= 1).
    { destruct (Nat.eq_dec k i) as [->|Hne].
      - cbn [count_occ]. destruct (Nat.eq_dec i i); [lia|contradiction].
      - assert (In k others) by (apply in_in_remove; [exact Hne|apply in_seq; lia]).
        apply count_occ_In with (eq_dec := Nat.eq_dec) in H. lia. }
    lia.
  - unfold workers_run. rewrite ofold_app, E1. cbn [obind]. rewrite ofold_app, E2. cbn [obind]. rewrite ofold_app, E3.
    cbn [obind ofold]. unfold worker_step. rewrite P3. cbn [obind]. reflexivity.
  - cbn [flag]. subst res. cbv beta. rewrite Ho. exact Hr.
Qed.
End Facts.

Section Exact.
Context {R : Type}.
Lemma defined_results (results : list (bool * option R)) : Forall defined (map Ok results).
Proof. apply Forall_map, Forall_forall. intros [b r] _. exists b, r. reflexivity. Qed.
Lemma one_by_one_exact (results : list (bool * option R)) (order : list nat) :
  Permutation order (seq 0 (length results)) ->
  exists w, workers_run (map Ok results) (one_by_one order) = Ok w /\
    (flag w = true <-> Forall (fun r => fst r = true) results) /\
    (flag w = true -> made w = map snd results).
Proof.
  intros Hp. destruct (one_by_one_spec (map Ok results) order) as [w [E [F M]]].
  - rewrite map_length. exact Hp.
  - apply defined_results.
  - exists w. split; [exact E|]. split.
    + rewrite F. rewrite forallb_forall, Forall_forall. split.
      * intros H [b r] Hin. specialize (H (Ok (b, r)) (in_map Ok _ _ Hin)). exact H.
      * intros H o Ho. apply in_map_iff in Ho. destruct Ho as [[b r] [<- Hin]]. apply (H _ Hin).
    + intros Hf. rewrite (M Hf), map_map. apply map_ext. intros [b r]. reflexivity.
Qed.
Lemma hide_results (results : list (bool * option R)) :
  Exists (fun r => fst r = true) results ->
  exists sched w, complete (length results) sched /\ workers_run (map Ok results) sched = Ok w /\ flag w = true.
Proof.
  intros H. apply Exists_exists in H. destruct H as [[b r] [Hin Hb]]. cbn [fst] in Hb. subst b.
  apply In_nth_error in Hin. destruct Hin as [i Hi].
  destruct (hide (map Ok results) i (Ok (true, r))) as [sched [w [A B]]].
  - apply defined_results.
  - rewrite nth_error_map, Hi. reflexivity.
  - reflexivity.
  - exists sched, w. rewrite map_length in A. split; [exact A|exact B].
Qed.
End Exact.
