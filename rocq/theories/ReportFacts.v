(** Facts about what save and load report. *)
From Verif Require Import Base SeqModel IndexModel OctreeSpec OctreeModel MapModel BackendModel SysModel LoaderModel
  HeapFacts SerialModel SerialSpec ThreadModel ThreadSpec ThreadFacts FileModel.
Open Scope Z_scope.

Section Workers.
Context {R : Type}.
Variable ops : list (operation R).
Notation n := (length ops).
Notation step := (worker_step ops).

(** If no operation returns false and the run is defined, every operation has returned true. *)
Lemma all_returned (sched : list nat) (w : workers R) :
  (forall i r, nth_error ops i <> Some (Ok (false, r))) ->
  complete n sched -> workers_run ops sched = Ok w ->
  forall i, (i < n)%nat -> exists r, nth_error ops i = Some (Ok (true, r)).
Proof.
  intros Hno Hs E i Hi. pose proof (complete_done ops sched w Hs E i Hi) as Hd.
  assert (H : flag w = true /\ length (phases w) = n /\
    forall k, (nth_error (phases w) k <> Some (Pending false)) /\
      ((nth_error (phases w) k = Some (Pending true) \/ nth_error (phases w) k = Some Done) ->
       exists r, nth_error ops k = Some (Ok (true, r)))).
  { revert E. apply (run_inv ops (fun w => flag w = true /\ length (phases w) = n /\
      forall k, (nth_error (phases w) k <> Some (Pending false)) /\
      ((nth_error (phases w) k = Some (Pending true) \/ nth_error (phases w) k = Some Done) ->
       exists r, nth_error ops k = Some (Ok (true, r))))).
    - clear -Hno. intros w i w' [Hf [HL IH]] E. unfold worker_step in E.
      destruct (nth_error (phases w) i) as [p|] eqn:Ep; [|injection E as <-; auto].
      assert (Hi : (i < length (phases w))%nat) by (apply nth_error_Some; congruence).
      assert (Hset : forall q, (q <> Pending false) ->
        ((q = Pending true \/ q = Done) -> exists r, nth_error ops i = Some (Ok (true, r))) ->
        forall k, (nth_error (set_phase (phases w) i q) k <> Some (Pending false)) /\
          ((nth_error (set_phase (phases w) i q) k = Some (Pending true) \/ nth_error (set_phase (phases w) i q) k = Some Done) ->
           exists r, nth_error ops k = Some (Ok (true, r)))).
      { intros q Hq Hr k. destruct (Nat.eq_dec i k) as [<-|Hne].
        - rewrite set_phase_same by exact Hi. split; [congruence|]. intros [A|A]; injection A as ->; apply Hr; auto.
        - rewrite set_phase_other by exact Hne. apply IH. }
      destruct p as [| |b|].
      + injection E as <-. cbn [flag phases]. rewrite Hf, set_phase_length. split; [reflexivity|]. split; [exact HL|].
        apply Hset; [discriminate|]. intros [A|A]; discriminate A.
      + destruct (nth_error ops i) as [op|] eqn:Eo; [|discriminate E]. destruct op as [[b r]| |]; try discriminate E.
        cbn [obind fst snd] in E. injection E as <-. cbn [flag phases]. rewrite set_phase_length. split; [exact Hf|]. split; [exact HL|].
        destruct b; [|exfalso; exact (Hno i r Eo)]. apply Hset; [discriminate|]. intros _. exists r. reflexivity.
      + injection E as <-. cbn [flag phases]. rewrite set_phase_length. destruct (IH i) as [A B].
        destruct b; [|exfalso; apply A; exact Ep]. split; [reflexivity|]. split; [exact HL|].
        apply Hset; [discriminate|]. intros _. apply B. left; exact Ep.
      + injection E as <-. auto.
    - cbn [workers_start flag phases]. split; [reflexivity|]. split; [apply repeat_length|]. intros k. split.
      + intros H. apply nth_error_In, repeat_spec in H. discriminate H.
      + intros [H|H]; apply nth_error_In, repeat_spec in H; discriminate H. }
  destruct H as [_ [_ H]]. apply (H i). right; exact Hd.
Qed.

(** One after the other: success means that every operation returned true. *)
Lemma three_true (w w' : workers R) (i : nat) : nth_error (phases w) i = Some Start ->
  ofold step [i; i; i] w = Ok w' -> flag w' = true ->
  flag w = true /\ (exists r, nth_error ops i = Some (Ok (true, r))).
Proof.
  intros Hs E Hf. assert (Hi : (i < length (phases w))%nat) by (apply nth_error_Some; congruence).
  cbn [ofold] in E. unfold worker_step at 1 in E. rewrite Hs in E. cbn [obind] in E. destruct (flag w) eqn:Ef.
  - unfold worker_step at 1 in E. cbn [phases flag made] in E. rewrite set_phase_same in E by lia.
    destruct (nth_error ops i) as [o|] eqn:Eo; [|discriminate E]. destruct o as [[b r]| |]; try discriminate E.
    cbn [obind fst snd] in E. unfold worker_step in E. cbn [phases flag made] in E.
    rewrite set_phase_same in E by (rewrite set_phase_length; lia). cbn [obind] in E. injection E as <-.
    cbn [flag] in Hf. subst b. split; [reflexivity|]. exists r. reflexivity.
  - exfalso. unfold worker_step at 1 in E. cbn [phases flag made] in E. rewrite set_phase_same in E by lia. cbn [obind] in E.
    unfold worker_step in E. cbn [phases flag made] in E.
    rewrite set_phase_same in E by (rewrite set_phase_length; lia). cbn [obind] in E. injection E as <-. discriminate Hf.
Qed.
Lemma one_by_one_true (order : list nat) : forall (w w' : workers R),
  NoDup order -> (forall i, In i order -> nth_error (phases w) i = Some Start) ->
  ofold step (one_by_one order) w = Ok w' -> flag w' = true ->
  flag w = true /\ forall i, In i order -> exists r, nth_error ops i = Some (Ok (true, r)).
Proof.
  induction order as [|i order IH]; intros w w' Hn Hs E Hf.
  - cbn in E. injection E as <-. split; [exact Hf|]. intros i [].
  - inversion Hn as [|? ? Hni Hn']; subst.
    change (one_by_one (i :: order)) with ([i; i; i] ++ one_by_one order) in E. rewrite ofold_app in E.
    destruct (ofold step [i; i; i] w) as [w1| |] eqn:E1; try discriminate E. cbn [obind] in E.
    assert (Hk : forall k, k <> i -> nth_error (phases w1) k = nth_error (phases w) k).
    { intros k Hk. cbn [ofold] in E1.
      destruct (step w i) as [wa| |] eqn:Ea; try discriminate E1. cbn [obind] in E1.
      destruct (step wa i) as [wb| |] eqn:Eb; try discriminate E1. cbn [obind] in E1.
      destruct (step wb i) as [wc| |] eqn:Ec; try discriminate E1. cbn [obind] in E1. injection E1 as <-.
      destruct (step_shape ops w i wa Ea) as [_ [_ [A _]]]. destruct (step_shape ops wa i wb Eb) as [_ [_ [B _]]].
      destruct (step_shape ops wb i wc Ec) as [_ [_ [C _]]].
      rewrite (proj1 (C k Hk)), (proj1 (B k Hk)), (proj1 (A k Hk)). reflexivity. }
    destruct (IH w1 w' Hn') as [F1 H1]; [|exact E|exact Hf|].
    { intros k Hin. rewrite Hk by (intros ->; contradiction). apply Hs. right; exact Hin. }
    destruct (three_true w w1 i (Hs i (or_introl eq_refl)) E1 F1) as [F0 H0]. split; [exact F0|].
    intros k [<-|Hin]; [exact H0|apply H1; exact Hin].
Qed.
Lemma one_by_one_success (order : list nat) (w : workers R) : Permutation order (seq 0 n) ->
  workers_run ops (one_by_one order) = Ok w -> flag w = true ->
  forall i, (i < n)%nat -> exists r, nth_error ops i = Some (Ok (true, r)).
Proof.
  intros Hp E Hf i Hi. apply (one_by_one_true order (workers_start n) w); try assumption.
  - apply (Permutation_NoDup (Permutation_sym Hp)), seq_NoDup.
  - intros k Hk. apply (Permutation_in _ Hp), in_seq in Hk. cbn [workers_start phases]. apply nth_repeat_error. lia.
  - apply (Permutation_in _ (Permutation_sym Hp)), in_seq. lia.
Qed.
End Workers.

Lemma nth_error_seq_map {A : Type} (f : nat -> A) (n i : nat) : (i < n)%nat -> nth_error (map f (seq 0 n)) i = Some (f i).
Proof.
  intros H. rewrite nth_error_map, (nth_error_nth' (seq 0 n) 0%nat) by (rewrite seq_length; exact H).
  rewrite seq_nth by exact H. reflexivity.
Qed.

Section Map.
Variable junk : list Z -> nat -> list Z.
Context {P Po T : Type}.
Variable po : codec Po.
Variable tp : codec T.
Variable fmt : format P.
Variable c : config P.
Notation n := (bin_count (dimc c)).

Lemma save_reports (s0 order : list nat) (e : environment) (origin : Po) (resolution : T) (m : cmap c) (d : directory) :
  complete n s0 -> map_save po tp fmt c all_open s0 origin resolution m = Ok (true, Some d) ->
  Permutation order (seq 0 n) ->
  exists b p, map_save po tp fmt c e (one_by_one order) origin resolution m = Ok (b, p) /\
    (b = true <-> no_directory e = None /\ open_header e = true /\ forall i, (i < n)%nat -> open_store e i = true).
Proof.
  intros Hs E Hp. unfold map_save in *. cbn [all_open no_directory open_header] in E.
  destruct (map_header po tp c origin resolution m) as [h| |]; try discriminate E. cbn [obind] in E.
  destruct (workers_run (map (save_operation fmt c all_open m) (seq 0 n)) s0) as [w| |] eqn:Ew; try discriminate E.
  destruct (no_directory e) as [p|].
  { eexists _, _. split; [reflexivity|]. split; [discriminate|]. intros [H _]. discriminate H. }
  destruct (open_header e).
  2:{ eexists _, _. split; [reflexivity|]. split; [discriminate|]. intros [_ [H _]]. discriminate H. }
  cbn [obind].
  assert (Hops : forall i, (i < n)%nat -> exists bs, save_operation fmt c all_open m i = Ok (true, Some bs)).
  { intros i Hi. pose proof (all_returned (map (save_operation fmt c all_open m) (seq 0 n)) s0 w) as H.
    rewrite map_length, seq_length in H. destruct (H) with (i := i) as [r Hr]; try assumption.
    - intros k r Hk. apply nth_error_In, in_map_iff in Hk. destruct Hk as [k' [Hk _]].
      unfold save_operation in Hk. cbn [all_open open_store] in Hk.
      destruct (get_store _ _ m k'); try discriminate Hk. cbn [obind] in Hk.
      destruct (storage_save _ _ _); discriminate Hk.
    - rewrite nth_error_seq_map in Hr by exact Hi. injection Hr as Hr. rewrite Hr.
      unfold save_operation in Hr. cbn [all_open open_store] in Hr.
      destruct (get_store _ _ m i); try discriminate Hr. cbn [obind] in Hr.
      destruct (storage_save _ _ _); try discriminate Hr. cbn [obind] in Hr. injection Hr as <-. eauto. }
  assert (He : forall i, (i < n)%nat -> exists r, save_operation fmt c e m i = Ok (open_store e i, r)).
  { intros i Hi. destruct (Hops i Hi) as [bs Hb]. unfold save_operation in *. cbn [all_open open_store keep_store] in Hb.
    destruct (open_store e i); [|eauto]. destruct (get_store _ _ m i); try discriminate Hb. cbn [obind] in *.
    destruct (storage_save _ _ _); try discriminate Hb. cbn [obind]. eauto. }
  destruct (one_by_one_spec (map (save_operation fmt c e m) (seq 0 n)) order) as [w1 [E1 [F1 _]]].
  - rewrite map_length, seq_length. exact Hp.
  - apply Forall_forall. intros o Ho. apply in_map_iff in Ho. destruct Ho as [i [<- Hi]]. apply in_seq in Hi.
    destruct (He i ltac:(lia)) as [r ->]. exists (open_store e i), r. reflexivity.
  - rewrite E1. cbn [obind]. eexists _, _. split; [reflexivity|]. rewrite F1, forallb_forall. split.
    + intros H. split; [reflexivity|]. split; [reflexivity|]. intros i Hi. destruct (He i Hi) as [r Hr].
      specialize (H (save_operation fmt c e m i)). rewrite Hr in H. cbn [returns] in H. apply H.
      apply in_map_iff. exists i. rewrite Hr. split; [reflexivity|]. apply in_seq. lia.
    + intros [_ [_ H]] o Ho. apply in_map_iff in Ho. destruct Ho as [i [<- Hi]]. apply in_seq in Hi.
      destruct (He i ltac:(lia)) as [r ->]. cbn [returns]. apply H. lia.
Qed.

Lemma load_missing (e : environment) (sched : list nat) (g : nat -> Z) (p : place) :
  (forall d, p = Some d -> header_file d = None \/ In None (store_files d) \/ open_header e = false) ->
  map_load junk po tp fmt c e sched g p = Ok None.
Proof.
  intros H. unfold map_load. destruct p as [d|]; [|reflexivity]. destruct (H d eq_refl) as [Hd|[Hd|Hd]].
  - rewrite Hd. destruct (forallb _ _); reflexivity.
  - destruct (forallb _ _) eqn:E; [|reflexivity]. rewrite forallb_forall in E. specialize (E None Hd). discriminate E.
  - rewrite Hd. destruct (forallb _ _); [|reflexivity]. destruct (header_file d); reflexivity.
Qed.

Lemma load_reports (order : list nat) (e : environment) (g : nat -> Z) (p : place) (x : loaded c) :
  Permutation order (seq 0 n) ->
  map_load junk po tp fmt c e (one_by_one order) g p = Ok (Some x) ->
  exists d h, p = Some d /\ header_file d = Some h /\ open_header e = true /\
    forall i, (i < n)%nat -> open_store e i = true /\ exists f, nth_error (store_files d) i = Some (Some f).
Proof.
  intros Hp E. unfold map_load in E. destruct p as [d|]; [|discriminate E].
  destruct (forallb _ _); [|discriminate E]. destruct (header_file d) as [h|] eqn:Eh; [|discriminate E].
  destruct (open_header e); [|discriminate E]. destruct (map_header_load junk po tp c h) as [[[[o r] [[s mn] mx]] l]| |]; try discriminate E.
  cbn [obind] in E.
  destruct (workers_run _ _) as [w| |] eqn:Ew; try discriminate E. cbn [obind] in E.
  destruct (flag w) eqn:Ef; [|discriminate E].
  exists d, h. split; [reflexivity|]. split; [exact Eh|]. split; [reflexivity|]. intros i Hi.
  pose proof (one_by_one_success _ order w ltac:(rewrite map_length, seq_length; exact Hp) Ew Ef i
    ltac:(rewrite map_length, seq_length; exact Hi)) as [q Hq].
  rewrite nth_error_seq_map in Hq by exact Hi. injection Hq as Hq. unfold load_operation in Hq.
  destruct (nth_error (store_files d) i) as [[f|]|]; try discriminate Hq. destruct (open_store e i); [|discriminate Hq].
  split; [reflexivity|]. exists f. reflexivity.
Qed.
End Map.
