From Verif Require Import Base SeqModel SeqFacts IndexModel.
Open Scope Z_scope.

Lemma two_pow_spec (d : nat) : two_pow d = (2 ^ d)%nat.
Proof.
  induction d as [|d IH]; cbn [two_pow]; [reflexivity|].
  rewrite Nat.shiftl_mul_pow2, IH, Nat.pow_succ_r'. cbn. lia.
Qed.

Lemma counter_bit_spec (k d : nat) : counter_bit k d = Nat.testbit k d.
Proof.
  unfold counter_bit. rewrite two_pow_spec, <- Nat.shiftr_div_pow2.
  replace (Nat.testbit k d) with (Nat.testbit (Nat.shiftr k d) 0)
    by (rewrite Nat.shiftr_spec by lia; reflexivity).
  set (m := Nat.shiftr k d).
  assert (H : Nat.land m 1 = (m mod 2)%nat) by exact (Nat.land_ones m 1).
  rewrite H, <- Nat.bit0_mod. destruct (Nat.testbit m 0); reflexivity.
Qed.

Lemma shiftr1_div (z : Z) : Z.shiftr z 1 = z / 2.
Proof. rewrite Z.shiftr_div_pow2 by lia. reflexivity. Qed.

Lemma land1_mod (z : Z) : Z.land z 1 = z mod 2.
Proof. change 1 with (Z.ones 1). rewrite Z.land_ones by lia. reflexivity. Qed.

Lemma get_index_inner_spec (b : Z) (k d : nat) :
  get_index_inner b k d = if Nat.testbit k d then (b + 1) / 2 else b / 2.
Proof.
  unfold get_index_inner. rewrite counter_bit_spec, shiftr1_div, land1_mod.
  destruct (Nat.testbit k d); [|reflexivity].
  Z.div_mod_to_equations; lia.
Qed.

Lemma generate_index_length (bi : idx) (k : nat) : length (generate_index bi k) = length bi.
Proof.
  unfold generate_index. rewrite map_length, make_integer_sequence_spec. apply seq_length.
Qed.

Lemma generate_index_nth (bi : idx) (k d : nat) :
  (d < length bi)%nat ->
  nth d (generate_index bi k) 0 =
  if Nat.testbit k d then (nth d bi 0 + 1) / 2 else nth d bi 0 / 2.
Proof.
  intros Hd. rewrite <- get_index_inner_spec.
  exact (to_array_nth (length bi) (fun d => get_index_inner (nth d bi 0) k d) d 0 Hd).
Qed.

(** offset of family [k] on axis [d]: 1 if shifted by half a cell *)
Definition shift_of (k d : nat) : Z := if Nat.testbit k d then 1 else 0.

Lemma inner_iff (b j : Z) (k d : nat) :
  get_index_inner b k d = j <-> 2 * j - shift_of k d <= b <= 2 * j - shift_of k d + 1.
Proof.
  rewrite get_index_inner_spec. unfold shift_of.
  destruct (Nat.testbit k d); split; intros H; Z.div_mod_to_equations; lia.
Qed.

Lemma list_eq_nth (a b : idx) :
  length a = length b -> (forall d, (d < length a)%nat -> nth d a 0 = nth d b 0) -> a = b.
Proof. intros HL H. apply (nth_ext a b 0 0 HL H). Qed.

Lemma generate_index_iff (bi j : idx) (k : nat) :
  generate_index bi k = j <->
  length bi = length j /\
  (forall d, (d < length bi)%nat ->
     2 * nth d j 0 - shift_of k d <= nth d bi 0 <= 2 * nth d j 0 - shift_of k d + 1).
Proof.
  split.
  - intros <-. rewrite generate_index_length. split; [reflexivity|]. intros d Hd.
    apply inner_iff.
    rewrite generate_index_nth by exact Hd. apply get_index_inner_spec.
  - intros [HL H]. apply list_eq_nth; [rewrite generate_index_length; exact HL|].
    rewrite generate_index_length. intros d Hd.
    rewrite generate_index_nth by exact Hd.
    rewrite <- (get_index_inner_spec (nth d bi 0) k d). apply inner_iff. apply H. exact Hd.
Qed.

Lemma generate_indices_spec (bi : idx) (n : nat) :
  generate_indices bi n = map (generate_index bi) (seq 0 n).
Proof. unfold generate_indices. rewrite make_integer_sequence_spec. reflexivity. Qed.

Lemma apply_indices_from_spec (bi : idx) (from fuel : nat) :
  apply_indices_from bi from fuel = map (fun i => (i, generate_index bi i)) (seq from fuel).
Proof. revert from; induction fuel as [|f IH]; intros from; cbn; congruence. Qed.

Lemma apply_indices_spec (bi : idx) (n : nat) :
  apply_indices n bi = map (fun i => (i, generate_index bi i)) (seq 0 n).
Proof. apply apply_indices_from_spec. Qed.

Lemma get_index_inner_int (b : Z) (k d : nat) :
  INT_MIN <= b <= INT_MAX -> INT_MIN <= get_index_inner b k d <= INT_MAX.
Proof.
  rewrite get_index_inner_spec. unfold INT_MIN, INT_MAX.
  destruct (Nat.testbit k d); intros H; Z.div_mod_to_equations; lia.
Qed.

(** The bundles of a cell, enumerated axis by axis. *)
Fixpoint cell_bundles (k d : nat) (j : idx) : list idx :=
  match j with
  | [] => [[]]
  | x :: j' =>
      flat_map (fun r => [(2 * x - shift_of k d) :: r; (2 * x - shift_of k d + 1) :: r])
               (cell_bundles k (S d) j')
  end.

Lemma cell_bundles_length (k d : nat) (j : idx) :
  length (cell_bundles k d j) = (2 ^ length j)%nat.
Proof.
  revert d; induction j as [|x j IH]; intros d; cbn [cell_bundles]; [reflexivity|].
  specialize (IH (S d)). cbn [length]. rewrite Nat.pow_succ_r', <- IH. clear IH.
  induction (cell_bundles k (S d) j) as [|r l IH]; cbn [flat_map app length]; [reflexivity|].
  rewrite IH. lia.
Qed.

Lemma cell_bundles_in (k d : nat) (j bi : idx) :
  In bi (cell_bundles k d j) <->
  length bi = length j /\
  (forall e, (e < length bi)%nat ->
     2 * nth e j 0 - shift_of k (d + e) <= nth e bi 0 <= 2 * nth e j 0 - shift_of k (d + e) + 1).
Proof.
  revert d bi; induction j as [|x j IH]; intros d bi; cbn [cell_bundles].
  - cbn [In length]. split.
    + intros [<-|[]]. cbn [length]. split; [reflexivity|]. intros e He; lia.
    + intros [HL _]. left. destruct bi; [reflexivity|discriminate].
  - rewrite in_flat_map. split.
    + intros [r [Hr Hin]]. apply IH in Hr. destruct Hr as [HL Hr].
      assert (Hb : exists b, bi = b :: r /\ 2 * x - shift_of k d <= b <= 2 * x - shift_of k d + 1).
      { cbn [In] in Hin. destruct Hin as [<-|[<-|[]]]; eexists; (split; [reflexivity|lia]). }
      destruct Hb as [b [-> Hb]]. cbn [length]. split; [congruence|].
      intros e He. destruct e as [|e]; cbn [nth].
      * rewrite Nat.add_0_r. exact Hb.
      * replace (d + S e)%nat with (S d + e)%nat by lia. apply Hr. lia.
    + intros [HL H]. destruct bi as [|b r]; [discriminate|]. cbn [length] in *.
      exists r. split.
      * apply IH. split; [congruence|]. intros e He.
        replace (S d + e)%nat with (d + S e)%nat by lia.
        apply (H (S e)). lia.
      * pose proof (H O ltac:(lia)) as H0. cbn [nth] in H0. rewrite Nat.add_0_r in H0.
        cbn [In]. assert (b = 2 * x - shift_of k d \/ b = 2 * x - shift_of k d + 1) as [->| ->] by lia;
        auto.
Qed.

Lemma NoDup_flat_map_cons (a b : Z) (l : list idx) :
  a <> b -> NoDup l -> NoDup (flat_map (fun r => [a :: r; b :: r]) l).
Proof.
  intros Hab Hl; induction Hl as [|r l Hr Hl IH]; cbn [flat_map app]; [constructor|].
  assert (Hn : forall c, c = a \/ c = b -> ~ In (c :: r) (flat_map (fun r => [a :: r; b :: r]) l)).
  { intros c _ Hin. apply in_flat_map in Hin. destruct Hin as [r' [Hr' Hin]].
    cbn [In] in Hin. destruct Hin as [He|[He|[]]]; injection He as _ He; subst; contradiction. }
  constructor.
  - cbn [In]. intros [He|Hin]; [injection He as He; congruence|]. exact (Hn a (or_introl eq_refl) Hin).
  - constructor; [|exact IH]. exact (Hn b (or_intror eq_refl)).
Qed.

Lemma cell_bundles_nodup (k d : nat) (j : idx) : NoDup (cell_bundles k d j).
Proof.
  revert d; induction j as [|x j IH]; intros d; cbn [cell_bundles].
  - constructor; [intros []|constructor].
  - apply NoDup_flat_map_cons; [lia|]. apply IH.
Qed.

Lemma cell_bundles_generate (k : nat) (j bi : idx) :
  In bi (cell_bundles k 0 j) <-> generate_index bi k = j.
Proof. rewrite cell_bundles_in, generate_index_iff. reflexivity. Qed.

Lemma generate_index_int (bi : idx) (k : nat) :
  Forall (fun z => INT_MIN <= z <= INT_MAX) bi ->
  Forall (fun z => INT_MIN <= z <= INT_MAX) (generate_index bi k).
Proof.
  intros H. unfold generate_index. rewrite make_integer_sequence_spec.
  apply Forall_map. apply Forall_forall. intros d Hd. apply in_seq in Hd.
  apply get_index_inner_int. rewrite Forall_forall in H. apply H. apply nth_In. lia.
Qed.
