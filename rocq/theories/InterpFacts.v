(** Facts about the interpolation weights. *)
From Coq Require Import QArith Qround Qabs Qminmax Lqa.
From Verif Require Import Base SeqModel SeqFacts IndexModel IndexFacts ExtentModel ExtentFacts SampleModel SampleSpec.
Open Scope Z_scope.

Lemma fold_left_qmult (l : list Q) : forall a, (fold_left Qmult l a == a * qprod l)%Q.
Proof.
  induction l as [|x l IH]; intros a; cbn [fold_left]; unfold qprod; cbn [fold_right]; [ring|].
  rewrite IH. unfold qprod. ring.
Qed.

(** The weight as a recursive product over the axes. *)
Fixpoint tensor (w : list Q) (k : nat) : Q :=
  match w with
  | [] => 1%Q
  | x :: w' => ((if Nat.testbit k 0 then x else 1 - x) * tensor w' (Nat.div2 k))%Q
  end.

Lemma qprod_seq_S (f : nat -> Q) (n : nat) :
  qprod (map f (seq 0 (S n))) = (f 0%nat * qprod (map (fun d => f (S d)) (seq 0 n)))%Q.
Proof. cbn [seq map]. rewrite <- seq_shift, map_map. reflexivity. Qed.

Lemma qprod_ext (f g : nat -> Q) (l : list nat) :
  (forall d, In d l -> (f d == g d)%Q) -> (qprod (map f l) == qprod (map g l))%Q.
Proof.
  induction l as [|x l IH]; intros H; cbn [map]; unfold qprod; cbn [fold_right]; [reflexivity|].
  rewrite (H x (or_introl eq_refl)). fold (qprod (map f l)). fold (qprod (map g l)).
  rewrite IH; [reflexivity|]. intros d Hd. apply H. right; exact Hd.
Qed.

Lemma tensor_prod (w : list Q) : forall k,
  (qprod (map (fun d => if Nat.testbit k d then nth d w 0 else 1 - nth d w 0)%Q (seq 0 (length w))) == tensor w k)%Q.
Proof.
  induction w as [|x w IH]; intros k; [reflexivity|].
  cbn [length]. rewrite qprod_seq_S. cbn [tensor nth]. rewrite <- IH. reflexivity.
Qed.

Lemma weight_prod (w : list Q) (k : nat) :
  (to_bilinear_interpolation_weight w k ==
   qprod (map (fun d => if Nat.testbit k d then nth d w 0 else 1 - nth d w 0)%Q (seq 0 (length w))))%Q.
Proof.
  unfold to_bilinear_interpolation_weight. rewrite make_integer_sequence_spec, fold_left_qmult, Qmult_1_l.
  apply qprod_ext. intros d _. unfold weight_inner. rewrite counter_bit_spec. reflexivity.
Qed.

Lemma weight_tensor (w : list Q) (k : nat) : (to_bilinear_interpolation_weight w k == tensor w k)%Q.
Proof. rewrite weight_prod. apply tensor_prod. Qed.

Lemma qsum_app (a b : list Q) : (qsum (a ++ b) == qsum a + qsum b)%Q.
Proof. induction a as [|x a IH]; unfold qsum in *; cbn [app fold_right]; [ring|]. rewrite IH. ring. Qed.

Lemma qsum_ext (f g : nat -> Q) (l : list nat) :
  (forall d, In d l -> (f d == g d)%Q) -> (qsum (map f l) == qsum (map g l))%Q.
Proof.
  induction l as [|x l IH]; intros H; cbn [map]; unfold qsum; cbn [fold_right]; [reflexivity|].
  rewrite (H x (or_introl eq_refl)). fold (qsum (map f l)). fold (qsum (map g l)).
  rewrite IH; [reflexivity|]. intros d Hd. apply H. right; exact Hd.
Qed.

Lemma qsum_pairs (f : nat -> Q) (n : nat) :
  (qsum (map f (seq 0 (2 * n))) == qsum (map (fun k => f (2 * k)%nat + f (2 * k + 1)%nat)%Q (seq 0 n)))%Q.
Proof.
  induction n as [|n IH]; [reflexivity|].
  replace (2 * S n)%nat with (2 * n + 2)%nat by lia. rewrite seq_app, map_app, qsum_app, IH.
  rewrite (seq_S n 0), map_app, qsum_app, !Nat.add_0_l. cbn [seq map]. unfold qsum; cbn [fold_right].
  replace (S (2 * n)) with (2 * n + 1)%nat by lia. ring.
Qed.

Lemma tensor_even (x : Q) (w : list Q) (k : nat) : tensor (x :: w) (2 * k) = ((1 - x) * tensor w k)%Q.
Proof.
  cbn [tensor]. rewrite Nat.testbit_even_0. replace (Nat.div2 (2 * k)) with k; [reflexivity|].
  symmetry. apply Nat.div2_double.
Qed.
Lemma tensor_odd (x : Q) (w : list Q) (k : nat) : tensor (x :: w) (2 * k + 1) = (x * tensor w k)%Q.
Proof.
  cbn [tensor]. rewrite Nat.testbit_odd_0. replace (Nat.div2 (2 * k + 1)) with k; [reflexivity|].
  symmetry. rewrite Nat.add_1_r. apply Nat.div2_succ_double.
Qed.

Lemma tensor_sum (w : list Q) : (qsum (map (tensor w) (seq 0 (2 ^ length w))) == 1)%Q.
Proof.
  induction w as [|x w IH]; [reflexivity|].
  cbn [length]. rewrite Nat.pow_succ_r', qsum_pairs. rewrite <- IH.
  apply qsum_ext. intros k _. rewrite tensor_even, tensor_odd. ring.
Qed.

(** C16, any weight vector. *)
Lemma weights_sum (w : list Q) :
  (qsum (map (to_bilinear_interpolation_weight w) (seq 0 (2 ^ length w))) == 1)%Q.
Proof. rewrite <- (tensor_sum w). apply qsum_ext. intros k _. apply weight_tensor. Qed.

Lemma qprod_unit (l : list Q) : Forall unit_interval l -> unit_interval (qprod l).
Proof.
  unfold unit_interval. intros H; induction H as [|x l Hx _ IH]; unfold qprod in *; cbn [fold_right]; [split; lra|].
  split; [apply Qmult_le_0_compat; lra|].
  apply Qle_trans with (1 * fold_right Qmult 1 l)%Q; [|lra].
  apply Qmult_le_compat_r; lra.
Qed.

Lemma get_weights_length (bi : idx) (p : list Q) (inv : Q) :
  length (get_bilinear_interpolation_weights bi p inv) = length p.
Proof. unfold get_bilinear_interpolation_weights. rewrite map_length, make_integer_sequence_spec, seq_length. reflexivity. Qed.

Lemma get_weights_nth (bi : idx) (p : list Q) (inv : Q) (d : nat) :
  (d < length p)%nat -> length bi = length p ->
  nth d (get_bilinear_interpolation_weights bi p inv) 0%Q =
    if Z.odd (nth d bi 0) then (nth d p 0 * inv - inject_Z (nth d bi 0%Z))%Q
    else (1 - (nth d p 0 * inv - inject_Z (nth d bi 0%Z)))%Q.
Proof.
  intros Hd HL. unfold get_bilinear_interpolation_weights. rewrite make_integer_sequence_spec.
  set (f := fun c => _).
  rewrite (nth_indep _ 0%Q (f 0%nat)) by (rewrite map_length, seq_length; exact Hd).
  rewrite (map_nth f). rewrite seq_nth by exact Hd. cbn [Nat.add]. unfold f.
  destruct (Nat.leb_spec (length bi) d); [lia|reflexivity].
Qed.

(** Position in bundles of a point of a bundle. *)
Definition inside (bi : idx) (p : list Q) (inv : Q) : Prop :=
  length bi = length p /\
  forall d, (d < length p)%nat ->
    (inject_Z (nth d bi 0%Z) <= nth d p 0 * inv /\ nth d p 0 * inv <= inject_Z (nth d bi 0%Z) + 1)%Q.

Lemma weight_unit (bi : idx) (p : list Q) (inv : Q) (k : nat) :
  inside bi p inv -> unit_interval (to_bilinear_interpolation_weight (get_bilinear_interpolation_weights bi p inv) k).
Proof.
  intros [HL H]. unfold unit_interval. rewrite weight_prod. apply qprod_unit. apply Forall_forall.
  intros x Hx. apply in_map_iff in Hx. destruct Hx as [d [<- Hd]]. rewrite get_weights_length in Hd.
  apply in_seq in Hd. rewrite get_weights_nth by lia. specialize (H d ltac:(lia)).
  unfold unit_interval. destruct (Z.odd (nth d bi 0)), (Nat.testbit k d); lra.
Qed.

Lemma hat_in (x : Q) : (- (1) <= x <= 1)%Q -> (hat x == 1 - Qabs x)%Q.
Proof.
  intros H. unfold hat. apply Q.max_r. assert (Qabs x <= 1)%Q by (apply Qabs_Qle_condition; lra). lra.
Qed.
Lemma hat_out (x : Q) : (x <= - (1) \/ 1 <= x)%Q -> (hat x == 0)%Q.
Proof.
  intros H. unfold hat. apply Q.max_l.
  assert (1 <= Qabs x)%Q; [|lra]. destruct H as [H|H].
  - rewrite <- Qabs_opp. apply Qabs_ge. lra.
  - apply Qabs_ge; exact H.
Qed.

Lemma hat_wd (x y : Q) : (x == y)%Q -> (hat x == hat y)%Q.
Proof. intros H. unfold hat. rewrite H. reflexivity. Qed.

(** One axis: the weight of cell [j] is its tent. *)
Lemma hat_axis (b : Z) (u : Q) (k d : nat) :
  (inject_Z b <= u <= inject_Z b + 1)%Q ->
  ((if Nat.testbit k d
    then (if Z.odd b then u - inject_Z b else 1 - (u - inject_Z b))
    else 1 - (if Z.odd b then u - inject_Z b else 1 - (u - inject_Z b))) ==
   hat (u - cell_centre k d (get_index_inner b k d)))%Q.
Proof.
  intros Hu. rewrite get_index_inner_spec. unfold cell_centre.
  assert (Hz : b mod 2 = if Z.odd b then 1 else 0) by (rewrite Zmod_odd; reflexivity).
  destruct (Nat.testbit k d); destruct (Z.odd b).
  - replace (2 * ((b + 1) / 2) - 1 + 1) with (b + 1) by (Z.div_mod_to_equations; lia).
    rewrite inject_Z_plus. change (inject_Z 1) with 1%Q. rewrite hat_in by lra. rewrite Qabs_neg by lra. ring.
  - replace (2 * ((b + 1) / 2) - 1 + 1) with b by (Z.div_mod_to_equations; lia).
    rewrite hat_in by lra. rewrite Qabs_pos by lra. ring.
  - replace (2 * (b / 2) - 0 + 1) with b by (Z.div_mod_to_equations; lia).
    rewrite hat_in by lra. rewrite Qabs_pos by lra. ring.
  - replace (2 * (b / 2) - 0 + 1) with (b + 1) by (Z.div_mod_to_equations; lia).
    rewrite inject_Z_plus. change (inject_Z 1) with 1%Q. rewrite hat_in by lra. rewrite Qabs_neg by lra. ring.
Qed.

Lemma nth_map_q (p : list Q) (inv : Q) (d : nat) :
  (d < length p)%nat -> nth d (map (fun x => x * inv)%Q p) 0%Q = (nth d p 0 * inv)%Q.
Proof.
  intros H. rewrite (nth_indep _ 0%Q ((fun x => x * inv) 0)%Q) by (rewrite map_length; exact H).
  rewrite (map_nth (fun x => x * inv)%Q). reflexivity.
Qed.

(** C17: the weight of slot [k] is the tent of the cell the slot refers to. *)
Lemma weight_hat (bi : idx) (p : list Q) (inv : Q) (k : nat) :
  inside bi p inv ->
  (to_bilinear_interpolation_weight (get_bilinear_interpolation_weights bi p inv) k ==
   cell_hat k (generate_index bi k) (map (fun x => x * inv) p))%Q.
Proof.
  intros [HL H]. rewrite weight_prod, get_weights_length. unfold cell_hat. rewrite generate_index_length, HL.
  apply qprod_ext. intros d Hd. apply in_seq in Hd. rewrite get_weights_nth by lia.
  rewrite nth_map_q by lia. specialize (H d ltac:(lia)).
  rewrite (hat_axis (nth d bi 0) (nth d p 0 * inv)%Q k d) by exact H.
  apply hat_wd. rewrite generate_index_nth by lia.
  rewrite <- get_index_inner_spec. reflexivity.
Qed.

Lemma qprod_zero (l : list Q) (x : Q) : In x l -> (x == 0)%Q -> (qprod l == 0)%Q.
Proof.
  intros Hin Hx. induction l as [|y l IH]; [contradiction|]. unfold qprod in *; cbn [fold_right].
  destruct Hin as [->|Hin]; [rewrite Hx; ring|]. rewrite IH by exact Hin. ring.
Qed.

(** C17: cells a bundle does not refer to have weight 0 there. *)
Lemma hat_elsewhere (bi j : idx) (p : list Q) (inv : Q) (k : nat) :
  inside bi p inv -> length j = length p -> generate_index bi k <> j ->
  (cell_hat k j (map (fun x => x * inv) p) == 0)%Q.
Proof.
  intros [HL H] Hj Hne.
  assert (Hex : exists d, (d < length p)%nat /\ nth d (generate_index bi k) 0 <> nth d j 0).
  { destruct (Exists_dec (fun d => nth d (generate_index bi k) 0 <> nth d j 0) (seq 0 (length p))) as [E|E].
    - intros d. destruct (Z.eq_dec (nth d (generate_index bi k) 0) (nth d j 0)); [right|left]; auto.
    - apply Exists_exists in E. destruct E as [d [Hd E]]. apply in_seq in Hd. exists d. split; [lia|exact E].
    - exfalso. apply Hne. apply (nth_ext _ _ 0 0); rewrite generate_index_length; [congruence|].
      intros d Hd. destruct (Z.eq_dec (nth d (generate_index bi k) 0) (nth d j 0)) as [e|n]; [exact e|].
      exfalso. apply E. apply Exists_exists. exists d. split; [apply in_seq; lia|exact n]. }
  destruct Hex as [d [Hd Hn]]. unfold cell_hat. rewrite Hj.
  eapply qprod_zero; [apply in_map_iff; exists d; split; [reflexivity|apply in_seq; lia]|].
  cbv beta. rewrite nth_map_q by exact Hd. apply hat_out.
  rewrite generate_index_nth in Hn by lia. specialize (H d Hd). unfold cell_centre.
  set (b := nth d bi 0) in *. set (z := nth d j 0) in *. clearbody b z. cbv zeta in Hn.
  assert (Hc : 2 * z - (if Nat.testbit k d then 1 else 0) + 1 <= b - 1 \/
               b + 2 <= 2 * z - (if Nat.testbit k d then 1 else 0) + 1).
  { destruct (Nat.testbit k d); Z.div_mod_to_equations; lia. }
  set (ce := 2 * z - (if Nat.testbit k d then 1 else 0) + 1) in *. clearbody ce.
  destruct Hc as [Hc|Hc]; [right|left].
  - assert (Hq : (inject_Z ce + 1 <= inject_Z b)%Q)
      by (change 1%Q with (inject_Z 1); rewrite <- inject_Z_plus, <- Zle_Qle; lia). lra.
  - assert (Hq : (inject_Z b + 2 <= inject_Z ce)%Q)
      by (change 2%Q with (inject_Z 2); rewrite <- inject_Z_plus, <- Zle_Qle; lia). lra.
Qed.

Lemma hat_unit (x : Q) : unit_interval (hat x).
Proof.
  unfold unit_interval, hat. pose proof (Qabs_nonneg x). split; [apply Q.le_max_l|].
  apply Q.max_lub; lra.
Qed.

Lemma hat_lipschitz (x y : Q) : (Qabs (hat x - hat y) <= Qabs (x - y))%Q.
Proof.
  pose proof (Qabs_triangle_reverse x y) as A. pose proof (Qabs_triangle_reverse y x) as B.
  rewrite (Qabs_Qminus y x) in B. unfold hat. pose proof (Qabs_nonneg (x - y)).
  apply Qabs_Qle_condition.
  destruct (Q.max_spec 0 (1 - Qabs x)) as [[? Ex]|[? Ex]]; destruct (Q.max_spec 0 (1 - Qabs y)) as [[? Ey]|[? Ey]];
    rewrite Ex, Ey; lra.
Qed.

Lemma prod_lipschitz (f g : nat -> Q) (l : list nat) :
  (forall d, unit_interval (f d)) -> (forall d, unit_interval (g d)) ->
  (Qabs (qprod (map f l) - qprod (map g l)) <= qsum (map (fun d => Qabs (f d - g d)) l))%Q.
Proof.
  intros Hf Hg. induction l as [|d l IH]; [vm_compute; discriminate|].
  cbn [map]. unfold qprod, qsum in *; cbn [fold_right].
  set (F := fold_right Qmult 1%Q (map f l)) in *. set (G := fold_right Qmult 1%Q (map g l)) in *.
  assert (HF : unit_interval F) by (apply qprod_unit, Forall_map, Forall_forall; auto).
  assert (E : (f d * F - g d * G == (f d - g d) * F + g d * (F - G))%Q) by ring.
  rewrite E. eapply Qle_trans; [apply Qabs_triangle|]. rewrite !Qabs_Qmult.
  destruct HF as [HF0 HF1]. destruct (Hg d) as [HG0 HG1].
  rewrite (Qabs_pos F HF0), (Qabs_pos (g d) HG0).
  apply Qplus_le_compat.
  - rewrite <- (Qmult_1_r (Qabs (f d - g d))) at 2. rewrite !(Qmult_comm (Qabs _)).
    apply Qmult_le_compat_r; [exact HF1|apply Qabs_nonneg].
  - eapply Qle_trans; [|exact IH]. rewrite <- (Qmult_1_l (Qabs (F - G))) at 2.
    apply Qmult_le_compat_r; [exact HG1|apply Qabs_nonneg].
Qed.

Lemma qsum_le (f g : nat -> Q) (l : list nat) :
  (forall d, In d l -> (f d <= g d)%Q) -> (qsum (map f l) <= qsum (map g l))%Q.
Proof.
  induction l as [|d l IH]; intros H; [apply Qle_refl|]. cbn [map]. unfold qsum; cbn [fold_right].
  apply Qplus_le_compat; [apply H; left; reflexivity|]. apply IH. intros x Hx. apply H. right; exact Hx.
Qed.

(** C17: the tent of a cell moves at most as much as the point does. *)
Lemma cell_hat_lipschitz (k : nat) (j : idx) (u v : list Q) :
  (Qabs (cell_hat k j u - cell_hat k j v) <= distance (length j) u v)%Q.
Proof.
  unfold cell_hat, distance. eapply Qle_trans.
  - apply (prod_lipschitz (fun d => hat (nth d u 0%Q - cell_centre k d (nth d j 0)))
                          (fun d => hat (nth d v 0%Q - cell_centre k d (nth d j 0)))); intros d; apply hat_unit.
  - apply qsum_le. intros d _. cbv beta. eapply Qle_trans; [apply hat_lipschitz|].
    apply Qle_lteq. right. apply Qabs_wd. ring.
Qed.

(** The bundle of a point contains it. *)
Lemma index_inside (h : Q) (p : list Q) (bi : idx) :
  (0 < h)%Q -> toBundleIndex (/ h) p = Ok bi -> inside bi p (/ h).
Proof.
  intros Hh E. destruct (index_of_point h p Hh) as [[bi' [E' [HL H]]]|[E' _]]; [|congruence].
  rewrite E in E'. injection E' as <-. split; [exact HL|]. intros d Hd. destruct (H d Hd) as [A B].
  assert (Hi : (0 < / h)%Q) by (apply Qinv_lt_0_compat; exact Hh).
  assert (Hinv : (h * / h == 1)%Q) by (apply Qmult_inv_r; lra).
  split.
  - apply (Qmult_le_compat_r _ _ (/ h)) in A; [|lra].
    assert (Ex : (inject_Z (nth d bi 0%Z) * h * / h == inject_Z (nth d bi 0%Z))%Q) by (rewrite <- Qmult_assoc, Hinv; ring).
    rewrite Ex in A. exact A.
  - apply Qlt_le_weak in B. apply (Qmult_le_compat_r _ _ (/ h)) in B; [|lra].
    assert (Ex : ((inject_Z (nth d bi 0%Z) + 1) * h * / h == inject_Z (nth d bi 0%Z) + 1)%Q) by (rewrite <- Qmult_assoc, Hinv; ring).
    rewrite Ex in B. exact B.
Qed.

Lemma weight_lipschitz (h : Q) (k : nat) (j : idx) (p q : list Q) (a b : Q) :
  (0 < h)%Q -> length j = length p -> length j = length q ->
  (let* bi := toBundleIndex (/ h) p in
   Ok (if idx_eqb (generate_index bi k) j
       then to_bilinear_interpolation_weight (get_bilinear_interpolation_weights bi p (/ h)) k else 0%Q)) = Ok a ->
  (let* bi := toBundleIndex (/ h) q in
   Ok (if idx_eqb (generate_index bi k) j
       then to_bilinear_interpolation_weight (get_bilinear_interpolation_weights bi q (/ h)) k else 0%Q)) = Ok b ->
  (Qabs (a - b) <= distance (length j) (map (fun x => x * / h) p) (map (fun x => x * / h) q))%Q.
Proof.
  intros Hh Hp Hq.
  assert (H : forall p a, length j = length p -> (let* bi := toBundleIndex (/ h) p in
     Ok (if idx_eqb (generate_index bi k) j
       then to_bilinear_interpolation_weight (get_bilinear_interpolation_weights bi p (/ h)) k else 0%Q)) = Ok a ->
     (a == cell_hat k j (map (fun x => x * / h) p))%Q).
  { clear p q a b Hp Hq. intros p a HL. destruct (toBundleIndex (/ h) p) as [bi| |] eqn:E; cbn [obind]; try discriminate.
    intros Ha; injection Ha as <-. pose proof (index_inside h p bi Hh E) as Hin.
    destruct (idx_eqb_spec (generate_index bi k) j) as [<-|Hn].
    - apply weight_hat; exact Hin.
    - symmetry. apply (hat_elsewhere bi j p (/ h) k Hin); [exact HL|exact Hn]. }
  intros Ha Hb. rewrite (H p a Hp Ha), (H q b Hq Hb). apply cell_hat_lipschitz.
Qed.
