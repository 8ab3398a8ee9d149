(** A concrete map for the examples about derivatives. *)
From Coq Require Import Reals Lra List Lia FunctionalExtensionality.
From Verif Require Import Base SeqModel IndexModel MapModel SysModel ExtentModel Samples JetModel JetSpec JetFacts.
Open Scope R_scope.

(** A static two-dimensional map of 4 x 4 bundles in which one point was added to bundle (1, 0). *)
Definition one_grid : config (list Z) := log_static [4; 4]%Z [0; 0]%Z.
Definition one_history : list (map_action (P:=list Z)) := [Modify [1; 0]%Z (fun v => v ++ [5%Z])].
Definition one_map : cmap one_grid :=
  match cact_all one_grid one_history (new_map one_grid) with Ok m => m | _ => new_map one_grid end.
Lemma one_map_reached : cact_all one_grid one_history (new_map one_grid) = Ok one_map.
Proof. vm_compute. reflexivity. Qed.

(** Every distribution with a point is valid, has its mean in the middle of bundle (0, 0) and the
    identity as information matrix; the edge of a bundle has length 1, the map has the identity as
    origin and the scan one point at the sensor. *)
Definition one_valid (v : list Z) : bool := (0 <? length v)%nat.
Definition one_mean (v : list Z) (i : nat) : R := 1 / 2.
Definition one_inf (v : list Z) (i j : nat) : R := if Nat.eqb i j then 1 else 0.
Definition one_rot (i j : nat) : R := if Nat.eqb i j then 1 else 0.
Definition one_trans (i : nat) : R := 0.
Definition one_local (i : nat) : R := 0.
Definition one_x (x y yaw : R) (i : nat) : R := match i with O => x | S O => y | _ => yaw end.
Definition one_residual := residual_real pose_2d 2 one_rot one_trans 1 (evaluate_real one_grid 1 one_valid one_mean one_inf one_map) one_local.
Definition one_jet := residual_rjet pose_2d 2 one_rot one_trans 1 (evaluate_rjet one_grid 1 one_valid one_mean one_inf one_map) one_local.

Lemma one_semidefinite (v : list Z) : one_valid v = true -> semidefinite (dimc one_grid) (one_inf v).
Proof. intros _ x. unfold one_grid, log_static, one_inf. cbn [dimc rsum Nat.eqb]. nra. Qed.

Lemma one_frame (x y yaw : R) (i : nat) : (i < 2)%nat ->
  @eq R (to_map_frame real_number 2 one_rot one_trans (pose_2d real_number (one_x x y yaw) one_local) i)
  (match i with O => x | _ => y end).
Proof.
  intros Hi. unfold to_map_frame, one_rot, one_trans, pose_2d, one_local, one_x.
  destruct i as [|[|i]]; [| |lia];
    cbn [nsum Nat.eqb real_number nadd nsub nmul scale of_double ncos nsin carrier]; ring.
Qed.

Lemma to_int_small (z : Z) : (-1000 <= z <= 1000)%Z -> to_int z = Ok z.
Proof.
  intros H. unfold to_int, int_ok, INT_MIN, INT_MAX.
  replace (-2147483648 <=? z)%Z with true by (symmetry; apply Z.leb_le; lia).
  replace (z <=? 2147483647)%Z with true by (symmetry; apply Z.leb_le; lia). reflexivity.
Qed.

Lemma one_index (p : nat -> R) (a b : Z) :
  (-1000 <= a <= 1000)%Z -> (-1000 <= b <= 1000)%Z -> IZR a <= p 0%nat < IZR a + 1 -> IZR b <= p 1%nat < IZR b + 1 ->
  bundle_index 2 1 p = Ok [a; b].
Proof.
  intros Ha Hb H0 H1. unfold bundle_index. cbn [seq omap].
  rewrite (part_unique (p 0%nat * 1) a) by lra. rewrite (part_unique (p 1%nat * 1) b) by lra.
  rewrite !to_int_small by assumption. reflexivity.
Qed.

(** Four cells with the distribution [5]. *)
Lemma one_loop {A : Type} (step : A -> option (list Z) -> A) (a : A) :
  (let* ob := cbundle one_grid one_map [1; 0]%Z in
   match ob with
   | None => UB
   | Some b =>
       ofold (fun acc i =>
                match nth_error (slots b) i with
                | None => UB
                | Some sl => let* d := slot_value (bdc one_grid) (bbc one_grid) one_map i sl in Ok (step acc d)
                end) (seq 0 (bin_count (dimc one_grid))) a
   end) = Ok (step (step (step (step a (Some [5%Z])) (Some [5%Z])) (Some [5%Z])) (Some [5%Z])).
Proof. vm_compute. reflexivity. Qed.
Lemma one_nothing : cbundle one_grid one_map [0; 0]%Z = Ok None.
Proof. vm_compute. reflexivity. Qed.
Lemma one_something : exists b, cbundle one_grid one_map [1; 0]%Z = Ok (Some b).
Proof. eexists. vm_compute. reflexivity. Qed.

Lemma one_exponent (v : list Z) (p : nat -> R) :
  @eq R (exponent real_number 2 (one_mean v) (one_inf v) p)
  (- (1 / 2) * ((p 0%nat - 1 / 2) * (p 0%nat - 1 / 2) + (p 1%nat - 1 / 2) * (p 1%nat - 1 / 2))).
Proof. rewrite exponent_spec. unfold one_mean, one_inf. cbn [rsum Nat.eqb]. ring. Qed.

Definition one_score (x y : R) : R := exp (- (1 / 2) * ((x - 1 / 2) * (x - 1 / 2) + (y - 1 / 2) * (y - 1 / 2))).

Lemma one_score_less (x y : R) : 1 <= x -> one_score x y < 1.
Proof.
  intros H. unfold one_score. pose proof exp_0 as E.
  set (q := - (1 / 2) * ((x - 1 / 2) * (x - 1 / 2) + (y - 1 / 2) * (y - 1 / 2))). 
  assert (Hq : q < 0).
  { unfold q. pose proof (Rle_0_sqr (y - 1 / 2)) as H1. unfold Rsqr in H1.
    assert (H2 : 0 < (x - 1 / 2) * (x - 1 / 2)) by (apply Rmult_lt_0_compat; lra). lra. }
  pose proof (exp_increasing q 0 Hq). lra.
Qed.

Lemma bins_four : INR (bin_count (dimc one_grid)) = 4.
Proof. cbn. ring. Qed.

Lemma one_right (x y yaw : R) : 1 <= x < 2 -> 0 <= y < 1 -> one_residual (one_x x y yaw) = Ok (1 - one_score x y).
Proof.
  intros Hx Hy. unfold one_residual, residual_real.
  set (p := to_map_frame real_number 2 one_rot one_trans (pose_2d real_number (one_x x y yaw) one_local)).
  assert (P0 : @eq R (p 0%nat) x) by (apply (one_frame x y yaw 0); lia).
  assert (P1 : @eq R (p 1%nat) y) by (apply (one_frame x y yaw 1); lia).
  assert (E : evaluate_real one_grid 1 one_valid one_mean one_inf one_map p = Ok (1 - one_score x y)).
  { unfold evaluate_real. change (dimc one_grid) with 2%nat at 1.
    rewrite (one_index p 1 0) by (try lia; rewrite ?P0, ?P1; lra). cbn [obind].
    destruct one_something as [b Eb].
    pose proof (one_loop (fun acc d => acc + rdiv_count one_grid *
      match d with Some v => rsample (dimc one_grid) (one_valid v) (one_mean v) (one_inf v) p | None => 0 end) 0) as L.
    rewrite Eb in L |- *. cbn [obind] in L |- *. rewrite L. cbn [obind]. f_equal.
    unfold rsample. cbn [one_valid length Nat.ltb Nat.leb]. change (dimc one_grid) with 2%nat.
    rewrite one_exponent, P0, P1. fold (one_score x y). unfold rdiv_count. rewrite bins_four. field. }
  rewrite E. cbn [obind]. rewrite weighted_value. f_equal. ring.
Qed.

Lemma one_left (x y yaw : R) : 0 <= x < 1 -> 0 <= y < 1 -> one_residual (one_x x y yaw) = Ok 1.
Proof.
  intros Hx Hy. unfold one_residual, residual_real.
  set (p := to_map_frame real_number 2 one_rot one_trans (pose_2d real_number (one_x x y yaw) one_local)).
  assert (P0 : @eq R (p 0%nat) x) by (apply (one_frame x y yaw 0); lia).
  assert (P1 : @eq R (p 1%nat) y) by (apply (one_frame x y yaw 1); lia).
  assert (E : evaluate_real one_grid 1 one_valid one_mean one_inf one_map p = Ok (1 - 0)).
  { unfold evaluate_real. change (dimc one_grid) with 2%nat at 1.
    rewrite (one_index p 0 0) by (try lia; rewrite ?P0, ?P1; lra). cbn [obind].
    rewrite one_nothing. reflexivity. }
  rewrite E. cbn [obind]. rewrite weighted_value. f_equal. ring.
Qed.

Lemma one_moved (x y yaw s : R) : moved (one_x x y yaw) (one_x 1 0 0) s = one_x (x + s) y yaw.
Proof. apply functional_extensionality. intros [|[|i]]; unfold moved, one_x; ring. Qed.

(** The Jets of the parameters, differentiated by the first one. *)
Definition one_seed (x y yaw : R) (i : nat) : rjet := J (one_x x y yaw i) (one_x 1 0 0 i).

Lemma one_jet_right (x y yaw : R) : 1 <= x < 2 -> 0 <= y < 1 ->
  one_jet (one_seed x y yaw) = Ok (J (1 - one_score x y) ((x - 1 / 2) * one_score x y)).
Proof.
  intros Hx Hy. unfold one_jet, residual_rjet.
  set (p := to_map_frame jet_number 2 one_rot one_trans (pose_2d jet_number (one_seed x y yaw) one_local)).
  assert (P0 : p 0%nat = J x 1).
  { unfold p, to_map_frame, one_rot, one_trans, pose_2d, one_local, one_seed, one_x.
    cbn [nsum Nat.eqb jet_number nadd nsub nmul scale of_double ncos nsin carrier jre jde]. f_equal; ring. }
  assert (P1 : p 1%nat = J y 0).
  { unfold p, to_map_frame, one_rot, one_trans, pose_2d, one_local, one_seed, one_x.
    cbn [nsum Nat.eqb jet_number nadd nsub nmul scale of_double ncos nsin carrier jre jde]. f_equal; ring. }
  assert (X : forall v, exponent jet_number 2 (one_mean v) (one_inf v) p =
              J (- (1 / 2) * ((x - 1 / 2) * (x - 1 / 2) + (y - 1 / 2) * (y - 1 / 2))) (- (x - 1 / 2))).
  { intros v. unfold exponent, one_mean, one_inf. cbn [nsum]. rewrite P0, P1.
    cbn [Nat.eqb jet_number nadd nsub nmul scale of_double carrier jre jde]. f_equal; field. }
  assert (E : evaluate_rjet one_grid 1 one_valid one_mean one_inf one_map p =
              Ok (J (1 - one_score x y) ((x - 1 / 2) * one_score x y))).
  { unfold evaluate_rjet. change (dimc one_grid) with 2%nat at 1.
    rewrite (one_index (fun i => jre (p i)) 1 0) by (try lia; rewrite ?P0, ?P1; cbn; lra). cbn [obind].
    destruct one_something as [b Eb].
    pose proof (one_loop (fun (value : rjet) d => match d with
                       | Some v =>
                           if one_valid v
                           then nsub jet_number value
                                  (scale jet_number (rdiv_count one_grid)
                                     (nexp jet_number (exponent jet_number (dimc one_grid) (one_mean v) (one_inf v) p)))
                           else value
                       | None => value
                       end) (J 1 0)) as L.
    rewrite Eb in L |- *. cbn [obind] in L |- *. etransitivity; [exact L|]. f_equal.
    cbn [one_valid length Nat.ltb Nat.leb]. change (dimc one_grid) with 2%nat. rewrite X.
    cbn [nexp nsub scale jet_number jre jde]. fold (one_score x y). unfold rdiv_count. rewrite bins_four. f_equal; field. }
  rewrite E. cbn [obind]. unfold weighted_rjet. cbn [jre].
  assert (Hlt : one_score x y < 1).
  { apply one_score_less. lra. }
  destruct (Req_EM_T (1 - one_score x y) (- (1 - one_score x y))) as [Z|Z]; [lra|].
  cbn [scale jet_number jre jde]. f_equal. f_equal; ring.
Qed.
