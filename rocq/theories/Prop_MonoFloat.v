(** C96: conversion of the grid map with one distribution per cell to a probability grid in floating-point arithmetic. *)
From Coq Require Import QArith Qabs Qround Lqa Floats.SpecFloat.
From Verif Require Import Base SeqModel IndexModel MapModel BackendModel SysModel ExtentModel RoundModel FloatModel FloatFacts FloatIndexFacts
  GridModel MonoModel MonoSpec MonoFacts GridFloatModel GridFloatSpec MonoFloatModel MonoFloatSpec MonoFloatMap.
Open Scope Z_scope.

(** C96, what holds for all maps and histories with a sampling resolution that is not coarser than the map and at most
    2^22 ([float]) or 2^30 ([double]) pixels along an axis. [w d] is the number of pixels along axis [d]; [cell u] is the
    cell that pixel [u] reads. Both are those of exact arithmetic up to a few roundings before they become integers, and
    [cell u] is the exact cell whenever the pixel is not that close to the border of a cell. If the last pixel of both
    axes reads one of the [size] cells then the conversion succeeds and every pixel shows the score of what the history
    left in the cell it reads; otherwise the conversion reads outside of the storage. *)
Theorem C96_reads_partial (prec emax : Z) {V W : Type} (default : V) (merge : V -> V -> V) (to_m : W -> list Q) (add : V -> W -> V)
  (dsample : V -> W -> spec_float) (from_grid : list spec_float -> W) (res sres : spec_float) (size : list Z) (mn : idx)
  (ops : list (mono_op (V:=V) (W:=W))) :
  standard_format prec emax -> float_good_resolution prec emax res -> float_good_resolution prec emax sres ->
  let r := float_value res in let s := float_value sres in
  let tiny := ((2 # 1) ^ (2 - emax - prec))%Q in
  (s <= r)%Q -> mono_args r size mn -> (forall d, (d < 2)%nat -> fits_pixels prec (nth d size 0) r s) ->
  off_border to_m r size mn ops ->
  exists m0 m (w : nat -> Z) (cell : Z -> Z),
    mono_new r size mn = Ok m0 /\ mono_run default merge to_m add ops m0 = Ok m /\
    (forall d, (d < 2)%nat -> let total := (inject_Z (nth d size 0%Z) * r / s)%Q in
       float_pixels prec emax (float_mono_extent prec emax res (nth d size 0)) sres = Ok (w d) /\ 1 <= w d /\
       (total * (1 - (2 # 1) ^ (3 - prec)) - tiny <= inject_Z (w d))%Q /\ (inject_Z (w d) - 1 < total * (1 + (2 # 1) ^ (3 - prec)) + tiny)%Q) /\
    (forall u, 0 <= u -> u < w 0%nat \/ u < w 1%nat -> let t := (inject_Z u * s / r)%Q in
       float_mono_cell prec emax res sres u = Ok (cell u) /\ 0 <= cell u /\
       (inject_Z (cell u) <= t * (1 + (2 # 1) ^ (2 - prec)) + tiny)%Q /\ (t * (1 - (2 # 1) ^ (2 - prec)) - tiny < inject_Z (cell u) + 1)%Q /\
       ((forall k, 1 <= k -> (t * (2 # 1) ^ (2 - prec) + tiny < Qabs (inject_Z k - t))%Q) -> cell u = Qfloor t)) /\
    (forall u v, u <= v -> cell u <= cell v) /\
    ((forall d, (d < 2)%nat -> cell (w d - 1) < nth d size 0) ->
       exists g, float_mono_to_grid prec emax merge dsample from_grid res sres m = Ok g /\ fg_width g = w 0%nat /\ fg_height g = w 1%nat /\
         forall u v, 0 <= u < w 0%nat -> 0 <= v < w 1%nat ->
           let i := [nth 0 mn 0 + cell u; nth 1 mn 0 + cell v] in
           let p := [fmul prec emax (float_of_int prec emax u) sres; fmul prec emax (float_of_int prec emax v) sres] in
           in_cells size mn i /\
           fg_at g u v = float_probability prec
             (match cell_history default to_m add r ops i with Some x => dsample x (from_grid p) | None => float_zero end)) /\
    (~ (forall d, (d < 2)%nat -> cell (w d - 1) < nth d size 0) ->
       float_mono_to_grid prec emax merge dsample from_grid res sres m = UB).
Proof.
  intros Hf Hr Hs r s tiny Hsr Ha Hfit Hoff.
  destruct (mono_float_history prec emax Hf default merge to_m add dsample from_grid res sres Hr Hs Hsr size mn Ha Hfit ops Hoff)
    as [m0 [m [w [cell [A [B [C [D [E [F [G _]]]]]]]]]]].
  exists m0, m, w, cell. exact (conj A (conj B (conj C (conj D (conj E (conj F G)))))).
Qed.
Print Assumptions C96_reads_partial.

(** C96, a condition on the numbers alone: if the exact number of pixels is not within a relative error of 2^(3-prec)
    of an integer, on both axes, then every conversion reads existing cells only. *)
Theorem C96_margin_partial (prec emax : Z) {V W : Type} (default : V) (merge : V -> V -> V) (to_m : W -> list Q) (add : V -> W -> V)
  (dsample : V -> W -> spec_float) (from_grid : list spec_float -> W) (res sres : spec_float) (size : list Z) (mn : idx)
  (ops : list (mono_op (V:=V) (W:=W))) :
  standard_format prec emax -> float_good_resolution prec emax res -> float_good_resolution prec emax sres ->
  let r := float_value res in let s := float_value sres in
  (s <= r)%Q -> mono_args r size mn -> (forall d, (d < 2)%nat -> fits_pixels prec (nth d size 0) r s) ->
  off_border to_m r size mn ops ->
  (forall d k, (d < 2)%nat -> let total := (inject_Z (nth d size 0%Z) * r / s)%Q in
     (total * (2 # 1) ^ (3 - prec) < Qabs (inject_Z k - total))%Q) ->
  exists m0 m g, mono_new r size mn = Ok m0 /\ mono_run default merge to_m add ops m0 = Ok m /\
    float_mono_to_grid prec emax merge dsample from_grid res sres m = Ok g.
Proof.
  intros Hf Hr Hs r s Hsr Ha Hfit Hoff HM.
  exact (mono_float_margin prec emax Hf default merge to_m add dsample from_grid res sres Hr Hs Hsr size mn Ha Hfit ops Hoff
           (fun d Hd k => HM d k Hd)).
Qed.
Print Assumptions C96_margin_partial.

(** The [double]s nearest to 0.1 and 0.03. *)
Definition double_0_1 : spec_float := S754_finite false 7205759403792794 (-56).
Definition double_0_03 : spec_float := S754_finite false 8646911284551352 (-58).
Lemma good_0_1 : float_good_resolution 53 1024 double_0_1.
Proof. split; [split; reflexivity|split; vm_compute; discriminate]. Qed.
Lemma good_0_03 : float_good_resolution 53 1024 double_0_03.
Proof. split; [split; reflexivity|split; vm_compute; discriminate]. Qed.
Lemma double_format : standard_format 53 1024.
Proof. right. split; reflexivity. Qed.
Lemma sizes_0_1 (a b : Z) (mn : idx) : 1 <= a <= 1000 -> 1 <= b <= 1000 -> length mn = 2%nat ->
  (forall d, (d < 2)%nat -> -1000 <= nth d mn 0 <= 1000) -> mono_args (float_value double_0_1) [a; b] mn.
Proof.
  intros Ha Hb L H. split; [reflexivity|]. split; [reflexivity|]. split; [exact L|].
  intros [|[|d]] Hd; [| |lia]; pose proof (H _ Hd); cbn [nth] in *; unfold INT_MIN, INT_MAX; lia.
Qed.

(** C96 is false: in [double]s a map of 3 by 3 cells of 0.1, whatever its contents, cannot be sampled at its own
    resolution: 3 * 0.1 / 0.1 is above 3, there is a fourth pixel along each axis, and it reads a fourth cell. *)
Theorem C96_three_tenths_refuted : exists (res sres : spec_float) (size : list Z) (mn : idx),
  float_good_resolution 53 1024 res /\ res = sres /\ size = [3; 3] /\
  (forall (d : nat), (d < 2)%nat -> fits_pixels 53 (nth d size 0) (float_value res) (float_value sres)) /\
  mono_args (float_value res) size mn /\
  forall (V W : Type) (default : V) (merge : V -> V -> V) (to_m : W -> list Q) (add : V -> W -> V)
    (dsample : V -> W -> spec_float) (from_grid : list spec_float -> W) (ops : list (mono_op (V:=V) (W:=W))),
    off_border to_m (float_value res) size mn ops ->
    exists m0 m, mono_new (float_value res) size mn = Ok m0 /\ mono_run default merge to_m add ops m0 = Ok m /\
      float_mono_to_grid 53 1024 merge dsample from_grid res sres m = UB.
Proof.
  assert (Hfit : forall d : nat, (d < 2)%nat -> fits_pixels 53 (nth d [3; 3] 0) (float_value double_0_1) (float_value double_0_1)).
  { intros [|[|d]] Hd; [| |lia]; split; cbn [nth]; try lia; vm_compute; discriminate. }
  assert (Ha : mono_args (float_value double_0_1) [3; 3] [0; 0]) by (apply sizes_0_1; [lia|lia|reflexivity|intros [|[|d]] Hd; cbn [nth]; lia]).
  exists double_0_1, double_0_1, [3; 3], [0; 0]. split; [exact good_0_1|]. split; [reflexivity|]. split; [reflexivity|].
  split; [exact Hfit|]. split; [exact Ha|]. intros V W default merge to_m add dsample from_grid ops Hoff.
  destruct (C96_reads_partial 53 1024 default merge to_m add dsample from_grid double_0_1 double_0_1 [3; 3] [0; 0] ops double_format good_0_1 good_0_1
    (Qle_refl _) Ha Hfit Hoff) as [m0 [m [w [cell [E0 [E [Hw [Hc [_ [_ Out]]]]]]]]]].
  exists m0, m. split; [exact E0|]. split; [exact E|]. apply Out. intros H. specialize (H 0%nat ltac:(lia)). cbn [nth] in H.
  destruct (Hw 0%nat ltac:(lia)) as [P _]. cbn [nth] in P.
  assert (P' : float_pixels 53 1024 (float_mono_extent 53 1024 double_0_1 3) double_0_1 = Ok 4) by (vm_compute; reflexivity).
  rewrite P' in P. injection P as P. rewrite <- P in *. destruct (Hc 3 ltac:(lia) ltac:(lia)) as [K _].
  assert (K' : float_mono_cell 53 1024 double_0_1 double_0_1 3 = Ok 3) by (vm_compute; reflexivity). rewrite K' in K. injection K as K.
  change (4 - 1) with 3 in H. lia.
Qed.
Print Assumptions C96_three_tenths_refuted.

(** C96 is false: a map of 44 cells of 0.1 sampled at its own resolution. The conversion succeeds, but the last pixel
    reads the last cell but one, so that the last cell is not shown at all: the map has a single distribution, of score
    1/2 everywhere, in this cell, and the grid is 0 everywhere; in exact arithmetic the last pixel is 1/2. *)
Definition half_score : spec_float := S754_finite false 4503599627370496 (-53).
Definition last_cell_ops : list (mono_op (V:=Z) (W:=list Q)) := [MModify [43; 0] (fun n => n + 1)].
Theorem C96_hidden_cell_refuted : exists (res : spec_float) (u : Z),
  float_good_resolution 53 1024 res /\ Qfloor (inject_Z u * float_value res / float_value res) = u /\
  float_mono_cell 53 1024 res res u = Ok (u - 1) /\
  (let* m0 := mono_new (float_value res) [44; 1] [0; 0] in
   let* m := mono_run 0 Z.add (fun p : list Q => p) (fun n _ => n + 1) last_cell_ops m0 in
   let* g := float_mono_to_grid 53 1024 Z.add (fun _ _ => half_score) (fun _ => @nil Q) res res m in
   Ok (map (fun k => fg_at g k 0) (int_range (fg_width g)))) = Ok (repeat float_zero 44) /\
  (let* m0 := mono_new (float_value res) [44; 1] [0; 0] in
   let* m := mono_run 0 Z.add (fun p : list Q => p) (fun n _ => n + 1) last_cell_ops m0 in
   let* g := mono_to_grid Z.add (fun _ _ => float_value half_score) (fun _ => @nil Q) (float_value res) m in
   Ok (g_width g, Qeq_bool (g_at g u 0) (1 # 2))) = Ok (44, true).
Proof.
  exists double_0_1, 43. split; [exact good_0_1|]. split; [vm_compute; reflexivity|]. split; [vm_compute; reflexivity|].
  split; vm_compute; reflexivity.
Qed.
Print Assumptions C96_hidden_cell_refuted.

(** Cells of 0.1 sampled at 0.03, 5 by 2 cells: 16.67 by 6.67 pixels. *)
Definition fifth_ops : list (mono_op (V:=Z) (W:=list Q)) := [MModify [-1; 7] (fun n => n + 1); MModify [2; 8] (fun n => n + 3)].
Lemma between (total : Q) (a : Z) (k : Z) : (inject_Z a + (1 # 4) <= total)%Q -> (total <= inject_Z (a + 1) - (1 # 4))%Q -> (total <= 1000)%Q ->
  (total * (2 # 1) ^ (3 - 53) < Qabs (inject_Z k - total))%Q.
Proof.
  intros H1 H2 H3. assert (T : (total * (2 # 1) ^ (3 - 53) < 1 # 4)%Q).
  { apply Qle_lt_trans with (1000 * (2 # 1) ^ (3 - 53))%Q; [|reflexivity]. apply Qmult_le_compat_r; [exact H3|]. vm_compute; discriminate. }
  eapply Qlt_le_trans; [exact T|]. destruct (Z_le_gt_dec k a) as [K|K].
  - assert (K' : (inject_Z k <= inject_Z a)%Q) by (rewrite <- Zle_Qle; exact K). rewrite Qabs_neg by lra. lra.
  - assert (K' : (inject_Z (a + 1) <= inject_Z k)%Q) by (rewrite <- Zle_Qle; lia). rewrite Qabs_pos by lra. lra.
Qed.
Example C96_example :
  standard_format 53 1024 /\ float_good_resolution 53 1024 double_0_1 /\ float_good_resolution 53 1024 double_0_03 /\
  (float_value double_0_03 <= float_value double_0_1)%Q /\ mono_args (float_value double_0_1) [5; 2] [-1; 7] /\
  (forall d, (d < 2)%nat -> fits_pixels 53 (nth d [5; 2] 0) (float_value double_0_1) (float_value double_0_03)) /\
  off_border (fun p : list Q => p) (float_value double_0_1) [5; 2] [-1; 7] fifth_ops /\
  (forall d k, (d < 2)%nat -> let total := (inject_Z (nth d [5; 2]%Z 0%Z) * float_value double_0_1 / float_value double_0_03)%Q in
     (total * (2 # 1) ^ (3 - 53) < Qabs (inject_Z k - total))%Q) /\
  (let* m0 := mono_new (float_value double_0_1) [5; 2] [-1; 7] in
   let* m := mono_run 0 Z.add (fun p : list Q => p) (fun n _ => n + 1) fifth_ops m0 in
   let* g := float_mono_to_grid 53 1024 Z.add (fun n _ => if n =? 1 then half_score else float_of_int 53 1024 n) (fun _ => @nil Q) double_0_1 double_0_03 m in
   Ok (fg_width g, fg_height g, map (fun k => fg_at g k 3) (int_range 6), fg_at g 10 5)) =
  Ok (17, 7, [half_score; half_score; half_score; half_score; float_zero; float_zero], float_zero).
Proof.
  split; [exact double_format|]. split; [exact good_0_1|]. split; [exact good_0_03|]. split; [vm_compute; discriminate|].
  split; [apply sizes_0_1; [lia|lia|reflexivity|intros [|[|d]] Hd; cbn [nth]; lia]|].
  split; [intros [|[|d]] Hd; [| |lia]; split; cbn [nth]; try lia; vm_compute; discriminate|].
  split. { constructor; [split; [reflexivity|intros [|[|d]] Hd; cbn [nth]; lia]|].
    constructor; [split; [reflexivity|intros [|[|d]] Hd; cbn [nth]; lia]|constructor]. }
  split; [|vm_compute; reflexivity].
  intros [|[|d]] k Hd; [apply (between _ 16)|apply (between _ 6)|lia]; vm_compute; discriminate.
Qed.
