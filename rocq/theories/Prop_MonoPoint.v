(** C97: points in the grid map with one distribution per cell in floating-point arithmetic. *)
From Coq Require Import QArith Qabs Qround Lqa Floats.SpecFloat.
From Verif Require Import Base SeqModel IndexModel MapModel BackendModel SysModel ExtentModel RoundModel FloatModel FloatFacts FloatIndexFacts
  GridModel MonoModel MonoSpec MonoFacts GridFloatModel GridFloatSpec MonoFloatModel MonoFloatSpec MonoFloatMap MonoPointModel MonoPointSpec MonoPointFacts
  Prop_MonoFloat.
Open Scope Z_scope.

(** C97, what holds for all maps, histories and points at most 2^30 cells from the origin. [cell p] is the cell that the
    code computes for point [p]. The point is in this cell or beside it by at most 2^(2-prec) times its distance from the
    origin (and the smallest number), and if it is not that close to the end of an interval then the index is exact. Every
    history of points that are not computed to be one step beyond the last row or column succeeds; afterwards a point
    computed to be in a cell finds exactly what the history left there, a point computed to be one step beyond the last row
    or column makes all three functions read outside of the storage, and any other point is ignored. *)
Theorem C97_points_partial (prec emax : Z) {V W : Type} (default : V) (merge : V -> V -> V) (to_m : W -> list spec_float) (add : V -> W -> V)
  (dsample : V -> W -> spec_float) (res : spec_float) (size : list Z) (mn : idx) :
  standard_format prec emax -> float_good_resolution prec emax res ->
  let r := float_value res in let inv := float_mono_inv prec emax res in
  let usable p := float_point prec emax r (to_m p) in
  mono_args r size mn ->
  exists cell : W -> idx,
    (forall p, usable p -> float_bundle_index prec emax inv (to_m p) = Ok (cell p) /\ length (cell p) = 2%nat /\
       forall d M, (d < 2)%nat -> (0 <= M <= inject_Z (2 ^ 30))%Q ->
         let x := float_value (nth d (to_m p) S754_nan) in
         let tol := (M * (2 # 1) ^ (2 - prec) + (2 # 1) ^ (2 - emax - prec))%Q in
         (- M * r <= x <= M * r)%Q ->
         near_interval r tol x (nth d (cell p) 0) /\
         forall k, ((inject_Z k + tol) * r <= x)%Q -> (x < (inject_Z k + 1 - tol) * r)%Q -> nth d (cell p) 0 = k) /\
    forall ops : list (mono_op (V:=V) (W:=W)), points_off_border usable cell size mn ops ->
      exists m0 m, mono_new r size mn = Ok m0 /\ float_mono_run prec emax default merge to_m add inv ops m0 = Ok m /\
        forall p, usable p -> let i := cell p in
          (in_cells size mn i ->
             float_mono_get prec emax merge to_m inv m p = Ok (point_history default add cell ops i) /\
             float_mono_sample prec emax merge to_m dsample inv m p =
               Ok (match point_history default add cell ops i with Some d => dsample d p | None => float_zero end) /\
             exists m', float_mono_insert prec emax default merge to_m add inv m p = Ok m') /\
          (on_border size mn i ->
             float_mono_get prec emax merge to_m inv m p = UB /\ float_mono_sample prec emax merge to_m dsample inv m p = UB /\
             float_mono_insert prec emax default merge to_m add inv m p = UB) /\
          (~ in_cells size mn i -> ~ on_border size mn i ->
             float_mono_get prec emax merge to_m inv m p = Ok None /\ float_mono_sample prec emax merge to_m dsample inv m p = Ok float_zero /\
             float_mono_insert prec emax default merge to_m add inv m p = Ok m).
Proof.
  intros Hf Hr r inv usable Ha. exists (pcell prec emax to_m res). split.
  - intros p Hp. destruct (pcell_spec prec emax Hf to_m res Hr p Hp) as [A [B [_ C]]]. split; [exact A|]. split; [exact B|].
    intros d M Hd HM x tol Hx. specialize (C d M Hd HM Hx). split; [exact C|]. intros k K1 K2.
    exact (near_exact r tol x _ k (proj1 Ha) C K1 K2).
  - intros ops Hops. destruct (mono_points_float prec emax Hf default merge to_m add dsample res Hr size mn Ha ops Hops) as [m0 [m [A [B [_ C]]]]].
    exists m0, m. exact (conj A (conj B C)).
Qed.
Print Assumptions C97_points_partial.

(** C97 with C96: the conversion of a map filled by points in floating point. Under the conditions of C96, every pixel
    shows the score of what the points computed to be in the cell it reads have left there. *)
Theorem C97_converted (prec emax : Z) {V W : Type} (default : V) (merge : V -> V -> V) (to_m : W -> list spec_float) (add : V -> W -> V)
  (dsample : V -> W -> spec_float) (from_grid : list spec_float -> W) (res sres : spec_float) (size : list Z) (mn : idx) :
  standard_format prec emax -> float_good_resolution prec emax res -> float_good_resolution prec emax sres ->
  let r := float_value res in let s := float_value sres in let inv := float_mono_inv prec emax res in
  let usable p := float_point prec emax r (to_m p) in
  (s <= r)%Q -> mono_args r size mn -> (forall d, (d < 2)%nat -> fits_pixels prec (nth d size 0) r s) ->
  exists place : W -> idx, (forall p, usable p -> float_bundle_index prec emax inv (to_m p) = Ok (place p)) /\
    forall ops : list (mono_op (V:=V) (W:=W)), points_off_border usable place size mn ops ->
    exists m0 m (w : nat -> Z) (cell : Z -> Z),
      mono_new r size mn = Ok m0 /\ float_mono_run prec emax default merge to_m add inv ops m0 = Ok m /\
      (forall d, (d < 2)%nat -> float_pixels prec emax (float_mono_extent prec emax res (nth d size 0)) sres = Ok (w d)) /\
      (forall u, 0 <= u -> u < w 0%nat \/ u < w 1%nat -> float_mono_cell prec emax res sres u = Ok (cell u)) /\
      ((forall d, (d < 2)%nat -> cell (w d - 1) < nth d size 0) ->
         exists g, float_mono_to_grid prec emax merge dsample from_grid res sres m = Ok g /\ fg_width g = w 0%nat /\ fg_height g = w 1%nat /\
           forall u v, 0 <= u < w 0%nat -> 0 <= v < w 1%nat ->
             let i := [nth 0 mn 0 + cell u; nth 1 mn 0 + cell v] in
             let p := [fmul prec emax (float_of_int prec emax u) sres; fmul prec emax (float_of_int prec emax v) sres] in
             fg_at g u v = float_probability prec
               (match point_history default add place ops i with Some x => dsample x (from_grid p) | None => float_zero end)) /\
      (~ (forall d, (d < 2)%nat -> cell (w d - 1) < nth d size 0) ->
         float_mono_to_grid prec emax merge dsample from_grid res sres m = UB).
Proof.
  intros Hf Hr Hs r s inv usable Hsr Ha Hfit. exists (pcell prec emax to_m res). split.
  - intros p Hp. exact (proj1 (pcell_spec prec emax Hf to_m res Hr p Hp)).
  - intros ops Hops.
    destruct (mono_points_float prec emax Hf default merge to_m add dsample res Hr size mn Ha ops Hops) as [m0 [m [A [B [C _]]]]].
    destruct (C96_reads_partial prec emax default merge (corner prec emax to_m res) add dsample from_grid res sres size mn ops Hf Hr Hs Hsr Ha Hfit
      (off_border_same prec emax Hf to_m res Hr size mn Ha ops Hops)) as [m0' [m' [w [cell [A' [C' [Hw [Hc [_ [G Out]]]]]]]]]].
    assert (m0' = m0) by (unfold r in A'; congruence). subst m0'. assert (m' = m) by congruence. subst m'.
    exists m0, m, w, cell. split; [exact A|]. split; [exact B|]. split; [intros d Hd; apply (Hw d Hd)|]. split; [intros u H0 Hu; apply (Hc u H0 Hu)|].
    split; [|exact Out]. intros H. destruct (G H) as [g [G1 [G2 [G3 G4]]]]. exists g. split; [exact G1|]. split; [exact G2|]. split; [exact G3|].
    intros u v Hu Hv i p. destruct (G4 u v Hu Hv) as [_ K]. rewrite (history_same prec emax default to_m add res size mn Ha) in K. exact K.
Qed.
Print Assumptions C97_converted.

(** The [double]s nearest to 0.3, 0.05 and 0.09. *)
Definition double_0_3 : spec_float := S754_finite false 5404319552844595 (-54).
Definition double_0_05 : spec_float := S754_finite false 7205759403792794 (-57).
Definition double_0_09 : spec_float := S754_finite false 6485183463413514 (-56).
Lemma good_0_09 : float_good_resolution 53 1024 double_0_09.
Proof. split; [split; reflexivity|split; vm_compute; discriminate]. Qed.

(** C97 is false: the point (0.3, 0.05) lies in the last cell of a map of 3 by 1 cells of 0.1, but its index is computed to
    be 3, and whatever the map holds, [get], [sample] and [insert] read outside of the storage. *)
Theorem C97_last_cell_refuted : exists (res : spec_float) (size : list Z) (mn : idx) (p : list spec_float),
  float_good_resolution 53 1024 res /\ mono_args (float_value res) size mn /\ float_point 53 1024 (float_value res) p /\
  in_cells size mn (cell_of (float_value res) (map float_value p)) /\
  forall (V : Type) (default : V) (merge : V -> V -> V) (add : V -> list spec_float -> V) (dsample : V -> list spec_float -> spec_float),
    exists cell : list spec_float -> idx,
      (forall q, float_point 53 1024 (float_value res) q -> float_bundle_index 53 1024 (float_mono_inv 53 1024 res) q = Ok (cell q)) /\
      forall ops : list (mono_op (V:=V) (W:=list spec_float)),
        points_off_border (float_point 53 1024 (float_value res)) cell size mn ops ->
        exists m0 m, mono_new (float_value res) size mn = Ok m0 /\
          float_mono_run 53 1024 default merge (fun q => q) add (float_mono_inv 53 1024 res) ops m0 = Ok m /\
          float_mono_get 53 1024 merge (fun q => q) (float_mono_inv 53 1024 res) m p = UB /\
          float_mono_sample 53 1024 merge (fun q => q) dsample (float_mono_inv 53 1024 res) m p = UB /\
          float_mono_insert 53 1024 default merge (fun q => q) add (float_mono_inv 53 1024 res) m p = UB.
Proof.
  assert (Ha : mono_args (float_value double_0_1) [3; 1] [0; 0]) by (apply sizes_0_1; [lia|lia|reflexivity|intros [|[|d]] Hd; cbn [nth]; lia]).
  assert (Hp : float_point 53 1024 (float_value double_0_1) [double_0_3; double_0_05]).
  { split; [reflexivity|]. repeat constructor; vm_compute; discriminate. }
  assert (Hb : float_bundle_index 53 1024 (float_mono_inv 53 1024 double_0_1) [double_0_3; double_0_05] = Ok [3; 0]) by (vm_compute; reflexivity).
  assert (Hc : cell_of (float_value double_0_1) (map float_value [double_0_3; double_0_05]) = [2; 0]) by (vm_compute; reflexivity).
  exists double_0_1, [3; 1], [0; 0], [double_0_3; double_0_05]. split; [exact good_0_1|]. split; [exact Ha|]. split; [exact Hp|].
  split. { rewrite Hc. split; [reflexivity|]. intros [|[|d]] Hd; cbn [nth]; lia. }
  intros V default merge add dsample.
  destruct (C97_points_partial 53 1024 default merge (fun q => q) add dsample double_0_1 [3; 1] [0; 0] double_format good_0_1 Ha) as [cell [A B]].
  exists cell. split; [intros q Hq; apply (A q Hq)|]. intros ops Hops. destruct (B ops Hops) as [m0 [m [E0 [E H]]]].
  exists m0, m. split; [exact E0|]. split; [exact E|]. apply (H _ Hp).
  destruct (A _ Hp) as [K _]. rewrite Hb in K. injection K as <-.
  split; [intros [|[|d]] Hd; cbn [nth]; lia|]. exists 0%nat. split; [lia|reflexivity].
Qed.
Print Assumptions C97_last_cell_refuted.

(** C97 is false: the point (0.09, 0.05) lies in the first cell of a map of cells of 0.09 that begins at index 1, but its index
    is computed to be 0: it is not inserted, whatever the map holds. *)
Theorem C97_first_cell_refuted : exists (res : spec_float) (size : list Z) (mn : idx) (p : list spec_float),
  float_good_resolution 53 1024 res /\ mono_args (float_value res) size mn /\ float_point 53 1024 (float_value res) p /\
  in_cells size mn (cell_of (float_value res) (map float_value p)) /\
  forall (V : Type) (default : V) (merge : V -> V -> V) (add : V -> list spec_float -> V),
    exists cell : list spec_float -> idx,
      (forall q, float_point 53 1024 (float_value res) q -> float_bundle_index 53 1024 (float_mono_inv 53 1024 res) q = Ok (cell q)) /\
      forall ops : list (mono_op (V:=V) (W:=list spec_float)),
        points_off_border (float_point 53 1024 (float_value res)) cell size mn ops ->
        exists m0 m, mono_new (float_value res) size mn = Ok m0 /\
          float_mono_run 53 1024 default merge (fun q => q) add (float_mono_inv 53 1024 res) ops m0 = Ok m /\
          float_mono_insert 53 1024 default merge (fun q => q) add (float_mono_inv 53 1024 res) m p = Ok m.
Proof.
  assert (Ha : mono_args (float_value double_0_09) [4; 4] [1; 0]).
  { split; [reflexivity|]. split; [reflexivity|]. split; [reflexivity|]. intros [|[|d]] Hd; cbn [nth]; unfold INT_MIN, INT_MAX; lia. }
  assert (Hp : float_point 53 1024 (float_value double_0_09) [double_0_09; double_0_05]).
  { split; [reflexivity|]. repeat constructor; vm_compute; discriminate. }
  assert (Hb : float_bundle_index 53 1024 (float_mono_inv 53 1024 double_0_09) [double_0_09; double_0_05] = Ok [0; 0]) by (vm_compute; reflexivity).
  assert (Hc : cell_of (float_value double_0_09) (map float_value [double_0_09; double_0_05]) = [1; 0]) by (vm_compute; reflexivity).
  exists double_0_09, [4; 4], [1; 0], [double_0_09; double_0_05]. split; [exact good_0_09|]. split; [exact Ha|]. split; [exact Hp|].
  split. { rewrite Hc. split; [reflexivity|]. intros [|[|d]] Hd; cbn [nth]; lia. }
  intros V default merge add.
  destruct (C97_points_partial 53 1024 default merge (fun q => q) add (fun _ _ => float_zero) double_0_09 [4; 4] [1; 0] double_format good_0_09 Ha) as [cell [A B]].
  exists cell. split; [intros q Hq; apply (A q Hq)|]. intros ops Hops. destruct (B ops Hops) as [m0 [m [E0 [E H]]]].
  exists m0, m. split; [exact E0|]. split; [exact E|].
  destruct (A _ Hp) as [K _]. rewrite Hb in K. injection K as K. apply (H _ Hp); rewrite <- K.
  - intros [_ X]. specialize (X 0%nat ltac:(lia)). cbn [nth] in X. lia.
  - intros [X _]. specialize (X 0%nat ltac:(lia)). cbn [nth] in X. lia.
Qed.
Print Assumptions C97_first_cell_refuted.

(** Two points in cell (-1, 7) and one outside of a map of 5 by 2 cells of 0.1. *)
Definition double_m_0_05 : spec_float := S754_finite true 7205759403792794 (-57).
Definition double_0_75 : spec_float := S754_finite false 6755399441055744 (-53).
Definition three_points : list (mono_op (V:=Z) (W:=list spec_float)) :=
  [MInsert [double_m_0_05; double_0_75]; MInsert [double_0_3; double_0_05]; MModify [2; 8] (fun n => n + 5); MInsert [double_m_0_05; double_0_75]].
Example C97_example :
  standard_format 53 1024 /\ float_good_resolution 53 1024 double_0_1 /\ mono_args (float_value double_0_1) [5; 2] [-1; 7] /\
  points_off_border (float_point 53 1024 (float_value double_0_1)) (pcell 53 1024 (fun q => q) double_0_1) [5; 2] [-1; 7] three_points /\
  (let* m0 := mono_new (float_value double_0_1) [5; 2] [-1; 7] in
   let* m := float_mono_run 53 1024 0 Z.add (fun q => q) (fun n _ => n + 1) (float_mono_inv 53 1024 double_0_1) three_points m0 in
   let* a := float_mono_get 53 1024 Z.add (fun q => q) (float_mono_inv 53 1024 double_0_1) m [double_m_0_05; double_0_75] in
   let* b := float_mono_get 53 1024 Z.add (fun q => q) (float_mono_inv 53 1024 double_0_1) m [double_0_05; double_0_75] in
   Ok (a, b)) = Ok (Some 2, None).
Proof.
  split; [exact double_format|]. split; [exact good_0_1|]. split; [apply sizes_0_1; [lia|lia|reflexivity|intros [|[|d]] Hd; cbn [nth]; lia]|].
  split; [|vm_compute; reflexivity].
  assert (P1 : float_point 53 1024 (float_value double_0_1) [double_m_0_05; double_0_75]) by (split; [reflexivity|]; repeat constructor; vm_compute; discriminate).
  assert (P2 : float_point 53 1024 (float_value double_0_1) [double_0_3; double_0_05]) by (split; [reflexivity|]; repeat constructor; vm_compute; discriminate).
  assert (C1 : pcell 53 1024 (fun q => q) double_0_1 [double_m_0_05; double_0_75] = [-1; 7]) by (vm_compute; reflexivity).
  assert (C2 : pcell 53 1024 (fun q => q) double_0_1 [double_0_3; double_0_05] = [3; 0]) by (vm_compute; reflexivity).
  assert (B1 : ~ on_border [5; 2] [-1; 7] [-1; 7]) by (intros [_ [[|[|d]] [Hd X]]]; cbn [nth] in X; lia).
  assert (B2 : ~ on_border [5; 2] [-1; 7] [3; 0]) by (intros [X _]; specialize (X 1%nat ltac:(lia)); cbn [nth] in X; lia).
  constructor; [split; [exact P1|rewrite C1; exact B1]|]. constructor; [split; [exact P2|rewrite C2; exact B2]|].
  constructor; [split; [reflexivity|intros [|[|d]] Hd; cbn [nth]; lia]|]. constructor; [split; [exact P1|rewrite C1; exact B1]|constructor].
Qed.
