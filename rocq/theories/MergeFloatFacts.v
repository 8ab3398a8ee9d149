(** Creation of the grid map with one distribution per cell from a dynamic map in floating-point arithmetic. *)
From Coq Require Import QArith Qabs Qround Floats.SpecFloat.
From Verif Require Import Base SeqModel IndexModel OctreeSpec MapModel MapFacts MapHist BackendModel BackendFacts SysModel SysSpec SysFacts MapPropFacts MapLifeFacts ConvFacts ExtentModel ExtentFacts RoundModel FloatModel FloatFacts
  FloatIndexFacts GridModel MonoModel MonoSpec MonoFacts GridFloatModel GridFloatSpec MonoFloatModel MonoFloatSpec MonoFloatFacts MonoFloatMap MonoPointModel MergeFloatModel.
Open Scope Z_scope.

(** A computed index is one of [int]s. *)
Lemma float_index_range (prec emax : Z) (inv x : spec_float) (k : Z) : float_index prec emax inv x = Ok k -> INT_MIN <= k <= INT_MAX.
Proof.
  unfold float_index, int_floor. destruct (float_finite _); [|discriminate]. unfold to_int.
  destruct (_ && _) eqn:B; [|discriminate]. intros E. injection E as <-. apply andb_prop in B. lia.
Qed.
Lemma bundle_index_range (prec emax : Z) (inv : spec_float) (p : list spec_float) : forall bi, float_bundle_index prec emax inv p = Ok bi ->
  length bi = length p /\ Forall (fun k => INT_MIN <= k <= INT_MAX) bi.
Proof.
  unfold float_bundle_index. induction p as [|x p IH]; cbn [omap]; intros bi E; [injection E as <-; split; [reflexivity|constructor]|].
  destruct (float_index prec emax inv x) as [k| |] eqn:K; cbn [obind] in E; try discriminate E.
  destruct (omap _ p) as [l| |]; cbn [obind] in E; try discriminate E. injection E as <-. destruct (IH l eq_refl) as [A B].
  split; [cbn [length]; congruence|]. constructor; [eapply float_index_range; exact K|exact B].
Qed.

Section Access.
Variables prec emax : Z.
Context {V W : Type}.
Variable default : V.
Variable merge : V -> V -> V.
Variable to_m : W -> list spec_float.
Variable add : V -> W -> V.
Variable dsample : V -> W -> spec_float.
Variable inv : spec_float.
Variable r : Q.
Variable size : list Z.
Variable mn : idx.
Hypothesis Hargs : mono_args r size mn.

(** Accesses by a point with a computed index. *)
Lemma float_access (m : mono V) (p : W) (i : idx) : mono_ok r size mn m -> length (to_m p) = 2%nat ->
  float_bundle_index prec emax inv (to_m p) = Ok i ->
  (in_cells size mn i -> float_mono_get prec emax merge to_m inv m p = Ok (mcell m i) /\
     float_mono_sample prec emax merge to_m dsample inv m p = Ok (match mcell m i with Some d => dsample d p | None => float_zero end)) /\
  (on_border size mn i -> float_mono_get prec emax merge to_m inv m p = UB /\ float_mono_sample prec emax merge to_m dsample inv m p = UB) /\
  (~ in_cells size mn i -> ~ on_border size mn i ->
     float_mono_get prec emax merge to_m inv m p = Ok None /\ float_mono_sample prec emax merge to_m dsample inv m p = Ok float_zero).
Proof.
  intros Hm L E. destruct (bundle_index_range prec emax inv _ _ E) as [L' R]. rewrite L in L'.
  set (t := fun _ : W => map (fun k => inject_Z k * r)%Q i).
  assert (EC : cell_of r (t p) = i).
  { unfold cell_of, t. rewrite map_map. rewrite <- (map_id i) at 2. apply map_ext. intros k. rewrite <- (Qfloor_Z k) at 2.
    apply Qfloor_comp. field. pose proof Hargs as [H _]. intros X. rewrite X in H. discriminate H. }
  assert (Hc : has_cell r (t p)) by (split; [unfold t; rewrite map_length; exact L'|rewrite EC; exact R]).
  assert (S : float_mono_toIndex prec emax to_m inv m p = mono_toIndex t m p).
  { unfold float_mono_toIndex, mono_toIndex. rewrite E, (mk_res _ _ _ _ Hm), (index_value r _ Hc), EC. reflexivity. }
  destruct (access_spec default merge r size mn Hargs t add (fun _ _ => 0%Q) m p Hm Hc) as [X [Y Z]]. rewrite EC in X, Y, Z.
  assert (G : float_mono_get prec emax merge to_m inv m p = mono_get merge t m p) by (unfold float_mono_get, mono_get; rewrite S; reflexivity).
  rewrite G. unfold float_mono_sample. rewrite S. split; [|split].
  - intros Hi. destruct (X Hi) as [X1 [X2 _]]. rewrite X1, X2. cbn [obind]. unfold float_mono_sample_at.
    rewrite (get_ok merge r size mn Hargs m i Hm Hi). split; reflexivity.
  - intros Hi. destruct (Y Hi) as [Y1 [Y2 _]]. rewrite Y1, Y2. cbn [obind]. unfold float_mono_sample_at. rewrite (get_ub merge r size mn Hargs m i Hm); [auto|].
    intros [_ K]. destruct Hi as [_ [d [Hd K']]]. specialize (K d Hd). lia.
  - intros Hi Hb. destruct (Z Hi Hb) as [Z1 [Z2 _]]. rewrite Z1, Z2. auto.
Qed.
End Access.

Section Merged.
Variables prec emax : Z.
Context {P W : Type}.
Variable c : config P.
Hypothesis Hc : config_ok c.
Hypothesis Hdim : dimc c = 2%nat.
Hypothesis Hdyn : kindc c = Dynamic.
Hypothesis Hmin : aminc c = cw_min.
Hypothesis Hmax : amaxc c = cw_max.
Variable resolution : spec_float.
Notation res := (float_merged_resolution prec emax resolution).
Hypothesis Hb : (0 < float_value res)%Q.
Variable plus : P -> P -> P.
Variable dsample : P -> W -> spec_float.

(** The four distributions of a bundle. *)
Lemma merged_parts (m : cmap c) (es : list (idx * bundle)) (bi : idx) : cInv c m -> region c 0 m -> cbundles c m = Ok es -> In bi (map fst es) ->
  forall i, (i < 4)%nat -> cstored c m i (generate_index bi i) = Ok (Some (nth i (map (bundle_value c m bi) (seq 0 4)) (defaultc c))).
Proof.
  intros HI HR Ees Hbi i Hi. pose proof (cbundles_in c m es HI Ees) as Hin. apply Hin in Hbi. pose proof (has_b_usable c 0 m bi HI HR Hbi) as Hu.
  assert (Hi' : (i < bin_count (dimc c))%nat) by (rewrite Hdim; exact Hi).
  assert (Hd : cddom c (cshape c (new_map c)) i (generate_index bi i))
    by (apply (usable_okidx c Hc 0 bi ltac:(lia) Hu); exact Hi').
  rewrite (cstored_spec c Hc m i _ HI (dom_cell c Hc i _ Hi' Hd)).
  rewrite (nth_indep _ (defaultc c) (bundle_value c m bi 0%nat)) by (rewrite map_length, seq_length; exact Hi).
  rewrite (map_nth (bundle_value c m bi) _ 0%nat), seq_nth by exact Hi. cbn [Nat.add]. unfold bundle_value.
  destruct Hbi as [Hbd Hbb]. destruct (cbget c m bi) as [b|] eqn:Eb; [|contradiction].
  pose proof HI as [[[Hwf HIb] _] _]. destruct (HIb bi b Hbd Eb) as [_ [_ Hex]]. destruct (Hex i Hi') as [d Hd'].
  unfold cdget. rewrite Hd'. reflexivity.
Qed.

Lemma merged_points (to_m : W -> list spec_float) (l : list (map_action (P:=P))) : fits c l ->
  exists m es, cact_all c l (new_map c) = Ok m /\ cbundles c m = Ok es /\
    (es <> [] -> exists dst, float_merge_map prec emax c resolution plus m = Ok dst /\
       let inv := float_merged_inv prec emax resolution in
       forall p bi, length (to_m p) = 2%nat -> float_bundle_index prec emax (float_resolution_inv prec emax resolution) (to_m p) = Ok bi ->
         let above d := nth d bi 0 - nth d (max_bi m) 0 in
         (In bi (map fst es) -> exists vs, length vs = 4%nat /\
            (forall i, (i < 4)%nat -> cstored c m i (generate_index bi i) = Ok (Some (nth i vs (defaultc c)))) /\
            float_mono_get prec emax (mergec c) to_m inv dst p = Ok (Some (fold_left plus vs (defaultc c))) /\
            float_mono_sample prec emax (mergec c) to_m dsample inv dst p = Ok (dsample (fold_left plus vs (defaultc c)) p)) /\
         (~ In bi (map fst es) ->
            ((forall d, (d < 2)%nat -> above d <= 0) \/
             (exists d, (d < 2)%nat /\ (1 < above d \/ nth d bi 0 < nth d (min_bi m) 0))) ->
            float_mono_get prec emax (mergec c) to_m inv dst p = Ok None /\
            float_mono_sample prec emax (mergec c) to_m dsample inv dst p = Ok float_zero) /\
         ((forall d, (d < 2)%nat -> nth d (min_bi m) 0 <= nth d bi 0 /\ above d <= 1) -> (exists d, (d < 2)%nat /\ above d = 1) ->
            float_mono_get prec emax (mergec c) to_m inv dst p = UB /\
            float_mono_sample prec emax (mergec c) to_m dsample inv dst p = UB)).
Proof.
  intros Hf. destruct (run_spec c Hc l Hf) as [m [E [HI [HR _]]]].
  destruct (cbundles_spec c m HI) as [es [Ees [Hnd Hmem]]]. exists m, es. split; [exact E|]. split; [exact Ees|].
  intros Hne. destruct (merge_spec c Hdim Hdyn Hmin Hmax (float_value res) Hb plus m es HI HR Ees Hne) as [dst [F1 [Ha [O [F4 [F5 _]]]]]].
  exists dst. split; [exact F1|]. intros inv p bi L Ebi above.
  set (size := [nth 0 (max_bi m) 0 - nth 0 (min_bi m) 0 + 1; nth 1 (max_bi m) 0 - nth 1 (min_bi m) 0 + 1]) in *.
  destruct (float_access prec emax (defaultc c) (mergec c) to_m (fun d _ => d) dsample inv (float_value res) size (min_bi m) Ha dst p bi O L Ebi) as [A [B C]].
  assert (L2 : length bi = 2%nat) by (rewrite <- L; apply (bundle_index_range prec emax _ _ _ Ebi)).
  assert (Hs : forall d, (d < 2)%nat -> nth d size 0 = nth d (max_bi m) 0 - nth d (min_bi m) 0 + 1) by (intros [|[|d]] Hd; [reflexivity|reflexivity|lia]).
  assert (Hdec : in_cells size (min_bi m) bi \/ ~ in_cells size (min_bi m) bi).
  { destruct (arr_inside size (min_bi m) bi) eqn:X; [left; apply (inside_iff (float_value res) _ _ Ha); exact X|right].
    intros Y. apply (inside_iff (float_value res) _ _ Ha) in Y. congruence. }
  split; [|split].
  - intros Hbi. destruct (F4 bi Hbi) as [G1 G2]. exists (map (bundle_value c m bi) (seq 0 4)). split; [reflexivity|].
    split; [exact (merged_parts m es bi HI HR Ees Hbi)|]. destruct (A G1) as [A1 A2]. rewrite A1, A2, G2. split; reflexivity.
  - intros Hbi Hle. destruct Hdec as [Hi|Ho].
    + destruct (A Hi) as [A1 A2]. rewrite A1, A2, (F5 bi Hbi). split; reflexivity.
    + apply C; [exact Ho|]. intros [X [d [Hd Y]]]. destruct Hle as [Hle|[d' [Hd' Hle]]].
      * specialize (Hle d Hd). unfold above in Hle. rewrite (Hs d Hd) in Y. lia.
      * specialize (X d' Hd'). rewrite (Hs d' Hd') in X. unfold above in Hle. lia.
  - intros Hle [d [Hd Y]]. apply B. split.
    + intros d' Hd'. specialize (Hle d' Hd'). unfold above in Hle. rewrite (Hs d' Hd'). lia.
    + exists d. split; [exact Hd|]. unfold above in Y. rewrite (Hs d Hd). lia.
Qed.

Hypothesis Hfmt : standard_format prec emax.
Hypothesis Hr : float_good_resolution prec emax res.
Variable sres : spec_float.
Hypothesis Hs : float_good_resolution prec emax sres.
Hypothesis Hsr : (float_value sres <= float_value res)%Q.
Variable from_grid : list spec_float -> W.

Lemma merged_grid (l : list (map_action (P:=P))) : fits c l ->
  exists m es, cact_all c l (new_map c) = Ok m /\ cbundles c m = Ok es /\
    let count d := nth d (max_bi m) 0 - nth d (min_bi m) 0 + 1 in
    (es <> [] -> (forall d, (d < 2)%nat -> fits_pixels prec (count d) (float_value res) (float_value sres)) ->
     exists dst (w : nat -> Z) (cell : Z -> Z), float_merge_map prec emax c resolution plus m = Ok dst /\
       (forall d, (d < 2)%nat -> float_pixels prec emax (float_mono_extent prec emax res (count d)) sres = Ok (w d) /\ 1 <= w d) /\
       (forall u, 0 <= u -> u < w 0%nat \/ u < w 1%nat -> float_mono_cell prec emax res sres u = Ok (cell u) /\ 0 <= cell u) /\
       ((forall d, (d < 2)%nat -> cell (w d - 1) < count d) ->
          exists g, float_mono_to_grid prec emax (mergec c) dsample from_grid res sres dst = Ok g /\ fg_width g = w 0%nat /\ fg_height g = w 1%nat /\
            forall u v, 0 <= u < w 0%nat -> 0 <= v < w 1%nat ->
              let bi := [nth 0 (min_bi m) 0 + cell u; nth 1 (min_bi m) 0 + cell v] in
              let p := [fmul prec emax (float_of_int prec emax u) sres; fmul prec emax (float_of_int prec emax v) sres] in
              (In bi (map fst es) -> exists vs, length vs = 4%nat /\
                 (forall i, (i < 4)%nat -> cstored c m i (generate_index bi i) = Ok (Some (nth i vs (defaultc c)))) /\
                 fg_at g u v = float_probability prec (dsample (fold_left plus vs (defaultc c)) (from_grid p))) /\
              (~ In bi (map fst es) -> fg_at g u v = float_zero)) /\
       (~ (forall d, (d < 2)%nat -> cell (w d - 1) < count d) ->
          float_mono_to_grid prec emax (mergec c) dsample from_grid res sres dst = UB)).
Proof.
  intros Hf. destruct (run_spec c Hc l Hf) as [m [E [HI [HR _]]]].
  destruct (cbundles_spec c m HI) as [es [Ees [Hnd Hmem]]]. exists m, es. split; [exact E|]. split; [exact Ees|]. intros count Hne Hfit.
  destruct (merge_spec c Hdim Hdyn Hmin Hmax (float_value res) Hb plus m es HI HR Ees Hne) as [dst [F1 [Ha [O [F4 [F5 _]]]]]].
  fold (count 0%nat) (count 1%nat) in Ha, O, F4. set (size := [count 0%nat; count 1%nat]) in *.
  assert (Hfit' : forall d, (d < 2)%nat -> fits_pixels prec (nth d size 0) (float_value res) (float_value sres)).
  { intros [|[|d]] Hd; [exact (Hfit 0%nat Hd)|exact (Hfit 1%nat Hd)|lia]. }
  destruct (axis prec emax Hfmt res sres Hr Hs Hsr size (min_bi m) Ha Hfit' 0%nat ltac:(lia)) as [w0 [P0 [A0 [B0 _]]]].
  destruct (axis prec emax Hfmt res sres Hr Hs Hsr size (min_bi m) Ha Hfit' 1%nat ltac:(lia)) as [w1 [P1 [A1 [B1 _]]]].
  set (w := fun d => if Nat.eqb d 0 then w0 else w1). set (cell := mcell_of prec emax res sres) in *.
  assert (Hcell : forall u, 0 <= u -> u < w0 \/ u < w1 -> float_mono_cell prec emax res sres u = Ok (cell u) /\ 0 <= cell u).
  { intros u Hu [K|K]; [apply B0|apply B1]; lia. }
  pose proof (mcell_mono prec emax Hfmt res sres Hr Hs) as Hmono. fold cell in Hmono.
  exists dst, w, cell. split; [exact F1|]. split; [intros [|[|d]] Hd; [exact (conj P0 A0)|exact (conj P1 A1)|lia]|]. split; [exact Hcell|]. split.
  - intros H. destruct (mono_float_inside prec emax (mergec c) dsample from_grid res sres (float_value res) size (min_bi m) Ha cell w0 w1 P0 P1 Hcell Hmono dst O
      (H 0%nat ltac:(lia)) (H 1%nat ltac:(lia))) as [g [Eg [Gw [Gh G]]]].
    exists g. split; [exact Eg|]. split; [exact Gw|]. split; [exact Gh|]. intros u v Hu Hv bi p. destruct (G u v Hu Hv) as [G1 G2].
    unfold fgrid_score in G2. change (fgrid_cell (min_bi m) cell u v) with bi in *. split.
    + intros Hbi. exists (map (bundle_value c m bi) (seq 0 4)). split; [reflexivity|]. split; [exact (merged_parts m es bi HI HR Ees Hbi)|].
      rewrite G2, (proj2 (F4 bi Hbi)). reflexivity.
    + intros Hbi. rewrite G2, (F5 bi Hbi). reflexivity.
  - intros H. apply (mono_float_outside prec emax (mergec c) dsample from_grid res sres (float_value res) size (min_bi m) Ha cell w0 w1 P0 P1 A0 A1 Hcell dst O).
    intros [H0 H1]. apply H. intros [|[|d]] Hd; [exact H0|exact H1|lia].
Qed.
End Merged.
