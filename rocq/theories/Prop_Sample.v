(** C13, C15, C16, C17: scoring points. *)
From Coq Require Import QArith Qabs.
From Verif Require Import Base SeqModel IndexModel IndexSpec OctreeSpec MapModel BackendModel SysModel SysSpec ExtentModel
  SampleModel SampleSpec InterpFacts SampleFacts Samples.
Open Scope Z_scope.

(** C16: the weights of the 2^D slots add up to 1, whatever the per-axis weights are. *)
Theorem C16_weights_sum_to_one (w : list Q) :
  (qsum (map (to_bilinear_interpolation_weight w) (seq 0 (2 ^ length w))) == 1)%Q.
Proof. exact (weights_sum w). Qed.
Print Assumptions C16_weights_sum_to_one.

(** C16: for a point of the (closed) bundle each weight is in [0,1]; [inside] measures the point in
    bundles: bi_d <= p_d / h <= bi_d + 1 on every axis. *)
Theorem C16_weights_in_unit_interval (h : Q) (bi : idx) (p : list Q) (k : nat) :
  (0 < h)%Q -> length bi = length p ->
  (forall d, (d < length p)%nat ->
     (inject_Z (nth d bi 0%Z) <= nth d p 0 * / h /\ nth d p 0 * / h <= inject_Z (nth d bi 0%Z) + 1)%Q) ->
  unit_interval (to_bilinear_interpolation_weight (get_bilinear_interpolation_weights bi p (/ h)) k).
Proof. exact (fun _ HL H => weight_unit bi p (/ h) k (conj HL H)). Qed.
Print Assumptions C16_weights_in_unit_interval.

Example C16_example :
  let w := get_bilinear_interpolation_weights [-3; 4] [-(11 # 10); 22 # 10]%Q 2 in
  map (fun k => Qred (to_bilinear_interpolation_weight w k)) (seq 0 4) = [2 # 25; 8 # 25; 3 # 25; 12 # 25]%Q.
Proof. vm_compute. reflexivity. Qed.

(** C17: the weight of slot [k] is the tensor-product tent centred on the cell the slot refers to;
    a cell that the point's bundle does not refer to has a tent of 0 at the point. *)
Theorem C17_weight_is_hat (h : Q) (p : list Q) (bi : idx) (k : nat) :
  (0 < h)%Q -> toBundleIndex (/ h) p = Ok bi ->
  (to_bilinear_interpolation_weight (get_bilinear_interpolation_weights bi p (/ h)) k ==
   cell_hat k (generate_index bi k) (map (fun x => x * / h) p))%Q.
Proof. exact (fun Hh E => weight_hat bi p (/ h) k (index_inside h p bi Hh E)). Qed.
Print Assumptions C17_weight_is_hat.

Theorem C17_zero_elsewhere (h : Q) (p : list Q) (bi j : idx) (k : nat) :
  (0 < h)%Q -> toBundleIndex (/ h) p = Ok bi -> length j = length p -> generate_index bi k <> j ->
  (cell_hat k j (map (fun x => x * / h) p) == 0)%Q.
Proof. exact (fun Hh E => hat_elsewhere bi j p (/ h) k (index_inside h p bi Hh E)). Qed.
Print Assumptions C17_zero_elsewhere.

(** The weight the code gives to cell [(k, j)] at a point: that of slot [k] if the point's bundle
    refers to the cell, otherwise the cell does not take part. *)
Definition weight_of_cell (h : Q) (k : nat) (j : idx) (p : list Q) : outcome Q :=
  let* bi := toBundleIndex (/ h) p in
  Ok (if idx_eqb (generate_index bi k) j
      then to_bilinear_interpolation_weight (get_bilinear_interpolation_weights bi p (/ h)) k
      else 0%Q).

(** C17: the weight of a fixed cell is Lipschitz in the point over all bundles, hence continuous
    across every bundle border. *)
Theorem C17_weight_continuous (h : Q) (k : nat) (j : idx) (p q : list Q) (a b : Q) :
  (0 < h)%Q -> length j = length p -> length j = length q ->
  weight_of_cell h k j p = Ok a -> weight_of_cell h k j q = Ok b ->
  (Qabs (a - b) <= distance (length j) (map (fun x => x * / h) p) (map (fun x => x * / h) q))%Q.
Proof. exact (weight_lipschitz h k j p q a b). Qed.
Print Assumptions C17_weight_continuous.

(** Both sides of the border between bundles 1 and 2: slot 1 of bundle 1 and slot 1 of bundle 2
    are the same cell and its weight is 1 at the border and close to 1 before it. *)
Example C17_example :
  weight_of_cell 1 1 [1] [2%Q] = Ok (1 # 1)%Q /\
  (let* a := weight_of_cell 1 1 [1] [199 # 100]%Q in Ok (Qred a)) = Ok (99 # 100)%Q /\
  (let* a := weight_of_cell 1 0 [0] [199 # 100]%Q in Ok (Qred a)) = Ok (1 # 100)%Q /\
  weight_of_cell 1 0 [0] [2]%Q = Ok 0%Q.
Proof. repeat split; vm_compute; reflexivity. Qed.

(** C15: after any history, if every stored distribution scores in [0,1] at the point, so do the
    plain and the bilinear sample, for every point whose indices do not overflow. *)
Theorem C15_scores_normalised {P : Type} (c : config P) (Hc : config_ok c) (dsample : P -> list Q -> Q) (h : Q)
  (l : list (map_action (P:=P))) (m : cmap c) (p : list Q) :
  fits c l -> cact_all c l (new_map c) = Ok m -> (0 < h)%Q -> length p = dimc c ->
  (forall d, (d < dimc c)%nat -> (inject_Z INT_MIN * h <= nth d p 0 /\ nth d p 0 < inject_Z (INT_MAX - 32767) * h)%Q) ->
  (forall i j v, cstored c m i j = Ok (Some v) -> unit_interval (dsample v p)) ->
  (exists s, sampleNonNormalized c (/ h) dsample m p = Ok s /\ unit_interval s) /\
  (exists s, sampleNonNormalizedBilinear c (/ h) dsample m p = Ok s /\ unit_interval s).
Proof. exact (scores_unit c Hc dsample h l m p). Qed.
Print Assumptions C15_scores_normalised.

(** C15: the same for the occupancy maps, whose cells score sample times occupancy; without inverse
    model they throw. *)
Theorem C15_occupancy_scores_normalised {P D M : Type} (c : config P) (Hc : config_ok c)
  (inner : P -> option D) (sample : D -> list Q -> Q) (occupancy : M -> P -> Q) (h : Q)
  (l : list (map_action (P:=P))) (m : cmap c) (p : list Q) (ivm : M) :
  fits c l -> cact_all c l (new_map c) = Ok m -> (0 < h)%Q -> length p = dimc c ->
  (forall d, (d < dimc c)%nat -> (inject_Z INT_MIN * h <= nth d p 0 /\ nth d p 0 < inject_Z (INT_MAX - 32767) * h)%Q) ->
  (forall s, unit_interval (sample s p)) -> (forall v, unit_interval (occupancy ivm v)) ->
  (exists s, occ_sampleNonNormalized c (/ h) inner sample occupancy m p (Some ivm) = Ok s /\ unit_interval s) /\
  (exists s, occ_sampleNonNormalizedBilinear c (/ h) inner sample occupancy m p (Some ivm) = Ok s /\ unit_interval s) /\
  occ_sampleNonNormalized c (/ h) inner sample occupancy m p None = Throw /\
  occ_sampleNonNormalizedBilinear c (/ h) inner sample occupancy m p None = Throw.
Proof. exact (occ_scores_unit c Hc inner sample occupancy h l m p ivm). Qed.
Print Assumptions C15_occupancy_scores_normalised.

(** C15, full statement of the second half: a point whose bundle is not allocated scores 0. False
    for dynamic maps far from the origin: the octree only keeps 16 bits per index component. *)
Theorem C15_unallocated_scores_zero_refuted :
  exists (l : list (map_action (P:=list Z))) (bi : idx) (p : list Q),
    fits log_dynamic l /\ toBundleIndex (/ 1) p = Ok bi /\
    (let* m := cact_all log_dynamic l (new_map log_dynamic) in
     let* bs := cbundles log_dynamic m in
     let* s := sampleNonNormalized log_dynamic (/ 1) (fun v _ => inject_Z (Z.of_nat (length v))) m p in
     Ok (existsb (fun b => idx_eqb b bi) (map fst bs), Qred s)) = Ok (false, 1%Q).
Proof.
  exists [Modify [0; 0] (fun v => v ++ [5])], [65536; 0], [65536; 0]%Q.
  split; [fits_2d|]. split; vm_compute; reflexivity.
Qed.
Print Assumptions C15_unallocated_scores_zero_refuted.

(** C15, what holds: for every index the map can hold the sample is 0 if the bundle is not allocated
    and otherwise the mean (bilinear: tent-weighted sum) of its 2^D distributions ... *)
Theorem C15_score_value_partial {P : Type} (c : config P) (Hc : config_ok c) (dsample : P -> list Q -> Q) (h : Q)
  (l : list (map_action (P:=P))) (m : cmap c) (p : list Q) (bi : idx) :
  fits c l -> cact_all c l (new_map c) = Ok m -> (0 < h)%Q -> toBundleIndex (/ h) p = Ok bi -> usable c 0 bi ->
  match cbundle c m bi with
  | Ok None => sampleNonNormalized c (/ h) dsample m p = Ok 0%Q /\
               sampleNonNormalizedBilinear c (/ h) dsample m p = Ok 0%Q
  | Ok (Some _) =>
      exists v s t,
        (forall k, (k < 2 ^ dimc c)%nat -> cstored c m k (generate_index bi k) = Ok (Some (v k))) /\
        sampleNonNormalized c (/ h) dsample m p = Ok s /\
        (s == qsum (map (fun k => dsample (v k) p) (seq 0 (2 ^ dimc c))) / inject_Z (2 ^ Z.of_nat (dimc c)))%Q /\
        sampleNonNormalizedBilinear c (/ h) dsample m p = Ok t /\
        (t == qsum (map (fun k => cell_hat k (generate_index bi k) (map (fun x => x * / h)%Q p) * dsample (v k) p)
                        (seq 0 (2 ^ dimc c))))%Q
  | _ => False
  end.
Proof. exact (scores_value c Hc dsample h l m p bi). Qed.
Print Assumptions C15_score_value_partial.

(** ... and a static map scores 0 everywhere outside of its box. *)
Theorem C15_outside_scores_zero_partial {P : Type} (c : config P) (Hc : config_ok c) (dsample : P -> list Q -> Q) (h : Q)
  (l : list (map_action (P:=P))) (m : cmap c) (p : list Q) (bi : idx) :
  kindc c = Static -> fits c l -> cact_all c l (new_map c) = Ok m ->
  length p = dimc c -> toBundleIndex (/ h) p = Ok bi -> ~ usable c 0 bi ->
  sampleNonNormalized c (/ h) dsample m p = Ok 0%Q /\ sampleNonNormalizedBilinear c (/ h) dsample m p = Ok 0%Q.
Proof. exact (scores_outside c Hc dsample h l m p bi). Qed.
Print Assumptions C15_outside_scores_zero_partial.

Example C15_example :
  let l := [Modify [3; 4] (fun v => v ++ [5]); Modify [3; 5] (fun v => v ++ [7])] in
  let f v (_ : list Q) := if (0 <? length v)%nat then 1%Q else 0%Q in
  let g := log_static [4; 4] [0; 0] in
  fits g l /\
  (let* m := cact_all g l (new_map g) in
   let* a := sampleNonNormalized g (/ (1 # 2)) f m [19 # 10; 22 # 10]%Q in
   let* b := sampleNonNormalizedBilinear g (/ (1 # 2)) f m [19 # 10; 22 # 10]%Q in
   let* d := sampleNonNormalized g (/ (1 # 2)) f m [1000; 0]%Q in
   Ok (Qred a, Qred b, d)) = Ok (1, 1, 0)%Q.
Proof. split; [fits_2d|vm_compute; reflexivity]. Qed.

(** C13, full statement: the allocating lookup [getDistributionBundle] changes no sample. False: a
    bundle allocated by a lookup makes its cells' data visible where the score was 0. *)
Theorem C13_lookup_changes_sample_refuted :
  exists (l : list (map_action (P:=list Z))) (bi : idx) (p : list Q),
    fits log_dynamic (l ++ [Touch bi]) /\
    let f v (_ : list Q) := inject_Z (Z.of_nat (length v)) in
    (let* m := cact_all log_dynamic l (new_map log_dynamic) in
     let* m' := cact log_dynamic m (Touch bi) in
     let* a := sampleNonNormalized log_dynamic (/ 1) f m p in
     let* b := sampleNonNormalized log_dynamic (/ 1) f m' p in
     Ok (Qred a, Qred b)) = Ok (0, 1 # 2)%Q.
Proof.
  exists [Modify [0; 0] (fun v => v ++ [5])], [1; 0], [3 # 2; 1 # 2]%Q.
  split; [fits_2d|]. vm_compute. reflexivity.
Qed.
Print Assumptions C13_lookup_changes_sample_refuted.

(** C13, what holds: every stored distribution keeps its contents, a new one is the default one and
    belongs to the bundle looked up; looking up an existing bundle or an index that is not accepted
    changes nothing at all; and every sample in another bundle is the same as before. *)
Theorem C13_lookup_keeps_contents_partial {P : Type} (c : config P) (Hc : config_ok c)
  (l : list (map_action (P:=P))) (bi : idx) :
  fits c (l ++ [Touch bi]) ->
  exists m m', cact_all c l (new_map c) = Ok m /\ cact c m (Touch bi) = Ok m' /\
    (forall i j, cell_exists c i j -> exists o, cstored c m i j = Ok o /\
       (cstored c m' i j = Ok o \/
        o = None /\ cstored c m' i j = Ok (Some (defaultc c)) /\ generate_index bi i = j)) /\
    ((exists b, usable c 0 bi /\ cbundle c m bi = Ok (Some b)) \/ cvalid c m bi = false -> m' = m) /\
    (forall dsample inv p b, addressable c b -> place c b <> bi ->
       sample_at c dsample m' p b = sample_at c dsample m p b /\
       sample_bilinear_at c inv dsample m' p b = sample_bilinear_at c inv dsample m p b).
Proof. exact (lookup_history c Hc l bi). Qed.
Print Assumptions C13_lookup_keeps_contents_partial.

Example C13_example :
  fits log_dynamic ([Modify [0; 0] (fun v => v ++ [5]); ExpandAll] ++ [Touch [7; -3]]) /\
  addressable log_dynamic [0; 0] /\ place log_dynamic [0; 0] <> [7; -3].
Proof.
  split; [fits_2d|]. split; [|discriminate].
  split; [reflexivity|]. intros _. split; [reflexivity|repeat constructor; unfold INT_MIN, INT_MAX; lia].
Qed.
