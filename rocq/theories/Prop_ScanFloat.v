(** C89 with C67: a scan matched against a map with any history, scores and objective in machine arithmetic. *)
From Coq Require Import QArith Reals Lra Lia Floats.SpecFloat.
From Flocq Require Import Core BinarySingleNaN.
From Verif Require Import Base IndexModel OctreeSpec MapModel BackendModel SysModel SysSpec ExtentModel SampleModel SampleSpec
  ResidualModel RoundModel FloatModel FloatFacts FloatScoreFacts ObjFloatModel ObjFloatSpec HypotFloatFacts ScanFloatModel ScanFloatSpec
  ScanFloatFacts Samples.
Open Scope R_scope.

(** C89: in a map with any history and either number type, for every scan whose points have an index, the nlopt
    objective is finite and mapScore recovers the mean of the exact scores, up to rounding in the map
    (2^D * 2^(1-prec), C67) and in the objective. *)
Theorem C89_scan_partial (prec emax : Z) {P : Type} (c : config P) (Hc : config_ok c)
  (dsample : P -> list spec_float -> spec_float) (inv : spec_float) (l : list (map_action (P:=P))) (m : cmap c)
  (w : double_weights) (points : list (list spec_float)) (td rd : double) :
  standard_format prec emax -> (dimc c <= 8)%nat -> fits c l -> cact_all c l (new_map c) = Ok m ->
  Forall (point_ok prec emax c dsample inv m) points -> points <> [] -> (Z.of_nat (length points) <= 2 ^ 50)%Z ->
  weights_moderate w -> moderate td -> moderate rd ->
  let n := INR (length points) in
  let tol := 2 * IZR (2 ^ Z.of_nat (dimc c)) * bpow radix2 (- prec) in
  exists exact fi score, Forall2 (exact_score prec emax c dsample inv m) points exact /\
    scan_objective prec emax c inv dsample w m points td rd = Ok fi /\
    scan_mapScore prec emax c inv dsample w m points td rd = Ok score /\
    finite_double fi /\ finite_double score /\
    Rabs (real fi - (real (dw_map w) * (1 - exact_mean exact) + penalty w td rd))
      <= (n + 16) * roundoff * (real (dw_map w) + penalty_size w td rd) + real (dw_map w) * tol /\
    Rabs (real score - exact_mean exact) <= (n + 40) * roundoff * (1 + penalty_size w td rd / real (dw_map w)) + tol.
Proof. exact (fun Hf HD Hl Em => scan_nlopt prec emax Hf c Hc HD dsample inv l m Hl Em w points td rd). Qed.
Print Assumptions C89_scan_partial.

(** ... and likewise for alglib. *)
Theorem C89_scan_alglib_partial (prec emax : Z) {P : Type} (c : config P) (Hc : config_ok c)
  (dsample : P -> list spec_float -> spec_float) (inv : spec_float) (l : list (map_action (P:=P))) (m : cmap c)
  (w : double_weights) (points : list (list spec_float)) (rest : list double) :
  standard_format prec emax -> (dimc c <= 8)%nat -> fits c l -> cact_all c l (new_map c) = Ok m ->
  Forall (point_ok prec emax c dsample inv m) points -> points <> [] -> (Z.of_nat (length points) <= 2 ^ 50)%Z ->
  weights_moderate w ->
  let tol := 2 * IZR (2 ^ Z.of_nat (dimc c)) * bpow radix2 (- prec) in
  exists exact score, Forall2 (exact_score prec emax c dsample inv m) points exact /\
    scan_alglib_mapScore prec emax c inv dsample w m points rest = Ok score /\
    finite_double score /\ Rabs (real score - exact_mean exact) <= (5 * INR (length points) + 20) * roundoff + tol.
Proof. exact (fun Hf HD Hl Em => scan_alglib prec emax Hf c Hc HD dsample inv l m Hl Em w points rest). Qed.
Print Assumptions C89_scan_alglib_partial.

(** A map of floats with a distribution that scores 3/4, and a scan of two points, one of which hits it: the
    scores are 3/16 and 0, and mapScore of the objective is exactly 3/32. *)
Definition scan_sample (v : list Z) (_ : list spec_float) : spec_float :=
  match v with [] => float_zero | _ => S754_finite false 12582912 (-24) end.
Definition scan_history : list (map_action (P:=list Z)) := [Modify [0; 0]%Z (fun v => v ++ [5]%Z); Modify [1; 1]%Z (fun v => v)].
Definition scan_points : list (list spec_float) :=
  [[S754_finite false 12079595 (-24); S754_finite false 10234103 (-24)]; [S754_finite false 12079595 (-20); S754_finite true 10234103 (-20)]].
Definition scan_inv : spec_float := float_resolution_inv 24 128 (float_of_int 24 128 1).
Definition scan_weights : double_weights :=
  {| dw_translation := double_half; dw_rotation := double_one; dw_map := S754_finite false 4503599627370496 (-51) |}.
Example C89_scan_example :
  fits log_dynamic scan_history /\
  (forall m, cact_all log_dynamic scan_history (new_map log_dynamic) = Ok m ->
             Forall (point_ok 24 128 log_dynamic scan_sample scan_inv m) scan_points) /\
  (let* m := cact_all log_dynamic scan_history (new_map log_dynamic) in
   let* s := scan_mapScore 24 128 log_dynamic scan_inv scan_sample scan_weights m scan_points double_one double_one in
   Ok (Qeq_bool (float_value s) (3 # 32))) = Ok true.
Proof.
  split; [fits_2d|]. split; [|vm_compute; reflexivity]. intros m _.
  assert (U : forall v p, unit_float 24 128 (scan_sample v p)).
  { intros v p. destruct v; (split; [split; reflexivity|split; vm_compute; discriminate]). }
  constructor; [|constructor; [|constructor]].
  - split; [|intros; apply U]. exists [1; 1]%Z. split; [vm_compute; reflexivity|]. split; [reflexivity|]. intros _. split; [reflexivity|].
    repeat constructor; vm_compute; discriminate.
  - split; [|intros; apply U]. exists [23; -20]%Z. split; [vm_compute; reflexivity|]. split; [reflexivity|]. intros _. split; [reflexivity|].
    repeat constructor; vm_compute; discriminate.
Qed.
