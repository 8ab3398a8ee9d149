(** C49: the two evaluations of the ceres cost functors. *)
From Coq Require Import QArith Qabs.
From Verif Require Import Base SeqModel IndexModel OctreeSpec MapModel BackendModel SysModel SysSpec ExtentModel
  SampleModel EvalModel EvalFacts Samples.
Open Scope Z_scope.

(** C49: the residual used with numeric differentiation and the value of the one used with automatic
    differentiation are equal (or both undefined) for every map of any kind, every point and every
    kind of distribution ... *)
Theorem C49_same_residual_partial {P : Type} (c : config P) (inv : Q) (valid : P -> bool) (kernel : P -> list Q -> Q)
  (m : cmap c) (p : list Q) :
  same_outcome (evaluate_double c inv valid kernel m p) (evaluate_jet c inv valid kernel m p).
Proof. exact (evaluate_same c inv valid kernel m p). Qed.
Print Assumptions C49_same_residual_partial.

(** ... and for occupancy maps given an inverse model. *)
Theorem C49_same_occupancy_residual_partial {P D M : Type} (c : config P) (inv : Q) (inner : P -> option D) (valid : D -> bool)
  (kernel : D -> list Q -> Q) (occupancy : M -> P -> Q) (m : cmap c) (p : list Q) (ivm : M) :
  same_outcome (occ_evaluate_double c inv inner valid kernel occupancy m p (Some ivm))
               (occ_evaluate_jet c inv inner valid kernel occupancy m p (Some ivm)).
Proof. exact (occ_evaluate_same c inv inner valid kernel occupancy m p ivm). Qed.
Print Assumptions C49_same_occupancy_residual_partial.

(** C49, full statement for occupancy maps: false without inverse model. The numeric version always
    throws, the automatic one reports a residual of 1 where the map has no bundle. *)
Theorem C49_no_model_refuted :
  exists (p : list Q),
    occ_evaluate_double log_dynamic 1 (fun v => Some v) (fun _ => true) (fun _ _ => 1%Q) (fun (_ : unit) _ => 1%Q)
      (new_map log_dynamic) p None = Throw /\
    occ_evaluate_jet log_dynamic 1 (fun v => Some v) (fun _ => true) (fun _ _ => 1%Q) (fun (_ : unit) _ => 1%Q)
      (new_map log_dynamic) p None = Ok 1%Q.
Proof. exists [0; 0]%Q. split; vm_compute; reflexivity. Qed.
Print Assumptions C49_no_model_refuted.

Example C49_example :
  let l := [Modify [3; 4] (fun v => v ++ [5])] in
  let g := log_static [4; 4] [0; 0] in
  let valid (v : list Z) := (0 <? length v)%nat in
  (let* m := cact_all g l (new_map g) in
   let* a := evaluate_double g 2 valid (fun _ _ => 1 # 2)%Q m [19 # 10; 22 # 10]%Q in
   let* b := evaluate_jet g 2 valid (fun _ _ => 1 # 2)%Q m [19 # 10; 22 # 10]%Q in
   Ok (Qred a, Qred b)) = Ok (1 # 2, 1 # 2)%Q.
Proof. vm_compute. reflexivity. Qed.
