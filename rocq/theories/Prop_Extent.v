(** C43, C45: points, indices and the origin. *)
From Coq Require Import QArith Qround.
From Verif Require Import Base OctreeSpec MapModel BackendModel SysModel SysSpec ExtentModel ExtentFacts Samples.
Open Scope Z_scope.

(** C43: the index of a point is that of the half-open box containing it; it is UB exactly when
    some coordinate needs an index outside of [int]. *)
Theorem C43_bundle_contains_point (h : Q) (p : list Q) :
  (0 < h)%Q ->
  (exists bi, toBundleIndex (/ h) p = Ok bi /\ length bi = length p /\
     forall d, (d < length p)%nat ->
       (inject_Z (nth d bi 0%Z) * h <= nth d p 0 /\ nth d p 0 < (inject_Z (nth d bi 0%Z) + 1) * h)%Q) \/
  (toBundleIndex (/ h) p = UB /\
     exists d, (d < length p)%nat /\
       (nth d p 0 < inject_Z INT_MIN * h \/ (inject_Z INT_MAX + 1) * h <= nth d p 0)%Q).
Proof. exact (index_of_point h p). Qed.
Print Assumptions C43_bundle_contains_point.

(** C43: conversely every point of the box of [bi] gets index [bi]. *)
Theorem C43_every_point_of_bundle (h : Q) (p : list Q) (bi : idx) :
  (0 < h)%Q -> length bi = length p -> Forall (fun z => INT_MIN <= z <= INT_MAX) bi ->
  (forall d, (d < length p)%nat ->
     (inject_Z (nth d bi 0%Z) * h <= nth d p 0 /\ nth d p 0 < (inject_Z (nth d bi 0%Z) + 1) * h)%Q) ->
  toBundleIndex (/ h) p = Ok bi.
Proof. exact (index_unique h p bi). Qed.
Print Assumptions C43_every_point_of_bundle.

Example C43_example :
  toBundleIndex (/ (1 # 4)) [-1 # 8; 1 # 4; 0]%Q = Ok [-1; 1; 0] /\
  toBundleIndex (/ (1 # 4)) [0; 1000000000]%Q = UB.
Proof. split; vm_compute; reflexivity. Qed.

(** C45, full statement: the translation of [getOrigin] is the world position of the map's minimum
    corner, [w_T_m * getMin]. [rot] is the rotation part of [w_T_m], [t] its translation. False
    for rotated maps: the offset is added without rotating it. *)
Definition rotate90 (p : list Q) : list Q :=
  match p with [x; y] => [- y; x]%Q | _ => p end.
Theorem C45_rotated_origin_refuted :
  exists l, fits log_dynamic l /\
    exists o corner,
      (let* m := cact_all log_dynamic l (new_map log_dynamic) in
       Ok (getOrigin log_dynamic 1 [0; 0]%Q m, qadd [0; 0]%Q (rotate90 (getMin log_dynamic 1 m)))) = Ok (o, corner) /\
      ~ (nth 0 o 0 == nth 0 corner 0)%Q.
Proof.
  exists [Touch [2; 3]]. split; [fits_2d|]. eexists. eexists. split; [vm_compute; reflexivity|].
  vm_compute. discriminate.
Qed.
Print Assumptions C45_rotated_origin_refuted.

(** C45, what holds: if the rotation leaves the corner where it is (in particular without
    rotation) the origin is right, and otherwise it is off by exactly what the rotation moves it. *)
Theorem C45_origin_partial {P : Type} (c : config P) (bres : Q) (rot : list Q -> list Q) (t : list Q) (m : cmap c) (d : nat) :
  length t = length (min_bi m) -> length (rot (getMin c bres m)) = length (min_bi m) ->
  (d < length (min_bi m))%nat ->
  (nth d (getOrigin c bres t m) 0 == nth d (qadd t (rot (getMin c bres m))) 0 +
     (nth d (getMin c bres m) 0 - nth d (rot (getMin c bres m)) 0))%Q.
Proof. exact (origin_offset c bres rot t m d). Qed.
Print Assumptions C45_origin_partial.
