(** C57: the index of a point in double arithmetic. *)
From Coq Require Import QArith Qround Floats.SpecFloat.
From Verif Require Import Base ExtentModel ResidualModel RoundModel RoundFacts.
Open Scope Z_scope.

(** [good_double]: an IEEE double that is neither infinite nor NaN. [good_resolution]: between 2^-1000 and
    2^1000. [float_value] is the exact number. *)

(** C57, the part that holds: a point that is further than 2^-19 (two millionths) of the width of a bundle from
    its border gets the index of its bundle, for all bundles that [int] can number. *)
Theorem C57_inside_partial (resolution : double) (p : list double) (bi : idx) :
  good_resolution resolution -> Forall good_double p -> length bi = length p ->
  Forall (fun z => INT_MIN <= z <= INT_MAX) bi ->
  let h := (float_value resolution * (1 # 2))%Q in
  (forall d, (d < length p)%nat ->
     ((inject_Z (nth d bi 0%Z) + (2 # 1) ^ (-19)) * h <= float_value (nth d p S754_nan) /\
      float_value (nth d p S754_nan) <= (inject_Z (nth d bi 0%Z) + 1 - (2 # 1) ^ (-19)) * h)%Q) ->
  double_bundle_index resolution p = Ok bi.
Proof. exact (inside resolution p bi). Qed.

(** C57, the part that holds: the index differs from that of the bundle containing the point by at most
    one in every dimension. *)
Theorem C57_neighbour_partial (resolution : double) (p : list double) (bi exact : idx) :
  good_resolution resolution -> Forall good_double p ->
  double_bundle_index resolution p = Ok bi ->
  toBundleIndex (/ (float_value resolution * (1 # 2))) (map float_value p) = Ok exact ->
  Forall2 (fun k k' => Z.abs (k - k') <= 1) bi exact.
Proof. exact (neighbour resolution p bi exact). Qed.

(** C57: how far beyond the border of the box of its index a point can be, in general: for points within [M]
    bundles of the origin at most [M] * 2^-51 (+ 2^-1070) of the width of a bundle; it is undefined only for
    points that far from the ends of [int]. *)
Theorem C57_distance_partial (resolution x : double) (M : Q) :
  good_resolution resolution -> good_double x -> (0 <= M <= (2 # 1) ^ 1000)%Q ->
  let h := (float_value resolution * (1 # 2))%Q in
  (- M * h <= float_value x <= M * h)%Q ->
  let tol := (M * (2 # 1) ^ (-51) + (2 # 1) ^ (-1070))%Q in
  match double_index (bundle_resolution_inv resolution) x with
  | Ok k => ((inject_Z k - tol) * h <= float_value x /\ float_value x < (inject_Z k + 1 + tol) * h)%Q /\
            INT_MIN <= k <= INT_MAX
  | UB => (float_value x < (inject_Z INT_MIN + tol) * h \/ (inject_Z INT_MAX + 1 - tol) * h <= float_value x)%Q
  | Throw => False
  end.
Proof. exact (fun Hr Hx HM => index_near resolution x M (proj1 (proj1 Hr)) (proj1 Hx) (proj2 (proj1 Hr)) (proj2 Hx) (proj2 Hr) HM). Qed.
Print Assumptions C57_inside_partial.
Print Assumptions C57_neighbour_partial.
Print Assumptions C57_distance_partial.

(** The doubles next to 0.2, 0.3 and 0.09. *)
Definition double_0_2 : double := S754_finite false 7205759403792794 (-55).
Definition double_0_3 : double := S754_finite false 5404319552844595 (-54).
Definition double_0_09 : double := S754_finite false 6485183463413514 (-56).

(** C57 is false: in a map of resolution 0.2 (bundles of 0.1) the point 0.3 lies in the bundle from 0.2 to
    0.3 (as the double 0.3 is below 3 times the double 0.1), but gets the index 3. *)
Theorem C57_wrong_bundle_refuted :
  exists resolution x : double, good_resolution resolution /\ good_double x /\
    toBundleIndex (/ (float_value resolution * (1 # 2))) [float_value x] = Ok [2] /\
    double_bundle_index resolution [x] = Ok [3].
Proof.
  exists double_0_2, double_0_3. split; [split; [split; reflexivity|split; vm_compute; discriminate]|].
  split; [split; reflexivity|]. split; vm_compute; reflexivity.
Qed.
(** C57 is false in the other direction: in a map of resolution 0.09 the lower corner of bundle 1, as
    [getMin] computes it (abstract_map.hpp:127-132), lies in bundle 1 but gets the index 0. *)
Theorem C57_corner_refuted :
  exists resolution one : double, good_resolution resolution /\ float_value one == 1 /\
    (let corner := double_mul one (bundle_resolution resolution) in
     good_double corner /\
     toBundleIndex (/ (float_value resolution * (1 # 2))) [float_value corner] = Ok [1] /\
     double_bundle_index resolution [corner] = Ok [0]).
Proof.
  exists double_0_09, double_one. split; [split; [split; reflexivity|split; vm_compute; discriminate]|].
  split; [vm_compute; reflexivity|]. split; [split; reflexivity|]. split; vm_compute; reflexivity.
Qed.
Print Assumptions C57_wrong_bundle_refuted.
Print Assumptions C57_corner_refuted.

(** A point inside of bundle (3, -1) of the map of resolution 0.2. *)
Definition double_0_35 : double := S754_finite false 6305039478318694 (-54).
Definition double_m0_05 : double := S754_finite true 7205759403792794 (-57).
Example C57_example :
  good_resolution double_0_2 /\ Forall good_double [double_0_35; double_m0_05] /\
  (let h := (float_value double_0_2 * (1 # 2))%Q in
   forall d, (d < 2)%nat ->
     ((inject_Z (nth d [3; -1]%Z 0%Z) + (2 # 1) ^ (-19)) * h <= float_value (nth d [double_0_35; double_m0_05] S754_nan) /\
      float_value (nth d [double_0_35; double_m0_05] S754_nan) <= (inject_Z (nth d [3; -1]%Z 0%Z) + 1 - (2 # 1) ^ (-19)) * h)%Q) /\
  double_bundle_index double_0_2 [double_0_35; double_m0_05] = Ok [3; -1].
Proof.
  split; [split; [split; reflexivity|split; vm_compute; discriminate]|]. split; [repeat constructor|]. split.
  - intros h d Hd. destruct d as [|[|d]]; [| |lia]; split; vm_compute; discriminate.
  - vm_compute. reflexivity.
Qed.
