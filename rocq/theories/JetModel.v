(** The map residuals of the ceres matchers with their derivatives, in exact real arithmetic:
    operator() of matching/ceres/map/scan_match_cost_functor_{2d,3d_quaternion,3d_rpy}.hpp on top of
    the DIRECT functors of cslibs_ndt_{2d,3d}/matching/ceres/map/{,occupancy_}gridmap_cost_functor.hpp.
    Vectors are functions of the coordinate. Definitions only. *)
From Coq Require Import Reals List.
From Verif Require Import Base SeqModel IndexModel MapModel SysModel ExtentModel.
Open Scope R_scope.

(** The numbers a functor is instantiated with (its template parameter [T]); [of_double] is [T(x)],
    [scale] the product of a double with a number, [real_part] the [.a] of a Jet. *)
Record number : Type :=
  { carrier :> Type;
    of_double : R -> carrier;
    nadd : carrier -> carrier -> carrier;
    nsub : carrier -> carrier -> carrier;
    nmul : carrier -> carrier -> carrier;
    scale : R -> carrier -> carrier;
    nexp : carrier -> carrier;
    ncos : carrier -> carrier;
    nsin : carrier -> carrier;
    real_part : carrier -> R }.

(** [T = double]. *)
Definition real_number : number :=
  {| carrier := R; of_double := fun x => x; nadd := Rplus; nsub := Rminus; nmul := Rmult; scale := Rmult;
     nexp := exp; ncos := cos; nsin := sin; real_part := fun x => x |}.

(** [T = ceres::Jet] (ceres/jet.h, not part of /repo). The derivative part of a Jet is a vector on which
    every operation works component by component, so one component is modelled. *)
Record rjet : Type := J { jre : R; jde : R }.
Definition jet_number : number :=
  {| carrier := rjet;
     of_double := fun x => J x 0;
     nadd := fun f g => J (jre f + jre g) (jde f + jde g);
     nsub := fun f g => J (jre f - jre g) (jde f - jde g);
     nmul := fun f g => J (jre f * jre g) (jre f * jde g + jde f * jre g);
     scale := fun w f => J (w * jre f) (w * jde f);
     nexp := fun f => J (exp (jre f)) (exp (jre f) * jde f);
     ncos := fun f => J (cos (jre f)) (- sin (jre f) * jde f);
     nsin := fun f => J (sin (jre f)) (cos (jre f) * jde f);
     real_part := jre |}.

Section Pose.
Variable N : number.
Notation "x +' y" := (nadd N x y) (at level 50, left associativity).
Notation "x -' y" := (nsub N x y) (at level 50, left associativity).
Notation "x *' y" := (nmul N x y) (at level 40, left associativity).

(** scan_match_cost_functor_2d.hpp:25-32: [in_world]. The parameters [x] are the two of
    [raw_translation] followed by the one of [raw_rotation]. [Eigen::Rotation2D::toRotationMatrix] is
    not part of /repo. *)
Definition pose_2d (x : nat -> N) (local : nat -> R) : nat -> N :=
  let c := ncos N (x 2%nat) in
  let s := nsin N (x 2%nat) in
  fun i => match i with
           | O => c *' of_double N (local 0%nat) +' (scale N (-1) s) *' of_double N (local 1%nat) +' x 0%nat
           | _ => s *' of_double N (local 0%nat) +' c *' of_double N (local 1%nat) +' x 1%nat
           end.

(** [Eigen::Quaternion * vector] (not part of /repo): [v + w * (2 * u x v) + u x (2 * u x v)] with [u] the
    imaginary part. *)
Definition cross_n (a b : nat -> N) : nat -> N :=
  fun i => match i with
           | O => a 1%nat *' b 2%nat -' a 2%nat *' b 1%nat
           | S O => a 2%nat *' b 0%nat -' a 0%nat *' b 2%nat
           | _ => a 0%nat *' b 1%nat -' a 1%nat *' b 0%nat
           end.
Definition rotate_n (w : N) (u v : nat -> N) : nat -> N :=
  let uv := cross_n u v in
  let uv2 := fun i => uv i +' uv i in
  let r := cross_n u uv2 in
  fun i => v i +' w *' uv2 i +' r i.

(** scan_match_cost_functor_3d_quaternion.hpp:26-33: [in_world]; the parameters are [raw_translation]
    followed by [raw_rotation_wxyz]. *)
Definition pose_quaternion (x : nat -> N) (local : nat -> R) : nat -> N :=
  let r := rotate_n (x 3%nat) (fun i => x (4 + i)%nat) (fun i => of_double N (local i)) in
  fun i => r i +' x i.

(** scan_match_cost_functor_3d_rpy.hpp:24-55: [toEigen] and [in_world]; the parameters are
    [raw_translation] followed by [raw_rotation_rpy]. *)
Definition pose_rpy (x : nat -> N) (local : nat -> R) : nat -> N :=
  let roll_2 := scale N (1 / 2) (x 3%nat) in
  let pitch_2 := scale N (1 / 2) (x 4%nat) in
  let yaw_2 := scale N (1 / 2) (x 5%nat) in
  let cos_roll := ncos N roll_2 in
  let sin_roll := nsin N roll_2 in
  let cos_pitch := ncos N pitch_2 in
  let sin_pitch := nsin N pitch_2 in
  let cos_yaw := ncos N yaw_2 in
  let sin_yaw := nsin N yaw_2 in
  let data_x := sin_roll *' cos_pitch *' cos_yaw -' cos_roll *' sin_pitch *' sin_yaw in
  let data_y := cos_roll *' sin_pitch *' cos_yaw +' sin_roll *' cos_pitch *' sin_yaw in
  let data_z := cos_roll *' cos_pitch *' sin_yaw -' sin_roll *' sin_pitch *' cos_yaw in
  let data_w := cos_roll *' cos_pitch *' cos_yaw +' sin_roll *' sin_pitch *' sin_yaw in
  let r := rotate_n data_w (fun i => match i with O => data_x | S O => data_y | _ => data_z end)
             (fun i => of_double N (local i)) in
  fun i => r i +' x i.

(** Sum of [f 0 ... f (n-1)]. *)
Fixpoint nsum (n : nat) (f : nat -> N) : N :=
  match n with O => of_double N 0 | S n' => nsum n' f +' f n' end.

(** gridmap_cost_functor.hpp:46 [p_prime = rot_ * p + trans_]; for doubles [m_T_w_ * p]
    (abstract_map.hpp:332-339), both with the inverse of the initial origin. *)
Definition to_map_frame (dim : nat) (rot : nat -> nat -> R) (trans : nat -> R) (p : nat -> N) : nat -> N :=
  fun i => nsum dim (fun j => scale N (rot i j) (p j)) +' of_double N (trans i).

(** gridmap_cost_functor.hpp:60-65: [(-0.5 * diff.transpose() * inf * diff).value()]. *)
Definition exponent (dim : nat) (mean : nat -> R) (inf : nat -> nat -> R) (p_prime : nat -> N) : N :=
  let diff := fun i => p_prime i -' of_double N (mean i) in
  nsum dim (fun j => nsum dim (fun i => scale N (inf i j) (scale N (- (1 / 2)) (diff i))) *' diff j).
End Pose.

(** gridmap_cost_functor.hpp:30-33 (2D): [rot_] and [trans_] from the initial origin, a pose with translation
    [(tx, ty)] and angle [yaw]. The inverse of [cslibs_math_2d::Pose2] (not part of /repo) has the angle [-yaw]
    and the negated translation turned by it. *)
Definition inverse_yaw (yaw : R) : R := - yaw.
Definition inverse_translation_2d (tx ty yaw : R) : R * R :=
  let a := inverse_yaw yaw in (- (cos a * tx - sin a * ty), - (sin a * tx + cos a * ty)).
Definition frame_rot_2d (yaw : R) : nat -> nat -> R :=
  let a := inverse_yaw yaw in
  fun i j => match i, j with O, O => cos a | O, _ => - sin a | _, O => sin a | _, _ => cos a end.
Definition frame_trans_2d (tx ty yaw : R) : nat -> R :=
  fun i => match i with O => fst (inverse_translation_2d tx ty yaw) | _ => snd (inverse_translation_2d tx ty yaw) end.

(** gridmap_cost_functor.hpp:28-34 (3D): the inverse of [cslibs_math_3d::Pose3] has the conjugated quaternion
    [(w, -u)] and the negated translation turned by it; [rot_.matrix()] is Eigen's matrix of a quaternion. *)
Definition quaternion_matrix (w : R) (u : nat -> R) : nat -> nat -> R :=
  let x := u 0%nat in let y := u 1%nat in let z := u 2%nat in
  fun i j => match i, j with
             | O, O => 1 - (2 * y * y + 2 * z * z)
             | O, S O => 2 * x * y - 2 * z * w
             | O, _ => 2 * x * z + 2 * y * w
             | S O, O => 2 * x * y + 2 * z * w
             | S O, S O => 1 - (2 * x * x + 2 * z * z)
             | S O, _ => 2 * y * z - 2 * x * w
             | _, O => 2 * x * z - 2 * y * w
             | _, S O => 2 * y * z + 2 * x * w
             | _, _ => 1 - (2 * x * x + 2 * y * y)
             end.
Definition frame_rot_3d (w : R) (u : nat -> R) : nat -> nat -> R := quaternion_matrix w (fun i => - u i).
Definition frame_trans_3d (t : nat -> R) (w : R) (u : nat -> R) : nat -> R :=
  fun i => - rotate_n real_number w (fun i => - u i) t i.

(** gridmap_cost_functor.hpp:47-48, abstract_map.hpp:323-330: the index is computed from values only. *)
Definition bundle_index (dim : nat) (inv : R) (p : nat -> R) : outcome idx :=
  omap (fun i => to_int (Int_part (p i * inv))) (seq 0 dim).

(** [sampleNonNormalized] of cslibs_math's StableDistribution (not part of /repo). *)
Definition rsample (dim : nat) (valid : bool) (mean : nat -> R) (inf : nat -> nat -> R) (p : nat -> R) : R :=
  if valid then exp (exponent real_number dim mean inf p) else 0.

Section Evaluate.
Context {P : Type}.
Variable c : config P.
(** [resolution_inv_]. *)
Variable inv : R.
(** [valid()], [getMean()] and [getInformationMatrix()] of a stored distribution. *)
Variable valid : P -> bool.
Variable mean : P -> nat -> R.
Variable inf : P -> nat -> nat -> R.

(** abstract_map.hpp:44. *)
Definition rdiv_count : R := 1 / INR (bin_count (dimc c)).

(** gridmap_cost_functor.hpp:35-39 with impl/gridmap.hpp:100-137, [p] in map coordinates. *)
Definition evaluate_real (m : cmap c) (p : nat -> R) : outcome R :=
  let* bi := bundle_index (dimc c) inv p in
  let* ob := cbundle c m bi in
  match ob with
  | None => Ok (1 - 0)
  | Some b =>
      let* s := ofold (fun acc i =>
                  match nth_error (slots b) i with
                  | None => UB
                  | Some sl =>
                      let* d := slot_value (bdc c) (bbc c) m i sl in
                      Ok (acc + rdiv_count * match d with Some v => rsample (dimc c) (valid v) (mean v) (inf v) p | None => 0 end)
                  end) (seq 0 (bin_count (dimc c))) 0 in
      Ok (1 - s)
  end.

(** gridmap_cost_functor.hpp:41-70, [p] in map coordinates. *)
Definition evaluate_rjet (m : cmap c) (p : nat -> rjet) : outcome rjet :=
  let* bi := bundle_index (dimc c) inv (fun i => jre (p i)) in
  let* ob := cbundle c m bi in
  match ob with
  | None => Ok (J 1 0)
  | Some b =>
      ofold (fun value i =>
               match nth_error (slots b) i with
               | None => UB
               | Some sl =>
                   let* d := slot_value (bdc c) (bbc c) m i sl in
                   Ok (match d with
                       | Some v =>
                           if valid v
                           then nsub jet_number value
                                  (scale jet_number rdiv_count
                                     (nexp jet_number (exponent jet_number (dimc c) (mean v) (inf v) p)))
                           else value
                       | None => value
                       end)
               end)
            (seq 0 (bin_count (dimc c))) (J 1 0)
  end.
End Evaluate.

Section OccEvaluate.
Context {P D M : Type}.
Variable c : config P.
Variable inv : R.
(** [getDistribution()] and [getOccupancy(ivm)] of a cell. *)
Variable inner : P -> option D.
Variable valid : D -> bool.
Variable mean : D -> nat -> R.
Variable inf : D -> nat -> nat -> R.
Variable occupancy : M -> P -> R.

(** occupancy_gridmap_cost_functor.hpp:38-42 with impl/occupancy_gridmap.hpp:243-289, for an inverse
    model [ivm] that is present (without one both versions may throw, C49). *)
Definition occ_evaluate_real (ivm : M) (m : cmap c) (p : nat -> R) : outcome R :=
  let* bi := bundle_index (dimc c) inv p in
  let* ob := cbundle c m bi in
  match ob with
  | None => Ok (1 - 0)
  | Some b =>
      let* s := ofold (fun acc i =>
                  match nth_error (slots b) i with
                  | None => UB
                  | Some sl =>
                      let* d := slot_value (bdc c) (bbc c) m i sl in
                      Ok (acc + rdiv_count c *
                            match d with
                            | Some v => match inner v with
                                        | Some s => rsample (dimc c) (valid s) (mean s) (inf s) p * occupancy ivm v
                                        | None => 0
                                        end
                            | None => 0
                            end)
                  end) (seq 0 (bin_count (dimc c))) 0 in
      Ok (1 - s)
  end.

(** occupancy_gridmap_cost_functor.hpp:44-74. *)
Definition occ_evaluate_rjet (ivm : M) (m : cmap c) (p : nat -> rjet) : outcome rjet :=
  let* bi := bundle_index (dimc c) inv (fun i => jre (p i)) in
  let* ob := cbundle c m bi in
  match ob with
  | None => Ok (J 1 0)
  | Some b =>
      ofold (fun value i =>
               match nth_error (slots b) i with
               | None => UB
               | Some sl =>
                   let* d := slot_value (bdc c) (bbc c) m i sl in
                   Ok (match d with
                       | Some v =>
                           match inner v with
                           | Some s =>
                               if valid s
                               then nsub jet_number value
                                      (scale jet_number (occupancy ivm v)
                                         (scale jet_number (rdiv_count c)
                                            (nexp jet_number (exponent jet_number (dimc c) (mean s) (inf s) p))))
                               else value
                           | None => value
                           end
                       | None => value
                       end)
               end)
            (seq 0 (bin_count (dimc c))) (J 1 0)
  end.
End OccEvaluate.

(** scan_match_cost_functor_2d.hpp:34-38 (_3d_rpy.hpp:57-61, _3d_quaternion.hpp:35-39): the guard
    [if (residual[i] == -residual[i]) residual[i] = T(0.)] and the weight; Jets are compared by value. *)
Definition weighted_real (weight r : R) : R := weight * (if Req_EM_T r (- r) then 0 else r).
Definition weighted_rjet (weight : R) (r : rjet) : rjet :=
  scale jet_number weight (if Req_EM_T (jre r) (- jre r) then J 0 0 else r).

(** The three functors that are matched with (matching/ceres/problem.hpp:36-47, 74-85 and 117-128). *)
Inductive matcher : Type := Matcher2d | Matcher3dQuaternion | Matcher3dRPY.
Definition pose_of (k : matcher) : forall N : number, (nat -> N) -> (nat -> R) -> nat -> N :=
  match k with Matcher2d => pose_2d | Matcher3dQuaternion => pose_quaternion | Matcher3dRPY => pose_rpy end.

Section Residual.
(** One of [pose_2d], [pose_quaternion], [pose_rpy]. *)
Variable pose : forall N : number, (nat -> N) -> (nat -> R) -> nat -> N.
Variable dim : nat.
Variable rot : nat -> nat -> R.
Variable trans : nat -> R.
Variable weight : R.

(** scan_match_cost_functor_2d.hpp:28-40: residual of the point [local] at the parameters [x], with
    doubles ([evaluate] is the [Evaluate] for doubles) and with Jets. *)
Definition residual_real (evaluate : (nat -> R) -> outcome R) (local : nat -> R) (x : nat -> R) : outcome R :=
  let* r := evaluate (to_map_frame real_number dim rot trans (pose real_number x local)) in
  Ok (weighted_real weight r).
Definition residual_rjet (evaluate : (nat -> rjet) -> outcome rjet) (local : nat -> R) (x : nat -> rjet) : outcome rjet :=
  let* r := evaluate (to_map_frame jet_number dim rot trans (pose jet_number x local)) in
  Ok (weighted_rjet weight r).
End Residual.

(** ** The priors *)

(** rotation_cost_functor_2d.hpp:23-49 and rotation_cost_functor_3d_rpy.hpp:25-53 with Jets; the values
    are [angle_difference] of MatchModel.v. [ceres::atan2], [ceres::abs] and comparisons of Jets are those
    of ceres/jet.h (not part of /repo). *)
Section RotationJet.
Variable atan2 : R -> R -> R.
Definition jatan2 (g f : rjet) : rjet :=
  let tmp := 1 / (jre f * jre f + jre g * jre g) in
  J (atan2 (jre g) (jre f)) (tmp * (- jre g * jde f + jre f * jde g)).
Definition jabs (f : rjet) : rjet := if Rlt_dec (jre f) 0 then J (- jre f) (- jde f) else f.
Definition jnorm (r : rjet) : rjet := jatan2 (nsin jet_number r) (ncos jet_number r).
Definition angle_difference_rjet (r0 r : rjet) : rjet :=
  let a := jnorm r0 in
  let b := jnorm r in
  let d1 := nsub jet_number a b in
  let d2 := nmul jet_number (nsub jet_number (J (2 * PI) 0) (jabs d1)) (if Rlt_dec 0 (jre d1) then J (-1) 0 else J 1 0) in
  if Rlt_dec (jre (jabs d1)) (jre (jabs d2)) then d1 else d2.
Definition rotation_residual_rjet (weight rotation_ : R) (rotation : rjet) : rjet :=
  scale jet_number weight (angle_difference_rjet (J rotation_ 0) rotation).
End RotationJet.
