(** Specification for the likelihood fields. *)
From Coq Require Import QArith Qreals Reals.
From Verif Require Import Base GridModel.
Open Scope R_scope.

(** Distance between the centres of two pixels. *)
Definition pixel_distance (sres : Q) (u v u' v' : Z) : R :=
  Q2R sres * sqrt ((IZR u - IZR u') * (IZR u - IZR u') + (IZR v - IZR v') * (IZR v - IZR v')).

(** [d] is the distance of (u, v) to the nearest of the pixels that satisfy [hit], cut off at [far]. *)
Definition nearest (sres : Q) (far : R) (hit : Z -> Z -> Prop) (u v : Z) (d : R) : Prop :=
  d <= far /\ (forall u' v', hit u' v' -> d <= pixel_distance sres u v u' v') /\
  (d = far \/ exists u' v', hit u' v' /\ d = pixel_distance sres u v u' v').

Definition inside (w h u v : Z) : Prop := (0 <= u < w)%Z /\ (0 <= v < h)%Z.

(** What a distance transform must compute: the distance to the nearest pixel whose score reaches the
    threshold, up to [far]. *)
Definition transforms (transform : Q -> Q -> Q -> grid -> Z -> Z -> R) : Prop :=
  forall sres far threshold g u v, (0 < sres)%Q -> (0 < far)%Q -> inside (g_width g) (g_height g) u v ->
    nearest sres (Q2R far) (fun u' v' => inside (g_width g) (g_height g) u' v' /\ (threshold <= g_at g u' v')%Q) u v
      (transform sres far threshold g u v).
