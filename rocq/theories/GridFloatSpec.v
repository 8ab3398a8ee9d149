(** Specification of the conversion to grids in floating-point arithmetic. *)
From Coq Require Import QArith.
From Verif Require Import Base.
Open Scope Z_scope.

(** Numbers of pixels along an axis that a map may span: 2^22 for [T = float] and 2^30 for [T = double]. *)
Definition pixel_limit (prec : Z) : Z := Z.min (2 ^ 30) (2 ^ (prec - 2)).
(** [n] bundles of width [h] are at most that many pixels of width [s]. *)
Definition fits_pixels (prec n : Z) (h s : Q) : Prop := 1 <= n /\ (inject_Z n * h <= inject_Z (pixel_limit prec) * s)%Q.
(** The weight of the distributions of the one parity for pixel [k] of the [cs] pixels of bundle [b]. *)
Definition share (b k cs : Z) : Q := if Z.odd b then (inject_Z k / inject_Z cs)%Q else (1 - inject_Z k / inject_Z cs)%Q.
