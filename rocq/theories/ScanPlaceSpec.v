(** Where a scored point lies and what it is scored by, independent of the implementation. *)
From Coq Require Import Reals List Floats.SpecFloat.
From Flocq Require Import Core.
From Verif Require Import Base IndexModel MapModel SysModel ExtentModel FloatModel ResidualModel MatchModel MatchSpec RigidSpec ObjFloatSpec MoveFloatModel.
Open Scope R_scope.

(** The coordinates of a point as a list. *)
Definition coords (v : vec) : list R := let '(x, y, z) := v in [x; y; z].
Definition dcoords (p : dpoint) : list double := [dp0 p; dp1 p; dp2 p].

(** The point [e] lies in the bundle [bi] (bundles are [h] wide) and is at least [margin] away from its border. *)
Definition well_inside (h margin : R) (bi : idx) (e : list R) : Prop :=
  length e = length bi /\
  forall d, (d < length bi)%nat -> IZR (nth d bi 0%Z) * h + margin <= nth d e 0 < (IZR (nth d bi 0%Z) + 1) * h - margin.
(** The index is less than [M] bundles away from the origin. *)
Definition within (M : Z) (bi : idx) : Prop := (1 <= M <= 2 ^ 31)%Z /\ Forall (fun z => Z.abs z < M)%Z bi.

(** Coordinates differ by at most [E]. *)
Definition close (E : R) (a b : list R) : Prop := length a = length b /\ forall d, (d < length a)%nat -> Rabs (nth d a 0 - nth d b 0) <= E.

Section Density.
Context {P : Type}.
(** The distributions that a map holds. *)
Variable held : P -> Prop.
(** The density of a distribution, a real function of [n] coordinates; it changes by at most [L] per unit. *)
Variable density : P -> list R -> R.
Definition steady (n : nat) (L : R) : Prop :=
  forall v a b E, held v -> length a = n -> 0 <= E -> close E a b -> Rabs (density v a - density v b) <= L * E.
(** [sample] computes it for the points of bundle [bi] with an error of at most [eps], with values in [0,1]. *)
Definition computes (h : R) (bi : idx) (sample : P -> list double -> double) (eps : R) : Prop :=
  forall v x, held v -> Forall finite_double x -> length x = length bi ->
    (forall d, (d < length bi)%nat -> IZR (nth d bi 0%Z) * h <= nth d (map real x) 0 <= (IZR (nth d bi 0%Z) + 1) * h) ->
    finite_double (sample v x) /\ 0 <= real (sample v x) <= 1 /\ Rabs (real (sample v x) - density v (map real x)) <= eps.
(** The mean of the densities of [n] distributions. *)
Definition mean_density (n : nat) (v : nat -> P) (e : list R) : R :=
  fold_right Rplus 0 (map (fun k => density (v k) e) (seq 0 n)) / INR n.
End Density.

(** The distributions stored in a map. *)
Definition stored_in {P : Type} (c : config P) (m : cmap c) (v : P) : Prop := exists i j, cstored c m i j = Ok (Some v).

(** What the properties say of the score of the computed point [x] for the exact point [e] in bundle [bi]: it is 0 if the
    bundle does not exist, otherwise the mean of the densities at [e] of the distributions of the bundle. *)
Section Score.
Context {P : Type}.
Variable c : config P.
Variable sample : P -> list double -> double.
Variable density : P -> list R -> R.
Variable m : cmap c.
Variables eps L : R.
Definition scored_there (resolution : double) (x : list double) (e : list R) (bi : idx) (E : R) : Prop :=
  exists s, float_sampleNonNormalized 53 1024 c (float_resolution_inv 53 1024 resolution) sample m x = Ok s /\ finite_double s /\
    match cbundle c m bi with
    | Ok None => real s = 0
    | Ok (Some _) => exists v, (forall k, (k < 2 ^ dimc c)%nat -> cstored c m k (generate_index bi k) = Ok (Some (v k))) /\
        Rabs (real s - mean_density density (2 ^ dimc c) v e) <= 2 * INR (2 ^ dimc c) * roundoff + eps + L * E
    | _ => False
    end.
End Score.

(** The density of a cell of an occupancy map: that of its distribution times its occupancy, 0 without distribution. *)
Definition cell_density {P D : Type} (inner : P -> option D) (density : D -> list R -> R) (occ : P -> R) (v : P) (e : list R) : R :=
  match inner v with Some s => density s e * occ v | None => 0 end.
(** The distributions of the cells that a map holds. *)
Definition inside_cells {P D : Type} (c : config P) (m : cmap c) (inner : P -> option D) (s : D) : Prop :=
  exists v, stored_in c m v /\ inner v = Some s.
(** The program computes the occupancies [occ] of the cells with an error of at most [eps]. *)
Definition occupancies {P D : Type} (c : config P) (m : cmap c) (inner : P -> option D) (occ : P -> R) (computed : P -> double) (eps : R) : Prop :=
  forall v s, stored_in c m v -> inner v = Some s ->
    0 <= occ v <= 1 /\ finite_double (computed v) /\ 0 <= real (computed v) <= 1 /\ Rabs (real (computed v) - occ v) <= eps.
