(** Insertion of point clouds: map/impl/gridmap.hpp:39-69, occupancy_gridmap.hpp:57-97 and
    weighted_occupancy_gridmap.hpp:53-95. Definitions only. *)
From Verif Require Import Base SeqModel IndexModel OctreeSpec OctreeModel MapModel BackendModel SysModel.
Open Scope Z_scope.

(** Point geometry (cslibs_math and abstract_map.hpp:323-351), kept abstract: sensor points [X],
    world points [W], points in map coordinates [Pt]. [locate] is [toBundleIndex]; it is UB when
    the float does not fit an int. *)
Record geometry (Pose X W Pt : Type) : Type := {
  transform : Pose -> X -> W;       (* points_origin * *p *)
  normal_in : X -> bool;            (* p->isNormal() *)
  normal_world : W -> bool;         (* pw.isNormal() *)
  to_map : W -> Pt;                 (* m_T_w_ * p_w *)
  locate : Pt -> outcome idx
}.
Arguments transform {Pose X W Pt} g.
Arguments normal_in {Pose X W Pt} g.
Arguments normal_world {Pose X W Pt} g.
Arguments to_map {Pose X W Pt} g.
Arguments locate {Pose X W Pt} g.

(** The statistics object ([distribution_t::distribution_t], cslibs_math), kept abstract. *)
Record statistics (Pt S : Type) : Type := {
  s_empty : S;                      (* default constructor *)
  s_add : S -> Pt -> S              (* += point, add(point) *)
}.
Arguments s_empty {Pt S} s.
Arguments s_add {Pt S} s.

Section Insert.
Context {Pose X W Pt S P : Type}.
Variable geo : geometry Pose X W Pt.
Variable sta : statistics Pt S.
Variable c : config P.

(** [std::map<index_t, S>::operator[]] followed by [+= p]: ordered by [std::array]'s
    lexicographic [<]. *)
Fixpoint map_add (l : list (idx * S)) (bi : idx) (p : Pt) : list (idx * S) :=
  match l with
  | [] => [(bi, s_add sta (s_empty sta) p)]
  | (j, s) :: l' =>
      if lex_ltb j bi then (j, s) :: map_add l' bi p
      else if lex_ltb bi j then (bi, s_add sta (s_empty sta) p) :: l
      else (j, s_add sta s p) :: l'
  end.

(** gridmap.hpp:51-60 (no check of the sensor point), occupancy_gridmap.hpp:63-76 and
    weighted_occupancy_gridmap.hpp:59-72 ([check] = [p->isNormal()] is tested too). *)
Definition collect (check : bool) (m : cmap c) (o : Pose) (l : list (idx * S)) (x : X) : outcome (list (idx * S)) :=
  if negb check || normal_in geo x then
    let pw := transform geo o x in
    if normal_world geo pw then
      let pm := to_map geo pw in
      let* bi := locate geo pm in
      Ok (if cvalid c m bi then map_add l bi pm else l)
    else Ok l
  else Ok l.
Definition collect_all (check : bool) (m : cmap c) (o : Pose) (xs : list X) : outcome (list (idx * S)) :=
  ofold (collect check m o) xs [].

(** gridmap.hpp:45-69 and 186-192; [upd_d] is [*bundle->at(i) += d]. *)
Variable upd_d : P -> S -> P.
Definition grid_insert (m : cmap c) (o : Pose) (xs : list X) : outcome (cmap c) :=
  let* ups := collect_all false m o xs in
  ofold (fun m e => cmodify c m (fst e) (fun d => upd_d d (snd e))) ups m.

(** What a client of a gridmap does. *)
Inductive grid_op : Type :=
| GInsert (o : Pose) (xs : list X)
| GTouch (bi : idx)        (* getDistributionBundle *)
| GExpand.                 (* allocatePartiallyAllocatedBundles *)
Definition grid_step (m : cmap c) (op : grid_op) : outcome (cmap c) :=
  match op with
  | GInsert o xs => grid_insert m o xs
  | GTouch bi => cact c m (Touch bi)
  | GExpand => cact c m ExpandAll
  end.
Definition grid_run (ops : list grid_op) (m : cmap c) : outcome (cmap c) := ofold grid_step ops m.

End Insert.
Arguments GInsert {Pose X} o xs.
Arguments GTouch {Pose X} bi.
Arguments GExpand {Pose X}.

(** Occupancy maps. The counter of misses is [A] with [plus] and [zero]: [std::size_t] for
    occupancy maps, the weight type for weighted ones. *)
Record occ (A S : Type) : Type := { missed : A; hits : option S }.
Arguments missed {A S} o.
Arguments hits {A S} o.
Arguments Build_occ {A S} missed hits.

Section OccInsert.
Context {Pose X W Pt S A : Type}.
Variable geo : geometry Pose X W Pt.
Variable sta : statistics Pt S.
Variable c : config (occ A S).
Variable zero : A.
Variable plus : A -> A -> A.
(** [d.getN()] / [d.getWeight()] and [*distribution_ += d]. *)
Variable amount : S -> A.
Variable s_merge : S -> S -> S.
(** Bundles visited by the line iterator from the sensor origin to the mean of [d]. *)
Variable ray : Pose -> S -> list idx.
(** Iteration order of [std::unordered_map]; unspecified. *)
Variable order : list (idx * A) -> list (idx * A).

(** common/occupancy_distribution.hpp:65-68, weighted_occupancy_distribution.hpp:57-60. *)
Definition update_free (n : A) (d : occ A S) : occ A S := Build_occ (plus (missed d) n) (hits d).
(** common/occupancy_distribution.hpp:78-84, weighted_occupancy_distribution.hpp:70-76. *)
Definition update_occupied (s : S) (d : occ A S) : occ A S :=
  Build_occ (missed d) (Some (match hits d with None => s | Some h => s_merge h s end)).

(** [updates_free[bi] += n]. *)
Fixpoint free_add (l : list (idx * A)) (bi : idx) (n : A) : list (idx * A) :=
  match l with
  | [] => [(bi, plus zero n)]
  | (j, a) :: l' => if idx_eqb j bi then (j, plus a n) :: l' else (j, a) :: free_add l' bi n
  end.

(** occupancy_gridmap.hpp:80-93, weighted_occupancy_gridmap.hpp:76-88: one end bundle. The
    occupancy variant tests [valid(i)] again before [updateOccupied]. *)
Definition occ_end (weighted : bool) (o : Pose) (st : cmap c * list (idx * A)) (e : idx * S) :
  outcome (cmap c * list (idx * A)) :=
  let (m, free) := st in
  let* m' := if weighted || cvalid c m (fst e) then cmodify c m (fst e) (update_occupied (snd e)) else Ok m in
  Ok (m', fold_left (fun f bi => if cvalid c m' bi then free_add f bi (amount (snd e)) else f)
            (ray o (snd e)) free).

(** occupancy_gridmap.hpp:57-97; weighted_occupancy_gridmap.hpp:53-95 erases the end bundles
    from [updates_free] first (90-91). *)
Definition occ_insert (weighted : bool) (m : cmap c) (o : Pose) (xs : list X) : outcome (cmap c) :=
  let* ups := collect_all geo sta c true m o xs in
  let* r := ofold (occ_end weighted o) ups (m, []) in
  let free := if weighted
              then filter (fun e => negb (existsb (fun u => idx_eqb (fst u) (fst e)) ups)) (snd r)
              else snd r in
  ofold (fun m e => cmodify c m (fst e) (update_free (snd e))) (order free) (fst r).

Definition occ_step (weighted : bool) (m : cmap c) (op : grid_op (Pose:=Pose) (X:=X)) : outcome (cmap c) :=
  match op with
  | GInsert o xs => occ_insert weighted m o xs
  | GTouch bi => cact c m (Touch bi)
  | GExpand => cact c m ExpandAll
  end.
Definition occ_run (weighted : bool) (ops : list grid_op) (m : cmap c) : outcome (cmap c) :=
  ofold (occ_step weighted) ops m.

End OccInsert.
