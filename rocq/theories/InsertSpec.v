(** What insertion should do, independent of the map. *)
From Verif Require Import Base IndexModel MapModel SysModel InsertModel.
Open Scope Z_scope.

Section Spec.
Context {Pose X W Pt S P : Type}.
Variable geo : geometry Pose X W Pt.
Variable c : config P.

(** The map takes points in this bundle (a static map only inside its box, max excluded). *)
Definition takes (bi : idx) : bool :=
  match kindc c with
  | Dynamic => true
  | Static => forallb (fun d => (nth d (minc c) 0 <=? nth d bi 0) &&
                                (nth d bi 0 <? nth d (minc c) 0 + 2 * nth d (sizec c) 0 - 1)) (seq 0 (dimc c))
  end.

(** The point as the map stores it with its bundle; [None] if it is filtered out. *)
Definition accept (check : bool) (o : Pose) (x : X) : option (idx * Pt) :=
  if (negb check || normal_in geo x) && normal_world geo (transform geo o x) then
    match locate geo (to_map geo (transform geo o x)) with
    | Ok bi => if takes bi then Some (bi, to_map geo (transform geo o x)) else None
    | _ => None
    end
  else None.
Fixpoint accepted (check : bool) (o : Pose) (xs : list X) : list (idx * Pt) :=
  match xs with
  | [] => []
  | x :: xs' => match accept check o x with Some e => e :: accepted check o xs' | None => accepted check o xs' end
  end.

(** All accepted points of a cloud that lie in bundle [bi], in order. *)
Definition points_in (bi : idx) (l : list (idx * Pt)) : list Pt :=
  map snd (filter (fun e => idx_eqb (fst e) bi) l).

(** The bundles that occur, ascending without repetition. *)
Fixpoint key_insert (b : idx) (l : list idx) : list idx :=
  match l with
  | [] => [b]
  | j :: l' => if BackendModel.lex_ltb j b then j :: key_insert b l'
               else if BackendModel.lex_ltb b j then b :: l else l
  end.
Definition keys (l : list (idx * Pt)) : list idx := fold_left (fun k e => key_insert (fst e) k) l [].

(** Accepted points grouped by bundle. *)
Definition groups (l : list (idx * Pt)) : list (idx * list Pt) :=
  map (fun b => (b, points_in b l)) (keys l).

(** The groups of a cloud whose bundle lies in cell [j] of family [i]. *)
Definition cell_groups (l : list (idx * Pt)) (i : nat) (j : idx) : list (idx * list Pt) :=
  filter (fun g => idx_eqb (generate_index (fst g) i) j) (groups l).

(** Every point that gets past the normality tests has a bundle index the map can hold. *)
Definition cloud_fits (check : bool) (usable : idx -> Prop) (o : Pose) (xs : list X) : Prop :=
  forall x, In x xs -> (negb check || normal_in geo x) && normal_world geo (transform geo o x) = true ->
    exists bi, locate geo (to_map geo (transform geo o x)) = Ok bi /\ length bi = dimc c /\
      (kindc c = Dynamic -> usable bi).

(** Whole histories of a gridmap. *)
Fixpoint history_groups (ops : list (grid_op (Pose:=Pose) (X:=X))) (i : nat) (j : idx) : list (list Pt) :=
  match ops with
  | [] => []
  | GInsert o xs :: ops' => map snd (cell_groups (accepted false o xs) i j) ++ history_groups ops' i j
  | _ :: ops' => history_groups ops' i j
  end.
Fixpoint history_points (ops : list (grid_op (Pose:=Pose) (X:=X))) : list (idx * Pt) :=
  match ops with
  | [] => []
  | GInsert o xs :: ops' => accepted false o xs ++ history_points ops'
  | _ :: ops' => history_points ops'
  end.
Fixpoint expand_calls (ops : list (grid_op (Pose:=Pose) (X:=X))) : Z :=
  match ops with [] => 0 | GExpand :: ops' => 1 + expand_calls ops' | _ :: ops' => expand_calls ops' end.
Definition grid_fits (usable : Z -> idx -> Prop) (ops : list (grid_op (Pose:=Pose) (X:=X))) : Prop :=
  Forall (fun op => match op with
    | GInsert o xs => cloud_fits false (usable (expand_calls ops)) o xs
    | GTouch bi => length bi = dimc c /\ (kindc c = Dynamic -> usable (expand_calls ops) bi)
    | GExpand => True
    end) ops.
Definition only_inserts (ops : list (grid_op (Pose:=Pose) (X:=X))) : Prop :=
  Forall (fun op => match op with GInsert _ _ => True | _ => False end) ops.

End Spec.

(** All sensor points of a history with the pose they were inserted from. *)
Definition raw_points {Pose X : Type} (ops : list (grid_op (Pose:=Pose) (X:=X))) : list (Pose * X) :=
  flat_map (fun op => match op with GInsert o xs => map (pair o) xs | _ => [] end) ops.

(** Occupancy maps. *)
Section OccSpec.
Context {Pose X W Pt S A P : Type}.
Variable geo : geometry Pose X W Pt.
Variable sta : statistics Pt S.
Variable c : config P.
Variable zero : A.
Variable plus : A -> A -> A.
Variable amount : S -> A.
Variable s_merge : S -> S -> S.
Variable ray : Pose -> S -> list idx.
Notation gop := (grid_op (Pose:=Pose) (X:=X)).
Notation stat ps := (fold_left (s_add sta) ps (s_empty sta)).

(** End bundles of one scan with the points that fell into them. *)
Definition ends (o : Pose) (xs : list X) : list (idx * list Pt) := groups (accepted geo c true o xs).

(** Misses of one scan: for every end bundle, every visited bundle the map takes, with the amount
    of the end bundle. The weighted map leaves out bundles that are end bundles themselves. *)
Definition scan_misses (weighted : bool) (o : Pose) (xs : list X) : list (idx * A) :=
  filter (fun e => negb (weighted && existsb (fun g => idx_eqb (fst g) (fst e)) (ends o xs)))
    (flat_map (fun g => map (fun bi => (bi, amount (stat (snd g)))) (filter (takes c) (ray o (stat (snd g)))))
              (ends o xs)).

(** Misses and hits of a whole history in cell [j] of family [i]. *)
Definition cell_misses (weighted : bool) (ops : list gop) (i : nat) (j : idx) : list A :=
  flat_map (fun op => match op with
    | GInsert o xs => map snd (filter (fun e => idx_eqb (generate_index (fst e) i) j) (scan_misses weighted o xs))
    | _ => []
    end) ops.
Definition cell_hits (ops : list gop) (i : nat) (j : idx) : list (list Pt) :=
  flat_map (fun op => match op with
    | GInsert o xs => map snd (filter (fun g => idx_eqb (generate_index (fst g) i) j) (ends o xs))
    | _ => []
    end) ops.
(** The accepted points of a history with their bundles. *)
Definition scan_points (ops : list gop) : list (idx * Pt) :=
  flat_map (fun op => match op with GInsert o xs => accepted geo c true o xs | _ => [] end) ops.

(** Sum of misses, accumulation of hits. *)
Definition total (l : list A) : A := fold_right plus zero l.
Definition merged (gs : list (list Pt)) : option S :=
  match gs with
  | [] => None
  | ps :: gs' => Some (fold_left (fun h ps => s_merge h (stat ps)) gs' (stat ps))
  end.

(** Points, rays and lookups stay inside what the map can hold. *)
Definition occ_fits (usable : Z -> idx -> Prop) (ops : list gop) : Prop :=
  Forall (fun op => match op with
    | GInsert o xs => cloud_fits geo c true (usable (expand_calls ops)) o xs /\
        forall s bi, In bi (ray o s) -> length bi = dimc c /\ (kindc c = Dynamic -> usable (expand_calls ops) bi)
    | GTouch bi => length bi = dimc c /\ (kindc c = Dynamic -> usable (expand_calls ops) bi)
    | GExpand => True
    end) ops.
End OccSpec.
