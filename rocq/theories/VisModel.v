(** Visibility-checked insertion: map/impl/occupancy_gridmap.hpp:108-194 and
    map/impl/weighted_occupancy_gridmap.hpp:106-193 [insertVisible]. Definitions only. *)
From Verif Require Import Base SeqModel IndexModel MapModel SysModel InsertModel.
Open Scope Z_scope.

(** The floating-point type [T]: any type with these operations (no laws assumed, so IEEE numbers
    with rounding and NaN are covered). *)
Record numbers (V : Type) : Type := {
  v_zero : V; v_one : V;
  v_add : V -> V -> V; v_sub : V -> V -> V; v_mul : V -> V -> V;
  v_lt : V -> V -> bool; v_ge : V -> V -> bool
}.
Arguments v_zero {V} n.
Arguments v_one {V} n.
Arguments v_add {V} n.
Arguments v_sub {V} n.
Arguments v_mul {V} n.
Arguments v_lt {V} n.
Arguments v_ge {V} n.

(** The two inverse sensor models: [getOccupancy(ivm)] of a stored distribution, [div_count]
    (abstract_map.hpp:44), and the probabilities of [ivm_visibility]. *)
Record sensor (D V : Type) : Type := {
  prob_occupied : D -> V;
  share : V;
  vis_free : V; vis_occupied : V; vis_prior : V
}.
Arguments prob_occupied {D V} s.
Arguments share {D V} s.
Arguments vis_free {D V} s.
Arguments vis_occupied {D V} s.
Arguments vis_prior {D V} s.

(** [retval[counter] += (bi[counter] > start_bi[counter]) ? -1 : 1]
    (occupancy_gridmap.hpp:139-143). Overflow of [int] at its extreme values is not modelled. *)
Definition occlusion_index (start bi : idx) (counter : nat) : idx :=
  match upd bi counter (nth counter bi 0 + (if nth counter start 0 <? nth counter bi 0 then -1 else 1)) with
  | Some t => t
  | None => bi
  end.

Section Vis.
Context {Pose X W Pt S A V : Type}.
Variable geo : geometry Pose X W Pt.
Variable sta : statistics Pt S.
Variable c : config (occ A S).
Variable zero : A.
Variable plus : A -> A -> A.
Variable amount : S -> A.
Variable s_merge : S -> S -> S.
Variable ray : Pose -> S -> list idx.
Variable order : list (idx * A) -> list (idx * A).
Variable num : numbers V.
Variable sen : sensor (occ A S) V.
(** [toBundleIndex(points_origin.translation())]. *)
Variable start : Pose -> outcome idx.

(** The lambda [occupancy] (occupancy_gridmap.hpp:144-153); a null slot is dereferenced. *)
Definition bundle_occupancy (m : cmap c) (bi : idx) : outcome V :=
  let* ob := cbundle c m bi in
  match ob with
  | None => Ok (v_zero num)
  | Some b =>
      ofold (fun r i =>
        match nth_error (slots b) i with
        | None => UB
        | Some sl =>
            let* d := slot_value (bdc c) (bbc c) m i sl in
            match d with
            | None => UB
            | Some v => Ok (v_add num r (v_mul num (share sen) (prob_occupied sen v)))
            end
        end) (seq 0 (bin_count (dimc c))) (v_zero num)
  end.

(** [std::min(a, b)]: [b < a ? b : a]. *)
Definition v_min (a b : V) : V := if v_lt num b a then b else a.

(** The lambda [current_visibility] (occupancy_gridmap.hpp:138-163); its second argument is unused. *)
Definition current_visibility (m : cmap c) (s bi : idx) : outcome V :=
  let* o := ofold (fun o i =>
              let t := occlusion_index s bi i in
              if cvalid c m t then let* p := bundle_occupancy m t in Ok (v_min o p) else Ok o)
            (seq 0 (dimc c)) (v_one num) in
  Ok (v_add num (v_mul num (vis_free sen) o) (v_mul num (vis_occupied sen) (v_sub num (v_one num) o))).

(** The loop over one line (occupancy_gridmap.hpp:173-182). [None]: the [return] of line 177,
    which leaves the whole function. *)
Fixpoint walk (m : cmap c) (s : idx) (n : A) (path : list idx) (v : V) (free : list (idx * A)) :
  outcome (option (V * list (idx * A))) :=
  match path with
  | [] => Ok (Some (v, free))
  | bi :: path' =>
      let* cv := current_visibility m s bi in
      let v' := v_mul num v cv in
      if v_lt num v' (vis_prior sen) then Ok None
      else walk m s n path' v' (if cvalid c m bi then free_add zero plus free bi n else free)
  end.

(** The loop over the end bundles (occupancy_gridmap.hpp:165-187); [updateOccupied] is called
    without testing [valid]. *)
Fixpoint visible_ends (o : Pose) (s : idx) (ups : list (idx * S)) (m : cmap c) (free : list (idx * A)) :
  outcome (cmap c * option (list (idx * A))) :=
  match ups with
  | [] => Ok (m, Some free)
  | e :: ups' =>
      let* r := walk m s (amount (snd e)) (ray o (snd e)) (v_one num) free in
      match r with
      | None => Ok (m, None)
      | Some (v, free') =>
          let* cv := current_visibility m s (fst e) in
          let* m' := if v_ge num (v_mul num v cv) (vis_prior sen)
                     then cmodify c m (fst e) (update_occupied s_merge (snd e)) else Ok m in
          visible_ends o s ups' m' free'
      end
  end.

(** Both models given (occupancy_gridmap.hpp:120-193, weighted_occupancy_gridmap.hpp:118-192). *)
Definition insert_visible (m : cmap c) (o : Pose) (xs : list X) : outcome (cmap c) :=
  let* ups := collect_all geo sta c true m o xs in
  let* s := start o in
  let* r := visible_ends o s ups m [] in
  match snd r with
  | None => Ok (fst r)
  | Some free =>
      ofold (fun m e => cmodify c m (fst e) (update_free plus (snd e)))
            (order (filter (fun e => negb (existsb (fun u => idx_eqb (fst u) (fst e)) ups)) free)) (fst r)
  end.

(** The whole function: without a model it falls back to [insert] (occupancy_gridmap.hpp:115-118,
    weighted_occupancy_gridmap.hpp:113-116; the latter with the default line iterator, [fallback]). *)
Definition insertVisible (models fallback_weighted : bool) (fallback : Pose -> S -> list idx)
  (m : cmap c) (o : Pose) (xs : list X) : outcome (cmap c) :=
  if models then insert_visible m o xs
  else occ_insert geo sta c zero plus amount s_merge fallback order fallback_weighted m o xs.

End Vis.
