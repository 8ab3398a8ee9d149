(** Visibility of a line of bundles, independent of the map's implementation. *)
From Verif Require Import Base IndexModel MapModel SysModel SysSpec InsertModel InsertSpec VisModel.
Open Scope Z_scope.

Section VisSpec.
Context {D V : Type}.
Variable c : config D.
Variable num : numbers V.
Variable sen : sensor D V.

(** What a map shows in a bundle: its distributions, [None] where nothing is allocated. *)
Definition view : Type := idx -> option (list D).
Definition shows (m : cmap c) (look : view) : Prop :=
  forall bi, usable c 0 bi ->
    match look bi with
    | None => cbundle c m bi = Ok None
    | Some vs => (exists b, cbundle c m bi = Ok (Some b)) /\ length vs = (2 ^ dimc c)%nat /\
        forall i v, nth_error vs i = Some v -> cstored c m i (generate_index bi i) = Ok (Some v)
    end.

(** The bundle next to [bi] along axis [d], towards the sensor where [bi] lies beyond it. *)
Definition nearer (s bi : idx) (d : nat) : idx :=
  map (fun e => if (e =? d)%nat then nth e bi 0 + (if nth e s 0 <? nth e bi 0 then -1 else 1) else nth e bi 0)
      (seq 0 (length bi)).
(** Mean occupancy probability of a bundle; 0 where nothing is allocated. *)
Definition occupancy (look : view) (bi : idx) : V :=
  match look bi with
  | None => v_zero num
  | Some vs => fold_left (fun r v => v_add num r (v_mul num (share sen) (prob_occupied sen v))) vs (v_zero num)
  end.
(** The least occupied of the nearer bundles inside the map decides. *)
Definition occluder (look : view) (s bi : idx) : V :=
  fold_left (fun o t => let p := occupancy look t in if v_lt num p o then p else o)
    (filter (takes c) (map (nearer s bi) (seq 0 (dimc c)))) (v_one num).
Definition visibility (look : view) (s bi : idx) : V :=
  v_add num (v_mul num (vis_free sen) (occluder look s bi))
    (v_mul num (vis_occupied sen) (v_sub num (v_one num) (occluder look s bi))).
(** Visibility after a line of bundles. *)
Definition seen_through (look : view) (s : idx) (path : list idx) : V :=
  fold_left (fun v bi => v_mul num v (visibility look s bi)) path (v_one num).

(** The line becomes invisible before its end. *)
Definition blocked (look : view) (s : idx) (path : list idx) : Prop :=
  exists pre bi post, path = pre ++ bi :: post /\ v_lt num (seen_through look s (pre ++ [bi])) (vis_prior sen) = true.
Definition reaches (look : view) (s : idx) (path : list idx) (e : idx) : Prop :=
  v_ge num (seen_through look s (path ++ [e])) (vis_prior sen) = true.

(** The value of a cell; a cell never written has the default value. *)
Definition holds (m : cmap c) (i : nat) (j : idx) (d : D) : Prop :=
  cstored c m i j = Ok (Some d) \/ (cstored c m i j = Ok None /\ d = defaultc c).
End VisSpec.

(** [l] is obtained from [l'] by leaving out elements. *)
Inductive part_of {T : Type} : list T -> list T -> Prop :=
| part_nil : part_of [] []
| part_skip x l l' : part_of l l' -> part_of l (x :: l')
| part_keep x l l' : part_of l l' -> part_of (x :: l) (x :: l').

(** The accumulated points after further groups arrive. *)
Definition hits_after {S Pt : Type} (stat : list Pt -> S) (s_merge : S -> S -> S) (gs : list (list Pt)) (h : option S) :=
  fold_left (fun h ps => Some (match h with None => stat ps | Some h => s_merge h (stat ps) end)) gs h.

(** End bundles and visited bundles keep one bundle away from the limit of a dynamic map. *)
Definition vis_fits {Pose X W Pt S P : Type} (geo : geometry Pose X W Pt) (c : config P)
  (ray : Pose -> S -> list idx) (o : Pose) (xs : list X) : Prop :=
  cloud_fits geo c true (usable c 1) o xs /\
  forall s bi, In bi (ray o s) -> length bi = dimc c /\ (kindc c = Dynamic -> usable c 1 bi).

Section Fate.
Context {Pose X W Pt S A V : Type}.
Variable geo : geometry Pose X W Pt.
Variable sta : statistics Pt S.
Variable c : config (occ A S).
Variable num : numbers V.
Variable sen : sensor (occ A S) V.
Variable zero : A.
Variable plus : A -> A -> A.
Variable amount : S -> A.
Variable stat : list Pt -> S.
Variable s_merge : S -> S -> S.
Variable ray : Pose -> S -> list idx.

(** Recording groups of points as hits, nothing else. *)
Definition record_hits (gs : list (idx * list Pt)) : list (map_action (P:=occ A S)) :=
  map (fun g => Modify (fst g) (update_occupied s_merge (stat (snd g)))) gs.

(** Group [g] was judged on its own line: in the map with some of the recorded groups [sn] entered,
    its line was not blocked, and it was recorded exactly if the line reaches its bundle. *)
Definition fate (o : Pose) (s : idx) (m : cmap c) (sn : list (idx * list Pt)) (g : idx * list Pt) : Prop :=
  exists sn_g m_g, part_of sn_g sn /\ cact_all c (record_hits sn_g) m = Ok m_g /\
    forall look, shows c m_g look ->
      ~ blocked c num sen look s (ray o (stat (snd g))) /\
      (In g sn <-> reaches c num sen look s (ray o (stat (snd g))) (fst g)).

(** Every cell has gained the hits of the groups [sn], and the misses of the scan unless [stopped];
    [spare]: bundles hit by the scan are not missed by it. *)
Definition cell_result (spare : bool) (m m' : cmap c) (o : Pose) (xs : list X) (sn : list (idx * list Pt)) (stopped : bool) : Prop :=
  forall i j d, cell_exists c i j -> holds c m i j d ->
    exists d', holds c m' i j d' /\
      missed d' = (if stopped then missed d
                   else plus (missed d) (total zero plus (map snd
                          (filter (fun e => idx_eqb (generate_index (fst e) i) j) (scan_misses geo sta c amount ray spare o xs))))) /\
      hits d' = hits_after (fun ps => fold_left (s_add sta) ps (s_empty sta)) s_merge
                  (map snd (filter (fun g => idx_eqb (generate_index (fst g) i) j) sn)) (hits d).
End Fate.
