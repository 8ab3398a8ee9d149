(** The ROS map loaders as running nodes: cslibs_ndt_2d/src/ndt_map_loader.h and
    cslibs_ndt_3d/src/ndt_map_loader.h. Their members, [setup], [run] and the service [resend].
    Simplified: parameters and topic names are fixed; a message is its content with one time stamp
    (all markers of an array have the same one); publishing copies the message. Definitions only. *)
From Verif Require Import Base.
Open Scope Z_scope.

(** A message: what was converted, and its stamp. *)
Record message (M : Type) : Type := { content : M; stamp : Z }.
Arguments content {M} m.
Arguments stamp {M} m.

(** The members (2D: 44-55, 3D: 42-53). [n_cells]: occupancy grid (2D) or cloud of means (3D). *)
Record node (M : Type) : Type := {
  n_cells : option (message M); n_occ_cells : option (message M);
  n_dists : option (message M); n_occ_dists : option (message M);
  n_service : bool
}.
Arguments n_cells {M} n.
Arguments n_occ_cells {M} n.
Arguments n_dists {M} n.
Arguments n_occ_dists {M} n.
Arguments n_service {M} n.
(** 2D: 23-26, 3D: 21-24 (constructor): all pointers are null. *)
Definition node_new {M : Type} : node M :=
  {| n_cells := None; n_occ_cells := None; n_dists := None; n_occ_dists := None; n_service := false |}.

(** The four topics. *)
Inductive topic : Type := TCells | TOccCells | TDists | TOccDists.

Section Node.
Context {M Path : Type}.

(** What one precision needs: loading the two kinds of maps ([None]: loadBinary returns false), and the
    conversions of loaded maps into messages. Both conversions of a kind are applied to the same map. *)
Record precision : Type := {
  map_t : Type; occ_t : Type;
  load_map : Path -> outcome (option map_t);
  load_occ : Path -> outcome (option occ_t);
  map_cells : map_t -> outcome M; map_dists : map_t -> outcome M;
  occ_cells : occ_t -> outcome M; occ_dists : occ_t -> outcome M
}.

Definition at_time (t : Z) (x : M) : option (message M) := Some {| content := x; stamp := t |}.

(** 2D: 81-102, 3D: 76-89. The pointer [tmp] of the grid (2D: 88-99) is not null after the conversion of
    a map that is not null. [false]: [return false]. *)
Definition setup_map (T : precision) (t : Z) (path : option Path) (n : node M) : outcome (node M * bool) :=
  match path with
  | None => Ok (n, true)
  | Some p =>
      let* o := load_map T p in
      match o with
      | None => Ok (n, false)
      | Some x =>
          let* a := map_cells T x in
          let* b := map_dists T x in
          Ok ({| n_cells := at_time t a; n_occ_cells := n_occ_cells n;
                 n_dists := at_time t b; n_occ_dists := n_occ_dists n; n_service := n_service n |}, true)
      end
  end.
(** 2D: 103-125, 3D: 90-105. *)
Definition setup_occ (T : precision) (t : Z) (path : option Path) (n : node M) : outcome (node M * bool) :=
  match path with
  | None => Ok (n, true)
  | Some p =>
      let* o := load_occ T p in
      match o with
      | None => Ok (n, false)
      | Some x =>
          let* a := occ_cells T x in
          let* b := occ_dists T x in
          Ok ({| n_cells := n_cells n; n_occ_cells := at_time t a;
                 n_dists := n_dists n; n_occ_dists := at_time t b; n_service := n_service n |}, true)
      end
  end.
(** 2D: 57-130, 3D: 55-109 [setup<T>], at time [t]. The members written before a failure keep their
    values. *)
Definition setup_node (T : precision) (t : Z) (path path_occ : option Path) (n : node M) : outcome (node M * bool) :=
  let* (n1, ok1) := setup_map T t path n in
  if ok1 then
    let* (n2, ok2) := setup_occ T t path_occ n1 in
    if ok2
    then Ok ({| n_cells := n_cells n2; n_occ_cells := n_occ_cells n2; n_dists := n_dists n2; n_occ_dists := n_occ_dists n2;
                n_service := true |}, true)
    else Ok (n2, false)
  else Ok (n1, false).

(** What the node prints about its setup (2D: 35 and 38, 3D: 33 and 36). *)
Inductive notice : Type := Cannot | Successful.
(** 2D: 31-41, 3D: 29-39 [run] up to [ros::spin()]: the node, what it printed, and whether ROS is still
    running ([ros::shutdown]). *)
Definition run_node (double float : precision) (t1 t2 : Z) (path path_occ : option Path) : outcome (node M * list notice * bool) :=
  let* (n1, ok1) := setup_node double t1 path path_occ node_new in
  if ok1 then Ok (n1, [Successful], true)
  else
    let* (n2, ok2) := setup_node float t2 path path_occ n1 in
    if ok2 then Ok (n2, [Successful], true) else Ok (n2, [Cannot; Successful], false).

Definition present {X : Type} (o : option X) : bool := match o with Some _ => true | None => false end.
(** New stamp, then publish (2D: 141-159, 3D: 120-138). *)
Definition send (t : Z) (o : option (message M)) (tp : topic) : option (message M) * list (topic * message M) :=
  match o with
  | None => (None, [])
  | Some m => let m' := {| content := content m; stamp := t |} in (Some m', [(tp, m')])
  end.
(** 2D: 132-162, 3D: 111-141 [resend] at time [t]; the two versions test different members. *)
Definition resend (three : bool) (t : Z) (n : node M) : node M * list (topic * message M) * bool :=
  let any := present (n_cells n) || present (n_occ_cells n) ||
             (three && (present (n_dists n) || present (n_occ_dists n))) in
  if any then
    let (a, pa) := send t (n_cells n) TCells in
    let (b, pb) := send t (n_occ_cells n) TOccCells in
    let (c, pc) := send t (n_dists n) TDists in
    let (d, pd) := send t (n_occ_dists n) TOccDists in
    ({| n_cells := a; n_occ_cells := b; n_dists := c; n_occ_dists := d; n_service := n_service n |}, pa ++ pb ++ pc ++ pd, true)
  else (n, [], false).

(** [ros::spin()]: the service answers calls at the given times as long as ROS is running and the
    service is advertised; otherwise calls have no effect. Per call: messages and result. *)
Fixpoint spin (three alive : bool) (calls : list Z) (n : node M) : list (list (topic * message M) * option bool) :=
  match calls with
  | [] => []
  | t :: calls' =>
      if (alive && n_service n)%bool
      then let '(n', out, r) := resend three t n in (out, Some r) :: spin three alive calls' n'
      else ([], None) :: spin three alive calls' n
  end.
End Node.
