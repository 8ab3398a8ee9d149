(** C80: what the map loader node publishes. *)
From Coq Require Import Permutation.
From Verif Require Import Base NodeStateModel NodeStateSpec NodeStateFacts.
Open Scope Z_scope.

(** C80, what holds for both nodes, all paths, files, conversions and call times. If all given maps can be
    loaded as double, otherwise if all can be loaded as float, every call of the service publishes exactly
    the messages of these maps in this precision, each with the time of the call, and returns whether a
    path was given. Otherwise the node publishes nothing. Maps loaded before a failure are never published. *)
Theorem C80_published_partial {M Path : Type} (double float : precision (M:=M) (Path:=Path)) (three : bool)
  (t1 t2 : Z) (path path_occ : option Path) (calls : list Z) :
  let r := run_node double float t1 t2 path path_occ in
  let publishes (l : list (topic * M)) :=
    exists n out l', r = Ok (n, out, true) /\ Permutation l' l /\
      spin three true calls n = map (fun t => (stamped t l', Some (present path || present path_occ))) calls in
  match messages_of double path path_occ with
  | Ok (Some l) => publishes l
  | Ok None =>
      match messages_of float path path_occ with
      | Ok (Some l) => publishes l
      | Ok None => exists n out, r = Ok (n, out, false) /\ spin three false calls n = map (fun _ => ([], None)) calls
      | UB => r = UB
      | Throw => r = Throw
      end
  | UB => r = UB
  | Throw => r = Throw
  end.
Proof. exact (node_publishes double float three t1 t2 path path_occ calls). Qed.
Print Assumptions C80_published_partial.

(** C80: a node that was not set up, or whose setup failed every time so far, answers no call. *)
Theorem C80_silent_before_setup {M Path : Type} (attempts : list (precision (M:=M) (Path:=Path) * Z * option Path * option Path))
  (three : bool) (calls : list Z) (n : node M) :
  ofold (fun n a => let '(T, t, path, path_occ) := a in
           let* (n', ok) := setup_node T t path path_occ n in if ok then Throw else Ok n') attempts node_new = Ok n ->
  spin three true calls n = map (fun _ => ([], None)) calls.
Proof. exact (silent_before_setup attempts three calls n). Qed.
Print Assumptions C80_silent_before_setup.

(** C80 is false of what the node reports: it prints that its setup was successful after every failure. *)
Theorem C80_reports_success_refuted : exists (T : precision (M:=Z) (Path:=Z)) (path : option Z) (n : node Z) (out : list notice),
  messages_of T path None = Ok None /\ run_node T T 0 1 path None = Ok (n, out, false) /\ In Successful out.
Proof.
  exists {| map_t := Z; occ_t := Z; load_map := fun _ => Ok None; load_occ := fun _ => Ok None;
            map_cells := fun x => Ok x; map_dists := fun x => Ok x; occ_cells := fun x => Ok x; occ_dists := fun x => Ok x |},
    (Some 7). eexists. eexists.
  split; [reflexivity|]. split; [reflexivity|]. right. left. reflexivity.
Qed.
Print Assumptions C80_reports_success_refuted.

(** Maps are numbers; the occupancy map cannot be loaded as double, so [setup<double>] fails after it has
    stored the messages 100 and 101; published are those of float. *)
Definition as_double : precision (M:=Z) (Path:=Z) :=
  {| map_t := Z; occ_t := Z; load_map := fun p => Ok (Some p); load_occ := fun _ => Ok None;
     map_cells := fun x => Ok (100 * x); map_dists := fun x => Ok (100 * x + 1);
     occ_cells := fun x => Ok x; occ_dists := fun x => Ok x |}.
Definition as_float : precision (M:=Z) (Path:=Z) :=
  {| map_t := Z; occ_t := Z; load_map := fun p => Ok (Some p); load_occ := fun p => Ok (Some p);
     map_cells := fun x => Ok (10 * x); map_dists := fun x => Ok (10 * x + 1);
     occ_cells := fun x => Ok (10 * x + 2); occ_dists := fun x => Ok (10 * x + 3) |}.
Example C80_example :
  messages_of as_double (Some 1) (Some 2) = Ok None /\
  messages_of as_float (Some 1) (Some 2) = Ok (Some [(TCells, 10); (TDists, 11); (TOccCells, 22); (TOccDists, 23)]) /\
  (let* (n, b) := setup_node as_double 0 (Some 1) (Some 2) node_new in Ok (n_cells n, b)) = Ok (Some {| content := 100; stamp := 0 |}, false) /\
  (let* r := run_node as_double as_float 0 1 (Some 1) (Some 2) in
   let '(n, _, alive) := r in Ok (spin false alive [8; 9] n)) =
  Ok [([(TCells, {| content := 10; stamp := 8 |}); (TOccCells, {| content := 22; stamp := 8 |});
        (TDists, {| content := 11; stamp := 8 |}); (TOccDists, {| content := 23; stamp := 8 |})], Some true);
      ([(TCells, {| content := 10; stamp := 9 |}); (TOccCells, {| content := 22; stamp := 9 |});
        (TDists, {| content := 11; stamp := 9 |}); (TOccDists, {| content := 23; stamp := 9 |})], Some true)] /\
  (* no path: the service fails *)
  (let* r := run_node as_double as_float 0 1 None None in
   let '(n, _, alive) := r in Ok (spin true alive [8] n)) = Ok [([], Some false)].
Proof. repeat split. Qed.
(** A failed setup alone: the service is not offered. *)
Example C80_silent_example :
  (let* (n, ok) := setup_node as_double 0 (Some 1) (Some 2) node_new in
   Ok (ok, spin false true [8; 9] n)) = Ok (false, [([], None); ([], None)]).
Proof. reflexivity. Qed.
