(** What the map loader node is to do, independent of its members. *)
From Verif Require Import Base NodeStateModel.
Open Scope Z_scope.

Section Spec.
Context {M Path : Type}.
(** The maps at the two paths in one precision, with their messages; [None]: one of them cannot be loaded. *)
Definition messages_of (T : precision (M:=M) (Path:=Path)) (path path_occ : option Path) : outcome (option (list (topic * M))) :=
  let first := match path with
    | None => Ok (Some [])
    | Some p => let* o := load_map T p in
                match o with
                | None => Ok None
                | Some x => let* a := map_cells T x in let* b := map_dists T x in Ok (Some [(TCells, a); (TDists, b)])
                end
    end in
  let second := match path_occ with
    | None => Ok (Some [])
    | Some p => let* o := load_occ T p in
                match o with
                | None => Ok None
                | Some x => let* a := occ_cells T x in let* b := occ_dists T x in Ok (Some [(TOccCells, a); (TOccDists, b)])
                end
    end in
  let* x := first in
  match x with
  | None => Ok None
  | Some l => let* y := second in match y with None => Ok None | Some l' => Ok (Some (l ++ l')) end
  end.
(** All messages with the time of the call. *)
Definition stamped (t : Z) (l : list (topic * M)) : list (topic * message M) :=
  map (fun x => (fst x, {| content := snd x; stamp := t |})) l.
Definition nonempty {X : Type} (l : list X) : bool := match l with [] => false | _ => true end.
End Spec.
