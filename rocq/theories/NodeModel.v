(** The ROS map loaders, cslibs_ndt_2d/src/ndt_map_loader.h and cslibs_ndt_3d/src/ndt_map_loader.h, up to
    what is loaded and in which precision. Definitions only. *)
From Verif Require Import Base FileModel.

(** What the node has loaded when it starts to spin: the maps of [setup<double>], those of [setup<float>],
    or nothing ([ros::shutdown]). *)
Inductive served (A B : Type) : Type :=
| AsDouble (x : A)
| AsFloat (y : B)
| NotServed.
Arguments AsDouble {A B} x.
Arguments AsFloat {A B} y.
Arguments NotServed {A B}.

(** 2D: ndt_map_loader.h:81-86 and 103-108; 3D: 76-81 and 90-95. No map is loaded for an empty path ([None]);
    [load] is [dynamic_maps::loadBinary]. [None] as result: [return false]. *)
Definition setup_one {A : Type} (load : place -> outcome (option A)) (path : option place) : outcome (option (option A)) :=
  match path with
  | None => Ok (Some None)
  | Some p => let* r := load p in match r with Some x => Ok (Some (Some x)) | None => Ok None end
  end.
(** 2D: 58-130, 3D: 56-109 [setup]: the maps, then the occupancy maps. Simplified: parameters, topics and
    the conversion into messages are left out, they do not decide about the result. *)
Definition setup {A B : Type} (load : place -> outcome (option A)) (load_occ : place -> outcome (option B))
  (path path_occ : option place) : outcome (option (option A * option B)) :=
  let* a := setup_one load path in
  match a with
  | None => Ok None
  | Some x => let* b := setup_one load_occ path_occ in
              match b with None => Ok None | Some y => Ok (Some (x, y)) end
  end.
(** 2D: 31-41, 3D: 29-39 [run]: [!setup<double>() && !setup<float>()]. *)
Definition node_run {A B : Type} (as_double : outcome (option A)) (as_float : outcome (option B)) : outcome (served A B) :=
  let* a := as_double in
  match a with
  | Some x => Ok (AsDouble x)
  | None => let* b := as_float in match b with Some y => Ok (AsFloat y) | None => Ok NotServed end
  end.
