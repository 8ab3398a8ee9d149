(** A program that builds a map over several sessions: it changes the map, saves it, ends, and starts again from
    what it saved. The steps are calls of the modelled functions; the program itself is not part of /repo.
    Definitions only. *)
From Coq Require Import String.
From Verif Require Import Base SeqModel IndexModel MapModel SysModel SerialModel ThreadModel FileModel YamlModel.
Open Scope Z_scope.

(** One step. [s1] and [s2] are the schedules of the threads of [save] and [load], [g] is what the memory of the
    loading process holds. A restart with a YAML header writes the entries into the mapping [n]. *)
Inductive step {P : Type} : Type :=
| Do (a : map_action (P:=P))
| Restart (s1 s2 : list nat) (g : nat -> Z)
| RestartYaml (s1 s2 : list nat) (g : nat -> Z) (n : list (string * node)).

Section Session.
Variable junk : list Z -> nat -> list Z.
Context {P Po T : Type}.
Variable po : codec Po.
Variable tp : codec T.
Variable yo : converter Po.
Variable yt : converter T.
Variable fmt : format P.
Variable c : config P.
Notation world := (loaded (Po:=Po) (T:=T) c).

(** What the program has after [load]: the map or, without one, it gives up. *)
Definition resume (r : option world) : outcome world := match r with Some x => Ok x | None => Throw end.

(** One step of the program: the actions of SysModel (map_templates, map.hpp), or [save] (serialization/map.hpp:24-72)
    followed in another process by [load] (map.hpp:74-134), with the header in map.bin or in map.yaml. *)
Definition session_step (x : world) (o : step (P:=P)) : outcome world :=
  match o with
  | Do a =>
      let* m := cact c (l_map x) a in
      Ok {| l_origin := l_origin x; l_resolution := l_resolution x; l_map := m |}
  | Restart s1 s2 g =>
      let* r := map_save po tp fmt c all_open s1 (l_origin x) (l_resolution x) (l_map x) in
      if fst r then let* y := map_load junk po tp fmt c all_open s2 g (snd r) in resume y else Throw
  | RestartYaml s1 s2 g n =>
      let* w := yaml_write yo yt c (l_origin x) (l_resolution x) (l_map x) n in
      let* r := save_stores fmt c all_open s1 (l_map x) in
      if fst r then let* y := map_load_yaml junk yo yt fmt c all_open s2 g (Mapping w) (snd r) in resume y else Throw
  end.

(** All steps, starting with the new map at the pose and with the resolution given to the constructor. *)
Definition session (steps : list (step (P:=P))) (origin : Po) (resolution : T) : outcome world :=
  ofold session_step steps {| l_origin := origin; l_resolution := resolution; l_map := new_map c |}.
End Session.
