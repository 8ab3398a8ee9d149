(** The worker threads of serialization/map.hpp. Definitions only. *)
From Verif Require Import Base.
Open Scope Z_scope.

(** One thread [success = success && op();] with [std::atomic_bool success], map.hpp:61-67 and
    115-121: an atomic read of the flag, then, if it was set, the operation, then an atomic write of the
    result. Whatever happens between these accesses is up to the scheduler. *)
Inductive phase : Type :=
| Start
| Running
| Pending (b : bool)
| Done.

Section Workers.
Context {R : Type}.

(** The flag, the threads, and what each operation has left behind ([None]: it was not run). *)
Record workers : Type := { flag : bool; phases : list phase; made : list (option R) }.

(** What thread [i] does if run: the value it returns and what it leaves behind
    ([binary_t::save]: a file, or nothing; [l->load]: a storage). *)
Definition operation : Type := outcome (bool * option R).

Definition set_phase (l : list phase) (i : nat) (p : phase) : list phase :=
  match upd l i p with Some l' => l' | None => l end.
Definition set_made (l : list (option R)) (i : nat) (r : option R) : list (option R) :=
  match upd l i r with Some l' => l' | None => l end.

(** Thread [i] makes a step; a thread that has ended, or does not exist, makes none. *)
Definition worker_step (ops : list operation) (w : workers) (i : nat) : outcome workers :=
  match nth_error (phases w) i with
  | Some Start =>
      Ok {| flag := flag w; made := made w;
            phases := set_phase (phases w) i (if flag w then Running else Pending false) |}
  | Some Running =>
      match nth_error ops i with
      | Some op => let* r := op in
                   Ok {| flag := flag w; made := set_made (made w) i (snd r);
                         phases := set_phase (phases w) i (Pending (fst r)) |}
      | None => UB
      end
  | Some (Pending b) => Ok {| flag := b; made := made w; phases := set_phase (phases w) i Done |}
  | _ => Ok w
  end.

(** map.hpp:60-61 and 114-115. *)
Definition workers_start (n : nat) : workers :=
  {| flag := true; phases := repeat Start n; made := repeat None n |}.
(** A schedule is the order in which threads make their steps. *)
Definition workers_run (ops : list operation) (sched : list nat) : outcome workers :=
  ofold (worker_step ops) sched (workers_start (length ops)).

End Workers.
Arguments workers R : clear implicits.
Arguments operation R : clear implicits.
