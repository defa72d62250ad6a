(** Model of the worker threads that run the tasks of src/server_builder.rs. *)
From Verif.Model Require Export Tasks.

Section Workers.
Context (ft : features) (cl : cookie_lib) {H ST : Type}
  (handle : H -> matched_request cl -> ST * response cl -> (ST * response cl) * outcome flow).

(** The task is between the reading of the request and the writing of the answer
    (src/server.rs:187-201, src/router.rs:259-316).  There is no [await] there: closures are plain
    functions (src/router.rs:14), so the thread that runs the task does nothing else meanwhile. *)
Definition on_thread (t : task cl (H := H)) : bool :=
  match t with TWorking _ => true | _ => false end.
(** How many threads run such a task (tasks: src/server_builder.rs:41-43). *)
Definition busy (st : tasks_state cl (H := H) (ST := ST)) : nat :=
  length (filter (fun x => on_thread (snd x)) (tasks st)).
(** The event can happen with [n] worker threads (octane_macros/src/lib.rs:133-138): the task has
    a thread already, or one is free to run it until the next [await] (src/server.rs:167-223).
    Which of the waiting tasks gets a free thread is left open. *)
Definition has_thread (n : nat) (st : tasks_state cl (H := H) (ST := ST)) (ev : nat * task_event * (world * order)) : Prop :=
  on_thread (task_get cl (fst (fst ev)) (tasks st)) = true \/ busy st < n.
(** src/server_builder.rs:33-47: a run of all tasks of the server with [n] worker threads *)
Fixpoint on_threads (n : nat) (rt : router H) (st : tasks_state cl (H := H) (ST := ST))
    (evs : list (nat * task_event * (world * order))) : Prop :=
  match evs with
  | [] => True
  | ev :: rest => has_thread n st ev /\ on_threads n rt (tasks_step ft cl handle rt st ev) rest
  end.
End Workers.
