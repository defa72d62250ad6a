(** Specification of executions that go on forever. *)
From Verif.Model Require Import RustStd Path Request Time Status Response Router Server Tasks.
From Verif.Spec Require Import Common TaskSpec.

Section Live.
Context {X : Type}.
(** The first [k] events of an execution. *)
Definition upto (run : nat -> nat * task_event * X) (k : nat) : list (nat * task_event * X) := map run (seq 0 k).
(** An event of this kind on connection [i] happens at or after time [k]. *)
Definition happens (run : nat -> nat * task_event * X) (i : nat) (P : task_event -> Prop) (k : nat) : Prop :=
  exists k' e x, k <= k' /\ run k' = (i, e, x) /\ P e.
End Live.

Section Fair.
Context (ft : features) (cl : cookie_lib) {H ST : Type}
  (handle : H -> matched_request cl -> ST * response cl -> (ST * response cl) * outcome flow).
Context (rt : router H) (s0 : ST) (run : nat -> nat * task_event * (world * order)).
(** The server after [k] events. *)
Definition after (k : nat) : tasks_state cl (H := H) (ST := ST) :=
  tasks_run ft cl handle rt (TasksState s0 []) (upto run k).
(** While the task of connection [i] has work to do it is given the processor sooner or later, and
    the handler calls it makes return. *)
Definition task_runs (i : nat) : Prop :=
  forall k j, task_get cl i (tasks (after k)) = TWorking j -> happens run i (fun e => e = TRun) k.
(** The peer of connection [i] takes the bytes it is sent sooner or later, and never reports an error. *)
Definition peer_reads (i : nat) : Prop :=
  (forall k sent rest, task_get cl i (tasks (after k)) = TSending sent rest ->
     happens run i (fun e => exists n, e = TAccept (S n)) k) /\
  (forall k e x, run k = (i, e, x) -> e <> TWriteError /\ e <> TAccept 0).
End Fair.
