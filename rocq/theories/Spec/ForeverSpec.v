(** Specification of executions of the whole program that go on forever. *)
From Verif.Model Require Import RustStd Path Request Time Status Response Router Server Tasks Listen Whole.
From Verif.Spec Require Import Common TextSpec RequestSpec ServerSpec TaskSpec ListenSpec WholeSpec.

(** The first [k] events of an execution. *)
Definition pupto (run : nat -> prog_event) (k : nat) : list prog_event := map run (seq 0 k).
(** An event of this kind on connection [i] happens at or after time [k]. *)
Definition phappens (run : nat -> prog_event) (i : nat) (P : task_event -> Prop) (k : nat) : Prop :=
  exists k' e x, k <= k' /\ run k' = PrTask i e x /\ P e.
(** The input of connection [i] in the first [k] events. *)
Definition input_by (run : nat -> prog_event) (i k : nat) : transport := input_of (inputs i (task_part (pupto run k))).

Section Fair.
Context (ft : features) (cl : cookie_lib) {H ST : Type}
  (handle : H -> matched_request cl -> ST * response cl -> (ST * response cl) * outcome flow).
Context (rt : router H) (start : program cl (H := H) (ST := ST)) (run : nat -> prog_event).
(** The task of connection [i] after [k] events. *)
Definition task_at (i k : nat) : task cl (H := H) :=
  task_get cl i (tasks (pr_tasks (prog_run ft cl handle rt start (pupto run k)))).
(** While the task of connection [i] has work to do it is given the processor sooner or later, and the handler
    calls it makes return. *)
Definition ptask_runs (i : nat) : Prop :=
  forall k j, task_at i k = TWorking j -> phappens run i (fun e => e = TRun) k.
(** The peer of connection [i] takes the bytes it is sent sooner or later, and never reports an error. *)
Definition ppeer_reads (i : nat) : Prop :=
  (forall k sent rest, task_at i k = TSending sent rest -> phappens run i (fun e => exists n, e = TAccept (S n)) k) /\
  (forall k e x, run k = PrTask i e x -> e <> TWriteError /\ e <> TAccept 0).
End Fair.
