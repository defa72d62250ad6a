(** Specification of handlers that take long. *)
From Verif.Model Require Import RustStd Path Request Time Status Response Router Server Tasks.
From Verif.Spec Require Import Common TaskSpec.

Section Slow.
Context (cl : cookie_lib) {H ST : Type}.
(** The handlers of connection [i] are running. *)
Definition in_handler (i : nat) (st : tasks_state cl (H := H) (ST := ST)) : Prop :=
  exists j, task_get cl i (tasks st) = TWorking j.
(** While the events [evs] happen, none of the handlers running in [st] returns. *)
Definition none_returns (st : tasks_state cl (H := H) (ST := ST)) (evs : list (nat * task_event * (world * order))) : Prop :=
  forall i x, in_handler i st -> ~ In (i, TRun, x) evs.
End Slow.
