(** Specification vocabulary for the runtime the attributes set up. *)
From Verif.Model Require Import RustStd Macros.
From Verif.Spec Require Import ResponseSpec MacroSpec.

(** The block asks for [n] worker threads. *)
Definition asks_workers (block : list token) (n : N) : Prop :=
  exists cs s, runtime_calls block cs /\ decimal n s /\ In (B "worker_threads", [TkLit (s ++ B "usize")]) cs.
(** The block switches on the timers of the runtime: [enable_time], or [enable_all] as
    [#[tokio::main]] and [#[tokio::test]] do. *)
Definition has_timers (block : list token) : Prop :=
  exists cs args, runtime_calls block cs /\ (In (B "enable_time", args) cs \/ In (B "enable_all", args) cs).
(** The block switches on sockets. *)
Definition has_sockets (block : list token) : Prop :=
  exists cs args, runtime_calls block cs /\ (In (B "enable_io", args) cs \/ In (B "enable_all", args) cs).
(** The attribute [#[test]] before the function *)
Definition TEST_ATTR : list token := [TkPunct x23; TkGroup DBracket [TkIdent (B "test")]].
