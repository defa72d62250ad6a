(** C144: a system that lets the program hold at most [n] connections at a time. *)
From Verif.Model Require Import RustStd Path Request Time Status Response Router Server Tasks Config Listen Whole.
From Verif.Spec Require Import Common ListenSpec LimitSpec.
From Verif.Proofs Require Import LimitWitness.

(** C144 is false: whatever the limit, clients that only connect, one more than it allows, stop the program for
    good.  Nothing is read, nothing is sent, whatever happens then. *)
Theorem C144_refuted :
  forall ft cl (H ST : Type) (handle : H -> matched_request cl -> ST * response cl -> (ST * response cl) * outcome flow) (rt : router H)
    tl f c os_tls os port (s : ST), can_listen os -> forall n,
  let run evs := prog_run ft cl handle rt (prog_start cl tl f c os_tls os port s) evs in
  exists evs, silent evs /\ length evs = n + 2 /\ possible_run n run evs /\
    forall more, pr_up (run (evs ++ more)) = false /\ pr_tasks (run (evs ++ more)) = TasksState s [].
Proof. exact @silent_stop. Qed.
Print Assumptions C144_refuted.
(** Nothing else that clients do stops it: in every execution the program runs and accepts unless at some time
    [n] connections were held at once. *)
Theorem C144_otherwise_partial :
  forall ft cl (H ST : Type) (handle : H -> matched_request cl -> ST * response cl -> (ST * response cl) * outcome flow) (rt : router H)
    tl f c os_tls os port (s : ST), can_listen os -> forall n evs,
  let run evs := prog_run ft cl handle rt (prog_start cl tl f c os_tls os port s) evs in
  possible_run n run evs ->
  pr_up (run evs) = true /\ pr_plain (run evs) = LsAccepting \/ exists a b, evs = a ++ b /\ held_at_least n (run a).
Proof. exact @only_by_holding. Qed.
Print Assumptions C144_otherwise_partial.
(** Two connections are allowed; the third client comes when the first has been answered; a fourth ends it all. *)
Example C144_example :
  can_listen os_fine /\ possible_run 2 three_run three_evs /\
  (exists out, task_get demo_lib 1 (tasks (pr_tasks (three_run three_evs))) = TClosed out) /\
  held (three_run three_evs) 2 /\ held (three_run three_evs) 3 /\ ~ held (three_run three_evs) 1 /\ pr_plain (three_run three_evs) = LsAccepting /\
  possible 2 (three_run three_evs) (PrPlain AcErr) /\
  pr_up (three_run (three_evs ++ [PrPlain AcErr; PrReturn])) = false.
Proof. exact example_144. Qed.
