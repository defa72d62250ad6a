(** Properties of executions whose outcome does not depend on the schedule. *)
From Verif.Proofs Require Import RecordWitness.
From Verif.Spec Require Import Common PathSpec RoutingSpec TextSpec RequestSpec ResponseSpec ServerSpec TaskSpec RecordSpec.

(** C137.  If the handlers only record, then two executions in which the connections get the same input, and in
    which no request is left in work, end with the same shared state, with the same connections waiting, and with
    each connection answered from the same response (or dead in both): the schedule, the clock and the hash order
    make no other difference. *)
Theorem C137_any_schedule :
  forall ft cl (H ST : Type) (handle : H -> matched_request cl -> ST * response cl -> _) (rt : router H) (s0 : ST) evs evs',
  records cl handle ->
  Forall (fun ev => clock (fst (snd ev)) <> None) evs -> Forall (fun ev => clock (fst (snd ev)) <> None) evs' ->
  (forall i, inputs i evs = inputs i evs') ->
  let st := tasks_run ft cl handle rt (TasksState s0 []) evs in
  let st' := tasks_run ft cl handle rt (TasksState s0 []) evs' in
  settled cl st -> settled cl st' ->
  tshared st = tshared st' /\
  forall i, (forall r, task_get cl i (tasks st) = TReading r <-> task_get cl i (tasks st') = TReading r) /\
    exists v, ended ft cl i evs v (task_get cl i (tasks st)) /\ ended ft cl i evs' v (task_get cl i (tasks st')).
Proof. exact @recorded_schedule. Qed.
Print Assumptions C137_any_schedule.
Example C137_example : records demo_lib tally_handle /\
  Forall (fun ev : nat * task_event * (world * order) => clock (fst (snd ev)) <> None) tally_mixed /\
  Forall (fun ev : nat * task_event * (world * order) => clock (fst (snd ev)) <> None) tally_serial /\
  (forall i, inputs i tally_mixed = inputs i tally_serial) /\
  settled demo_lib (tally_end tally_mixed) /\ settled demo_lib (tally_end tally_serial) /\
  tshared (tally_end tally_mixed) = 25 /\ tshared (tally_end tally_serial) = 25 /\
  task_get demo_lib 1 (tasks (tally_end tally_mixed)) = TClosed (answer_head (B "200 OK") (B "1") ++ B "a") /\
  task_get demo_lib 3 (tasks (tally_end tally_mixed)) = TCrashed /\
  task_get demo_lib 4 (tasks (tally_end tally_mixed)) = TReading [B "GET /"].
Proof. exact example_137. Qed.
(** The hypothesis is needed: two handlers that pass a value through the shared state. *)
Example C137_needs_records :
  let st := tasks_run default_features demo_lib relay_handle relay_router (TasksState [] []) in
  (forall i, inputs i mixed = inputs i relay_serial) /\ settled demo_lib (st mixed) /\ settled demo_lib (st relay_serial) /\
  tshared (st mixed) = B "b" /\ tshared (st relay_serial) = B "a" /\
  task_get demo_lib 1 (tasks (st mixed)) = TClosed (answer_head (B "200 OK") (B "1") ++ B "b") /\
  task_get demo_lib 1 (tasks (st relay_serial)) = TClosed (answer_head (B "200 OK") (B "1") ++ B "a").
Proof. exact relay_depends. Qed.
