(** Properties of requests served in parallel that look as if they were served one after the other. *)
From Verif.Proofs Require Import SerialWitness.
From Verif.Spec Require Import Common PathSpec RoutingSpec TextSpec RequestSpec ResponseSpec ServerSpec TaskSpec SerialSpec.

(** C131.  If every request has one handler at most that uses the shared state, then every execution,
    however the handler calls are interleaved, is explained by the connections taking turns: each
    connection is served alone ([served], the specification of C55) from the state before its turn
    to the state after it.  The order of the turns agrees with the clock. *)
Theorem C131_serial :
  forall ft cl (H ST : Type) (handle : H -> matched_request cl -> ST * response cl -> _) o app (rt : router H),
  (N.of_nat (length (flatten app)) <= USIZE_MAX)%N -> build o app = Done rt ->
  forall (s0 : ST) evs,
  real_inputs evs -> Forall (fun ev => clock (fst (snd ev)) <> None) evs ->
  simple_requests ft cl handle app evs ->
  let st := tasks_run ft cl handle rt (TasksState s0 []) evs in
  exists L, linked s0 L (tshared st) /\ in_time ft cl handle rt s0 evs L /\
    forall i, length (calls_on i L) <= 1 /\ alone ft cl handle app i evs L (task_get cl i (tasks st)).
Proof. exact @serial. Qed.
Print Assumptions C131_serial.
(** Applications where this is so for every request: all registrations but one are of handlers that
    do not use the state. *)
Theorem C131_one_registration :
  forall ft cl (H ST : Type) (handle : H -> matched_request cl -> ST * response cl -> _) (app : list (oreg H)) evs,
  one_stateful_registration cl handle app -> simple_requests ft cl handle app evs.
Proof. exact @one_registration. Qed.
Print Assumptions C131_one_registration.
(** Two requests whose handlers are interleaved; the second takes its turn first. *)
Example C131_example :
  (N.of_nat (length (flatten append_app)) <= USIZE_MAX)%N /\ build insertion_order append_app = Done append_router /\
  real_inputs crossing /\ Forall (fun ev : nat * task_event * (world * order) => clock (fst (snd ev)) <> None) crossing /\
  simple_requests default_features demo_lib append_handle append_app crossing /\
  linked [] [(2, ([], B "b")); (1, (B "b", B "ba"))] (tshared crossing_state) /\
  task_get demo_lib 2 (tasks crossing_state) = TClosed (answer_head (B "200 OK") (B "1") ++ B "b") /\
  task_get demo_lib 1 (tasks crossing_state) = TClosed (answer_head (B "200 OK") (B "2") ++ B "ba").
Proof. exact example_131. Qed.
Example C131_one_registration_example : one_stateful_registration demo_lib append_handle append_app.
Proof. exact append_one. Qed.
