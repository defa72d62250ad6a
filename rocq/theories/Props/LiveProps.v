(** Properties of executions that go on forever. *)
From Verif.Proofs Require Import LiveThreads.
From Verif.Spec Require Import Common PathSpec RoutingSpec TextSpec RequestSpec ResponseSpec ServerSpec TaskSpec WorkerSpec LiveSpec.

(** C133.  Every request that has arrived as a whole is answered in the end and the answer is
    delivered, or its task dies of a panic (of a handler, or of the reading of a stream C27 lists), if
    its task runs on, the handlers it calls return and its peer reads.  Nothing is assumed of the
    other connections: their handlers may run forever. *)
Theorem C133_eventually :
  forall ft cl (H ST : Type) (handle : H -> matched_request cl -> ST * response cl -> _) o app (rt : router H),
  (N.of_nat (length (flatten app)) <= USIZE_MAX)%N -> build o app = Done rt ->
  forall (s0 : ST) (run : nat -> nat * task_event * (world * order)) i k,
  (forall k, snd (fst (run k)) <> TInput (Arrive [])) -> (forall k, clock (fst (snd (run k))) <> None) ->
  task_runs ft cl handle rt s0 run i -> peer_reads ft cl handle rt s0 run i ->
  let inp := input_of (inputs i (upto run k)) in
  ~ stream_waits ft (stream_of inp) (fin inp) ->
  exists k', k <= k' /\ exists p, p <> Waiting /\ p <> Working /\ forall m, k' <= m ->
    let inp := input_of (inputs i (upto run m)) in
    exists log, story ft cl handle (fun w ho => In (i, TRun, (w, ho)) (upto run m)) [i] app
                  (stream_of inp) (fin inp) log p /\
    task_get cl i (tasks (after ft cl handle rt s0 run m)) =
      match p with Answering out => TClosed out | _ => TCrashed end.
Proof. exact @answered_in_the_end. Qed.
Print Assumptions C133_eventually.
(** A connection served while the handlers of another never return. *)
Example C133_example :
  build insertion_order ex_app = Done ex_router /\
  (forall k, snd (fst (forever k)) <> TInput (Arrive [])) /\ (forall k, clock (fst (snd (forever k))) <> None) /\
  task_runs default_features demo_lib ex_handle ex_router 7 forever 1 /\
  peer_reads default_features demo_lib ex_handle ex_router 7 forever 1 /\
  (let inp := input_of (inputs 1 (upto forever 2)) in
   stream_of inp = get_hi /\ ~ stream_waits default_features (stream_of inp) (fin inp)) /\
  task_get demo_lib 1 (tasks (after default_features demo_lib ex_handle ex_router 7 forever 40)) =
    TClosed (answer_head (B "200 OK") (B "2") ++ B "hi").
Proof. exact example_133. Qed.
(** With worker threads (C132): if all handlers return, a thread becomes free again and again, so that
    no connection has to wait for good. *)
Theorem C133_threads_free :
  forall ft cl (H ST : Type) (handle : H -> matched_request cl -> ST * response cl -> _) (rt : router H) (s0 : ST)
    (run : nat -> nat * task_event * (world * order)) n,
  0 < n -> (forall k, on_threads ft cl handle n rt (TasksState s0 []) (upto run k)) ->
  (forall i, task_runs ft cl handle rt s0 run i) ->
  forall k, exists k', k <= k' /\ busy cl (after ft cl handle rt s0 run k') < n.
Proof. exact @threads_free. Qed.
Print Assumptions C133_threads_free.
(** One thread that serves two connections in turn. *)
Example C133_threads_example :
  (forall k, on_threads default_features demo_lib ex_handle 1 ex_router (TasksState 7 []) (upto in_turn k)) /\
  (forall i, task_runs default_features demo_lib ex_handle ex_router 7 in_turn i) /\
  busy demo_lib (in_turn_after 2) = 1 /\ busy demo_lib (in_turn_after 6) = 1 /\
  (exists out, task_get demo_lib 1 (tasks (in_turn_after 8)) = TSending [] out) /\
  (exists out, task_get demo_lib 2 (tasks (in_turn_after 8)) = TSending [] out).
Proof. exact example_133_threads. Qed.
