(** Properties of handlers that take long. *)
From Verif.Proofs Require Import WorkerWitness.
From Verif.Spec Require Import Common PathSpec RoutingSpec TextSpec RequestSpec ResponseSpec ServerSpec TaskSpec WorkerSpec.

(** C132.  The claim: requests are answered while handlers of other requests are still running.
    Handlers block the thread they run on.  For every number [n] of threads, [n] requests bring the
    server to a state where, as long as none of their handlers returns, nothing can happen any more to
    a further connection: whatever it sends is not even read. *)
Theorem C132_slow_handlers_refuted :
  forall n, let st := tasks_run default_features demo_lib ex_handle ex_router (TasksState 7 []) (all_ask n) in
  on_threads default_features demo_lib ex_handle n ex_router (TasksState 7 []) (all_ask n) /\
  (forall i, i < n -> in_handler demo_lib i st) /\
  forall more, none_returns demo_lib st more -> on_threads default_features demo_lib ex_handle n ex_router st more ->
    task_get demo_lib n (tasks (tasks_run default_features demo_lib ex_handle ex_router st more)) = TReading [].
Proof. exact starved. Qed.
Print Assumptions C132_slow_handlers_refuted.
(** In general: with all threads in handlers that do not return the whole server stands still. *)
Theorem C132_stands_still :
  forall ft cl (H ST : Type) (handle : H -> matched_request cl -> ST * response cl -> _) n (rt : router H) evs
    (st : tasks_state cl (ST := ST)),
  n <= busy cl st -> none_returns cl st evs -> on_threads ft cl handle n rt st evs ->
  tasks_run ft cl handle rt st evs = st.
Proof. exact @stand_still. Qed.
Print Assumptions C132_stands_still.
(** No more than [n] requests are being handled at any time ... *)
Theorem C132_at_most :
  forall ft cl (H ST : Type) (handle : H -> matched_request cl -> ST * response cl -> _) n (rt : router H) (s0 : ST) evs,
  on_threads ft cl handle n rt (TasksState s0 []) evs ->
  busy cl (tasks_run ft cl handle rt (TasksState s0 []) evs) <= n.
Proof. exact @at_most_start. Qed.
Print Assumptions C132_at_most.
(** ... and with a thread left every connection can go on as in C71, C72 whatever the others do. *)
Theorem C132_room_partial :
  forall ft cl (H ST : Type) (handle : H -> matched_request cl -> ST * response cl -> _) n (rt : router H) i evs
    (st : tasks_state cl (ST := ST)),
  busy cl st < n -> Forall (fun ev => fst (fst ev) = i) evs -> on_threads ft cl handle n rt st evs.
Proof. exact @room. Qed.
Print Assumptions C132_room_partial.
(** If the handlers do return, all threads become free again. *)
Theorem C132_goes_on_partial :
  forall ft cl (H ST : Type) (handle : H -> matched_request cl -> ST * response cl -> _) n (rt : router H) (s0 : ST) evs (x : world * order),
  on_threads ft cl handle n rt (TasksState s0 []) evs ->
  exists more, Forall (fun ev => snd (fst ev) = TRun /\
                         in_handler cl (fst (fst ev)) (tasks_run ft cl handle rt (TasksState s0 []) evs)) more /\
    on_threads ft cl handle n rt (TasksState s0 []) (evs ++ more) /\
    busy cl (tasks_run ft cl handle rt (TasksState s0 []) (evs ++ more)) = 0.
Proof. exact @goes_on. Qed.
Print Assumptions C132_goes_on_partial.
(** Two threads: one request is answered and its thread has become free for a third one. *)
Example C132_example :
  let evs := all_ask 2 ++ [(0, TRun, ex_x); (1, TRun, ex_x); (0, TRun, ex_x); (1, TRun, ex_x); (1, TRun, ex_x);
                           (2, TInput (Arrive get_hi), ex_x)] in
  let st := tasks_run default_features demo_lib ex_handle ex_router (TasksState 7 []) evs in
  on_threads default_features demo_lib ex_handle 2 ex_router (TasksState 7 []) evs /\ busy demo_lib st = 2 /\
  tshared st = 9 /\ task_get demo_lib 1 (tasks st) = TSending [] (answer_head (B "200 OK") (B "2") ++ B "hi").
Proof. exact example_132. Qed.
Example C132_room_example :
  let st := tasks_run default_features demo_lib ex_handle ex_router (TasksState 7 []) (all_ask 1) in
  busy demo_lib st < 2 /\ in_handler demo_lib 0 st /\
  task_get demo_lib 1 (tasks (tasks_run default_features demo_lib ex_handle ex_router st
    [(1, TInput (Arrive get_hi), ex_x); (1, TRun, ex_x); (1, TRun, ex_x); (1, TRun, ex_x)]))
  = TSending [] (answer_head (B "200 OK") (B "2") ++ B "hi").
Proof. exact example_132_room. Qed.
