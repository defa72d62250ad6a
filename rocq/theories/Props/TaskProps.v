(** Properties of requests served in parallel, with the handler calls of different requests
    interleaved in any way. *)
From Verif.Proofs Require Import TaskWitness.
From Verif.Spec Require Import Common PathSpec RoutingSpec TextSpec RequestSpec ResponseSpec ServerSpec TaskSpec.

(** C57, C66 at the grain of handler calls. *)
Theorem C57_no_interference_interleaved :
  forall ft cl (H ST : Type) (handle : H -> matched_request cl -> ST * response cl -> _) (rt : router H) evs i,
  read_only handle -> forall st,
  task_get cl i (tasks (tasks_run ft cl handle rt st evs)) =
  task_get cl i (tasks (tasks_run ft cl handle rt st (own_events i evs))).
Proof. exact @tasks_independent. Qed.
Print Assumptions C57_no_interference_interleaved.
Example C57_interleaved_example : read_only ro_handle /\
  let st := tasks_run default_features demo_lib ro_handle ex_router (TasksState 7 []) in
  let evs := [(1, TInput (Arrive get_hi), ex_x); (2, TInput (Arrive get_boom), ex_x); (1, TRun, ex_x); (2, TRun, ex_x);
              (2, TRun, ex_x); (1, TRun, ex_x); (1, TRun, ex_x)] in
  own_events 1 evs = [(1, TInput (Arrive get_hi), ex_x); (1, TRun, ex_x); (1, TRun, ex_x); (1, TRun, ex_x)] /\
  task_get demo_lib 1 (tasks (st evs)) = TSending [] (answer_head (B "200 OK") (B "2") ++ B "hi") /\
  task_get demo_lib 2 (tasks (st evs)) = TCrashed.
Proof. split; [exact ro_read_only|]. repeat split; vm_compute; reflexivity. Qed.
Theorem C66_invariants_kept_interleaved :
  forall ft cl (H ST : Type) (handle : H -> matched_request cl -> ST * response cl -> _) (I : ST -> Prop)
    (rt : router H) evs,
  keeps I handle -> forall st, I (tshared st) -> I (tshared (tasks_run ft cl handle rt st evs)).
Proof. exact @tasks_inv. Qed.
Print Assumptions C66_invariants_kept_interleaved.
Example C66_interleaved_example : keeps (fun n => 7 <= n) ex_handle /\
  tshared (tasks_run default_features demo_lib ex_handle ex_router (TasksState 7 [])
    [(1, TInput (Arrive get_hi), ex_x); (2, TInput (Arrive get_hi), ex_x); (1, TRun, ex_x); (2, TRun, ex_x); (1, TRun, ex_x);
     (2, TRun, ex_x)]) = 9.
Proof. split; [exact (proj1 example_66)|vm_compute; reflexivity]. Qed.

(** C71.  Every execution is explained by one history of handler calls: the calls happen one after
    the other on the shared state, and for each connection they are the calls the routing
    specification asks for on its own request, in order, up to the first that stops; the state of
    the connection is the one that belongs to these calls. *)
Theorem C71_interleaving :
  forall ft cl (H ST : Type) (handle : H -> matched_request cl -> ST * response cl -> _) o app (rt : router H),
  (N.of_nat (length (flatten app)) <= USIZE_MAX)%N -> build o app = Done rt ->
  forall (s0 : ST) evs, real_inputs evs -> Forall (fun ev => clock (fst (snd ev)) <> None) evs ->
  exists L, linked s0 L (tshared (tasks_run ft cl handle rt (TasksState s0 []) evs)) /\
    forall i, told ft cl handle app i evs (calls_on i L)
                (task_get cl i (tasks (tasks_run ft cl handle rt (TasksState s0 []) evs))).
Proof. exact @tasks_told. Qed.
Print Assumptions C71_interleaving.
(** A task left alone after its input does what [serve] of C55, C56 does. *)
Theorem C71_alone :
  forall ft cl (H ST : Type) (handle : H -> matched_request cl -> ST * response cl -> _) (rt : router H) i e w ho
    (st : tasks_state cl (ST := ST)) received,
  task_get cl i (tasks st) = TReading received ->
  exists n0, forall n, n0 <= n ->
    let st1 := tasks_run ft cl handle rt st ((i, TInput e, (w, ho)) :: repeat (i, TRun, (w, ho)) n) in
    let st2 := server_step ft cl handle rt (ServerState (tshared st) [(i, Running received)]) (i, e, (w, ho)) in
    tshared st1 = shared st2 /\
    task_get cl i (tasks st1) = match conn_get i (conns st2) with
                                | Running received' => TReading received'
                                | Answered out => TSending [] out
                                | Crashed => TCrashed
                                end.
Proof. exact @task_alone. Qed.
Print Assumptions C71_alone.
Example C71_example :
  (N.of_nat (length (flatten relay_app)) <= USIZE_MAX)%N /\ build insertion_order relay_app = Done relay_router /\
  real_inputs mixed /\ Forall (fun ev : nat * task_event * (world * order) => clock (fst (snd ev)) <> None) mixed /\
  tshared mixed_state = B "b" /\
  linked [] [(1, ([], B "a")); (2, (B "a", B "b")); (1, (B "b", B "b")); (2, (B "b", B "b"))] (tshared mixed_state).
Proof.
  split; [vm_compute; discriminate|]. split; [exact relay_built|]. split; [exact mixed_real|]. split; [exact mixed_clocks|].
  vm_compute. auto 9.
Qed.

(** C72.  A request needs one step per registration at most, and one to answer. *)
Theorem C72_finishes :
  forall ft cl (H ST : Type) (handle : H -> matched_request cl -> ST * response cl -> _) o app (rt : router H) (s0 : ST) evs1 evs2 i,
  (N.of_nat (length (flatten app)) <= USIZE_MAX)%N -> build o app = Done rt ->
  real_inputs evs1 -> Forall (fun ev => clock (fst (snd ev)) <> None) evs1 ->
  (exists j, task_get cl i (tasks (tasks_run ft cl handle rt (TasksState s0 []) evs1)) = TWorking j) ->
  length (flatten app) < runs_of i evs2 ->
  ~ exists j, task_get cl i (tasks (tasks_run ft cl handle rt (TasksState s0 []) (evs1 ++ evs2))) = TWorking j.
Proof. exact @tasks_finish. Qed.
Print Assumptions C72_finishes.
Example C72_example :
  length (flatten relay_app) < runs_of 1 (skipn 2 mixed) /\
  (exists j, task_get demo_lib 1 (tasks (tasks_run default_features demo_lib relay_handle relay_router (TasksState [] []) (firstn 2 mixed)))
             = TWorking j).
Proof. split; [vm_compute; auto|]. eexists. vm_compute. reflexivity. Qed.

(** C73.  Once composed, the answer is delivered whatever pieces the socket takes, whatever other
    tasks do. *)
Theorem C73_delivered :
  forall ft cl (H ST : Type) (handle : H -> matched_request cl -> ST * response cl -> _) (rt : router H) evs i
    (st : tasks_state cl (ST := ST)) sent rest,
  task_get cl i (tasks st) = TSending sent rest -> writes_succeed i evs ->
  0 < length rest <= room_of i evs ->
  task_get cl i (tasks (tasks_run ft cl handle rt st evs)) = TClosed (sent ++ rest).
Proof. exact @delivered. Qed.
Print Assumptions C73_delivered.
(** Whatever happens, errors included, what was sent is a beginning of the answer that only grows. *)
Theorem C73_prefix :
  forall ft cl (H ST : Type) (handle : H -> matched_request cl -> ST * response cl -> _) (rt : router H) evs i
    (st : tasks_state cl (ST := ST)) sent rest,
  task_get cl i (tasks st) = TSending sent rest \/ task_get cl i (tasks st) = TClosed sent ->
  exists sent' rest', sent' ++ rest' = sent ++ rest /\ (exists more, sent' = sent ++ more) /\
    (task_get cl i (tasks (tasks_run ft cl handle rt st evs)) = TSending sent' rest' \/
     task_get cl i (tasks (tasks_run ft cl handle rt st evs)) = TClosed sent').
Proof. exact @delivered_prefix. Qed.
Print Assumptions C73_prefix.
Example C73_example :
  task_get demo_lib 1 (tasks mixed_state) = TClosed (answer_head (B "200 OK") (B "1") ++ B "b") /\
  writes_succeed 1 mixed /\ room_of 1 mixed = 1049 /\
  (exists rest, task_get demo_lib 1 (tasks (tasks_run default_features demo_lib relay_handle relay_router (TasksState [] [])
     (firstn 8 mixed ++ [(1, TAccept 20, ex_x); (1, TWriteError, ex_x)]))) = TClosed (B "HTTP/1.1 200 OK" ++ CRLF ++ rest)).
Proof. exact example_73. Qed.

(** C74.  Two requests whose handlers pass a value through the shared state: each one alone is
    answered with its own body, interleaved one of them gets the body of the other. *)
Theorem C74_refuted :
  task_get demo_lib 1 (tasks mixed_state) = TClosed (answer_head (B "200 OK") (B "1") ++ B "b") /\
  stream_of (input_of (inputs 1 mixed)) = post (B "a") /\
  forall b, snd (serve default_features demo_lib relay_handle ex_world insertion_order [1] relay_router []
    (Transport [post [b]] Stall)) = IoDone (answer_head (B "200 OK") (B "1") ++ [b]).
Proof. exact crossed. Qed.
Print Assumptions C74_refuted.
