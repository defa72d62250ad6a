(** C119, C126: whole exchanges among any number of connections. *)
From Verif.Model Require Import RustStd Path Request Time Status Response Router Server Tasks.
From Verif.Spec Require Import Common PathSpec RoutingSpec TextSpec RequestSpec ResponseSpec ServerSpec TaskSpec ExchangeSpec.
From Verif.Proofs Require Import PathExtra ServerWitness TaskWitness ExchangeProofs GoneProofs ExchangeWitness.

(** C119.  Connection [i] sends the text of a request, in any pieces, among any events of other connections;
    then its task gets enough turns.  The handlers that the routing specification asks for are called, in
    order, on exactly the request meant, in one history of calls with those of other connections; and the
    bytes delivered to the client (all of them, if it takes enough) are read by it as version, status,
    headers and body of the response the handlers made, or as a 404 page if they made none.  Only the handlers
    of this request have to be well behaved on it; others may panic or write anything. *)
Theorem C119_exchange :
  forall ft cl (H ST : Type) (handle : H -> matched_request cl -> ST * response cl -> (ST * response cl) * outcome flow) (ws : world -> Prop)
    o app (rt : router H) (s0 : ST) evs1 evs2 evs3 i m p ver hs body meth v path cs,
  (N.of_nat (length (flatten app)) <= USIZE_MAX)%N -> build o app = Done rt ->
  method_named m meth -> version_named ver v -> target_ok p -> path_means p path ->
  hs <> [] -> Forall (fun hd => good_header (faithful ft) hd /\ clean (header_text hd)) hs ->
  cookies_mean cl (cookies_on ft) hs cs -> ~ lacks_host (RequestLine meth path v) hs ->
  announced hs = N.of_nat (length body) -> (announced hs <= ISIZE_MAX)%N ->
  (forall rq, request_is ft rq (RequestLine meth path v) hs cs body -> well_behaved ft cl handle ws app rq) ->
  let evs := evs1 ++ evs2 ++ evs3 in
  real_inputs evs -> Forall (fun ev => ws (fst (snd ev)) /\ clock (fst (snd ev)) <> None) evs -> writes_succeed i evs ->
  stream_of (input_of (inputs i evs1)) = request_text m p ver hs body -> stream_of (input_of (inputs i evs)) = request_text m p ver hs body ->
  length (flatten app) < runs_of i evs2 ->
  let final := tasks_run ft cl handle rt (TasksState s0 []) evs in
  exists L rq calls res out, linked s0 L (tshared final) /\
    request_is ft rq (RequestLine meth path v) hs cs body /\ chosen ft cl app rq calls /\
    calls_made cl handle rq calls blank_response (calls_on i L) [] res /\
    reads_answer ws out res /\
    (task_get cl i (tasks final) = TClosed out \/
     room_of i evs3 < length out /\ exists sent rest, sent ++ rest = out /\ task_get cl i (tasks final) = TSending sent rest).
Proof. exact @exchange. Qed.
Print Assumptions C119_exchange.
(** One history of calls serves for all connections at once: it explains the shared state left behind and every
    exchange that is complete. *)
Theorem C119_one_history :
  forall ft cl (H ST : Type) (handle : H -> matched_request cl -> ST * response cl -> (ST * response cl) * outcome flow) (ws : world -> Prop)
    o app (rt : router H) (s0 : ST) evs,
  (N.of_nat (length (flatten app)) <= USIZE_MAX)%N -> build o app = Done rt ->
  real_inputs evs -> Forall (fun ev => ws (fst (snd ev)) /\ clock (fst (snd ev)) <> None) evs ->
  let final := tasks_run ft cl handle rt (TasksState s0 []) evs in
  exists L, linked s0 L (tshared final) /\
  forall evs1 evs2 evs3 i m p ver hs body meth v path cs,
  method_named m meth -> version_named ver v -> target_ok p -> path_means p path ->
  hs <> [] -> Forall (fun hd => good_header (faithful ft) hd /\ clean (header_text hd)) hs ->
  cookies_mean cl (cookies_on ft) hs cs -> ~ lacks_host (RequestLine meth path v) hs ->
  announced hs = N.of_nat (length body) -> (announced hs <= ISIZE_MAX)%N ->
  (forall rq, request_is ft rq (RequestLine meth path v) hs cs body -> well_behaved ft cl handle ws app rq) ->
  evs = evs1 ++ evs2 ++ evs3 -> writes_succeed i evs ->
  stream_of (input_of (inputs i evs1)) = request_text m p ver hs body -> stream_of (input_of (inputs i evs)) = request_text m p ver hs body ->
  length (flatten app) < runs_of i evs2 ->
  exists rq calls res out, request_is ft rq (RequestLine meth path v) hs cs body /\ chosen ft cl app rq calls /\
    calls_made cl handle rq calls blank_response (calls_on i L) [] res /\
    reads_answer ws out res /\
    (task_get cl i (tasks final) = TClosed out \/
     room_of i evs3 < length out /\ exists sent rest, sent ++ rest = out /\ task_get cl i (tasks final) = TSending sent rest).
Proof. exact @exchanges. Qed.
Print Assumptions C119_one_history.
(** A request that is refused calls no handler, and the client reads the error. *)
Theorem C119_refused_requests :
  forall ft cl (H ST : Type) (handle : H -> matched_request cl -> ST * response cl -> (ST * response cl) * outcome flow)
    o app (rt : router H) (s0 : ST) evs1 evs2 evs3 i num reason,
  (N.of_nat (length (flatten app)) <= USIZE_MAX)%N -> build o app = Done rt ->
  let evs := evs1 ++ evs2 ++ evs3 in
  real_inputs evs -> Forall (fun ev => clock (fst (snd ev)) <> None) evs -> writes_succeed i evs ->
  ~ stream_waits ft (stream_of (input_of (inputs i evs1))) (fin (input_of (inputs i evs1))) ->
  refused ft cl (stream_of (input_of (inputs i evs))) (fin (input_of (inputs i evs))) num reason ->
  length (flatten app) < runs_of i evs2 ->
  let final := tasks_run ft cl handle rt (TasksState s0 []) evs in
  exists L out, linked s0 L (tshared final) /\ calls_on i L = [] /\ error_answer num reason out /\
    (task_get cl i (tasks final) = TClosed out \/
     room_of i evs3 < length out /\ exists sent rest, sent ++ rest = out /\ task_get cl i (tasks final) = TSending sent rest).
Proof. exact @refused_exchange. Qed.
Print Assumptions C119_refused_requests.
Example C119_refused_example :
  let evs := short_evs1 ++ short_evs2 ++ short_evs3 in
  real_inputs evs /\ Forall (fun ev => clock (fst (snd ev)) <> None) evs /\ writes_succeed 2 evs /\
  ~ stream_waits default_features (stream_of (input_of (inputs 2 short_evs1))) (fin (input_of (inputs 2 short_evs1))) /\
  refused default_features demo_lib (stream_of (input_of (inputs 2 evs))) (fin (input_of (inputs 2 evs))) (B "400") (B "BAD REQUEST") /\
  length (flatten echo_app) < runs_of 2 short_evs2 /\
  exists out, task_get demo_lib 2 (tasks (tasks_run default_features demo_lib echo_handle echo_router (TasksState 7 []) evs)) = TClosed out.
Proof. exact example_119_refused. Qed.
(** With handlers that share no state, the response is the one they give when nothing else goes on. *)
Theorem C119_stateless :
  forall ft cl (H ST : Type) (handle : H -> matched_request cl -> ST * response cl -> (ST * response cl) * outcome flow) (ws : world -> Prop),
  read_only handle ->
  forall o app (rt : router H) (s0 : ST) evs1 evs2 evs3 i m p ver hs body meth v path cs,
  (N.of_nat (length (flatten app)) <= USIZE_MAX)%N -> build o app = Done rt ->
  method_named m meth -> version_named ver v -> target_ok p -> path_means p path ->
  hs <> [] -> Forall (fun hd => good_header (faithful ft) hd /\ clean (header_text hd)) hs ->
  cookies_mean cl (cookies_on ft) hs cs -> ~ lacks_host (RequestLine meth path v) hs ->
  announced hs = N.of_nat (length body) -> (announced hs <= ISIZE_MAX)%N ->
  (forall rq, request_is ft rq (RequestLine meth path v) hs cs body -> well_behaved ft cl handle ws app rq) ->
  let evs := evs1 ++ evs2 ++ evs3 in
  real_inputs evs -> Forall (fun ev => ws (fst (snd ev)) /\ clock (fst (snd ev)) <> None) evs -> writes_succeed i evs ->
  stream_of (input_of (inputs i evs1)) = request_text m p ver hs body -> stream_of (input_of (inputs i evs)) = request_text m p ver hs body ->
  length (flatten app) < runs_of i evs2 ->
  let final := tasks_run ft cl handle rt (TasksState s0 []) evs in
  exists rq res out, tshared final = s0 /\ request_is ft rq (RequestLine meth path v) hs cs body /\
    handled ft cl handle app rq s0 ((s0, res), Done tt) /\ reads_answer ws out res /\
    (task_get cl i (tasks final) = TClosed out \/
     room_of i evs3 < length out /\ exists sent rest, sent ++ rest = out /\ task_get cl i (tasks final) = TSending sent rest).
Proof. exact @exchange_stateless. Qed.
Print Assumptions C119_stateless.
(** The request of connection 1 arrives in two pieces; C56_example shows that its parts are as asked for. *)
Example C119_example :
  let evs := echo_evs1 ++ echo_evs2 ++ echo_evs3 in
  (forall rq : request demo_lib, rq_line rq = RequestLine MPost [B "echo"; B "7"] Http11 ->
     well_behaved default_features demo_lib echo_handle (eq ex_world) echo_app rq) /\
  read_only echo_handle /\
  build insertion_order echo_app = Done echo_router /\ real_inputs evs /\
  Forall (fun ev => ex_world = fst (snd ev) /\ clock (fst (snd ev)) <> None) evs /\ writes_succeed 1 evs /\
  stream_of (input_of (inputs 1 echo_evs1)) = request_text (B "POST") (B "/echo/./7") (B "1.1") echo_headers (B "abc") /\
  stream_of (input_of (inputs 1 evs)) = request_text (B "POST") (B "/echo/./7") (B "1.1") echo_headers (B "abc") /\
  length (flatten echo_app) < runs_of 1 echo_evs2 /\
  task_get demo_lib 1 (tasks (tasks_run default_features demo_lib echo_handle echo_router (TasksState 7 []) evs)) =
    TClosed (answer_head (B "200 OK") (B "3") ++ B "abc") /\
  task_get demo_lib 4 (tasks (tasks_run default_features demo_lib echo_handle echo_router (TasksState 7 []) evs)) = TCrashed.
Proof. exact example_119. Qed.

(** C126.  [evs1]: the peer of connection [i] closes the connection or breaks it off, at any point of any
    request; [evs2]: the task gets its turns; [evs3]: a write to the peer
    fails or takes nothing.  Then the task has ended,
    whatever the other connections did meanwhile. *)
Theorem C126_no_task_outlives_its_peer :
  forall ft cl (H ST : Type) (handle : H -> matched_request cl -> ST * response cl -> (ST * response cl) * outcome flow)
    o app (rt : router H) (s0 : ST) evs1 evs2 evs3 i e f x x',
  (N.of_nat (length (flatten app)) <= USIZE_MAX)%N -> build o app = Done rt ->
  real_inputs evs1 -> Forall (fun ev => clock (fst (snd ev)) <> None) evs1 ->
  In (i, TInput e, x) evs1 -> (forall seg, e <> Arrive seg) ->
  length (flatten app) < runs_of i evs2 -> f = TWriteError \/ f = TAccept 0 -> In (i, f, x') evs3 ->
  let k := task_get cl i (tasks (tasks_run ft cl handle rt (TasksState s0 []) (evs1 ++ evs2 ++ evs3))) in
  k = TCrashed \/ exists sent, k = TClosed sent.
Proof. exact @gone_over. Qed.
Print Assumptions C126_no_task_outlives_its_peer.
Example C126_example :
  real_inputs short_evs1 /\ Forall (fun ev => clock (fst (snd ev)) <> None) short_evs1 /\
  In (2, TInput PeerClose, ex_x) short_evs1 /\ length (flatten echo_app) < runs_of 2 short_evs2 /\
  In (2, TWriteError, ex_x) gone_evs3 /\
  exists sent, task_get demo_lib 2 (tasks (tasks_run default_features demo_lib echo_handle echo_router (TasksState 7 [])
    (short_evs1 ++ short_evs2 ++ gone_evs3))) = TClosed sent /\ length sent = 50.
Proof. exact example_126. Qed.
