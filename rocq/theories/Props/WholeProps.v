(** C128, C129: the whole program. *)
From Verif.Model Require Import RustStd Path Request Time Status Response Router Server Tasks Listen Whole.
From Verif.Spec Require Import Common PathSpec RoutingSpec TextSpec RequestSpec ResponseSpec ServerSpec TaskSpec ExchangeSpec ListenSpec WholeSpec.
From Verif.Proofs Require Import PathExtra ServerWitness TaskWitness ListenWitness ExchangeWitness WholeProofs WholeWitness.

(** C128.  The program starts; in the course of [evs0] connection [i] is accepted by the plain listener, or by
    the TLS listener and its handshake succeeds; then it sends the text of a request and its task gets enough
    turns.  Whatever else happens before and meanwhile (other connections, failed handshakes, failed accepts of
    either listener, panics of other tasks), as long as [listen]'s caller has not returned (which it can only do when the plain listener
    has failed), the handlers that
    the routing specification asks for are called on exactly the request meant, and the client reads the
    response they made. *)
Theorem C128_program :
  forall ft cl (H ST : Type) (handle : H -> matched_request cl -> ST * response cl -> (ST * response cl) * outcome flow) (rt : router H)
    (ws : world -> Prop) o app tl f c os_tls os port (s0 : ST) evs0 evs1 evs2 evs3 i m p ver hs body meth v path cs,
  (N.of_nat (length (flatten app)) <= USIZE_MAX)%N -> build o app = Done rt ->
  method_named m meth -> version_named ver v -> target_ok p -> path_means p path ->
  hs <> [] -> Forall (fun hd => good_header (faithful ft) hd /\ clean (header_text hd)) hs ->
  cookies_mean cl (cookies_on ft) hs cs -> ~ lacks_host (RequestLine meth path v) hs ->
  announced hs = N.of_nat (length body) -> (announced hs <= ISIZE_MAX)%N ->
  (forall rq, request_is ft rq (RequestLine meth path v) hs cs body -> well_behaved ft cl handle ws app rq) ->
  opened (can_listen os) (tls_listener tl f c os_tls = LsAccepting) i evs0 -> (forall e x, ~ In (PrTask i e x) evs0) ->
  let after := evs1 ++ evs2 ++ evs3 in
  ~ ended (can_listen os) (evs0 ++ after) ->
  real_inputs (task_part (evs0 ++ after)) ->
  Forall (fun ev => ws (fst (snd ev)) /\ clock (fst (snd ev)) <> None) (task_part (evs0 ++ after)) -> writes_succeed i (task_part after) ->
  stream_of (input_of (inputs i (task_part evs1))) = request_text m p ver hs body ->
  stream_of (input_of (inputs i (task_part after))) = request_text m p ver hs body ->
  length (flatten app) < runs_of i (task_part evs2) ->
  let final := pr_tasks (prog_run ft cl handle rt (prog_start cl tl f c os_tls os port s0) (evs0 ++ after)) in
  exists L rq calls res out, linked s0 L (tshared final) /\
    request_is ft rq (RequestLine meth path v) hs cs body /\ chosen ft cl app rq calls /\
    calls_made cl handle rq calls blank_response (calls_on i L) [] res /\
    reads_answer ws out res /\
    (task_get cl i (tasks final) = TClosed out \/
     room_of i (task_part evs3) < length out /\ exists sent rest, sent ++ rest = out /\ task_get cl i (tasks final) = TSending sent rest).
Proof. exact @program_exchange. Qed.
Print Assumptions C128_program.
(** Likewise for requests that are refused. *)
Theorem C128_refused_requests :
  forall ft cl (H ST : Type) (handle : H -> matched_request cl -> ST * response cl -> (ST * response cl) * outcome flow) (rt : router H)
    o app tl f c os_tls os port (s0 : ST) evs0 evs1 evs2 evs3 i num reason,
  (N.of_nat (length (flatten app)) <= USIZE_MAX)%N -> build o app = Done rt ->
  opened (can_listen os) (tls_listener tl f c os_tls = LsAccepting) i evs0 -> (forall e x, ~ In (PrTask i e x) evs0) ->
  let after := evs1 ++ evs2 ++ evs3 in
  ~ ended (can_listen os) (evs0 ++ after) ->
  real_inputs (task_part (evs0 ++ after)) ->
  Forall (fun ev => clock (fst (snd ev)) <> None) (task_part (evs0 ++ after)) -> writes_succeed i (task_part after) ->
  ~ stream_waits ft (stream_of (input_of (inputs i (task_part evs1)))) (fin (input_of (inputs i (task_part evs1)))) ->
  refused ft cl (stream_of (input_of (inputs i (task_part after)))) (fin (input_of (inputs i (task_part after)))) num reason ->
  length (flatten app) < runs_of i (task_part evs2) ->
  let final := pr_tasks (prog_run ft cl handle rt (prog_start cl tl f c os_tls os port s0) (evs0 ++ after)) in
  exists L out, linked s0 L (tshared final) /\ calls_on i L = [] /\ error_answer num reason out /\
    (task_get cl i (tasks final) = TClosed out \/
     room_of i (task_part evs3) < length out /\ exists sent rest, sent ++ rest = out /\ task_get cl i (tasks final) = TSending sent rest).
Proof. exact @program_refused. Qed.
Print Assumptions C128_refused_requests.
(** Nobody else is served: of a connection that was not opened (also of one offered after an accept error, or
    of all if the listeners did not come up) nothing is read and nothing is sent. *)
Theorem C128_only_opened :
  forall ft cl (H ST : Type) (handle : H -> matched_request cl -> ST * response cl -> (ST * response cl) * outcome flow) (rt : router H)
    i tl f c os_tls os port (s0 : ST) evs,
  task_get cl i (tasks (pr_tasks (prog_run ft cl handle rt (prog_start cl tl f c os_tls os port s0) evs))) <> TReading [] ->
  opened (can_listen os) (tls_listener tl f c os_tls = LsAccepting) i evs.
Proof. exact @served_opened. Qed.
Print Assumptions C128_only_opened.
(** Connection 1 is a TLS connection; the handshake of 5 fails, the handler of 4 panics, and 6 comes after the
    accept errors of both listeners.  C119_example shows that the handlers are as asked for. *)
Example C128_example :
  let after := wh_evs1 ++ wh_evs2 ++ wh_evs3 in
  can_listen os_fine /\ tls_listener demo_tls TlsRustls (tls_config (B "key") (B "cert")) os_fine = LsAccepting /\
  opened (can_listen os_fine) (tls_listener demo_tls TlsRustls (tls_config (B "key") (B "cert")) os_fine = LsAccepting) 1 wh_evs0 /\
  opened (can_listen os_fine) (tls_listener demo_tls TlsRustls (tls_config (B "key") (B "cert")) os_fine = LsAccepting) 2 wh_evs0 /\
  (forall e x, ~ In (PrTask 1 e x) wh_evs0) /\ ~ ended (can_listen os_fine) (wh_evs0 ++ after) /\
  real_inputs (task_part (wh_evs0 ++ after)) /\
  Forall (fun ev => ex_world = fst (snd ev) /\ clock (fst (snd ev)) <> None) (task_part (wh_evs0 ++ after)) /\
  writes_succeed 1 (task_part after) /\
  stream_of (input_of (inputs 1 (task_part wh_evs1))) = request_text (B "POST") (B "/echo/./7") (B "1.1") echo_headers (B "abc") /\
  stream_of (input_of (inputs 1 (task_part after))) = request_text (B "POST") (B "/echo/./7") (B "1.1") echo_headers (B "abc") /\
  length (flatten echo_app) < runs_of 1 (task_part wh_evs2) /\
  let ts := tasks (pr_tasks (wh_run (wh_evs0 ++ after))) in
  task_get demo_lib 1 ts = TClosed (answer_head (B "200 OK") (B "3") ++ B "abc") /\
  task_get demo_lib 4 ts = TCrashed /\ task_get demo_lib 5 ts = TReading [] /\ task_get demo_lib 6 ts = TReading [].
Proof. exact example_128. Qed.

(** C129 as stated is false: a request is complete and its handler at work, and then accepting another
    connection fails and [listen]'s caller returns.  The answer is never sent, whatever happens then. *)
Theorem C129_accept_error_spares_connections_refuted :
  exists evs, opened (can_listen os_fine) False 1 evs /\ real_inputs (task_part evs) /\ writes_succeed 1 (task_part evs) /\
    stream_of (input_of (inputs 1 (task_part evs))) = request_text (B "POST") (B "/echo/./7") (B "1.1") echo_headers (B "abc") /\
    forall more, exists j, task_get demo_lib 1 (tasks (pr_tasks (wh_run (evs ++ more)))) = TWorking j.
Proof.
  exact (ex_intro _ over_evs (conj (proj1 witness_129) (conj (proj1 (proj2 witness_129)) (conj (proj1 (proj2 (proj2 witness_129)))
    (conj (proj1 (proj2 (proj2 (proj2 witness_129)))) refuted_129))))).
Qed.
Print Assumptions C129_accept_error_spares_connections_refuted.
(** When the plain listener has ended and [listen]'s caller returns, no connection goes on, of either listener. *)
Theorem C129_everything_stops :
  forall ft cl (H ST : Type) (handle : H -> matched_request cl -> ST * response cl -> (ST * response cl) * outcome flow) (rt : router H)
    (st : program cl (H := H) (ST := ST)) evs,
  pr_plain st <> LsAccepting -> pr_tasks (prog_run ft cl handle rt st (PrReturn :: evs)) = pr_tasks st.
Proof. exact @all_over. Qed.
Print Assumptions C129_everything_stops.
(** Until then nothing is lost: C128_program is the other half. *)
Example C129_example : pr_plain (wh_run (firstn 4 over_evs)) <> LsAccepting.
Proof. exact over_failed. Qed.
