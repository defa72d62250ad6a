(** C138: the whole program in executions that go on forever. *)
From Verif.Model Require Import RustStd Path Request Time Status Response Router Server Tasks Listen Whole.
From Verif.Spec Require Import Common PathSpec RoutingSpec TextSpec RequestSpec ResponseSpec ServerSpec TaskSpec ExchangeSpec ListenSpec WholeSpec ForeverSpec.
From Verif.Proofs Require Import ForeverWitness.

(** C138.  The program starts and runs forever (its caller does not return, C129).  Connection [i] is accepted by one of the
    listeners, its TLS handshake succeeds if there is one, its input is a whole request or one that cannot become one,
    its task runs on, the handlers it calls return and its peer reads.  Then it is answered in the end and the answer
    is delivered, or its task dies of a panic of a handler or of a stream C27 lists.  Nothing is assumed of the other
    connections. *)
Theorem C138_in_the_end :
  forall ft cl (H ST : Type) (handle : H -> matched_request cl -> ST * response cl -> (ST * response cl) * outcome flow)
    o app (rt : router H) tl f c os_tls os port (s0 : ST) (run : nat -> prog_event) i k,
  (N.of_nat (length (flatten app)) <= USIZE_MAX)%N -> build o app = Done rt ->
  let start := prog_start cl tl f c os_tls os port s0 in
  (forall k, ~ ended (can_listen os) (pupto run k)) ->
  (forall k j x, run k <> PrTask j (TInput (Arrive [])) x) -> (forall k j e x, run k = PrTask j e x -> clock (fst x) <> None) ->
  (forall k e x, run k = PrTask i e x -> opened (can_listen os) (tls_listener tl f c os_tls = LsAccepting) i (pupto run k)) ->
  ptask_runs ft cl handle rt start run i -> ppeer_reads ft cl handle rt start run i ->
  ~ stream_waits ft (stream_of (input_by run i k)) (fin (input_by run i k)) ->
  exists k', k <= k' /\ exists p, p <> Waiting /\ p <> Working /\ forall m, k' <= m ->
    exists log, story ft cl handle (fun w ho => In (PrTask i TRun (w, ho)) (pupto run m)) [i] app
                  (stream_of (input_by run i m)) (fin (input_by run i m)) log p /\
    task_at ft cl handle rt start run i m = match p with Answering out => TClosed out | _ => TCrashed end.
Proof. exact @program_in_the_end. Qed.
Print Assumptions C138_in_the_end.
(** If the connection sends the text of a request whose handlers behave, then in the end the client has received
    all bytes of an answer from which it reads the response that the handlers made for exactly that request. *)
Theorem C138_client_served :
  forall ft cl (H ST : Type) (handle : H -> matched_request cl -> ST * response cl -> (ST * response cl) * outcome flow)
    (ws : world -> Prop) o app (rt : router H) tl f c os_tls os port (s0 : ST) (run : nat -> prog_event) i k
    m p ver hs body meth v path cs,
  (N.of_nat (length (flatten app)) <= USIZE_MAX)%N -> build o app = Done rt ->
  let start := prog_start cl tl f c os_tls os port s0 in
  (forall k, ~ ended (can_listen os) (pupto run k)) ->
  (forall k j x, run k <> PrTask j (TInput (Arrive [])) x) ->
  (forall k j e x, run k = PrTask j e x -> ws (fst x) /\ clock (fst x) <> None) ->
  (forall k e x, run k = PrTask i e x -> opened (can_listen os) (tls_listener tl f c os_tls = LsAccepting) i (pupto run k)) ->
  ptask_runs ft cl handle rt start run i -> ppeer_reads ft cl handle rt start run i ->
  method_named m meth -> version_named ver v -> target_ok p -> path_means p path ->
  hs <> [] -> Forall (fun hd => good_header (faithful ft) hd /\ clean (header_text hd)) hs ->
  cookies_mean cl (cookies_on ft) hs cs -> ~ lacks_host (RequestLine meth path v) hs ->
  announced hs = N.of_nat (length body) -> (announced hs <= ISIZE_MAX)%N ->
  (forall rq, request_is ft rq (RequestLine meth path v) hs cs body -> well_behaved ft cl handle ws app rq) ->
  (forall n, k <= n -> stream_of (input_by run i n) = request_text m p ver hs body) ->
  exists k' out, k <= k' /\ forall n, k' <= n ->
    task_at ft cl handle rt start run i n = TClosed out /\
    exists rq calls log res, request_is ft rq (RequestLine meth path v) hs cs body /\ chosen ft cl app rq calls /\
      calls_made cl handle rq calls blank_response log [] res /\ reads_answer ws out res.
Proof. exact @program_serves. Qed.
Print Assumptions C138_client_served.
(** Connection 1 is served while new connections keep coming whose handlers never return.  C119_example shows
    that the handlers are as asked for. *)
Example C138_example :
  build insertion_order echo_app = Done echo_router /\ can_listen os_fine /\
  (forall k, ~ ended (can_listen os_fine) (pupto endless k)) /\
  (forall k j x, endless k <> PrTask j (TInput (Arrive [])) x) /\
  (forall k j e x, endless k = PrTask j e x -> ex_world = fst x /\ clock (fst x) <> None) /\
  (forall k e x, endless k = PrTask 1 e x -> opened (can_listen os_fine) tls_up 1 (pupto endless k)) /\
  ptask_runs default_features demo_lib echo_handle echo_router wh_start endless 1 /\
  ppeer_reads default_features demo_lib echo_handle echo_router wh_start endless 1 /\
  (forall n, 3 <= n -> stream_of (input_by endless 1 n) = request_text (B "POST") (B "/echo/./7") (B "1.1") echo_headers (B "abc")) /\
  task_at default_features demo_lib echo_handle echo_router wh_start endless 1 100 = TClosed (answer_head (B "200 OK") (B "3") ++ B "abc") /\
  exists j, task_at default_features demo_lib echo_handle echo_router wh_start endless 8 100 = TWorking j.
Proof. exact example_138. Qed.
