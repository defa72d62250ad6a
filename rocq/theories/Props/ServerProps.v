(** C20, C55-C60, C64, C66: serving connections.  [handle] is what calling a handler does (any function
    on the shared state and the response, possibly panicking); the cookie library, the world
    (clock, files), the hash orders and the application are arbitrary.  [clock w <> None]: the
    system clock is not before 1970. *)
From Verif.Model Require Import RustStd Path Request Time Status Response Router Server.
From Verif.Spec Require Import Common PathSpec RoutingSpec TextSpec RequestSpec ResponseSpec ServerSpec.
From Verif.Proofs Require Import ServerProofs ConnProofs ServerWitness.

(** C20.  The application's state does not change, whatever the handlers do. *)
Theorem C20_truncated_head :
  forall ft cl (H ST : Type) handle (rt : router H) w ho pos (s : ST) t, clock w <> None -> real_segments t ->
  ~ occurs CRLFCRLF (stream_of t) -> fin t = Eof ->
  exists out, serve ft cl handle w ho pos rt s t = (s, IoDone out) /\ error_answer (B "400") (B "BAD REQUEST") out.
Proof. exact @truncated. Qed.
Print Assumptions C20_truncated_head.
(** Every cut of every head. *)
Theorem C20_every_cut :
  forall ft cl (H ST : Type) handle (rt : router H) w ho pos (s : ST) t full a b n, clock w <> None -> real_segments t ->
  head_at full a b -> n < length a + 4 -> stream_of t = firstn n full -> fin t = Eof ->
  exists out, serve ft cl handle w ho pos rt s t = (s, IoDone out) /\ error_answer (B "400") (B "BAD REQUEST") out.
Proof. exact @cut_head. Qed.
Print Assumptions C20_every_cut.
(** The answer is the same for all handlers: none of them runs. *)
Theorem C20_no_handler :
  forall ft cl (H ST : Type) handle handle' (rt rt' : router H) w ho pos (s : ST) t, real_segments t ->
  ~ occurs CRLFCRLF (stream_of t) ->
  serve ft cl handle w ho pos rt s t = serve ft cl handle' w ho pos rt' s t.
Proof. exact @truncated_same. Qed.
Print Assumptions C20_no_handler.
Example C20_example :
  ex_serve (firstn 27 get_hi) Eof = (7, IoDone (answer_head (B "400 BAD REQUEST") (B "189") ++ NOT_FOUND)) /\
  length get_hi = 29 /\ ex_serve get_hi Eof = (8, IoDone (answer_head (B "200 OK") (B "2") ++ B "hi")).
Proof. repeat split; vm_compute; reflexivity. Qed.

(** C55.  All that can happen to a connection ([served]: one clause per outcome). *)
Theorem C55_one_answer :
  forall ft cl (H ST : Type) handle o app (rt : router H) w ho pos (s : ST) t s' r,
  (N.of_nat (length (flatten app)) <= USIZE_MAX)%N -> build o app = Done rt ->
  clock w <> None -> real_segments t ->
  serve ft cl handle w ho pos rt s t = (s', r) ->
  served ft cl handle w ho pos app s (stream_of t) (fin t) s' r.
Proof. exact @serve_served. Qed.
Print Assumptions C55_one_answer.
(** The conditions of the clauses exclude each other. *)
Theorem C55_kinds_exclusive :
  forall ft cl s e,
  (stream_bad s e -> ~ stream_kills ft cl s e /\ ~ stream_waits ft s e) /\
  (stream_kills ft cl s e -> ~ stream_waits ft s e) /\
  (forall rl hs cs body, carries ft cl s rl hs cs body ->
     ~ stream_bad s e /\ ~ stream_kills ft cl s e /\ ~ stream_waits ft s e).
Proof. exact kinds_exclusive. Qed.
Print Assumptions C55_kinds_exclusive.
Theorem C55_request_unique :
  forall ft cl s rl hs cs body rl' hs' cs' body',
  carries ft cl s rl hs cs body -> carries ft cl s rl' hs' cs' body' -> rl = rl' /\ hs = hs' /\ cs = cs'.
Proof. exact carries_fun. Qed.
Print Assumptions C55_request_unique.
(** Answers of the four kinds differ: the status is read from the bytes in only one way. *)
Theorem C55_status_unique :
  forall num reason out num' reason', error_answer num reason out -> error_answer num' reason' out ->
  num = num' /\ reason = reason'.
Proof. exact error_answer_fun. Qed.
Print Assumptions C55_status_unique.
Example C55_example :
  ex_serve (B "GET /hi HTTP/1.1" ++ CRLFCRLF) Stall = (7, IoDone (answer_head (B "400 BAD REQUEST") (B "189") ++ NOT_FOUND)) /\
  ex_serve (B "GET /hi HTTP/1.1" ++ CRLF ++ B "A: b" ++ CRLFCRLF) Stall = (7, IoDone (answer_head (B "400 BAD REQUEST") (B "189") ++ NOT_FOUND)) /\
  ex_serve (B "GOT /hi HTTP/1.0" ++ CRLF ++ B "A: b" ++ CRLFCRLF) Stall = (7, IoDone (answer_head (B "501 NOT IMPLEMENTED") (B "189") ++ NOT_FOUND)) /\
  ex_serve (B "GET /h HTTP/1.0" ++ CRLF ++ B "A: b" ++ CRLFCRLF) Stall = (7, IoDone (answer_head (B "404 NOT FOUND") (B "189") ++ NOT_FOUND)) /\
  ex_serve get_hi Stall = (8, IoDone (answer_head (B "200 OK") (B "2") ++ B "hi")) /\
  ex_serve get_boom Stall = (7, IoPanic) /\ ex_serve (B "GET /hi") Stall = (7, IoBlocked) /\
  ex_serve (B "GET /hi") Broken = (7, IoPanic).
Proof. repeat split; vm_compute; reflexivity. Qed.

(** C27: on the streams of the panic set the task dies: no handler has run and nothing is sent. *)
Theorem C27_no_answer :
  forall ft cl (H ST : Type) handle (rt : router H) w ho pos (s : ST) t, real_segments t ->
  stream_kills ft cl (stream_of t) (fin t) -> serve ft cl handle w ho pos rt s t = (s, IoPanic).
Proof. exact @killed_silently. Qed.
Print Assumptions C27_no_answer.
Example C27_no_answer_example :
  ex_serve (B "GET /.. HTTP/1.1" ++ CRLF ++ B "Host: x" ++ CRLFCRLF) Eof = (7, IoPanic) /\
  stream_kills default_features demo_lib (B "GET /.. HTTP/1.1" ++ CRLF ++ B "Host: x" ++ CRLFCRLF) Eof.
Proof.
  split; [vm_compute; reflexivity|].
  set (s := B "GET /.. HTTP/1.1" ++ CRLF ++ B "Host: x" ++ CRLFCRLF).
  destruct (proj1 (read_request_panics default_features demo_lib (Transport [s] Eof) ltac:(repeat constructor; discriminate)))
    as [K|[K _]]; [vm_compute; reflexivity| |discriminate K].
  cbn [stream_of segs concat fin] in K. rewrite app_nil_r in K. exact K.
Qed.

(** C56 *)
Theorem C56_end_to_end :
  forall ft cl (H ST : Type) handle o app (rt : router H) w ho pos (s : ST) t m p ver hs body meth v path cs,
  (N.of_nat (length (flatten app)) <= USIZE_MAX)%N -> build o app = Done rt ->
  method_named m meth -> version_named ver v -> target_ok p -> path_means p path ->
  hs <> [] -> Forall (fun hd => good_header (faithful ft) hd /\ clean (header_text hd)) hs ->
  cookies_mean cl (cookies_on ft) hs cs -> ~ lacks_host (RequestLine meth path v) hs ->
  announced hs = N.of_nat (length body) -> (announced hs <= ISIZE_MAX)%N ->
  real_segments t -> stream_of t = request_text m p ver hs body ->
  exists rq s' res r, request_is ft rq (RequestLine meth path v) hs cs body /\
    handled ft cl handle app rq s ((s', res), r) /\
    (r = Panic -> serve ft cl handle w ho pos rt s t = (s', IoPanic)) /\
    (r = Done tt -> rs_body res <> BodyNone ->
       serve ft cl handle w ho pos rt s t = (s', IoDone (octane_send (get_data ft w ho pos res)))) /\
    (r = Done tt -> rs_body res = BodyNone -> clock w <> None ->
       exists out, serve ft cl handle w ho pos rt s t = (s', IoDone out) /\
                   error_answer (B "404") (B "NOT FOUND") out).
Proof. exact @end_to_end. Qed.
Print Assumptions C56_end_to_end.
Example C56_example :
  let hs := [Header (B "Host") (B "x"); Header (B "Content-Length") (B "3")] in
  let t := Transport (map (fun b => [b]) (request_text (B "POST") (B "/echo/./7") (B "1.1") hs (B "abc"))) Stall in
  serve default_features demo_lib ex_handle ex_world insertion_order [] ex_router 7 t =
    (7, IoDone (answer_head (B "200 OK") (B "3") ++ B "abc")) /\
  Forall (fun hd => good_header true hd /\ clean (header_text hd)) hs /\ target_ok (B "/echo/./7") /\
  path_means (B "/echo/./7") [B "echo"; B "7"] /\ announced hs = 3%N.
Proof. exact example_56. Qed.

(** C57.  The state of a connection depends on its own events only, in every interleaving. *)
Theorem C57_no_interference :
  forall ft cl (H ST : Type) (handle : H -> matched_request cl -> ST * response cl -> _) (rt : router H) evs i,
  read_only handle -> forall st,
  conn_get i (conns (server_run ft cl handle rt st evs)) =
  conn_get i (conns (server_run ft cl handle rt st (own i evs))).
Proof. exact @independent. Qed.
Print Assumptions C57_no_interference.
(** ... and it is what serving the connection alone gives, started with the original state. *)
Theorem C57_as_if_alone :
  forall ft cl (H ST : Type) (handle : H -> matched_request cl -> ST * response cl -> _) (rt : router H) s0 evs i,
  read_only handle -> real_events evs ->
  let t := input_of (events_of i evs) in
  match conn_get i (conns (server_run ft cl handle rt (ServerState s0 []) evs)) with
  | Running received => received = segs t /\ fin t = Stall /\ (events_of i evs <> [] -> read_request ft cl t = IoBlocked)
  | Answered out => exists e w ho, In (i, e, (w, ho)) evs /\ snd (serve ft cl handle w ho [i] rt s0 t) = IoDone out
  | Crashed => exists e w ho, In (i, e, (w, ho)) evs /\ snd (serve ft cl handle w ho [i] rt s0 t) = IoPanic
  end.
Proof. exact @as_if_alone. Qed.
Print Assumptions C57_as_if_alone.
(** With handlers that do share state: still served on exactly its own input, from some state that
    satisfies every invariant [I] the handlers keep. *)
Theorem C57_own_input :
  forall ft cl (H ST : Type) (handle : H -> matched_request cl -> ST * response cl -> _) (I : ST -> Prop)
    (rt : router H) s0 evs i,
  keeps I handle -> I s0 -> real_events evs ->
  let t := input_of (events_of i evs) in
  match conn_get i (conns (server_run ft cl handle rt (ServerState s0 []) evs)) with
  | Running received => received = segs t /\ fin t = Stall /\ (events_of i evs <> [] -> read_request ft cl t = IoBlocked)
  | Answered out => exists e w ho s s', I s /\ In (i, e, (w, ho)) evs /\ serve ft cl handle w ho [i] rt s t = (s', IoDone out)
  | Crashed => exists e w ho s s', I s /\ In (i, e, (w, ho)) evs /\ serve ft cl handle w ho [i] rt s t = (s', IoPanic)
  end.
Proof. exact @each_served. Qed.
Print Assumptions C57_own_input.
Example C57_example : read_only ro_handle /\
  let x := (ex_world, insertion_order) in
  let evs := [(1, Arrive (firstn 9 get_hi), x); (2, Arrive get_boom, x); (3, Arrive (B "GE"), x);
              (1, Arrive (skipn 9 get_hi), x); (3, PeerClose, x)] in
  let st := server_run default_features demo_lib ro_handle ex_router (ServerState 7 []) evs in
  conn_get 1 (conns st) = Answered (answer_head (B "200 OK") (B "2") ++ B "hi") /\
  conn_get 2 (conns st) = Crashed /\
  conn_get 3 (conns st) = Answered (answer_head (B "400 BAD REQUEST") (B "189") ++ NOT_FOUND) /\ real_events evs.
Proof. exact example_57. Qed.

(** C58.  A failed accept is the last thing the server does. *)
Theorem C58_refuted : forall l rest, accept_loop (map AcOk l ++ AcErr :: rest) = (l, true).
Proof. exact accept_stops. Qed.
Print Assumptions C58_refuted.
Theorem C58_no_failure_partial : forall l, accept_loop (map AcOk l) = (l, false).
Proof. exact accept_all. Qed.
Print Assumptions C58_no_failure_partial.
Example C58_example : accept_loop [AcOk 1; AcOk 2; AcErr; AcOk 3] = ([1; 2], true).
Proof. reflexivity. Qed.

(** C59.  Exactly once, but never after the port is bound; it runs even if binding fails. *)
Theorem C59_once_partial :
  forall tls os port, exists pre post, fst (octane_listen tls os port) = pre ++ EvCallback :: post /\
  ~ In EvCallback pre /\ ~ In EvCallback post.
Proof. exact callback_once. Qed.
Print Assumptions C59_once_partial.
Theorem C59_before_bound_refuted :
  forall tls os port pre post, fst (octane_listen tls os port) = pre ++ EvCallback :: post ->
  forall p, ~ In (EvBound p) pre.
Proof. exact callback_before_bound. Qed.
Print Assumptions C59_before_bound_refuted.
Theorem C59_bind_failure_refuted :
  exists os, fst (octane_listen false os 80) = [EvCallback; EvSocket] /\ snd (octane_listen false os 80) = false /\ os_bind os = false.
Proof. exists (OsResults true true false true true true). repeat split. Qed.
Print Assumptions C59_bind_failure_refuted.
Example C59_example :
  octane_listen true (OsResults true true true true true true) 80 =
  ([EvSslTask; EvCallback; EvSocket; EvBound 80; EvListening 2048; EvReuseAddr; EvAccepting], true).
Proof. reflexivity. Qed.

(** C60 *)
Theorem C60_refuted : exists out hs, ex_serve head_hi Stall = (8, IoDone out) /\
  wire_reads out (B "1.1") (B "200") (B "OK") hs (B "hi").
Proof. exact head_body. Qed.
Print Assumptions C60_refuted.

(** C64.  For every bound: a connection waiting with more head bytes buffered, and a request with a
    longer head that is accepted. *)
Theorem C64_buffered_refuted :
  forall n, exists t, real_segments t /\ n <= length (stream_of t) /\ read_head t = IoBlocked.
Proof. exact buffered. Qed.
Print Assumptions C64_buffered_refuted.
Theorem C64_accepted_refuted :
  forall n, exists t, real_segments t /\ n <= length (stream_of t) /\
  exists rq, read_request default_features demo_lib t = IoDone (RdRequest rq) /\
             headers_get (rq_headers rq) (B "host") = Some (repeat x61 n).
Proof. exact big_head_served. Qed.
Print Assumptions C64_accepted_refuted.

(** C66 *)
Theorem C66_invariants_kept :
  forall ft cl (H ST : Type) (handle : H -> matched_request cl -> ST * response cl -> _) (I : ST -> Prop)
    (rt : router H) evs,
  keeps I handle -> forall st, I (shared st) -> I (shared (server_run ft cl handle rt st evs)).
Proof. exact @shared_inv. Qed.
Print Assumptions C66_invariants_kept.
Example C66_example : keeps (fun n => 7 <= n) ex_handle /\
  let x := (ex_world, insertion_order) in
  shared (server_run default_features demo_lib ex_handle ex_router (ServerState 7 [])
    [(1, Arrive get_hi, x); (2, Arrive get_boom, x); (3, Arrive get_hi, x)]) = 9.
Proof. exact example_66. Qed.
