(** C97-C104: whole applications.  Handlers, cookie library, world, hash orders and application are
    arbitrary; [fits]: at most 2^64-1 registrations. *)
From Coq Require Import Permutation.
From Verif.Model Require Import RustStd Path Request Time Status Response Router Server Config Listen Cost.
From Verif.Spec Require Import Common PathSpec RoutingSpec TextSpec RequestSpec ResponseSpec ServerSpec AppSpec.
From Verif.Proofs Require Import AppWitness.

(** C97.  What a connection gets depends only on the registrations that apply to its request: two
    applications that agree on them, in order, are served alike (same answer, same change of state). *)
Theorem C97_only_applicable_registrations_matter :
  forall ft cl (H ST : Type) (handle : H -> matched_request cl -> ST * response cl -> (ST * response cl) * outcome flow)
    o o' app app' (rt rt' : router H) w ho pos s t,
  fits app -> fits app' -> build o app = Done rt -> build o' app' = Done rt' -> real_segments t ->
  (forall rl hs cs body, carries ft cl (stream_of t) rl hs cs body ->
     same_selection (url_variables ft) (rl_method rl) (rl_path rl) app app') ->
  serve ft cl handle w ho pos rt s t = serve ft cl handle w ho pos rt' s t.
Proof. exact @serve_selection. Qed.
Print Assumptions C97_only_applicable_registrations_matter.
(** So adding (or removing) a registration changes nothing for requests it does not apply to, *)
Theorem C97_unrelated_registration :
  forall ft cl (H ST : Type) (handle : H -> matched_request cl -> ST * response cl -> (ST * response cl) * outcome flow)
    o o' l1 c l2 (rt rt' : router H) w ho pos s t,
  fits (l1 ++ inline c :: l2) -> build o (l1 ++ inline c :: l2) = Done rt -> build o' (l1 ++ l2) = Done rt' ->
  real_segments t ->
  (forall rl hs cs body, carries ft cl (stream_of t) rl hs cs body ->
     ~ applies (url_variables ft) (rl_method rl) (rl_path rl) c) ->
  serve ft cl handle w ho pos rt s t = serve ft cl handle w ho pos rt' s t.
Proof. exact @unrelated_added. Qed.
Print Assumptions C97_unrelated_registration.
(** and two neighbouring registrations may be swapped unless both apply. *)
Theorem C97_swapped_registrations :
  forall ft cl (H ST : Type) (handle : H -> matched_request cl -> ST * response cl -> (ST * response cl) * outcome flow)
    o o' l1 c d l2 (rt rt' : router H) w ho pos s t,
  fits (l1 ++ inline c :: inline d :: l2) -> build o (l1 ++ inline c :: inline d :: l2) = Done rt ->
  build o' (l1 ++ inline d :: inline c :: l2) = Done rt' -> real_segments t ->
  (forall rl hs cs body, carries ft cl (stream_of t) rl hs cs body ->
     ~ (applies (url_variables ft) (rl_method rl) (rl_path rl) c /\ applies (url_variables ft) (rl_method rl) (rl_path rl) d)) ->
  serve ft cl handle w ho pos rt s t = serve ft cl handle w ho pos rt' s t.
Proof. exact @unrelated_swapped. Qed.
Print Assumptions C97_swapped_registrations.
Example C97_example :
  build reverse_order more_app = Done more_router /\ fits more_app /\ ex_app = [OAdd 0] ++ tl ex_app /\
  (forall rl hs cs body, carries default_features demo_lib (stream_of t_hi) rl hs cs body ->
     ~ applies true (rl_method rl) (rl_path rl) extra) /\
  serve default_features demo_lib ex_handle ex_world insertion_order [] more_router 7 t_hi =
    (8, IoDone (answer_head (B "200 OK") (B "2") ++ B "hi")) /\
  ex_serve get_hi Stall = (8, IoDone (answer_head (B "200 OK") (B "2") ++ B "hi")).
Proof. exact example_97. Qed.

(** C98.  The random order of hash maps (while mounting routers and while writing headers) shows at most
    in the order of the header lines. *)
Theorem C98_hash_order :
  forall ft cl (H ST : Type) (handle : H -> matched_request cl -> ST * response cl -> (ST * response cl) * outcome flow)
    o o' app (rt rt' : router H) w ho ho' pos pos' s t,
  fits app -> build o app = Done rt -> build o' app = Done rt' ->
  fst (serve ft cl handle w ho pos rt s t) = fst (serve ft cl handle w ho' pos' rt' s t) /\
  same_but_order (snd (serve ft cl handle w ho pos rt s t)) (snd (serve ft cl handle w ho' pos' rt' s t)).
Proof. exact @serve_order. Qed.
Print Assumptions C98_hash_order.
(** Unless handlers put line breaks into headers or status, a client reads the same version, status, body
    and headers, the headers perhaps in another order. *)
Theorem C98_clients_read_the_same :
  forall ft cl (H ST : Type) (handle : H -> matched_request cl -> ST * response cl -> (ST * response cl) * outcome flow)
    o o' app (rt rt' : router H) w ho ho' pos pos' s t out ver num reason hs body,
  fits app -> build o app = Done rt -> build o' app = Done rt' ->
  (forall h mr s r, writable w r -> writable w (snd (fst (handle h mr (s, r))))) ->
  snd (serve ft cl handle w ho pos rt s t) = IoDone out -> wire_reads out ver num reason hs body ->
  exists out' hs', snd (serve ft cl handle w ho' pos' rt' s t) = IoDone out' /\ Permutation hs hs' /\
    wire_reads out' ver num reason hs' body.
Proof. exact @clients_read. Qed.
Print Assumptions C98_clients_read_the_same.
(** The same for any number of interleaved connections. *)
Theorem C98_hash_order_server :
  forall ft cl (H ST : Type) (handle : H -> matched_request cl -> ST * response cl -> (ST * response cl) * outcome flow)
    o o' app (rt rt' : router H) s evs evs' i,
  fits app -> build o app = Done rt -> build o' app = Done rt' -> Forall2 same_event evs evs' ->
  shared (server_run ft cl handle rt (ServerState s []) evs) = shared (server_run ft cl handle rt' (ServerState s []) evs') /\
  conn_same_but_order (conn_get i (conns (server_run ft cl handle rt (ServerState s []) evs)))
                      (conn_get i (conns (server_run ft cl handle rt' (ServerState s []) evs'))).
Proof. exact @server_order. Qed.
Print Assumptions C98_hash_order_server.
Example C98_example :
  serve default_features demo_lib ex_handle ex_world insertion_order [] ex_router 7 t_hi =
    (8, IoDone (B "HTTP/1.1 200 OK" ++ CRLF ++ B "Content-Length: 2" ++ CRLF ++ B "Date: Fri, 01 Jan 2021 00:00:00 GMT" ++ CRLF ++
                B "Content-Type: text/html" ++ CRLFCRLF ++ B "hi")) /\
  serve default_features demo_lib ex_handle ex_world reverse_order [] ex_router 7 t_hi =
    (8, IoDone (B "HTTP/1.1 200 OK" ++ CRLF ++ B "Content-Type: text/html" ++ CRLF ++ B "Date: Fri, 01 Jan 2021 00:00:00 GMT" ++ CRLF ++
                B "Content-Length: 2" ++ CRLFCRLF ++ B "hi")) /\
  (forall h mr s r, writable ex_world r -> writable ex_world (snd (fst (ex_handle h mr (s, r))))).
Proof. exact example_98. Qed.

(** C99.  Handlers only ever see safe variables: handlers that differ on other requests cannot be told
    apart. *)
Theorem C99_variables_are_safe_segments :
  forall ft cl (H ST : Type) (handle handle' : H -> matched_request cl -> ST * response cl -> (ST * response cl) * outcome flow)
    o app (rt : router H) w ho pos s t,
  fits app -> build o app = Done rt -> real_segments t ->
  (forall h mr x, safe_variables mr -> handle h mr x = handle' h mr x) ->
  serve ft cl handle w ho pos rt s t = serve ft cl handle' w ho pos rt s t.
Proof. exact @variables_safe. Qed.
Print Assumptions C99_variables_are_safe_segments.
(** A path made from a directory and such a variable names an entry of that directory. *)
Theorem C99_joined_path_stays_below : forall base segs val,
  path_parse base = Some segs -> normal val -> no_slash val ->
  path_parse (base ++ B "/" ++ val) = Some (segs ++ [val]).
Proof. exact variable_below. Qed.
Print Assumptions C99_joined_path_stays_below.
Example C99_example :
  (forall h mr x, safe_variables mr -> name_handle h mr x = guarded h mr x) /\
  name_serve (B "/f/a.txt") = (7, IoDone (answer_head (B "200 OK") (B "12") ++ B "static/a.txt")) /\
  name_serve (B "/f/x/../..a") = (7, IoDone (answer_head (B "200 OK") (B "10") ++ B "static/..a")) /\
  name_serve (B "/f/..") = (7, IoDone (answer_head (B "404 NOT FOUND") (B "189") ++ NOT_FOUND)) /\
  path_parse (B "static/..a") = Some [B "static"; B "..a"].
Proof. exact example_99. Qed.

(** C100 is false: keep-alive duration and number of worker threads have no influence on the started
    server (nor, the configuration not being used later, on anything it does). *)
Theorem C100_refuted :
  forall (ST : Type) tl f c c' os_tls os port (s0 : ST), cf_ssl c = cf_ssl c' ->
  sys_start tl f c os_tls os port s0 = sys_start tl f c' os_tls os port s0 /\
  tls_start tl f c os_tls = tls_start tl f c' os_tls.
Proof. exact @only_ssl_matters. Qed.
Print Assumptions C100_refuted.
Example C100_example :
  let c' := config_worker_threads 8 (config_set_keepalive (secs 60) config_new) in
  cf_ssl c' = cf_ssl config_new /\ cf_keep_alive c' = Some 60000000000%N /\ cf_worker_threads c' = Some 8%N /\
  cf_keep_alive config_new = Some 5000000000%N /\ cf_worker_threads config_new = None.
Proof. repeat split. Qed.

(** C101 is false: the page of a 400 says "404 NOT FOUND", *)
Theorem C101_refuted :
  forall ft cl (H ST : Type) handle (rt : router H) w ho pos (s : ST) t,
  clock w <> None -> real_segments t -> stream_bad (stream_of t) (fin t) ->
  exists out hs page, serve ft cl handle w ho pos rt s t = (s, IoDone out) /\
    wire_reads out (B "1.1") (B "400") (B "BAD REQUEST") hs page /\
    occurs (B "404 NOT FOUND") page /\ ~ occurs (B "400") page.
Proof. exact @page_of_bad. Qed.
Print Assumptions C101_refuted.
(** and so does that of a 501. *)
Theorem C101_not_implemented_refuted :
  forall ft cl (H ST : Type) handle (rt : router H) w ho pos (s : ST) t rl hs cs body,
  clock w <> None -> real_segments t ->
  carries ft cl (stream_of t) rl hs cs body -> ~ lacks_host rl hs -> rl_method rl = MNone ->
  exists out hs page, serve ft cl handle w ho pos rt s t = (s, IoDone out) /\
    wire_reads out (B "1.1") (B "501") (B "NOT IMPLEMENTED") hs page /\
    occurs (B "404 NOT FOUND") page /\ ~ occurs (B "501") page.
Proof. exact @page_of_501. Qed.
Print Assumptions C101_not_implemented_refuted.
Example C101_example :
  ex_serve (B "GET /hi HTTP/1.1") Eof = (7, IoDone (answer_head (B "400 BAD REQUEST") (B "189") ++ NOT_FOUND)) /\
  ex_serve (B "BREW / HTTP/1.1" ++ CRLF ++ B "Host: x" ++ CRLFCRLF) Eof =
    (7, IoDone (answer_head (B "501 NOT IMPLEMENTED") (B "189") ++ NOT_FOUND)).
Proof. split; vm_compute; reflexivity. Qed.

(** C102 is false: an application whose handlers set status, headers and cookies but no body is answered
    like an application without handlers. *)
Theorem C102_refuted :
  forall ft cl (H ST : Type) (handle : H -> matched_request cl -> ST * response cl -> (ST * response cl) * outcome flow)
    o o0 app (rt rt0 : router H) w ho pos s t,
  fits app -> build o app = Done rt -> build o0 [] = Done rt0 ->
  (forall h mr s r, rs_body r = BodyNone ->
     rs_body (snd (fst (handle h mr (s, r)))) = BodyNone /\ snd (handle h mr (s, r)) <> Panic) ->
  snd (serve ft cl handle w ho pos rt s t) = snd (serve ft cl handle w ho pos rt0 s t).
Proof. exact @bodiless_discarded. Qed.
Print Assumptions C102_refuted.
Example C102_example :
  serve default_features demo_lib see_other ex_world insertion_order [] ex_router 7 t_hi =
    (8, IoDone (answer_head (B "404 NOT FOUND") (B "189") ++ NOT_FOUND)) /\
  serve default_features demo_lib see_other ex_world insertion_order [] router_new 7 t_hi =
    (7, IoDone (answer_head (B "404 NOT FOUND") (B "189") ++ NOT_FOUND)) /\
  (forall h mr s r, rs_body r = BodyNone ->
     rs_body (snd (fst (see_other h mr (s, r)))) = BodyNone /\ snd (see_other h mr (s, r)) <> Panic).
Proof. exact example_102. Qed.

(** C103 is false: whatever the headers say (Expect: 100-continue included), nothing is written while
    announced body bytes are missing. *)
Theorem C103_refuted :
  forall ft cl (H ST : Type) handle (rt : router H) w ho pos (s : ST) t a b rlt hst rl hs,
  real_segments t -> fin t = Stall ->
  head_at (stream_of t) a b -> utf8_valid a = true -> head_parts a rlt hst ->
  line_means (faithful ft) rlt rl -> header_block (faithful ft) hst hs ->
  (N.of_nat (length b) < announced hs <= ISIZE_MAX)%N ->
  serve ft cl handle w ho pos rt s t = (s, IoBlocked).
Proof. exact @silent_wait. Qed.
Print Assumptions C103_refuted.
Example C103_example : ex_serve expecting Stall = (7, IoBlocked) /\
  ex_serve (expecting ++ B "abc") Stall = (7, IoDone (answer_head (B "200 OK") (B "3") ++ B "abc")).
Proof. exact example_103. Qed.

(** C104 is false: no linear function of the bytes received bounds the comparisons made while a head is
    read (all data are searched again after every read); *)
Theorem C104_refuted : forall a b,
  exists t, real_segments t /\ a * length (stream_of t) + b < snd (read_head_counted t).
Proof. exact not_linear. Qed.
Print Assumptions C104_refuted.
(** a quadratic one does, for every stream and segmentation. *)
Theorem C104_quadratic_partial : forall t,
  snd (read_head_counted t) <= 4 * length (stream_of t) * length (stream_of t).
Proof. exact quadratic_bound. Qed.
Print Assumptions C104_quadratic_partial.
(** Each read searches all data again: a head that comes in one read of 512 bytes takes linear work. *)
Theorem C104_reads_partial : forall t,
  snd (read_head_counted t) <= 4 * (list_sum (map (fun s => (length s + 511) / 512) (segs t)) * length (stream_of t)).
Proof. exact reads_bound. Qed.
Print Assumptions C104_reads_partial.
(** The counting functions compute what the reader of the other theorems computes. *)
Theorem C104_counts_the_reader : forall t, fst (read_head_counted t) = read_head t.
Proof. exact read_head_counted_fst. Qed.
Print Assumptions C104_counts_the_reader.
Example C104_example :
  snd (read_head_counted (Transport (map (fun b => [b]) get_hi) Stall)) = 374 /\
  snd (read_head_counted (Transport [get_hi] Stall)) = 31 /\ length get_hi = 29 /\ (length get_hi + 511) / 512 = 1.
Proof. repeat split; vm_compute; reflexivity. Qed.
