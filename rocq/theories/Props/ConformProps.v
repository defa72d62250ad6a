(** C36 and C79-C89: what clients and the HTTP standard rely on. *)
From Verif.Proofs Require Import ConformWitness.
From Verif.Spec Require Import Common PathSpec RoutingSpec TextSpec RequestSpec ResponseSpec ServerSpec AppSpec ConformSpec QuerySpec.

(** C36 in general: a query becomes part of the last path segment, *)
Theorem C36_query_in_path_partial :
  forall a p s q, path_parse a = Some p -> no_slash s -> no_slash q ->
  path_parse (a ++ B "/" ++ s ++ B "?" ++ q) = Some (p ++ [s ++ B "?" ++ q]).
Proof. exact query_in_path. Qed.
Print Assumptions C36_query_in_path_partial.
(** so that a route for the path is still taken exactly if its last segment is a variable, and that
    variable gets the query as part of its value. *)
Theorem C36_dispatch_partial :
  forall (H W : Type) (exec : H -> varmap -> W -> W * outcome flow) o ft v t pat (h : H) m p s q r w,
  path_parse t = Some pat -> m <> MAll -> build o [ORoute v t h] = Done r ->
  serves v m -> route_matches (url_variables ft) pat (p ++ [s]) ->
  (exists vars, router_run exec ft r m (p ++ [s]) w = run_chain exec [(h, vars)] w) /\
  (forall pat' name, url_variables ft = true -> pat = pat' ++ [x3a :: name] ->
     exists vars, router_run exec ft r m (p ++ [s ++ B "?" ++ q]) w = run_chain exec [(h, vars)] w /\
       mget seqb name vars = Some (s ++ B "?" ++ q)) /\
  ((url_variables ft = true -> forall pat' name, pat <> pat' ++ [x3a :: name]) ->
     router_run exec ft r m (p ++ [s ++ B "?" ++ q]) w = (w, Done tt)).
Proof. exact @query_dispatch. Qed.
Print Assumptions C36_dispatch_partial.
Example C36_example :
  path_parse (B "/a") = Some [B "a"] /\ path_parse (B "/a/7?x=1") = Some [B "a"; B "7?x=1"] /\
  path_parse (B "/a/:id") = Some [B "a"; B ":id"] /\ serves VGet MGet /\
  route_matches true [B "a"; B ":id"] [B "a"; B "7"] /\ route_matches true [B "a"; B "7"] [B "a"; B "7"] /\
  (exists r, build insertion_order [ORoute VGet (B "/a/:id") 1] = Done r /\
     router_run tr_exec default_features r MGet [B "a"; B "7"] [] = ([(1, [(B "id", B "7")])], Done tt) /\
     router_run tr_exec default_features r MGet [B "a"; B "7?x=1"] [] = ([(1, [(B "id", B "7?x=1")])], Done tt)) /\
  (exists r, build insertion_order [ORoute VGet (B "/a/7") 1] = Done r /\
     router_run tr_exec default_features r MGet [B "a"; B "7"] [] = ([(1, [])], Done tt) /\
     router_run tr_exec default_features r MGet [B "a"; B "7?x=1"] [] = ([], Done tt)).
Proof.
  split; [reflexivity|]. split; [reflexivity|]. split; [reflexivity|]. split; [reflexivity|].
  split; [apply Forall2_cons; [right; reflexivity|apply Forall2_cons; [left; exists (B "id"); reflexivity|apply Forall2_nil]]|].
  split; [apply Forall2_cons; [right; reflexivity|apply Forall2_cons; [right; reflexivity|apply Forall2_nil]]|].
  split; eexists; (split; [|split]; vm_compute; reflexivity).
Qed.

(** C79: chunked bodies.  None of them is received: without a usable length the body is empty. *)
Theorem C79_body_lost :
  forall ft cl t a b rl hs cs content, real_segments t -> head_at (stream_of t) a b -> head_means ft cl a rl hs cs ->
  chunked content b -> content <> [] -> (forall n, ~ usable_length hs n) ->
  exists rq, read_request ft cl t = IoDone (RdRequest rq) /\ request_is ft rq rl hs cs [] /\ rq_body rq <> content.
Proof. exact chunks_lost. Qed.
Print Assumptions C79_body_lost.
Theorem C79_refuted :
  exists t a b rl hs cs data rq, real_segments t /\
  head_at (stream_of t) a b /\ head_means default_features demo_lib a rl hs cs /\
  folded (B "transfer-encoding") hs = Some (B "chunked") /\ chunked data b /\ data = B "hello" /\
  read_request default_features demo_lib t = IoDone (RdRequest rq) /\ rq_body rq = [].
Proof. exact chunked_refuted. Qed.
Print Assumptions C79_refuted.

(** C80: exactly what counts as a length, *)
Theorem C80_announced_length :
  forall hs, (forall n, usable_length hs n -> announced hs = n) /\ ((forall n, ~ usable_length hs n) -> announced hs = 0%N).
Proof. exact announced_exact. Qed.
Print Assumptions C80_announced_length.
(** repeated fields do not, *)
Theorem C80_repeated : forall hs n, repeated (B "content-length") hs -> ~ usable_length hs n.
Proof. exact repeated_unusable. Qed.
Print Assumptions C80_repeated.
(** and every request without a usable length (chunked, malformed, contradictory) is accepted as one
    with an empty body. *)
Theorem C80_empty_body_partial :
  forall ft cl t a b rl hs cs, real_segments t -> head_at (stream_of t) a b -> head_means ft cl a rl hs cs ->
  (forall n, ~ usable_length hs n) -> exists rq, read_request ft cl t = IoDone (RdRequest rq) /\ request_is ft rq rl hs cs [].
Proof. exact @unusable_length. Qed.
Print Assumptions C80_empty_body_partial.
Theorem C80_refuted :
  exists t a b rl hs cs rq, real_segments t /\
  head_at (stream_of t) a b /\ head_means default_features demo_lib a rl hs cs /\
  hs = [HOST; LEN (B "3"); LEN (B "30")] /\ repeated (B "content-length") hs /\ (forall n, ~ usable_length hs n) /\
  read_request default_features demo_lib t = IoDone (RdRequest rq) /\ rq_body rq = [] /\
  snd (serve default_features demo_lib ex_handle ex_world insertion_order [] ex_router 7 t) =
    IoDone (answer_head (B "200 OK") (B "0")).
Proof. exact lengths_refuted. Qed.
Print Assumptions C80_refuted.
Example C80_example : usable_length [HOST; LEN (B "+17")] 17 /\ announced [HOST; LEN (B "+17")] = 17%N /\
  announced [HOST; LEN (B "17 ")] = 0%N /\ announced [LEN (B "18446744073709551616")] = 0%N.
Proof. exact usable_example. Qed.

(** C81: nothing that follows a request without body has any effect. *)
Theorem C81_rest_ignored :
  forall ft cl (H ST : Type) handle (rt : router H) w ho pos (s : ST) t t' a b b', real_segments t -> real_segments t' ->
  head_at (stream_of t) a b -> head_at (stream_of t') a b' -> bodyless ft a ->
  serve ft cl handle w ho pos rt s t = serve ft cl handle w ho pos rt s t'.
Proof. exact @trailing_ignored. Qed.
Print Assumptions C81_rest_ignored.
Theorem C81_refuted :
  (exists a, head_at get_hi a [] /\ head_at (get_hi ++ get_hi) a get_hi /\ bodyless default_features a) /\
  ex_serve (get_hi ++ get_hi) Stall = ex_serve get_hi Stall /\
  ex_serve get_hi Stall = (8, IoDone (answer_head (B "200 OK") (B "2") ++ B "hi")).
Proof. exact pipelined_refuted. Qed.
Print Assumptions C81_refuted.

(** C82: segmentation has no influence on the answer unless more bytes have come than announced. *)
Theorem C82_segmentation_partial :
  forall ft cl (H ST : Type) handle (rt : router H) w ho pos (s : ST) t t', real_segments t -> real_segments t' ->
  stream_of t = stream_of t' -> fin t = fin t' ->
  ~ surplus ft (stream_of t) -> ~ borderline ft (stream_of t) (fin t) ->
  serve ft cl handle w ho pos rt s t = serve ft cl handle w ho pos rt s t'.
Proof. exact @segmentation_served. Qed.
Print Assumptions C82_segmentation_partial.
Theorem C82_refuted :
  let t := Transport [post_abc (B "2")] Stall in let t' := Transport (map (fun b => [b]) (post_abc (B "2"))) Stall in
  real_segments t /\ real_segments t' /\ stream_of t = stream_of t' /\
  serve default_features demo_lib ex_handle ex_world insertion_order [] ex_router 7 t =
    (7, IoDone (answer_head (B "200 OK") (B "3") ++ B "abc")) /\
  serve default_features demo_lib ex_handle ex_world insertion_order [] ex_router 7 t' =
    (7, IoDone (answer_head (B "200 OK") (B "2") ++ B "ab")).
Proof. exact segmentation_refuted. Qed.
Print Assumptions C82_refuted.
Example C82_example :
  let t := Transport [post_abc (B "3")] Stall in let t' := Transport (map (fun b => [b]) (post_abc (B "3"))) Stall in
  real_segments t /\ real_segments t' /\ stream_of t = stream_of t' /\
  ~ surplus default_features (stream_of t) /\ ~ borderline default_features (stream_of t) Stall /\
  serve default_features demo_lib ex_handle ex_world insertion_order [] ex_router 7 t' =
    (7, IoDone (answer_head (B "200 OK") (B "3") ++ B "abc")).
Proof. exact segmentation_example. Qed.

(** C83: the answer depends on what the request means, not on how it is spelt. *)
Theorem C83_same_meaning :
  forall ft cl (H ST : Type) (handle : H -> matched_request cl -> ST * response cl -> _) t t' a a' b rl hs hs' cs cs',
  real_segments t -> real_segments t' ->
  head_at (stream_of t) a b -> head_at (stream_of t') a' b ->
  head_means ft cl a rl hs cs -> head_means ft cl a' rl hs' cs' -> Forall2 same_field hs hs' ->
  announced hs = N.of_nat (length b) -> (announced hs <= ISIZE_MAX)%N ->
  (exists m raw raw', read_request ft cl t = IoDone (RdRequest (Request rl (Headers m raw) b cs)) /\
     read_request ft cl t' = IoDone (RdRequest (Request rl (Headers m raw') b cs))) /\
  (raw_headers_on ft = false \/ hs = hs' -> forall rt w ho pos s,
     serve ft cl handle w ho pos rt s t = serve ft cl handle w ho pos rt s t').
Proof. exact @same_meaning. Qed.
Print Assumptions C83_same_meaning.
Example C83_example :
  exists a a' a'' rl,
  head_at (req (B "POST") (B "/echo/7") [HOST; LEN (B "3")] (B "abc")) a (B "abc") /\
  head_at (req (B "POST") (B "//echo/./y/../7/") [HOST; LEN (B "3")] (B "abc")) a' (B "abc") /\
  head_at (req (B "POST") (B "/echo/7") [lower_host; LEN (B "3")] (B "abc")) a'' (B "abc") /\
  head_means default_features demo_lib a rl [HOST; LEN (B "3")] [] /\
  head_means default_features demo_lib a' rl [HOST; LEN (B "3")] [] /\
  head_means default_features demo_lib a'' rl [lower_host; LEN (B "3")] [] /\
  Forall2 same_field [HOST; LEN (B "3")] [lower_host; LEN (B "3")] /\ announced [HOST; LEN (B "3")] = 3%N.
Proof. exact spelling_example. Qed.

(** C84: a target in absolute form is routed as if scheme and host were path segments. *)
Theorem C84_absolute_form :
  forall host a p, normal host -> no_slash host -> path_parse a = Some p ->
  path_parse (B "http://" ++ host ++ B "/" ++ a) = Some ([B "http:"; host] ++ p).
Proof. exact absolute_form. Qed.
Print Assumptions C84_absolute_form.
Theorem C84_refuted :
  path_means (B "http://x/hi") [B "http:"; B "x"; B "hi"] /\
  snd (ex_serve (req (B "GET") (B "http://x/hi") [HOST] []) Eof) = IoDone (answer_head (B "404 NOT FOUND") (B "189") ++ NOT_FOUND) /\
  snd (ex_serve (req (B "GET") (B "/hi") [HOST] []) Eof) = IoDone (answer_head (B "200 OK") (B "2") ++ B "hi").
Proof. exact absolute_refuted. Qed.
Print Assumptions C84_refuted.

(** C85: the segments of the path are segments of the target as it was sent. *)
Theorem C85_verbatim_partial :
  forall target segs path, segments_of segs target -> path_parse target = Some path -> incl path segs.
Proof. exact verbatim. Qed.
Print Assumptions C85_verbatim_partial.
Theorem C85_refuted :
  escapes (map bN (B "/hi")) (map bN (B "/%68i")) /\ path_means (B "/%68i") [B "%68i"] /\
  snd (ex_serve (req (B "GET") (B "/%68i") [HOST] []) Eof) = IoDone (answer_head (B "404 NOT FOUND") (B "189") ++ NOT_FOUND) /\
  snd (ex_serve (req (B "GET") (B "/hi") [HOST] []) Eof) = IoDone (answer_head (B "200 OK") (B "2") ++ B "hi").
Proof. exact percent_refuted. Qed.
Print Assumptions C85_refuted.

(** C86: no status keeps the body from being sent. *)
Theorem C86_body_always_sent :
  forall cl ft w ho pos c (r : response cl) b, given_body (rs_body r) b ->
  exists head, octane_send (get_data ft w ho pos (set_status c r)) = head ++ b.
Proof. exact @status_keeps_body. Qed.
Print Assumptions C86_body_always_sent.
Theorem C86_refuted :
  exists r hs, run [OpSend (B "hi"); OpStatus StNoContent] = Done r /\ never_body (rs_status r) /\
  wire_reads (wire_of (Done r)) (B "1.1") (B "204") (B "NO CONTENT") hs (B "hi").
Proof. exact no_content_refuted. Qed.
Print Assumptions C86_refuted.

(** C87: header names are unique up to case if the application spells each name in one way, and the
    names of the automatic headers as the framework does. *)
Theorem C87_names_unique_partial :
  forall cl (l : list (world * rop cl)) r', apply_ops l new_empty = Done r' -> one_spelling (own_names ++ set_names l) ->
  ForallOrdPairs (fun k k' => ~ same_fold k k') (map fst (rs_headers r')).
Proof. exact @names_unique_fold. Qed.
Print Assumptions C87_names_unique_partial.
Theorem C87_refuted :
  exists r hs, run [OpSet (B "content-type") (B "application/json"); OpSend (B "{}")] = Done r /\
  wire_reads (wire_of (Done r)) (B "1.1") (B "200") (B "OK") hs (B "{}") /\
  In (B "content-type", B "application/json") hs /\ In (B "Content-Type", B "text/html") hs.
Proof. exact two_types_refuted. Qed.
Print Assumptions C87_refuted.
Example C87_example :
  let l := map (fun o => (ex_world, o)) [OpSet (B "X-A") (B "1"); OpSet (B "Content-Type") (B "a/b"); OpSend (B "{}") : rop ex_cl] in
  one_spelling (own_names ++ set_names l) /\
  match apply_ops l new_empty with
  | Done r => map fst (rs_headers r) = [B "X-A"; B "Content-Type"; B "Content-Length"; B "Date"]
  | Panic => False
  end.
Proof. exact names_example. Qed.

(** C88: the option is never set before the address is bound. *)
Theorem C88_refuted :
  forall tls os port, ~ precedes EvReuseAddr (EvBound port) (fst (octane_listen tls os port)).
Proof. exact reuse_too_late. Qed.
Print Assumptions C88_refuted.
Example C88_example : forall os, os = OsResults true true true true true true ->
  In EvReuseAddr (fst (octane_listen false os 80)) /\ In (EvBound 80) (fst (octane_listen false os 80)).
Proof. intros os ->. split; cbn; tauto. Qed.

(** C89: no response says that the connection will be closed unless the application sets the header. *)
Theorem C89_not_announced :
  forall cl (l : list (world * rop cl)) r', apply_ops l new_empty = Done r' ->
  (forall wo v, In wo l -> snd wo <> OpSet (B "Connection") v) -> res_get (B "Connection") r' = None.
Proof. exact @connection_header. Qed.
Print Assumptions C89_not_announced.
(** So whatever an application does that never sets it, no client reads a Connection header, *)
Theorem C89_no_answer_says_so :
  forall ft cl (H ST : Type) (handle : H -> matched_request cl -> ST * response cl -> (ST * response cl) * outcome flow)
    o app (rt : router H) w ho pos s t out ver num reason hs body,
  fits app -> build o app = Done rt ->
  (forall h mr s r, quiet ft w r -> quiet ft w (snd (fst (handle h mr (s, r))))) ->
  snd (serve ft cl handle w ho pos rt s t) = IoDone out -> wire_reads out ver num reason hs body ->
  forall k v, In (k, v) hs -> ~ same_fold k (B "Connection").
Proof. exact @never_announced. Qed.
Print Assumptions C89_no_answer_says_so.
(** for example in this answer. *)
Theorem C89_refuted :
  exists hs, wire_reads (wire_of (run [OpSend (B "hi")])) (B "1.1") (B "200") (B "OK") hs (B "hi") /\
  forall v, ~ In (B "Connection", v) hs.
Proof. exact connection_refuted. Qed.
Print Assumptions C89_refuted.
Example C89_example :
  (forall h mr s r, quiet default_features ex_world r -> quiet default_features ex_world (snd (fst (ex_handle h mr (s, r))))) /\
  fits ex_app /\ build insertion_order ex_app = Done ex_router /\
  snd (ex_serve get_hi Stall) = IoDone (answer_head (B "200 OK") (B "2") ++ B "hi").
Proof. exact quiet_example. Qed.
