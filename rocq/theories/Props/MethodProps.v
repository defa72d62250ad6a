(** C134-C136: methods a path is not registered for, HEAD, and handlers of mounted routers.  Handlers, cookie
    library, world, hash orders and application are arbitrary; [fits]: at most 2^64-1 registrations. *)
From Verif.Model Require Import RustStd Path Request Time Status Response Router Server.
From Verif.Spec Require Import Common PathSpec RouteSpec RoutingSpec TextSpec RequestSpec ResponseSpec ServerSpec MethodSpec.
From Verif.Proofs Require Import MethodWitness.

(** C134.  The property as stated is false: a path that exists for other methods only is not answered with 405. *)
Theorem C134_refuted :
  ~ (forall ft cl (H ST : Type) (handle : H -> matched_request cl -> ST * response cl -> (ST * response cl) * outcome flow)
       o app (rt : router H) w ho pos s t rl hs cs body m',
     fits app -> build o app = Done rt -> clock w <> None -> real_segments t ->
     carries ft cl (stream_of t) rl hs cs body -> ~ lacks_host rl hs -> rl_method rl <> MNone ->
     nothing_for (url_variables ft) (rl_method rl) (rl_path rl) app -> has_route (url_variables ft) m' (rl_path rl) app ->
     exists out reason hs' page, snd (serve ft cl handle w ho pos rt s t) = IoDone out /\
       wire_reads out (B "1.1") (B "405") reason hs' page).
Proof. exact not_405. Qed.
Print Assumptions C134_refuted.
(** Whatever else is registered, a request nothing applies to is answered with 404, and the state stays as it was. *)
Theorem C134_answered_404 :
  forall ft cl (H ST : Type) (handle : H -> matched_request cl -> ST * response cl -> (ST * response cl) * outcome flow)
    o app (rt : router H) w ho pos s t rl hs cs body,
  fits app -> build o app = Done rt -> clock w <> None -> real_segments t ->
  carries ft cl (stream_of t) rl hs cs body -> ~ lacks_host rl hs -> rl_method rl <> MNone ->
  nothing_for (url_variables ft) (rl_method rl) (rl_path rl) app ->
  exists out, serve ft cl handle w ho pos rt s t = (s, IoDone out) /\ error_answer (B "404") (B "NOT FOUND") out.
Proof. exact @nothing_applies. Qed.
Print Assumptions C134_answered_404.
Example C134_example :
  fits page_app /\ build insertion_order page_app = Done page_router /\ clock ex_world <> None /\ real_segments post_hi /\
  (exists hs cs body, carries default_features demo_lib (stream_of post_hi) (RequestLine MPost [B "hi"] Http11) hs cs body /\
     ~ lacks_host (RequestLine MPost [B "hi"] Http11) hs) /\
  nothing_for true MPost [B "hi"] page_app /\ has_route true MGet [B "hi"] page_app /\
  serve default_features demo_lib ex_handle ex_world insertion_order [] page_router 7 post_hi =
    (7, IoDone (answer_head (B "404 NOT FOUND") (B "189") ++ NOT_FOUND)).
Proof. exact example_134. Qed.

(** C135.  The property as stated is false: where nothing is registered for HEAD, a HEAD request is not answered
    with the status of the GET request, not even by handlers that do not look at the method. *)
Theorem C135_refuted :
  ~ (forall ft cl (H ST : Type) (handle : H -> matched_request cl -> ST * response cl -> (ST * response cl) * outcome flow)
       o app (rt : router H) w ho pos s t t' a a' b p v hs cs out num reason hs1 b1,
     fits app -> build o app = Done rt -> clock w <> None -> real_segments t -> real_segments t' ->
     head_at (stream_of t) a b -> head_at (stream_of t') a' b ->
     head_means ft cl a (RequestLine MGet p v) hs cs -> head_means ft cl a' (RequestLine MHead p v) hs cs ->
     announced hs = N.of_nat (length b) -> (announced hs <= ISIZE_MAX)%N -> ignores_method handle ->
     (forall q h, ~ In (RRoute VHead q h) (flatten app)) ->
     snd (serve ft cl handle w ho pos rt s t) = IoDone out -> wire_reads out (B "1.1") num reason hs1 b1 ->
     exists out' hs2 b2, snd (serve ft cl handle w ho pos rt s t') = IoDone out' /\ wire_reads out' (B "1.1") num reason hs2 b2).
Proof. exact not_like_get. Qed.
Print Assumptions C135_refuted.
(** Two requests that differ in the method only are answered alike, byte for byte, if the same is registered for
    both methods and the handlers do not look at the method. *)
Theorem C135_registered_alike :
  forall ft cl (H ST : Type) (handle : H -> matched_request cl -> ST * response cl -> (ST * response cl) * outcome flow)
    o app (rt : router H) w ho pos s t t' a a' b m m' p v hs cs,
  fits app -> build o app = Done rt -> real_segments t -> real_segments t' ->
  head_at (stream_of t) a b -> head_at (stream_of t') a' b ->
  head_means ft cl a (RequestLine m p v) hs cs -> head_means ft cl a' (RequestLine m' p v) hs cs ->
  announced hs = N.of_nat (length b) -> (announced hs <= ISIZE_MAX)%N ->
  m <> MNone -> m' <> MNone -> ignores_method handle -> alike_for (url_variables ft) m m' p app ->
  serve ft cl handle w ho pos rt s t = serve ft cl handle w ho pos rt s t'.
Proof. exact @only_method_differs. Qed.
Print Assumptions C135_registered_alike.
Example C135_example : exists a a',
  fits both_app /\ build insertion_order both_app = Done both_router /\ real_segments t_hi /\ real_segments t_head_hi /\
  head_at (stream_of t_hi) a [] /\ head_at (stream_of t_head_hi) a' [] /\
  head_means default_features demo_lib a (RequestLine MGet [B "hi"] Http11) [HOST] [] /\
  head_means default_features demo_lib a' (RequestLine MHead [B "hi"] Http11) [HOST] [] /\
  announced [HOST] = 0%N /\ ignores_method ex_handle /\ alike_for true MGet MHead [B "hi"] both_app /\
  serve default_features demo_lib ex_handle ex_world insertion_order [] both_router 7 t_head_hi =
    (8, IoDone (answer_head (B "200 OK") (B "2") ++ B "hi")).
Proof. exact example_135. Qed.

(** C136.  The property as stated is false: mounting a router all of whose routes are below [prefix] changes the
    answers to requests for other paths. *)
Theorem C136_refuted :
  ~ (forall ft cl (H ST : Type) (handle : H -> matched_request cl -> ST * response cl -> (ST * response cl) * outcome flow)
       o o' l1 sub l2 prefix (rt rt' : router H) w ho pos s t,
     fits (l1 ++ OMount sub :: l2) -> build o (l1 ++ OMount sub :: l2) = Done rt -> build o' (l1 ++ l2) = Done rt' ->
     real_segments t -> routes_below (url_variables ft) prefix sub ->
     (forall rl hs cs body, carries ft cl (stream_of t) rl hs cs body -> ~ below prefix (rl_path rl)) ->
     serve ft cl handle w ho pos rt s t = serve ft cl handle w ho pos rt' s t).
Proof. exact not_scoped. Qed.
Print Assumptions C136_refuted.
(** A handler added to a mounted router without a path is in the chain of every request, whatever its path and method. *)
Theorem C136_runs_for_all :
  forall ft (H W : Type) (exec : H -> varmap -> W -> W * outcome flow) o l1 s1 h s2 l2 (rt : router H) m path,
  fits (l1 ++ OMount (s1 ++ RAdd h :: s2) :: l2) -> m <> MAll ->
  build o (l1 ++ OMount (s1 ++ RAdd h :: s2) :: l2) = Done rt ->
  exists pre post, forall w, router_run exec ft rt m path w = run_chain exec (pre ++ (h, []) :: post) w.
Proof. exact @mounted_runs. Qed.
Print Assumptions C136_runs_for_all.
Example C136_example :
  build insertion_order site_app = Done site_router /\ routes_below true [B "vault"] vault_sub /\
  serve default_features demo_lib vault_handle ex_world insertion_order [] site_router 0 t_hi =
    (0, IoDone (answer_head (B "200 OK") (B "2") ++ B "no")) /\
  serve default_features demo_lib vault_handle ex_world insertion_order [] page_router 0 t_hi =
    (1, IoDone (answer_head (B "200 OK") (B "4") ++ B "gold")).
Proof. exact example_136. Qed.
(** A router without such handlers changes nothing elsewhere. *)
Theorem C136_routes_only :
  forall ft cl (H ST : Type) (handle : H -> matched_request cl -> ST * response cl -> (ST * response cl) * outcome flow)
    o o' l1 sub l2 prefix (rt rt' : router H) w ho pos s t,
  fits (l1 ++ OMount sub :: l2) -> build o (l1 ++ OMount sub :: l2) = Done rt -> build o' (l1 ++ l2) = Done rt' ->
  real_segments t -> (forall h, ~ In (RAdd h) sub) -> routes_below (url_variables ft) prefix sub ->
  (forall rl hs cs body, carries ft cl (stream_of t) rl hs cs body -> ~ below prefix (rl_path rl)) ->
  serve ft cl handle w ho pos rt s t = serve ft cl handle w ho pos rt' s t.
Proof. exact @mounted_routes_only. Qed.
Print Assumptions C136_routes_only.
Example C136_routes_example :
  fits scoped_app /\ build insertion_order scoped_app = Done scoped_router /\ (forall h, ~ In (RAdd h) scoped_sub) /\
  routes_below true [B "vault"] scoped_sub /\
  (forall rl hs cs body, carries default_features demo_lib (stream_of t_hi) rl hs cs body -> ~ below [B "vault"] (rl_path rl)) /\
  serve default_features demo_lib vault_handle ex_world insertion_order [] scoped_router 0 t_hi =
    (1, IoDone (answer_head (B "200 OK") (B "4") ++ B "gold")) /\
  serve default_features demo_lib vault_handle ex_world insertion_order [] scoped_router 0 t_vault =
    (0, IoDone (answer_head (B "200 OK") (B "2") ++ B "no")).
Proof. exact example_136_scoped. Qed.
