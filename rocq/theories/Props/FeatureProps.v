(** C142: features that an application does not use make no difference.  Handlers, cookie library, world, hash
    orders and applications are arbitrary; [fits]: at most 2^64-1 registrations. *)
From Verif.Model Require Import RustStd Path Request Time Status Response Router Server Tasks Config Listen Whole.
From Verif.Spec Require Import Common PathSpec RoutingSpec TextSpec RequestSpec ResponseSpec ServerSpec AppSpec SwapSpec FeatureSpec.
From Verif.Proofs Require Import FeatureProgram FeatureWitness.

(** C142.  Built with other features, no stricter ones, the program answers a request in the same way if the
    handlers use only what both builds have, no pattern has a variable unless both builds know variables, and the
    request has no Cookie header unless both builds look at it. *)
Theorem C142_same_answer :
  forall ft ft' cl (H ST : Type) (handle : H -> matched_request cl -> ST * response cl -> (ST * response cl) * outcome flow),
  looks_up handle -> uses_only_common ft ft' handle ->
  forall o app (rt : router H) w ho pos s t rl hs cs body,
  fits app -> build o app = Done rt -> common_routes ft ft' app -> no_stricter ft ft' -> common_request ft ft' hs ->
  real_segments t -> carries ft cl (stream_of t) rl hs cs body ->
  serve ft cl handle w ho pos rt s t = serve ft' cl handle w ho pos rt s t.
Proof. exact @features_served. Qed.
Print Assumptions C142_same_answer.
(** If the builds are equally strict and both look at cookies or neither does, this holds of every connection,
    also of one that carries no request. *)
Theorem C142_any_connection :
  forall ft ft' cl (H ST : Type) (handle : H -> matched_request cl -> ST * response cl -> (ST * response cl) * outcome flow),
  looks_up handle -> uses_only_common ft ft' handle ->
  forall o app (rt : router H) w ho pos s t,
  fits app -> build o app = Done rt -> common_routes ft ft' app -> faithful ft = faithful ft' -> cookies_on ft = cookies_on ft' ->
  real_segments t ->
  serve ft cl handle w ho pos rt s t = serve ft' cl handle w ho pos rt s t.
Proof. exact @features_any. Qed.
Print Assumptions C142_any_connection.
(** Then all executions of the whole programs look alike: the same state, the same connections, the same bytes. *)
Theorem C142_programs :
  forall ft ft' cl (H ST : Type) (handle : H -> matched_request cl -> ST * response cl -> (ST * response cl) * outcome flow),
  looks_up handle -> uses_only_common ft ft' handle ->
  forall o app (rt : router H), fits app -> build o app = Done rt -> common_routes ft ft' app ->
  faithful ft = faithful ft' -> cookies_on ft = cookies_on ft' ->
  forall tl f c os_tls os port s evs, (forall i x, ~ In (PrTask i (TInput (Arrive [])) x) evs) ->
  programs_alike (prog_run ft cl handle rt (prog_start cl tl f c os_tls os port s) evs)
                 (prog_run ft' cl handle rt (prog_start cl tl f c os_tls os port s) evs).
Proof. exact @features_programs. Qed.
Print Assumptions C142_programs.
(** A stricter build may refuse more, but understands nothing in another way: what it accepts, a laxer one
    takes to be the same request. *)
Theorem C142_laxer_accepts :
  forall ft ft' cl s rl hs cs body,
  no_stricter ft ft' -> common_request ft ft' hs -> carries ft cl s rl hs cs body ->
  exists cs', carries ft' cl s rl hs cs' body /\ (cookies_on ft = cookies_on ft' -> cs' = cs).
Proof. exact laxer_carries. Qed.
Print Assumptions C142_laxer_accepts.
Example C142_example :
  fits plain_app /\ build insertion_order plain_app = Done plain_router /\ common_routes default_features bare plain_app /\
  no_stricter default_features bare /\ looks_up ex_handle /\ uses_only_common default_features bare ex_handle /\ real_segments echo_abc /\
  (exists rl hs cs body, carries default_features demo_lib (stream_of echo_abc) rl hs cs body /\ common_request default_features bare hs) /\
  serve bare demo_lib ex_handle ex_world insertion_order [] plain_router 7 echo_abc = (7, IoDone (answer_head (B "200 OK") (B "3") ++ B "abc")).
Proof. exact example_142. Qed.
(** The conditions are needed: a Cookie header that is no cookie, a header name with a blank, a pattern with a variable. *)
Example C142_needed :
  (served default_features bad_cookie = (7, IoPanic) /\ served only_vars bad_cookie = (8, IoDone (answer_head (B "200 OK") (B "2") ++ B "hi"))) /\
  (served default_features odd_header = (7, IoPanic) /\ served lax odd_header = (8, IoDone (answer_head (B "200 OK") (B "2") ++ B "hi"))) /\
  (served default_features echo_var = (7, IoDone (answer_head (B "200 OK") (B "3") ++ B "abc")) /\
   exists rest, served only_cookies echo_var = (7, IoDone (B "HTTP/1.1 404 " ++ rest))).
Proof. exact needed_142. Qed.
Example C142_programs_example :
  common_routes default_features fewer plain_app /\ faithful default_features = faithful fewer /\ cookies_on default_features = cookies_on fewer /\
  uses_only_common default_features fewer ex_handle /\ (forall i x, ~ In (PrTask i (TInput (Arrive [])) x) plain_evs) /\
  task_get demo_lib 1 (tasks (pr_tasks (plain_end default_features))) = TClosed (answer_head (B "200 OK") (B "3") ++ B "abc") /\
  task_get demo_lib 1 (tasks (pr_tasks (plain_end fewer))) = TClosed (answer_head (B "200 OK") (B "3") ++ B "abc") /\
  (exists rest, task_get demo_lib 2 (tasks (pr_tasks (plain_end fewer))) = TSending (firstn 20 (answer_head (B "200 OK") (B "2"))) rest).
Proof. exact programs_142. Qed.
