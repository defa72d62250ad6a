(** C123, C124: what handlers that only watch change, and what error answers depend on.  Handlers,
    cookie library, world, hash orders and application are arbitrary; [fits]: at most 2^64-1 registrations. *)
From Verif.Model Require Import RustStd Path Request Time Status Response Router Server.
From Verif.Spec Require Import Common PathSpec RoutingSpec TextSpec RequestSpec ResponseSpec ServerSpec TaskSpec AppSpec.
From Verif.Proofs Require Import WatchWitness.

(** C123.  [E] relates states no handler can tell apart.  Handlers that keep the response, go on and change
    the state only within [E] (logging, counting) may be registered anywhere, any number of times: every
    connection gets the same bytes, and the rest of the state develops alike. *)
Theorem C123_watching_handlers_change_nothing :
  forall ft cl (H ST : Type) (handle : H -> matched_request cl -> ST * response cl -> (ST * response cl) * outcome flow)
    (E : ST -> ST -> Prop), indifferent handle E ->
  forall o o' app app' (rt rt' : router H) w ho pos s s' t,
  fits app -> fits app' -> build o app = Done rt -> build o' app' = Done rt' -> real_segments t ->
  unwatched handle E (flatten app) (flatten app') -> E s s' ->
  snd (serve ft cl handle w ho pos rt s t) = snd (serve ft cl handle w ho pos rt' s' t) /\
  E (fst (serve ft cl handle w ho pos rt s t)) (fst (serve ft cl handle w ho pos rt' s' t)).
Proof. exact @watched. Qed.
Print Assumptions C123_watching_handlers_change_nothing.
Example C123_example :
  indifferent log_handle same_count /\ unwatched log_handle same_count (flatten log_app) (flatten plain_app) /\
  build reverse_order log_app = Done log_router /\ build insertion_order plain_app = Done plain_router /\
  serve default_features demo_lib log_handle ex_world insertion_order [] log_router ([], 3) t_hi =
    (([[B "hi"]; [B "hi"]], 4), IoDone (answer_head (B "200 OK") (B "3") ++ B "aaa")) /\
  serve default_features demo_lib log_handle ex_world insertion_order [] plain_router ([], 3) t_hi =
    (([], 4), IoDone (answer_head (B "200 OK") (B "3") ++ B "aaa")).
Proof. exact example_123. Qed.

(** C124.  Any two requests refused with the same status get the same bytes, whatever they contain and
    whatever the applications, handlers and states; *)
Theorem C124_refused_alike :
  forall ft cl (H ST H' ST' : Type)
    (handle : H -> matched_request cl -> ST * response cl -> (ST * response cl) * outcome flow)
    (handle' : H' -> matched_request cl -> ST' * response cl -> (ST' * response cl) * outcome flow)
    w ho pos rt rt' s s' t t' num reason, real_segments t -> real_segments t' ->
  refused ft cl (stream_of t) (fin t) num reason -> refused ft cl (stream_of t') (fin t') num reason ->
  snd (serve ft cl handle w ho pos rt s t) = snd (serve ft cl handle' w ho pos rt' s' t').
Proof. exact @refused_alike. Qed.
Print Assumptions C124_refused_alike.
Example C124_example :
  refused default_features demo_lib (stream_of half_line) (fin half_line) (B "400") (B "BAD REQUEST") /\
  refused default_features demo_lib (stream_of hostless) (fin hostless) (B "400") (B "BAD REQUEST") /\
  exists page,
    snd (serve default_features demo_lib ex_handle ex_world insertion_order [] ex_router 7 half_line) =
      IoDone (answer_head (B "400 BAD REQUEST") (B "189") ++ page) /\
    snd (serve default_features demo_lib log_handle ex_world insertion_order [] log_router ([], 3) hostless) =
      IoDone (answer_head (B "400 BAD REQUEST") (B "189") ++ page).
Proof. exact example_124. Qed.
(** and so do any two requests for which the handlers make no body: neither the path asked for, nor what
    the handlers set otherwise, shows in the answer. *)
Theorem C124_not_found_alike :
  forall ft cl (H ST H' ST' : Type)
    (handle : H -> matched_request cl -> ST * response cl -> (ST * response cl) * outcome flow)
    (handle' : H' -> matched_request cl -> ST' * response cl -> (ST' * response cl) * outcome flow)
    o o' app app' w ho pos rt rt' s s' t t',
  fits app -> fits app' -> build o app = Done rt -> build o' app' = Done rt' -> real_segments t -> real_segments t' ->
  unanswered ft cl handle app s (stream_of t) -> unanswered ft cl handle' app' s' (stream_of t') ->
  snd (serve ft cl handle w ho pos rt s t) = snd (serve ft cl handle' w ho pos rt' s' t').
Proof. exact @unanswered_alike. Qed.
Print Assumptions C124_not_found_alike.
Example C124_not_found_example :
  fits hidden_app /\ fits [OAdd 0] /\ build reverse_order hidden_app = Done hidden_router /\
  build insertion_order [OAdd 0] = Done other_router /\
  unanswered default_features demo_lib ex_handle hidden_app 7 (stream_of secret) /\
  unanswered default_features demo_lib log_handle [OAdd 0] ([], 3) (stream_of t_hi) /\
  exists page,
    snd (serve default_features demo_lib ex_handle ex_world insertion_order [] hidden_router 7 secret) =
      IoDone (answer_head (B "404 NOT FOUND") (B "189") ++ page) /\
    snd (serve default_features demo_lib log_handle ex_world insertion_order [] other_router ([], 3) t_hi) =
      IoDone (answer_head (B "404 NOT FOUND") (B "189") ++ page).
Proof. exact example_124_unanswered. Qed.
