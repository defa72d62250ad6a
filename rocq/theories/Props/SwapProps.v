(** C140: when one application can take the place of another.  Handlers, cookie library, world, hash orders
    and applications are arbitrary; [fits]: at most 2^64-1 registrations. *)
From Verif.Model Require Import RustStd Path Request Time Status Response Router Server Tasks Config Listen Whole.
From Verif.Spec Require Import Common PathSpec RoutingSpec TextSpec RequestSpec ResponseSpec ServerSpec AppSpec SwapSpec.
From Verif.Proofs Require Import SwapWitness.

(** C140.  If two applications have the same handlers with the same variables for every request, all
    executions of their programs look alike: the same state, the same connections, the same bytes. *)
Theorem C140_programs :
  forall ft cl (H ST : Type) (handle : H -> matched_request cl -> ST * response cl -> (ST * response cl) * outcome flow)
    o o' app app' (rt rt' : router H) tl f c os_tls os port s evs,
  fits app -> fits app' -> build o app = Done rt -> build o' app' = Done rt' ->
  interchangeable ft cl app app' -> looks_up handle ->
  (forall i x, ~ In (PrTask i (TInput (Arrive [])) x) evs) ->
  programs_alike (prog_run ft cl handle rt (prog_start cl tl f c os_tls os port s) evs)
                 (prog_run ft cl handle rt' (prog_start cl tl f c os_tls os port s) evs).
Proof. exact interchangeable_programs. Qed.
Print Assumptions C140_programs.
(** Likewise a single connection: the same answer, the same change of state. *)
Theorem C140_connection :
  forall ft cl (H ST : Type) (handle : H -> matched_request cl -> ST * response cl -> (ST * response cl) * outcome flow)
    o o' app app' (rt rt' : router H) w ho pos s t,
  fits app -> fits app' -> build o app = Done rt -> build o' app' = Done rt' ->
  interchangeable ft cl app app' -> looks_up handle -> real_segments t ->
  serve ft cl handle w ho pos rt s t = serve ft cl handle w ho pos rt' s t.
Proof. exact @interchangeable_served. Qed.
Print Assumptions C140_connection.
(** No other two applications are interchangeable: if handlers that look variables up by name always leave the
    same state, the applications have the same handlers with the same variables for every request. *)
Theorem C140_only_those :
  forall ft cl (H : Type) o o' app app' (rt rt' : router H) w ho pos,
  fits app -> fits app' -> build o app = Done rt -> build o' app' = Done rt' ->
  (forall handle : H -> matched_request cl -> list (H * option str) * response cl -> (list (H * option str) * response cl) * outcome flow,
     looks_up handle -> forall s t, real_segments t ->
     fst (serve ft cl handle w ho pos rt s t) = fst (serve ft cl handle w ho pos rt' s t)) ->
  interchangeable ft cl app app'.
Proof. exact @served_interchangeable. Qed.
Print Assumptions C140_only_those.
(** So neither the spelling of a path nor the router a registration is made on matters. *)
Theorem C140_respelled :
  forall (H : Type) ft cl (app app' : list (oreg H)),
  Forall2 respelled (flatten app) (flatten app') -> interchangeable ft cl app app'.
Proof. exact @respelled_interchangeable. Qed.
Print Assumptions C140_respelled.
Example C140_example :
  fits ex_app /\ fits other_app /\ build insertion_order ex_app = Done ex_router /\ build reverse_order other_app = Done other_router /\
  Forall2 respelled (flatten ex_app) (flatten other_app) /\ interchangeable default_features demo_lib ex_app other_app /\
  looks_up var_handle /\ (forall i x, ~ In (PrTask i (TInput (Arrive [])) x) swap_evs) /\
  task_get demo_lib 1 (tasks (pr_tasks (swap_end ex_router))) = TClosed (answer_head (B "200 OK") (B "3") ++ B "abc") /\
  task_get demo_lib 1 (tasks (pr_tasks (swap_end other_router))) = TClosed (answer_head (B "200 OK") (B "3") ++ B "abc") /\
  tshared (pr_tasks (swap_end ex_router)) = 9 /\ tshared (pr_tasks (swap_end other_router)) = 9.
Proof. exact example_140. Qed.
(** The order of registrations does matter. *)
Example C140_order_matters : ~ interchangeable default_features demo_lib ex_app turned_app.
Proof. exact turned_140. Qed.
