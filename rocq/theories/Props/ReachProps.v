(** C145: which routes requests can reach.  Handlers, cookie library, world, hash orders and applications are
    arbitrary; [fits]: at most 2^64-1 registrations. *)
From Verif.Model Require Import RustStd Path Request Time Status Response Router Server.
From Verif.Spec Require Import Common PathSpec RoutingSpec TextSpec RequestSpec ResponseSpec ServerSpec AppSpec SwapSpec ReachSpec.
From Verif.Proofs Require Import ReachWitness.

(** C145 is false: a route can be accepted although no request ever reaches it.  An application with only this
    route (whatever the method) serves every connection as one without any. *)
Theorem C145_refuted :
  exists p pat, utf8_valid p = true /\ path_means p pat /\
  (forall (H : Type) (h : H) v, exists r, router_route v router_new p h = Done (r, ROk)) /\
  forall ft cl (H ST : Type) (handle : H -> matched_request cl -> ST * response cl -> (ST * response cl) * outcome flow)
    o v h (rt : router H) w ho pos s t, build o [ORoute v p h] = Done rt -> real_segments t ->
  serve ft cl handle w ho pos rt s t = serve ft cl handle w ho pos router_new s t.
Proof. exact accepted_unreachable. Qed.
Print Assumptions C145_refuted.
(** The requests that get as far as the handlers have one of the nine methods and a path whose segments have no
    spaces and no line ends; every such path is asked for by some request. *)
Theorem C145_paths :
  forall ft cl m path, asked_for ft cl m path <-> (exists name, method_named name m) /\ Forall sendable path.
Proof. exact asked_exact. Qed.
Print Assumptions C145_paths.
(** So a route applies to some request exactly if the text of its pattern can be sent (without URL variables,
    exactly if it also has no segment that starts with a colon). *)
Theorem C145_exact_partial :
  forall ft cl (H : Type) v p (h : H) pat, path_means p pat ->
  ((exists m path, asked_for ft cl m path /\ applies (url_variables ft) m path (RRoute v p h)) <-> reachable (url_variables ft) pat).
Proof. exact reached_exact. Qed.
Print Assumptions C145_exact_partial.
(** For every path that can be sent and that matches the pattern, and every method of the route, there is a
    request that reaches the handler, with the variables of that path, unless a handler before it stops the
    request. *)
Theorem C145_called_partial :
  forall ft cl (H : Type) o (app : list (oreg H)) rt v p h pat path m, fits app -> build o app = Done rt ->
  In (RRoute v p h) (flatten app) -> path_means p pat -> route_matches (url_variables ft) pat path -> Forall sendable path ->
  serves v m -> (exists name, method_named name m) ->
  exists t, real_segments t /\ forall w ho pos, exists vars, In (h, vars) (fst (serve ft cl notes w ho pos rt [] t)) /\
    forall name val, mget seqb name vars = Some val <-> (url_variables ft = true /\ binds pat path name val).
Proof. exact reached_called. Qed.
Print Assumptions C145_called_partial.
(** All other routes may as well be left out. *)
Theorem C145_never_partial :
  forall ft cl (H ST : Type) (handle : H -> matched_request cl -> ST * response cl -> (ST * response cl) * outcome flow)
    o o' l1 v p h l2 (rt rt' : router H) pat w ho pos s t,
  fits (l1 ++ ORoute v p h :: l2) -> build o (l1 ++ ORoute v p h :: l2) = Done rt -> build o' (l1 ++ l2) = Done rt' ->
  path_means p pat -> ~ reachable (url_variables ft) pat -> real_segments t ->
  serve ft cl handle w ho pos rt s t = serve ft cl handle w ho pos rt' s t.
Proof. exact never_called. Qed.
Print Assumptions C145_never_partial.
Example C145_example :
  fits reach_app /\ build insertion_order reach_app = Done reach_router /\ In (RRoute VGet (B "/files/:name") 1) (flatten reach_app) /\
  path_means (B "/files/:name") reach_pat /\ reachable true reach_pat /\ ~ reachable false reach_pat /\
  path_means (B "/my files") [B "my files"] /\ ~ reachable true [B "my files"] /\
  route_matches true reach_pat reach_path /\ Forall sendable reach_path /\ asked_for default_features demo_lib MGet reach_path /\
  fst (serve default_features demo_lib notes ex_world insertion_order [] reach_router [] t_reach) =
    [(1, [(B "name", B "a,b?c=%20" ++ [x0d] ++ [xc3; xa9])])].
Proof. exact example_145. Qed.
