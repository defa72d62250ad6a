(** Specification for C134-C136: which methods a path is registered for, and the reach of the handlers of a
    mounted router. *)
From Verif.Model Require Import RustStd Path Request Time Status Response Router Server.
From Verif.Spec Require Import Common PathSpec RoutingSpec TextSpec RequestSpec ResponseSpec ServerSpec.

Section Methods.
Context {H : Type}.
(** The application has a route for [path] with method [m] (handlers without a path do not count). *)
Definition has_route (with_vars : bool) (m : method) (path : list str) (app : list (oreg H)) : Prop :=
  exists v p h, In (RRoute v p h) (flatten app) /\ applies with_vars m path (RRoute v p h).
(** Nothing in the application applies. *)
Definition nothing_for (with_vars : bool) (m : method) (path : list str) (app : list (oreg H)) : Prop :=
  Forall (fun c => ~ applies with_vars m path c) (flatten app).
(** The same is registered for [path] with both methods. *)
Definition alike_for (with_vars : bool) (m m' : method) (path : list str) (app : list (oreg H)) : Prop :=
  Forall (fun c => applies with_vars m path c <-> applies with_vars m' path c) (flatten app).
(** [path] is [prefix] or below it. *)
Definition below (prefix : list str) (path : list str) : Prop := exists rest, path = prefix ++ rest.
(** All routes of a router are for paths below [prefix]. *)
Definition routes_below (with_vars : bool) (prefix : list str) (sub : list (rreg H)) : Prop :=
  forall v p h pat path, In (RRoute v p h) sub -> path_means p pat -> route_matches with_vars pat path -> below prefix path.
End Methods.

(** Handlers that do not look at the method of the request. *)
Definition ignores_method {cl : cookie_lib} {H ST : Type}
  (handle : H -> matched_request cl -> ST * response cl -> (ST * response cl) * outcome flow) : Prop :=
  forall h m m' p v hs body cs vars x,
  handle h (MatchedRequest (Request (RequestLine m p v) hs body cs) vars) x =
  handle h (MatchedRequest (Request (RequestLine m' p v) hs body cs) vars) x.
