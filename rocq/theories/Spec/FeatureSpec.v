(** Specification for C142: applications that do not use a feature. *)
From Verif.Model Require Import RustStd Path Request Time Status Response Router Server.
From Verif.Spec Require Import Common PathSpec RoutingSpec TextSpec RequestSpec ResponseSpec ServerSpec.

Section Features.
Context (ft ft' : features) {cl : cookie_lib} {H ST : Type}.
(** Two requests that differ at most in what a feature adds that only one of the two programs has. *)
Definition same_request (rq rq' : request cl) : Prop :=
  rq_line rq = rq_line rq' /\ rq_body rq = rq_body rq' /\
  (forall name, headers_get (rq_headers rq) name = headers_get (rq_headers rq') name) /\
  (raw_headers_on ft = true -> raw_headers_on ft' = true -> raw (rq_headers rq) = raw (rq_headers rq')) /\
  (cookies_on ft = cookies_on ft' -> rq_cookies rq = rq_cookies rq').
(** Handlers that look at nothing else of a request, and send no cookies unless both programs can. *)
Definition uses_only_common (handle : H -> matched_request cl -> ST * response cl -> (ST * response cl) * outcome flow) : Prop :=
  (forall h rq rq' vars x, same_request rq rq' -> handle h (MatchedRequest rq vars) x = handle h (MatchedRequest rq' vars) x) /\
  (cookies_on ft <> cookies_on ft' -> forall h mr x, rs_cookies (snd x) = [] -> rs_cookies (snd (fst (handle h mr x))) = []).
(** An application with no pattern that has a variable, unless both programs know variables. *)
Definition common_routes (app : list (oreg H)) : Prop :=
  url_variables ft <> url_variables ft' ->
  forall v p h pat, In (RRoute v p h) (flatten app) -> path_means p pat -> Forall (fun seg => hd_error seg <> Some x3a) pat.
(** A request with no Cookie header, unless both programs look at it. *)
Definition common_request (hs : list header) : Prop :=
  cookies_on ft <> cookies_on ft' -> folded (B "cookie") hs = None.
(** [ft'] is at most as strict as [ft]. *)
Definition no_stricter : Prop := faithful ft' = true -> faithful ft = true.
End Features.
