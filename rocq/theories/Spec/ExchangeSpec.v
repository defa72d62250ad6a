(** Specification vocabulary for whole exchanges: a request written by a client, answered by handlers, and
    read by the client. *)
From Coq Require Import Permutation.
From Verif.Model Require Import RustStd Path Request Time Status Response Router Server.
From Verif.Spec Require Import Common ResponseSpec ServerSpec TaskSpec AppSpec.

(** Responses whose status line and headers have no line breaks, whose body is given (no file) and that
    have no cookies to send; [ws]: the worlds they may be sent in. *)
Definition presentable {cl} (ft : features) (ws : world -> Prop) (r : response cl) : Prop :=
  (forall w, ws w -> writable w r) /\ ~ In SP (rs_version r) /\
  (cookies_on ft = false \/ rs_cookies r = []) /\ exists b, given_body (rs_body r) b.

(** The client reads from [out] the version, status, headers and body of the response [r]. *)
Definition reads_response {cl} (ws : world -> Prop) (out : str) (r : response cl) : Prop :=
  exists w fields body, ws w /\ Permutation fields (rs_headers r) /\ given_body (rs_body r) body /\
  wire_reads out (rs_version r) (show_Z (status_into_i32 (rs_status r))) (reason_phrase w r) fields body.
(** What the client reads if the handlers leave [r]: the response, or a 404 page if there is no body. *)
Definition reads_answer {cl} (ws : world -> Prop) (out : str) (r : response cl) : Prop :=
  (rs_body r <> BodyNone -> reads_response ws out r) /\
  (rs_body r = BodyNone -> error_answer (B "404") (B "NOT FOUND") out).

(** The handlers that [app] has for the request [rq] do not panic on it and make presentable responses.  Nothing
    is asked of other handlers, nor of these on other requests. *)
Definition well_behaved {H ST : Type} (ft : features) (cl : cookie_lib)
    (handle : H -> matched_request cl -> ST * response cl -> (ST * response cl) * outcome flow) (ws : world -> Prop)
    (app : list (oreg H)) (rq : request cl) : Prop :=
  forall calls h vars s r, chosen ft cl app rq calls -> In (h, vars) calls ->
  snd (handle h (MatchedRequest rq vars) (s, r)) <> Panic /\
  (presentable ft ws r -> presentable ft ws (snd (fst (handle h (MatchedRequest rq vars) (s, r))))).
