(** Specification vocabulary for handlers that guard those registered after them. *)
From Verif.Model Require Import RustStd Path Request Time Status Response Router Server.
From Verif.Spec Require Import Common RoutingSpec AppSpec.

Section Guard.
Context (ft : features) {cl : cookie_lib} {H ST : Type}
  (handle : H -> matched_request cl -> ST * response cl -> (ST * response cl) * outcome flow).
(** Registration [c] applies to the request, and its handler never lets the request pass: it stops or panics,
    in every state and on every response. *)
Definition turned_away (c : rreg H) (rq : request cl) : Prop :=
  applies (url_variables ft) (rl_method (rq_line rq)) (rl_path (rq_line rq)) c /\
  forall vars s r, snd (handle (handler_in c) (MatchedRequest rq vars) (s, r)) <> Done FNext.
(** [h] is the handler of one of the registrations [l]. *)
Definition handles_one_of (l : list (rreg H)) (h : H) : Prop := exists c, In c l /\ h = handler_in c.
End Guard.
