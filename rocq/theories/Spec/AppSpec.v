(** Specification for claims about whole applications. *)
From Coq Require Import Permutation.
From Verif.Model Require Import RustStd Path Request Time Status Response Router Server.
From Verif.Spec Require Import Common PathSpec RoutingSpec TextSpec RequestSpec ResponseSpec ServerSpec.

(** Two applications in which the same registrations, in the same order, apply to a request for
    method [m] and path [path]. *)
Definition same_selection {H : Type} (with_vars : bool) (m : method) (path : list str)
    (app app' : list (oreg H)) : Prop :=
  exists sel, selects (applies with_vars m path) (flatten app) sel /\
              selects (applies with_vars m path) (flatten app') sel.

(** Two messages that differ at most in the order of their header lines: the same first line, the
    same fields, the same rest. *)
Definition field_line (kv : str * str) : str := fst kv ++ B ": " ++ snd kv ++ CRLF.
Definition reordered (out out' : str) : Prop :=
  exists line hs hs' rest, Permutation hs hs' /\
    out = line ++ CRLF ++ flat_map field_line hs ++ rest /\
    out' = line ++ CRLF ++ flat_map field_line hs' ++ rest.
(** No line break in the status line and the headers of a response. *)
Definition writable {cl} (w : world) (r : response cl) : Prop :=
  headers_ok r /\ clean (rs_version r) /\ clean (reason_phrase w r).
Definition same_but_order (r r' : io str) : Prop :=
  match r, r' with
  | IoDone out, IoDone out' => reordered out out'
  | _, _ => r = r'
  end.
Definition conn_same_but_order (c c' : conn_state) : Prop :=
  match c, c' with
  | Answered out, Answered out' => reordered out out'
  | _, _ => c = c'
  end.
(** The same event on the same connection at the same time; the hash order of the answer's header
    map is up to chance. *)
Definition same_event (ev ev' : nat * conn_event * (world * order)) : Prop :=
  fst ev = fst ev' /\ fst (snd ev) = fst (snd ev').

(** Every variable handed to the handler is one of the segments of the request path, and names
    something: it is not empty, not a dot or two dots, and has no slash. *)
Definition safe_variables {cl} (mr : matched_request cl) : Prop :=
  forall name val, mget seqb name (mr_vars mr) = Some val ->
    In val (rl_path (rq_line (mr_request mr))) /\ normal val /\ no_slash val.

(** ** Handlers that only watch *)
Section Watching.
Context {cl : cookie_lib} {H ST : Type}
  (handle : H -> matched_request cl -> ST * response cl -> (ST * response cl) * outcome flow).
(** No handler can tell apart states related by [E]: it makes the same response, decides alike and leaves
    related states. *)
Definition indifferent (E : ST -> ST -> Prop) : Prop :=
  forall h mr s s' r, E s s' ->
  E (fst (fst (handle h mr (s, r)))) (fst (fst (handle h mr (s', r)))) /\
  snd (fst (handle h mr (s, r))) = snd (fst (handle h mr (s', r))) /\ snd (handle h mr (s, r)) = snd (handle h mr (s', r)).
(** [h] keeps the response, goes on, and changes the state only in what no handler looks at. *)
Definition watches (E : ST -> ST -> Prop) (h : H) : Prop :=
  forall mr s s' r, E s s' -> exists s1, handle h mr (s, r) = ((s1, r), Done FNext) /\ E s1 s'.
Definition handler_in (c : rreg H) : H := match c with RRoute _ _ h => h | RAdd h => h end.
(** [l'] is [l] without some of the registrations of such handlers. *)
Inductive unwatched (E : ST -> ST -> Prop) : list (rreg H) -> list (rreg H) -> Prop :=
| uw_end : unwatched E [] []
| uw_same c l l' : unwatched E l l' -> unwatched E (c :: l) (c :: l')
| uw_less c l l' : watches E (handler_in c) -> unwatched E l l' -> unwatched E (c :: l) l'.
End Watching.

(** A proper request for which the handlers of [app], run in state [s], end without having made a body. *)
Definition unanswered {H ST : Type} (ft : features) (cl : cookie_lib)
    (handle : H -> matched_request cl -> ST * response cl -> (ST * response cl) * outcome flow)
    (app : list (oreg H)) (s : ST) (stream : str) : Prop :=
  exists rl hs cs body, carries ft cl stream rl hs cs body /\ ~ lacks_host rl hs /\ rl_method rl <> MNone /\
  forall rq got x, request_is ft rq rl hs cs got -> handled ft cl handle app rq s x ->
    snd x = Done tt /\ rs_body (snd (fst x)) = BodyNone.
