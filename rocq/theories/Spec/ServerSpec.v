(** Specification of serving connections. *)
From Verif.Model Require Import RustStd Path Request Time Status Response Router Server.
From Verif.Spec Require Import Common PathSpec RoutingSpec TextSpec RequestSpec ResponseSpec.

(** ** The four kinds of streams (of a connection ending in [e]) *)

(** Answered with 400 without being looked at further: no complete head before the end, or a head
    that is not text or has a request line only. *)
Definition stream_bad (s : str) (e : ending) : Prop :=
  (~ occurs CRLFCRLF s /\ e = Eof) \/ exists a b, head_at s a b /\ head_bad a.
(** More bytes are needed and may still come. *)
Definition stream_waits (ft : features) (s : str) (e : ending) : Prop :=
  e = Stall /\
  (~ occurs CRLFCRLF s \/
   exists a b rlt hst rl hs, head_at s a b /\ utf8_valid a = true /\ head_parts a rlt hst /\
     line_means (faithful ft) rlt rl /\ header_block (faithful ft) hst hs /\
     (N.of_nat (length b) < announced hs)%N /\ (announced hs <= ISIZE_MAX + 511)%N).
(** A request with this line, these headers, cookies and body. *)
Definition carries (ft : features) (cl : cookie_lib) (s : str)
    (rl : request_line) (hs : list header) (cs : list (ck cl)) (body : str) : Prop :=
  exists a b, head_at s a b /\ head_means ft cl a rl hs cs /\
    (announced hs <= N.of_nat (length b))%N /\ (announced hs <= ISIZE_MAX)%N /\
    body_choice (N.to_nat (announced hs)) b body.
(** (The fourth kind is [stream_kills].) *)

(** The request value the handlers see. *)
Definition request_is {cl} (ft : features) (rq : request cl)
    (rl : request_line) (hs : list header) (cs : list (ck cl)) (body : str) : Prop :=
  rq_line rq = rl /\ rq_body rq = body /\ rq_cookies rq = cs /\
  (forall k, headers_get (rq_headers rq) k = folded k hs) /\
  (raw_headers_on ft = true -> raw (rq_headers rq) = hs).

(** HTTP/1.1 requires a Host header. *)
Definition lacks_host (rl : request_line) (hs : list header) : Prop :=
  rl_version rl = Http11 /\ forall hd, In hd hs -> ~ same_fold (h_name hd) (B "host").

(** ** Answers *)

(** Exactly one response with this number and reason and an HTML body of the announced length. *)
Definition error_answer (num reason out : str) : Prop :=
  exists hs body len, wire_reads out (B "1.1") num reason hs body /\ NoDup (map fst hs) /\
    In (B "Content-Length", len) hs /\ decimal (N.of_nat (length body)) len /\
    In (B "Content-Type", B "text/html") hs.

Section Serving.
Context (ft : features) (cl : cookie_lib) {H ST : Type}
  (handle : H -> matched_request cl -> ST * response cl -> (ST * response cl) * outcome flow).

(** The response handlers start from. *)
Definition blank_response : response cl := Response BodyNone StOk None (B "1.1") [] None [].

(** [r] is the result of running, on request [rq], the handlers of the application [app] selected
    by the routing specification. *)
Definition handled (app : list (oreg H)) (rq : request cl) (s : ST)
    (r : (ST * response cl) * outcome unit) : Prop :=
  let m := rl_method (rq_line rq) in let path := rl_path (rq_line rq) in
  exists sel calls, selects (applies (url_variables ft) m path) (flatten app) sel /\
    Forall2 (invokes (url_variables ft) path) sel calls /\
    run_chain (fun h vars => handle h (MatchedRequest rq vars)) calls (s, blank_response) = r.

(** All that can happen to a connection with stream [str] ending in [e]: the new state of the
    application and what is written.  [w], [ho], [pos]: world and hash order when answering. *)
Inductive served (w : world) (ho : order) (pos : list nat) (app : list (oreg H)) (s : ST)
    (stream : str) (e : ending) : ST -> io str -> Prop :=
| sv_bad : forall out, stream_bad stream e ->
    error_answer (B "400") (B "BAD REQUEST") out ->
    served w ho pos app s stream e s (IoDone out)
| sv_dies : stream_kills ft cl stream e -> served w ho pos app s stream e s IoPanic
| sv_huge : borderline ft stream e -> served w ho pos app s stream e s IoPanic
| sv_waits : stream_waits ft stream e -> served w ho pos app s stream e s IoBlocked
| sv_no_host : forall rl hs cs body out, carries ft cl stream rl hs cs body -> lacks_host rl hs ->
    error_answer (B "400") (B "BAD REQUEST") out ->
    served w ho pos app s stream e s (IoDone out)
| sv_method : forall rl hs cs body out, carries ft cl stream rl hs cs body -> ~ lacks_host rl hs ->
    rl_method rl = MNone -> error_answer (B "501") (B "NOT IMPLEMENTED") out ->
    served w ho pos app s stream e s (IoDone out)
| sv_handler_panics : forall rl hs cs body rq s' res, carries ft cl stream rl hs cs body ->
    ~ lacks_host rl hs -> rl_method rl <> MNone -> request_is ft rq rl hs cs body ->
    handled app rq s ((s', res), Panic) ->
    served w ho pos app s stream e s' IoPanic
| sv_not_found : forall rl hs cs body rq s' res out, carries ft cl stream rl hs cs body ->
    ~ lacks_host rl hs -> rl_method rl <> MNone -> request_is ft rq rl hs cs body ->
    handled app rq s ((s', res), Done tt) -> rs_body res = BodyNone ->
    error_answer (B "404") (B "NOT FOUND") out ->
    served w ho pos app s stream e s' (IoDone out)
| sv_response : forall rl hs cs body rq s' res, carries ft cl stream rl hs cs body ->
    ~ lacks_host rl hs -> rl_method rl <> MNone -> request_is ft rq rl hs cs body ->
    handled app rq s ((s', res), Done tt) -> rs_body res <> BodyNone ->
    served w ho pos app s stream e s' (IoDone (octane_send (get_data ft w ho pos res))).
End Serving.
Arguments blank_response {cl}.

(** ** Requests as text *)

Definition request_text (m p ver : str) (hs : list header) (body : str) : str :=
  m ++ [x20] ++ p ++ [x20] ++ B "HTTP/" ++ ver ++ CRLF ++ join CRLF (map header_text hs) ++
  CRLFCRLF ++ body.
(** A target that fits on the request line. *)
Definition target_ok (p : str) : Prop := clean p /\ ~ In x20 p /\ utf8_valid p = true.

(** ** Many connections *)

(** The input of a connection, from its events. *)
Fixpoint input_of (l : list conn_event) : transport :=
  match l with
  | [] => Transport [] Stall
  | Arrive s :: r => Transport (s :: segs (input_of r)) (fin (input_of r))
  | PeerClose :: _ => Transport [] Eof
  | PeerBreak :: _ => Transport [] Broken
  end.
Section Events.
Context {X : Type}.
Definition on_conn (i : nat) (ev : nat * conn_event * X) : bool := Nat.eqb (fst (fst ev)) i.
Definition own (i : nat) (evs : list (nat * conn_event * X)) : list (nat * conn_event * X) :=
  filter (on_conn i) evs.
Definition events_of (i : nat) (evs : list (nat * conn_event * X)) : list conn_event :=
  map (fun ev => snd (fst ev)) (own i evs).
(** A read that returns data returns at least one byte. *)
Definition real_events (evs : list (nat * conn_event * X)) : Prop :=
  Forall (fun ev => snd (fst ev) <> Arrive []) evs.
End Events.

(** No handler changes the state the handlers share. *)
Definition read_only {cl : cookie_lib} {H ST : Type}
  (handle : H -> matched_request cl -> ST * response cl -> (ST * response cl) * outcome flow) : Prop :=
  forall h mr s r, fst (fst (handle h mr (s, r))) = s.
(** Every handler call preserves the invariant [I] of the shared state, even when it panics. *)
Definition keeps {cl : cookie_lib} {H ST : Type} (I : ST -> Prop)
  (handle : H -> matched_request cl -> ST * response cl -> (ST * response cl) * outcome flow) : Prop :=
  forall h mr s r, I s -> I (fst (fst (handle h mr (s, r)))).
