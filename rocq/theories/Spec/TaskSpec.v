(** Specification of requests whose handlers run in parallel with those of other requests. *)
From Verif.Model Require Import RustStd Path Request Time Status Response Router Server Tasks.
From Verif.Spec Require Import Common PathSpec RoutingSpec TextSpec RequestSpec ResponseSpec ServerSpec.

(** ** Events *)
Section Events.
Context {X : Type}.
Definition on_task (i : nat) (ev : nat * task_event * X) : bool := Nat.eqb (fst (fst ev)) i.
Definition own_events (i : nat) (evs : list (nat * task_event * X)) := filter (on_task i) evs.
(** The input of connection [i]. *)
Definition inputs (i : nat) (evs : list (nat * task_event * X)) : list conn_event :=
  flat_map (fun ev => match snd (fst ev) with TInput e => [e] | _ => [] end) (own_events i evs).
Definition real_inputs (evs : list (nat * task_event * X)) : Prop :=
  Forall (fun ev => snd (fst ev) <> TInput (Arrive [])) evs.
(** No write to connection [i] fails. *)
Definition writes_succeed (i : nat) (evs : list (nat * task_event * X)) : Prop :=
  forall e x, In (i, e, x) evs -> e <> TWriteError /\ e <> TAccept 0.
(** How often task [i] is given the processor. *)
Definition runs_of (i : nat) (evs : list (nat * task_event * X)) : nat :=
  length (filter (fun ev => match snd (fst ev) with TRun => true | _ => false end) (own_events i evs)).
(** How many bytes the socket of connection [i] is willing to take. *)
Definition room_of (i : nat) (evs : list (nat * task_event * X)) : nat :=
  list_sum (map (fun ev => match snd (fst ev) with TAccept n => n | _ => 0 end) (own_events i evs)).
End Events.

(** ** The history of the shared state

    A history lists the handler calls in the order they were made: the connection, and the state
    shared by the handlers before and after the call. *)
Section History.
Context {ST : Type}.
Definition history := list (nat * (ST * ST)).
(** Every call starts from the state the previous one left; nothing else changes the state. *)
Fixpoint linked (s : ST) (L : history) (s' : ST) : Prop :=
  match L with
  | [] => s' = s
  | (_, (a, b)) :: rest => a = s /\ linked b rest s'
  end.
Definition calls_on (i : nat) (L : history) : list (ST * ST) :=
  map snd (filter (fun x => Nat.eqb (fst x) i) L).
End History.

(** ** The history of one request *)
Section Story.
Context (ft : features) (cl : cookie_lib) {H ST : Type}
  (handle : H -> matched_request cl -> ST * response cl -> (ST * response cl) * outcome flow).

(** [calls_made rq calls r log left r']: of the [calls] for request [rq], starting from response
    [r], those of [log] were made (each on the state it found, which other requests may have
    changed), [left] are still to be made, and the response is now [r']. *)
Inductive calls_made (rq : request cl)
  : list (H * varmap) -> response cl -> list (ST * ST) -> list (H * varmap) -> response cl -> Prop :=
| cm_none : forall calls r, calls_made rq calls r [] calls r
| cm_next : forall h vars rest r s s1 r1 log left r',
    handle h (MatchedRequest rq vars) (s, r) = ((s1, r1), Done FNext) ->
    calls_made rq rest r1 log left r' ->
    calls_made rq ((h, vars) :: rest) r ((s, s1) :: log) left r'
| cm_stop : forall h vars rest r s s1 r1,
    handle h (MatchedRequest rq vars) (s, r) = ((s1, r1), Done FStop) ->
    calls_made rq ((h, vars) :: rest) r [(s, s1)] [] r1.

(** The calls the routing specification asks for. *)
Definition chosen (app : list (oreg H)) (rq : request cl) (calls : list (H * varmap)) : Prop :=
  let m := rl_method (rq_line rq) in let path := rl_path (rq_line rq) in
  exists sel, selects (applies (url_variables ft) m path) (flatten app) sel /\
    Forall2 (invokes (url_variables ft) path) sel calls.

(** Requests that are refused before any handler runs, with the status they get. *)
Inductive refused (stream : str) (e : ending) : str -> str -> Prop :=
| rf_bad : stream_bad stream e -> refused stream e (B "400") (B "BAD REQUEST")
| rf_host : forall rl hs cs body, carries ft cl stream rl hs cs body -> lacks_host rl hs ->
    refused stream e (B "400") (B "BAD REQUEST")
| rf_method : forall rl hs cs body, carries ft cl stream rl hs cs body -> ~ lacks_host rl hs ->
    rl_method rl = MNone -> refused stream e (B "501") (B "NOT IMPLEMENTED").
(** Requests handlers are run for. *)
Definition admitted (stream : str) (rq : request cl) : Prop :=
  exists rl hs cs body, carries ft cl stream rl hs cs body /\ ~ lacks_host rl hs /\
    rl_method rl <> MNone /\ request_is ft rq rl hs cs body.

Inductive phase := Waiting | Working | Answering (out : str) | Dead.

(** [story seen pos app stream e log p]: with input [stream] (ending in [e]) and with the handler calls [log]
    made for it, a request is in phase [p].  [seen]: the worlds and hash orders an answer may be composed in. *)
Inductive story (seen : world -> order -> Prop) (pos : list nat) (app : list (oreg H)) (stream : str) (e : ending)
  : list (ST * ST) -> phase -> Prop :=
| st_waits : stream_waits ft stream e -> story seen pos app stream e [] Waiting
| st_huge : borderline ft stream e -> story seen pos app stream e [] Dead
| st_dies : stream_kills ft cl stream e -> story seen pos app stream e [] Dead
| st_refusing : forall num reason, refused stream e num reason -> story seen pos app stream e [] Working
| st_refused : forall num reason out, refused stream e num reason -> error_answer num reason out ->
    story seen pos app stream e [] (Answering out)
| st_working : forall rq calls log left res, admitted stream rq -> chosen app rq calls ->
    calls_made rq calls blank_response log left res -> story seen pos app stream e log Working
| st_panics : forall rq calls log h vars left res s s1 res1, admitted stream rq -> chosen app rq calls ->
    calls_made rq calls blank_response log ((h, vars) :: left) res ->
    handle h (MatchedRequest rq vars) (s, res) = ((s1, res1), Panic) ->
    story seen pos app stream e (log ++ [(s, s1)]) Dead
| st_not_found : forall rq calls log res out, admitted stream rq -> chosen app rq calls ->
    calls_made rq calls blank_response log [] res -> rs_body res = BodyNone ->
    error_answer (B "404") (B "NOT FOUND") out -> story seen pos app stream e log (Answering out)
| st_answer : forall rq calls log res w ho, admitted stream rq -> chosen app rq calls ->
    calls_made rq calls blank_response log [] res -> rs_body res <> BodyNone -> seen w ho ->
    story seen pos app stream e log (Answering (octane_send (get_data ft w ho pos res))).

(** What the state of task [i] says after the events [evs] and the calls [log] made for it. *)
Definition told (app : list (oreg H)) (i : nat) (evs : list (nat * task_event * (world * order)))
    (log : list (ST * ST)) (t : task cl (H := H)) : Prop :=
  let inp := input_of (inputs i evs) in
  let seen w ho := In (i, TRun, (w, ho)) evs in
  let tells := story seen [i] app (stream_of inp) (fin inp) log in
  match t with
  | TReading received => received = segs inp /\ tells Waiting
  | TWorking _ => tells Working
  | TSending sent rest => tells (Answering (sent ++ rest))
  | TClosed sent => exists rest, tells (Answering (sent ++ rest)) /\ (writes_succeed i evs -> rest = [])
  | TCrashed => tells Dead
  end.
End Story.
