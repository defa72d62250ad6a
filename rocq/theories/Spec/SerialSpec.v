(** Specification of requests that look as if they were served one after the other. *)
From Verif.Model Require Import RustStd Path Request Time Status Response Router Server Tasks.
From Verif.Spec Require Import Common PathSpec RoutingSpec TextSpec RequestSpec ResponseSpec ServerSpec TaskSpec.

Section Serial.
Context (ft : features) (cl : cookie_lib) {H ST : Type}
  (handle : H -> matched_request cl -> ST * response cl -> (ST * response cl) * outcome flow).

(** A call that neither reads nor changes the shared state. *)
Definition stateless (rq : request cl) (c : H * varmap) : Prop :=
  exists f : response cl -> response cl * outcome flow,
  forall s r, handle (fst c) (MatchedRequest rq (snd c)) (s, r) = ((s, fst (f r)), snd (f r)).
(** Of these calls one at most uses the shared state. *)
Definition one_stateful (rq : request cl) (calls : list (H * varmap)) : Prop :=
  exists before use after, calls = before ++ use ++ after /\ length use <= 1 /\
    Forall (stateless rq) before /\ Forall (stateless rq) after.
(** Every request of the execution is of this kind. *)
Definition simple_requests (app : list (oreg H)) (evs : list (nat * task_event * (world * order))) : Prop :=
  forall i rq calls, admitted ft cl (stream_of (input_of (inputs i evs))) rq -> chosen ft cl app rq calls ->
    one_stateful rq calls.

(** The turn of connection [i] in the order [L]: the state before and after it.  Connections that
    do not use the state have no turn; any state will do for them. *)
Definition turn (i : nat) (L : history (ST := ST)) (s s' : ST) : Prop :=
  calls_on i L = [(s, s')] \/ (calls_on i L = [] /\ s' = s).

(** With the connections taking turns in the order [L], task [i] is where it is when its connection
    is served alone, from the state before its turn to the state after it. *)
Definition alone (app : list (oreg H)) (i : nat) (evs : list (nat * task_event * (world * order)))
    (L : history) (t : task cl (H := H)) : Prop :=
  let inp := input_of (inputs i evs) in
  let stream := stream_of inp in
  forall s s', turn i L s s' ->
  match t with
  | TReading received => received = segs inp /\ stream_waits ft stream (fin inp) /\ calls_on i L = []
  | TWorking _ =>
      ((exists num reason, refused ft cl stream (fin inp) num reason) /\ calls_on i L = []) \/
      exists rq calls log left res, admitted ft cl stream rq /\ chosen ft cl app rq calls /\
        calls_made cl handle rq calls blank_response log left res /\ linked s (map (pair i) log) s'
  | TSending sent rest => exists w ho, In (i, TRun, (w, ho)) evs /\
      served ft cl handle w ho [i] app s stream (fin inp) s' (IoDone (sent ++ rest))
  | TClosed sent => exists rest w ho, In (i, TRun, (w, ho)) evs /\
      served ft cl handle w ho [i] app s stream (fin inp) s' (IoDone (sent ++ rest)) /\
      (writes_succeed i evs -> rest = [])
  | TCrashed => forall w ho, served ft cl handle w ho [i] app s stream (fin inp) s' IoPanic
  end.

(** The order [L] agrees with the clock: at any moment (after the events [evs1]) the turns before
    it account for the state; no connection still being read has had its turn, and no connection
    with an answer gets one later. *)
Definition in_time (rt : router H) (s0 : ST) (evs : list (nat * task_event * (world * order)))
    (L : history) : Prop :=
  forall evs1 evs2, evs = evs1 ++ evs2 ->
  let st := tasks_run ft cl handle rt (TasksState s0 []) evs1 in
  exists L1 L2, L = L1 ++ L2 /\ linked s0 L1 (tshared st) /\
    (forall i, In i (map fst L1) -> forall received, task_get cl i (tasks st) <> TReading received) /\
    (forall i, In i (map fst L2) ->
       (exists received, task_get cl i (tasks st) = TReading received) \/
       (exists j, task_get cl i (tasks st) = TWorking j)).
End Serial.

(** All registrations of an application but one, at most, are of handlers that never use the
    shared state. *)
Definition reg_handler {H} (c : rreg H) : H := match c with RRoute _ _ h => h | RAdd h => h end.
Definition one_stateful_registration (cl : cookie_lib) {H ST : Type}
  (handle : H -> matched_request cl -> ST * response cl -> (ST * response cl) * outcome flow) (app : list (oreg H)) : Prop :=
  exists before use after, flatten app = before ++ use ++ after /\ length use <= 1 /\
    forall c, In c (before ++ after) -> forall rq vars, stateless cl handle rq (reg_handler c, vars).
