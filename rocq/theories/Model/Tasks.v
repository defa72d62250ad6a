(** Model of the tasks of src/server.rs and src/server_builder.rs at the grain of single handler
    calls: while the handlers of one request run, those of other requests may run in between. *)
From Verif.Model Require Export Server.

Section Tasks.
Context (ft : features) (cl : cookie_lib) {H ST : Type}
  (handle : H -> matched_request cl -> ST * response cl -> (ST * response cl) * outcome flow).

(** What a task has left to do after the request was read: send an error page
    (src/error.rs:34-39 [declare_error!]), or go on with the loop of [Router::run] whose local
    variables (src/router.rs:260-297) are [todo] (iterations of [0..total] still to do), [matches] and
    [indices], on the response [res] of src/server.rs:188. *)
Inductive job :=
| Refuse (code : status_code)
| Dispatch (rq : request cl) (todo : nat) (matches : list (list (matchedpath (closures H))))
           (indices : list nat) (res : response cl).

(** src/server.rs:186-209 and src/router.rs:259-296, up to the first handler call *)
Definition job_of (rt : router H) (rr : read_result cl) : outcome job :=
  match rr with
  | RdBad => Done (Refuse StBadRequest)
  | RdRequest rq =>
      let rl := rq_line rq in
      if err_bad_request (http_validate (rl_version rl) (rq_headers rq))
      then Done (Refuse StBadRequest)
      else if method_is_some (rl_method rl) then
        omap (fun matches => Dispatch rq (list_sum (map (@length _) matches)) matches
                               (repeat 0%nat (length matches)) new_empty)
             (run_matches ft rt (rl_method rl) (rl_path rl))
      else Done (Refuse StNotImplemented)
  end.

(** What one step of a job leads to: more to do, an answer to send, or a panic.
    (src/server.rs:187-203, src/router.rs:297-315) *)
Inductive job_result := JMore (j : job) | JSend (out : str) | JPanic.

(** src/error.rs:48-57 and src/server.rs:197-201: composing the answer *)
Definition compose (o : outcome str) : job_result :=
  match o with Done out => JSend out | Panic => JPanic end.

(** One step: one iteration of src/router.rs:297-315 (one handler call), or, when there is none
    left, src/server.rs:197-201. *)
Definition job_step (w : world) (ho : order) (pos : list nat) (s : ST) (j : job) : ST * job_result :=
  match j with
  | Refuse code => (s, compose (error_send ft w ho pos code (cl := cl)))
  | Dispatch rq O _ _ res =>
      (s, compose (if negb (has_body res) then error_send ft w ho pos StNotFound (cl := cl)
                   else Done (octane_send (get_data ft w ho pos res))))
  | Dispatch rq (S todo) matches indices res =>
      let minind := find_min 0 0 USIZE_MAX (combine matches indices) in
      match nth_error matches minind, nth_error indices minind with
      | Some v, Some i =>
          match nth_error v i with
          | Some mp =>
              let vars := if url_variables ft then mp_vars mp else [] in
              match handle (closure (mp_data mp)) (MatchedRequest rq vars) (s, res) with
              | ((s', _), Panic) => (s', JPanic)
              | ((s', res'), Done f) =>
                  (s', JMore (Dispatch rq (if should_continue f then todo else O) matches
                                (incr_at minind indices) res'))
              end
          | None => (s, JPanic)
          end
      | _, _ => (s, JPanic)
      end
  end.

(** The state of a task: reading the request, working, writing the answer
    (src/server.rs:213-223 [Octane::send]: [sent] has been accepted by the socket, [rest] is still to
    be written), finished, or dead by a panic. *)
Inductive task :=
| TReading (received : list str)
| TWorking (j : job)
| TSending (sent rest : str)
| TClosed (sent : str)
| TCrashed.

(** What can happen next to a task: input for it, one more step of its own work, the socket taking
    up to [n] more bytes ([n] = 0: [write_all] and [copy] give up with an error), or the socket
    reporting a write error. (src/server.rs:171-223) *)
Inductive task_event := TInput (e : conn_event) | TRun | TAccept (n : nat) | TWriteError.

(** The shared state and the tasks spawned in src/server_builder.rs:41-43 *)
Record tasks_state := TasksState { tshared : ST; tasks : list (nat * task) }.

(** A connection nothing has happened to yet waits for its first bytes (src/server.rs:171-173). *)
Definition task_get (i : nat) (l : list (nat * task)) : task :=
  match mget Nat.eqb i l with Some c => c | None => TReading [] end.

(** src/server.rs:173-186 after more input: what the task is then *)
Definition task_input (rt : router H) (received : list str) (e : conn_event) : task :=
  let '(received', rr) := resume ft cl received e in
  match rr with
  | IoBlocked => TReading received'
  | IoPanic | IoFuel => TCrashed
  | IoDone r => match job_of rt r with Done j => TWorking j | Panic => TCrashed end
  end.

(** src/server.rs:167-223, one event on connection [i].  The socket takes pieces of the answer in
    order; that [copy] moves the body in pieces of its own is not visible to the peer.  An event that
    the task is not waiting for changes nothing: input stays in the socket. *)
Definition tasks_step (rt : router H) (st : tasks_state) (ev : nat * task_event * (world * order))
  : tasks_state :=
  let '(i, e, (w, ho)) := ev in
  let put s' t := TasksState s' (mset Nat.eqb i t (tasks st)) in
  match task_get i (tasks st), e with
  | TReading received, TInput e => put (tshared st) (task_input rt received e)
  | TWorking j, TRun =>
      let '(s', r) := job_step w ho [i] (tshared st) j in
      put s' match r with
             | JMore j' => TWorking j'
             | JSend out => TSending [] out
             | JPanic => TCrashed
             end
  | TSending sent rest, TAccept n =>
      put (tshared st)
          (if Nat.eqb n 0 || Nat.leb (length rest) n then TClosed (sent ++ firstn n rest)
           else TSending (sent ++ firstn n rest) (skipn n rest))
  | TSending sent rest, TWriteError => put (tshared st) (TClosed sent)
  | _, _ => st
  end.
(** src/server_builder.rs:33-47: all tasks of the server, in any interleaving *)
Definition tasks_run (rt : router H) (st : tasks_state)
    (evs : list (nat * task_event * (world * order))) : tasks_state :=
  fold_left (tasks_step rt) evs st.

End Tasks.
Arguments Refuse {cl H}.
Arguments Dispatch {cl H}.
Arguments JMore {cl H}.
Arguments JSend {cl H}.
Arguments JPanic {cl H}.
Arguments TReading {cl H}.
Arguments TWorking {cl H}.
Arguments TSending {cl H}.
Arguments TClosed {cl H}.
Arguments TCrashed {cl H}.
Arguments TasksState {cl H ST}.
Arguments tshared {cl H ST}.
Arguments tasks {cl H ST}.
