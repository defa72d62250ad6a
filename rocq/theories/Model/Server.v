(** Model of src/server.rs and src/server_builder.rs: serving one connection, many connections,
    the accept loop and start-up. *)
From Verif.Model Require Export RustStd Path Request Time Status Response Router.

(** src/request.rs:423-444 [MatchedRequest]; [mr_vars] is empty when url_variables is off. *)
Record matched_request (cl : cookie_lib) := MatchedRequest {
  mr_request : request cl;
  mr_vars : varmap
}.
Arguments MatchedRequest {cl}.
Arguments mr_request {cl}.
Arguments mr_vars {cl}.

Section Server.
Context (ft : features) (cl : cookie_lib).

(** ** Reading the request *)

(** The request handed to the dispatcher, or the reason it was not read. (src/server.rs:173-186,
    206, 209) *)
Inductive read_result := RdBad | RdRequest (r : request cl).

(** src/server.rs:173-186: the reader, the two [unwrap]s and [from_raw]. *)
Definition read_request (t : transport) : io read_result :=
  io_bind (read_head t) (fun hr =>
    match hr with
    | HeadBad => IoDone RdBad
    | HeadOk raw_headers raw_request_line body_remainder reader_left =>
        match headers_parse ft raw_headers with
        | None => IoPanic
        | Some h =>
            io_bind (io_of_outcome (obind (request_line_parse ft raw_request_line) unwrap))
              (fun rl =>
            io_bind (request_from_raw ft cl h rl body_remainder reader_left) (fun o =>
              IoDone (match o with
                      | Some rq => RdRequest rq
                      | None => RdBad
                      end)))
        end
    end).

(** ** Answering it *)

(** [H]: closures; [ST]: the state closures share between requests (through interior mutability,
    channels, the file system, ...).  [handle h mr (s, res)] is one call of closure [h]. *)
Context {H ST : Type}
  (handle : H -> matched_request cl -> ST * response cl -> (ST * response cl) * outcome flow).

(** src/server.rs:187-210, given what was read.  Returns the new shared state and the bytes
    written (then the connection is closed), or a panic.  [w]/[ho] are the world and hash order
    at the time of sending. *)
Definition respond (w : world) (ho : order) (pos : list nat) (rt : router H) (s : ST)
    (rr : read_result) : ST * outcome str :=
  match rr with
  | RdBad => (s, error_send ft w ho pos StBadRequest (cl := cl))
  | RdRequest rq =>
      let rl := rq_line rq in
      let checker := http_validate (rl_version rl) (rq_headers rq) in
      if err_bad_request checker then (s, error_send ft w ho pos StBadRequest (cl := cl))
      else if method_is_some (rl_method rl) then
        match router_run (fun h vars => handle h (MatchedRequest rq vars)) ft rt
                (rl_method rl) (rl_path rl) (s, new_empty) with
        | ((s', _), Panic) => (s', Panic)
        | ((s', res), Done _) =>
            if negb (has_body res) then (s', error_send ft w ho pos StNotFound (cl := cl))
            else (s', Done (octane_send (get_data ft w ho pos res)))
        end
      else (s, error_send ft w ho pos StNotImplemented (cl := cl))
  end.

(** src/server.rs:167-212 [Octane::serve] *)
Definition serve (w : world) (ho : order) (pos : list nat) (rt : router H) (s : ST)
    (t : transport) : ST * io str :=
  match read_request t with
  | IoDone rr => let '(s', o) := respond w ho pos rt s rr in (s', io_of_outcome o)
  | IoPanic => (s, IoPanic)
  | IoBlocked => (s, IoBlocked)
  | IoFuel => (s, IoFuel)
  end.

(** ** Many connections

    src/server_builder.rs:33-47: every accepted connection runs [serve] in its own task; a panic
    ends only that task (tokio).  A task runs until it waits for input, so what it does is
    determined by the input received so far.  Calls of closures are atomic (they are synchronous
    functions; a data race between two closures running in parallel on shared state is not
    modelled). *)
Inductive conn_event := Arrive (seg : str) | PeerClose | PeerBreak.
(** The task of one connection, src/server_builder.rs:41-43, src/server.rs:167-212 *)
Inductive conn_state :=
| Running (received : list str)   (* task waiting for input *)
| Answered (out : str)            (* wrote [out] and closed *)
| Crashed.                        (* task panicked: nothing written, connection dropped *)

(** src/server_builder.rs:38-45 *)
Record server_state := ServerState { shared : ST; conns : list (nat * conn_state) }.

(** A connection nothing is known about has just been accepted, src/server_builder.rs:38-43 *)
Definition conn_get (i : nat) (l : list (nat * conn_state)) : conn_state :=
  match mget Nat.eqb i l with Some c => c | None => Running [] end.

(** What src/server.rs:171-186 does with the bytes so far: see [conn_event] *)
Definition resume (received : list str) (e : conn_event) : list str * io read_result :=
  match e with
  | Arrive seg => (received ++ [seg], read_request (Transport (received ++ [seg]) Stall))
  | PeerClose => (received, read_request (Transport received Eof))
  | PeerBreak => (received, read_request (Transport received Broken))
  end.

(** One event on connection [i]. (src/server_builder.rs:41-43, src/server.rs:167-212) *)
Definition server_step (rt : router H) (st : server_state) (ev : nat * conn_event * (world * order))
  : server_state :=
  let '(i, e, (w, ho)) := ev in
  match conn_get i (conns st) with
  | Running received =>
      let '(received', rr) := resume received e in
      match rr with
      | IoBlocked => ServerState (shared st) (mset Nat.eqb i (Running received') (conns st))
      | IoPanic | IoFuel => ServerState (shared st) (mset Nat.eqb i Crashed (conns st))
      | IoDone r =>
          let '(s', o) := respond w ho [i] rt (shared st) r in
          ServerState s' (mset Nat.eqb i (match o with Done out => Answered out | Panic => Crashed end)
                               (conns st))
      end
  | _ => st
  end.
(** Any sequence of events on the connections accepted in src/server_builder.rs:38-45 *)
Definition server_run (rt : router H) (st : server_state)
    (evs : list (nat * conn_event * (world * order))) : server_state :=
  fold_left (server_step rt) evs st.

End Server.
Arguments RdBad {cl}.
Arguments RdRequest {cl}.
Arguments ServerState {ST}.
Arguments shared {ST}.
Arguments conns {ST}.

(** ** Accepting *)

(** One result of [self.socket.next().await] (which never yields [None] for a TcpListener).
    (src/server_builder.rs:38) *)
Inductive accept_result := AcOk (conn : nat) | AcErr.

(** src/server_builder.rs:33-47 [ServerBuilder::listen]: the connections for which a task was
    spawned, and whether the loop ended with an error ([false] = still accepting). *)
Fixpoint accept_loop (l : list accept_result) : list nat * bool :=
  match l with
  | [] => ([], false)
  | AcOk c :: rest => let '(cs, e) := accept_loop rest in (c :: cs, e)
  | AcErr :: _ => ([], true)
  end.

(** ** Start-up *)

(** Which system calls of [ServerBuilder::new] succeed. (src/server_builder.rs:20-31) *)
Record os_results := OsResults {
  os_socket : bool; os_nonblocking : bool; os_bind : bool; os_listen : bool;
  os_reuse : bool; os_from_std : bool
}.
(** Observable steps of src/server.rs:125-165 and src/server_builder.rs:20-31 *)
Inductive startup_event :=
| EvSslTask                 (* the TLS listener task is spawned *)
| EvCallback                (* the user's [exec] closure runs *)
| EvSocket
| EvBound (port : N)
| EvListening (backlog : N)
| EvReuseAddr
| EvAccepting.

(** src/server_builder.rs:20-31 [ServerBuilder::new]: events and success. *)
Definition server_builder_new (os : os_results) (port : N) : list startup_event * bool :=
  if negb (os_socket os) then ([], false)
  else if negb (os_nonblocking os) then ([EvSocket], false)
  else if negb (os_bind os) then ([EvSocket], false)
  else if negb (os_listen os) then ([EvSocket; EvBound port], false)
  else if negb (os_reuse os) then ([EvSocket; EvBound port; EvListening 2048], false)
  else ([EvSocket; EvBound port; EvListening 2048; EvReuseAddr], os_from_std os).

(** src/server.rs:125-165 [Octane::listen] up to the accept loop; [tls]: one of the TLS features
    is on.  The boolean: it got as far as accepting ([false]: it returned an error). *)
Definition octane_listen (tls : bool) (os : os_results) (port : N) : list startup_event * bool :=
  let '(evs, ok) := server_builder_new os port in
  ((if tls then [EvSslTask] else []) ++ [EvCallback] ++ evs ++ (if ok then [EvAccepting] else []),
   ok).
