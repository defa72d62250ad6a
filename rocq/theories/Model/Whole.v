(** Model of the whole program: src/server.rs:125-212 and src/server_builder.rs:33-103 at the grain of single
    handler calls and partial writes, with both listeners, TLS handshakes, and the end of the program. *)
From Verif.Model Require Export Listen Tasks.

(** What can happen next: [next()] of a listener yields (src/server_builder.rs:38, 58, 85), a handshake ends
    (63, 91), the task of an open connection goes on ([task_event]; on a TLS connection the bytes are those
    of the decrypted stream), or the function that awaited [listen] returns after it got an error
    (src/server.rs:157-164): then the runtime that octane_macros/src/lib.rs:140-143 built is dropped and with
    it every task (tokio). *)
Inductive prog_event :=
| PrPlain (r : accept_result)
| PrTls (r : accept_result)
| PrHandshake (i : nat) (ok : bool)
| PrTask (i : nat) (e : task_event) (x : world * order)
| PrReturn.

Section Program.
Context (ft : features) (cl : cookie_lib) {H ST : Type}
  (handle : H -> matched_request cl -> ST * response cl -> (ST * response cl) * outcome flow).

(** src/server.rs:125-165: the two listeners, the connections and their tasks; [pr_up]: the runtime runs *)
Record program := Program {
  pr_up : bool;
  pr_plain : listener;
  pr_tls : listener;
  pr_links : list (nat * link);
  pr_tasks : tasks_state cl (H := H) (ST := ST)
}.
(** The connection's link, if it was accepted (src/server_builder.rs:38-45, 58-70, 85-101). *)
Definition plink_get (i : nat) (st : program) : option link := mget Nat.eqb i (pr_links st).
(** src/server_builder.rs:38-45, 58-70, 85-101: one more accepted connection, as in Model/Listen.v *)
Definition accept_plink (i : nat) (k : link) (st : program) : program :=
  match plink_get i st with
  | Some _ => st
  | None => Program (pr_up st) (pr_plain st) (pr_tls st) (mset Nat.eqb i k (pr_links st)) (pr_tasks st)
  end.
(** src/server_builder.rs:33-47 ([PrPlain]), 49-71 and 73-103 ([PrTls], [PrHandshake]); connection tasks as in
    [tasks_step]; src/server.rs:157-164 ([PrReturn]) *)
Definition prog_step (rt : router H) (st : program) (ev : prog_event) : program :=
  if negb (pr_up st) then st else
  match ev with
  | PrPlain r =>
      match pr_plain st with
      | LsAccepting =>
          match r with
          | AcOk i => accept_plink i LkOpen st
          | AcErr => Program (pr_up st) LsFailed (pr_tls st) (pr_links st) (pr_tasks st)
          end
      | _ => st
      end
  | PrTls r =>
      match pr_tls st with
      | LsAccepting =>
          match r with
          | AcOk i => accept_plink i LkHandshake st
          | AcErr => Program (pr_up st) (pr_plain st) LsFailed (pr_links st) (pr_tasks st)
          end
      | _ => st
      end
  | PrHandshake i ok =>
      match plink_get i st with
      | Some LkHandshake =>
          Program (pr_up st) (pr_plain st) (pr_tls st) (mset Nat.eqb i (if ok then LkOpen else LkRefused) (pr_links st)) (pr_tasks st)
      | _ => st
      end
  | PrTask i e x =>
      match plink_get i st with
      | Some LkOpen =>
          Program (pr_up st) (pr_plain st) (pr_tls st) (pr_links st) (tasks_step ft cl handle rt (pr_tasks st) (i, e, x))
      | _ => st
      end
  | PrReturn =>
      match pr_plain st with
      | LsAccepting => st
      | _ => Program false (pr_plain st) (pr_tls st) (pr_links st) (pr_tasks st)
      end
  end.
(** src/server.rs:125-212, any execution *)
Definition prog_run (rt : router H) (st : program) (evs : list prog_event) : program := fold_left (prog_step rt) evs st.
(** src/server.rs:129-165: after start-up, with the application's shared state *)
Definition prog_start (tl : tls_lib) (f : tls_feature) (c : config) (os_tls os : os_results) (port : N) (s0 : ST) : program :=
  Program true (plain_listener os port) (tls_listener tl f c os_tls) [] (TasksState s0 []).
End Program.
Arguments Program {cl H ST}.
Arguments pr_up {cl H ST}.
Arguments pr_plain {cl H ST}.
Arguments pr_tls {cl H ST}.
Arguments pr_links {cl H ST}.
Arguments pr_tasks {cl H ST}.
Arguments plink_get {cl H ST}.
