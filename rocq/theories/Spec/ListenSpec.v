(** Specification of the listening side. *)
From Verif.Model Require Import RustStd Config Request Response Router Server Listen.

(** [tls_id i]: connection [i] is one of the TLS listener. *)
Definition separate (tls_id : nat -> bool) (evs : list sys_event) : Prop :=
  forall i, (In (SyPlain (AcOk i)) evs -> tls_id i = false) /\ (In (SyTls (AcOk i)) evs -> tls_id i = true).
(** The events of the plain listener and its connections. *)
Definition plain_side (tls_id : nat -> bool) (ev : sys_event) : bool :=
  match ev with
  | SyPlain _ => true
  | SyTls _ | SyHandshake _ _ => false
  | SyConn i _ _ => negb (tls_id i)
  end.
(** The events of connection [i] once it is accepted. *)
Definition of_conn (i : nat) (ev : sys_event) : bool :=
  match ev with
  | SyHandshake j _ | SyConn j _ _ => Nat.eqb j i
  | _ => false
  end.
Definition others (i : nat) (evs : list sys_event) : list sys_event := filter (fun ev => negb (of_conn i ev)) evs.
(** What happens on connection [i], in order. *)
Fixpoint traffic (i : nat) (evs : list sys_event) : list (nat * conn_event * (world * order)) :=
  match evs with
  | [] => []
  | SyConn j e x :: r => if Nat.eqb j i then (j, e, x) :: traffic i r else traffic i r
  | _ :: r => traffic i r
  end.
(** Nothing has happened on connection [i]. *)
Definition untouched {ST} (i : nat) (st : system (ST := ST)) : Prop := conn_get i (conns (sy_server st)) = Running [].

(** A readable file with this content. *)
Definition holds (tl : tls_lib) (path text : str) : Prop := tl_read tl path = PemText text.

(** All system calls needed to listen succeed. *)
Definition can_listen (os : os_results) : Prop :=
  os_socket os = true /\ os_nonblocking os = true /\ os_bind os = true /\ os_listen os = true /\
  os_reuse os = true /\ os_from_std os = true.
(** What a listener on [port] does if everything goes well, *)
Definition socket_steps (port : N) : list startup_event :=
  [EvSocket; EvBound port; EvListening 2048; EvReuseAddr; EvAccepting].
(** and starting the server. *)
Definition start_steps (tls : bool) (port : N) : list startup_event :=
  (if tls then [EvSslTask] else []) ++ [EvCallback] ++ socket_steps port.
