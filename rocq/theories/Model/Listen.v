(** Model of the listening side: src/server.rs:125-165, src/server_builder.rs, src/tls/*.rs and
    src/config.rs:226-241.  The two listeners (plain and TLS), the TLS set-up, handshakes, and the
    connections they hand to [serve]. *)
From Verif.Model Require Export RustStd Config Server.

(** Cargo.toml:39-40 and src/lib.rs:118-119: at most one of the two features. *)
Inductive tls_feature := TlsNone | TlsOpenssl | TlsRustls.

(** What reading a configured file gives, src/config.rs:229, 237. *)
Inductive pem_read := PemNoOpen | PemUnreadable | PemText (s : str).

(** The TLS crates, as used in src/tls/openssl.rs:10-12, src/tls/rustls.rs:22 and src/config.rs:230,
    238: what they make of files.  Nothing is assumed about them. *)
Record tls_lib := TlsLib {
  tls_cert : Type;
  tls_key : Type;
  tl_read : str -> pem_read;
  tl_certs : str -> option (list tls_cert);        (* rustls pemfile::certs *)
  tl_rsa_keys : str -> option (list tls_key);      (* rustls pemfile::rsa_private_keys *)
  tl_single_cert : list tls_cert -> tls_key -> bool; (* set_single_cert accepts *)
  tl_ossl_init : bool;                              (* mozilla_intermediate_v5 succeeds *)
  tl_ossl_key : str -> bool;                        (* set_private_key_file succeeds *)
  tl_ossl_chain : str -> bool                       (* set_certificate_chain_file succeeds *)
}.

Section Tls.
Context (tl : tls_lib).

(** [File::open(..)?] followed by a PEM parser whose errors are mapped, src/config.rs:228-240; a file
    that cannot be read is an error of the parser *)
Definition read_pem {A} (parse : str -> option A) (path : str) : option A :=
  match tl_read tl path with
  | PemNoOpen => None
  | PemUnreadable => None
  | PemText s => parse s
  end.
(** src/config.rs:228-232 [get_cert] *)
Definition get_cert (c : config) : option (list (tls_cert tl)) := read_pem (tl_certs tl) (ssl_cert (cf_ssl c)).
(** src/config.rs:236-240 [get_key] *)
Definition get_key (c : config) : option (list (tls_key tl)) := read_pem (tl_rsa_keys tl) (ssl_key (cf_ssl c)).

(** src/tls/rustls.rs:13-26 [acceptor]; what it holds: certificates and key. *)
Definition rustls_acceptor (c : config) : outcome (option (list (tls_cert tl) * tls_key tl)) :=
  match get_key c with
  | None => Done None
  | Some [] => Panic
  | Some (k :: _) =>
      match get_cert c with
      | None => Done None
      | Some certs => if tl_single_cert tl certs k then Done (Some (certs, k)) else Done None
      end
  end.
(** src/tls/openssl.rs:8-15 [acceptor]; what it holds: the two files. *)
Definition openssl_acceptor (c : config) : option (str * str) :=
  if negb (tl_ossl_init tl) then None
  else if negb (tl_ossl_key tl (ssl_key (cf_ssl c))) then None
  else if negb (tl_ossl_chain tl (ssl_cert (cf_ssl c))) then None
  else Some (ssl_key (cf_ssl c), ssl_cert (cf_ssl c)).

(** A listening task: not there, accepting, returned an error, or panicked (src/server.rs:132-165). *)
Inductive listener := LsOff | LsAccepting | LsFailed | LsPanicked.

(** src/server.rs:138-153 and src/server_builder.rs:49-56, 73-85: the TLS task up to its loop; what it
    does to its socket and what becomes of it. *)
Definition tls_start (f : tls_feature) (c : config) (os : os_results) : list startup_event * listener :=
  match f with
  | TlsNone => ([], LsOff)
  | _ =>
      let '(evs, ok) := server_builder_new os (ssl_port (cf_ssl c)) in
      let l :=
        if negb ok then LsFailed
        else match f with
             | TlsRustls => match rustls_acceptor c with
                            | Panic => LsPanicked
                            | Done None => LsFailed
                            | Done (Some _) => LsAccepting
                            end
             | _ => match openssl_acceptor c with None => LsFailed | Some _ => LsAccepting end
             end in
      (evs ++ match l with LsAccepting => [EvAccepting] | _ => [] end, l)
  end.
(** src/server.rs:138-153: what becomes of the TLS task *)
Definition tls_listener (f : tls_feature) (c : config) (os : os_results) : listener := snd (tls_start f c os).
End Tls.
(** src/server.rs:157-162: the plain listener up to its loop. *)
Definition plain_listener (os : os_results) (port : N) : listener :=
  if snd (server_builder_new os port) then LsAccepting else LsFailed.

(** ** The running server *)

(** A connection: handed to [serve] (src/server_builder.rs:41-43, 64-65, 92-93), in its TLS handshake
    (62-63, 90-91), or dropped after a failed handshake (66-68, 94-98). *)
Inductive link := LkOpen | LkHandshake | LkRefused.

(** What can happen next: [next()] of a listener yields (src/server_builder.rs:38, 58, 85), a handshake
    ends (63, 91), or something happens on a connection ([conn_event]; on a TLS connection: to the
    decrypted stream). *)
Inductive sys_event :=
| SyPlain (r : accept_result)
| SyTls (r : accept_result)
| SyHandshake (i : nat) (ok : bool)
| SyConn (i : nat) (e : conn_event) (x : world * order).

Section System.
Context (ft : features) (cl : cookie_lib) {H ST : Type}
  (handle : H -> matched_request cl -> ST * response cl -> (ST * response cl) * outcome flow).

(** src/server.rs:125-165: the two tasks and the connections *)
Record system := System {
  sy_plain : listener;
  sy_tls : listener;
  sy_links : list (nat * link);
  sy_server : server_state (ST := ST)
}.
(** The connection's link, if it was accepted (src/server_builder.rs:38-45, 58-70, 85-101). *)
Definition link_get (i : nat) (st : system) : option link := mget Nat.eqb i (sy_links st).
(** src/server_builder.rs:38-45, 58-70, 85-101: one more accepted connection.  Connections are told
    apart by number; a number already used is not given to another one (the event is void). *)
Definition accept_link (i : nat) (k : link) (st : system) : system :=
  match link_get i st with
  | Some _ => st
  | None => System (sy_plain st) (sy_tls st) (mset Nat.eqb i k (sy_links st)) (sy_server st)
  end.
(** src/server_builder.rs:33-47 ([SyPlain]), 49-71 and 73-103 ([SyTls], [SyHandshake]); connection
    tasks as in [server_step].  Spawned tasks go on when a listener ends. *)
Definition sys_step (rt : router H) (st : system) (ev : sys_event) : system :=
  match ev with
  | SyPlain r =>
      match sy_plain st with
      | LsAccepting =>
          match r with
          | AcOk i => accept_link i LkOpen st
          | AcErr => System LsFailed (sy_tls st) (sy_links st) (sy_server st)
          end
      | _ => st
      end
  | SyTls r =>
      match sy_tls st with
      | LsAccepting =>
          match r with
          | AcOk i => accept_link i LkHandshake st
          | AcErr => System (sy_plain st) LsFailed (sy_links st) (sy_server st)
          end
      | _ => st
      end
  | SyHandshake i ok =>
      match link_get i st with
      | Some LkHandshake =>
          System (sy_plain st) (sy_tls st) (mset Nat.eqb i (if ok then LkOpen else LkRefused) (sy_links st)) (sy_server st)
      | _ => st
      end
  | SyConn i e x =>
      match link_get i st with
      | Some LkOpen => System (sy_plain st) (sy_tls st) (sy_links st) (server_step ft cl handle rt (sy_server st) (i, e, x))
      | _ => st
      end
  end.
(** src/server.rs:125-165, any execution *)
Definition sys_run (rt : router H) (st : system) (evs : list sys_event) : system := fold_left (sys_step rt) evs st.
(** src/server.rs:129-165: after start-up, with the application's shared state *)
Definition sys_start (tl : tls_lib) (f : tls_feature) (c : config) (os_tls os : os_results) (port : N) (s0 : ST) : system :=
  System (plain_listener os port) (tls_listener tl f c os_tls) [] (ServerState s0 []).
End System.
Arguments System {ST}.
Arguments sy_plain {ST}.
Arguments sy_tls {ST}.
Arguments sy_links {ST}.
Arguments sy_server {ST}.
Arguments link_get {ST}.
