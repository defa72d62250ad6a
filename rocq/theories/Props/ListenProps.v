(** C75-C78: the plain and the TLS listener.  [tls_lib] is any behaviour of the TLS crates and the file
    system; a [sys_event] list is any order in which connections are accepted, handshakes end and
    things happen on connections. *)
From Verif.Proofs Require Import ListenWitness.
From Verif.Spec Require Import Common PathSpec RoutingSpec TextSpec RequestSpec ResponseSpec ServerSpec ListenSpec.

(** C75.  A server with TLS does for its plain connections what it would do without TLS, whatever the
    TLS set-up, handshakes and connections do. *)
Theorem C75_tls_cannot_disturb_plain :
  forall ft cl (H ST : Type) (handle : H -> matched_request cl -> ST * response cl -> _) (rt : router H)
    tls_id evs tl f c os_tls tl' c' os_tls' os port s0,
  separate tls_id evs ->
  let st := sys_run ft cl handle rt (sys_start tl f c os_tls os port s0) evs in
  let st' := sys_run ft cl handle rt (sys_start tl' TlsNone c' os_tls' os port s0) (filter (plain_side tls_id) evs) in
  sy_plain st = sy_plain st' /\ (forall i, tls_id i = false -> link_get i st = link_get i st') /\
  (read_only handle -> forall i, tls_id i = false -> conn_get i (conns (sy_server st)) = conn_get i (conns (sy_server st'))).
Proof. exact @plain_isolated. Qed.
Print Assumptions C75_tls_cannot_disturb_plain.
Example C75_example : separate odd_plain li_evs /\ read_only ro_handle /\
  conn_get 1 (conns (sy_server (li_run TlsRustls (B "key") li_evs))) = Answered hi_answer /\
  link_get 3 (li_run TlsRustls (B "key") li_evs) = Some LkOpen /\
  link_get 2 (li_run TlsRustls (B "key") li_evs) = Some LkOpen /\
  conn_get 1 (conns (sy_server (li_run TlsRustls (B "pkcs8") li_evs))) = Answered hi_answer /\
  sy_tls (li_run TlsRustls (B "pkcs8") []) = LsPanicked /\
  length (filter (plain_side odd_plain) li_evs) = 4.
Proof. split; [exact li_separate|]. split; [exact ro_read_only|]. repeat split; vm_compute; reflexivity. Qed.

(** C76.  A listener accepts until [accept] fails, and only then stops: connections, handshakes, panics
    and the other listener cannot stop it. *)
Theorem C76_listeners_stop_only_on_accept_errors :
  forall ft cl (H ST : Type) (handle : H -> matched_request cl -> ST * response cl -> _) (rt : router H) evs st,
  (sy_plain (sys_run ft cl handle rt st evs) = LsAccepting <-> sy_plain st = LsAccepting /\ ~ In (SyPlain AcErr) evs) /\
  (sy_tls (sys_run ft cl handle rt st evs) = LsAccepting <-> sy_tls st = LsAccepting /\ ~ In (SyTls AcErr) evs).
Proof. exact @listeners. Qed.
Print Assumptions C76_listeners_stop_only_on_accept_errors.
(** The connections taken on are those offered before the first accept error of their listener. *)
Theorem C76_accepted :
  forall ft cl (H ST : Type) (handle : H -> matched_request cl -> ST * response cl -> _) (rt : router H) evs i st,
  link_get i (sys_run ft cl handle rt st evs) <> None <->
  link_get i st <> None \/
  (exists a b, evs = a ++ SyPlain (AcOk i) :: b /\ sy_plain st = LsAccepting /\ ~ In (SyPlain AcErr) a) \/
  (exists a b, evs = a ++ SyTls (AcOk i) :: b /\ sy_tls st = LsAccepting /\ ~ In (SyTls AcErr) a).
Proof. exact @accepted_all. Qed.
Print Assumptions C76_accepted.
(** The connection tasks see all that happens on an open connection: there is one run of the server of
    C55-C58 on events that are, for each connection, all those after it was opened. *)
Theorem C76_served :
  forall ft cl (H ST : Type) (handle : H -> matched_request cl -> ST * response cl -> _) (rt : router H) st evs,
  exists l,
  sy_server (sys_run ft cl handle rt st evs) = server_run ft cl handle rt (sy_server st) l /\
  (forall i a b, evs = a ++ b -> link_get i (sys_run ft cl handle rt st a) = Some LkOpen -> traffic i a = [] ->
     own i l = traffic i b) /\
  (forall i, link_get i (sys_run ft cl handle rt st evs) <> Some LkOpen -> own i l = []).
Proof. exact @all_heard. Qed.
Print Assumptions C76_served.
Example C76_example :
  sy_plain (li_run TlsOpenssl (B "key") li_evs) = LsAccepting /\ sy_tls (li_run TlsOpenssl (B "key") li_evs) = LsFailed /\
  sy_tls (li_run TlsOpenssl (B "key") (firstn 8 li_evs)) = LsAccepting /\
  map (fun i => link_get i (li_run TlsOpenssl (B "key") li_evs)) [1; 2; 3; 4; 5; 6] =
    [Some LkOpen; Some LkOpen; Some LkOpen; Some LkRefused; None; None] /\
  li_evs = firstn 5 li_evs ++ skipn 5 li_evs /\
  link_get 1 (li_run TlsOpenssl (B "key") (firstn 5 li_evs)) = Some LkOpen /\ traffic 1 (firstn 5 li_evs) = [] /\
  map (fun e => snd (fst e)) (traffic 1 (skipn 5 li_evs)) = [Arrive (firstn 9 get_hi); Arrive (skipn 9 get_hi)].
Proof. repeat split; vm_compute; reflexivity. Qed.

(** C77.  Nothing a TLS peer sends is looked at before its handshake succeeded. *)
Theorem C77_handshake_first :
  forall ft cl (H ST : Type) (handle : H -> matched_request cl -> ST * response cl -> _) (rt : router H) evs i st,
  link_get i st = None -> ~ In (SyPlain (AcOk i)) evs -> untouched i st ->
  ~ untouched i (sys_run ft cl handle rt st evs) ->
  exists a b c, evs = a ++ SyTls (AcOk i) :: b ++ SyHandshake i true :: c /\
    untouched i (sys_run ft cl handle rt st (a ++ SyTls (AcOk i) :: b)) /\
    link_get i (sys_run ft cl handle rt st (a ++ SyTls (AcOk i) :: b)) = Some LkHandshake.
Proof. exact @gate. Qed.
Print Assumptions C77_handshake_first.
(** A peer whose handshake fails changes nothing: listeners, connections and shared state are as if it
    had said nothing, then and later. *)
Theorem C77_failed_handshake_harmless :
  forall ft cl (H ST : Type) (handle : H -> matched_request cl -> ST * response cl -> _) (rt : router H) evs i st,
  link_get i st = Some LkHandshake ->
  let st1 := sys_run ft cl handle rt st (SyHandshake i false :: evs) in
  let st2 := sys_run ft cl handle rt st (others i evs) in
  sy_plain st1 = sy_plain st2 /\ sy_tls st1 = sy_tls st2 /\ sy_server st1 = sy_server st2 /\
  (forall j, j <> i -> link_get j st1 = link_get j st2) /\ link_get i st1 = Some LkRefused.
Proof. exact @refused_harmless. Qed.
Print Assumptions C77_failed_handshake_harmless.
Example C77_example :
  let st := li_run TlsRustls (B "key") in
  link_get 2 (st []) = None /\ untouched 2 (st []) /\ conn_get 2 (conns (sy_server (st li_evs))) = Answered hi_answer /\
  conn_get 2 (conns (sy_server (st (firstn 7 li_evs)))) = Running [] /\
  link_get 4 (st (firstn 4 li_evs)) = Some LkHandshake /\ length (others 4 li_evs) = 11.
Proof. repeat split; vm_compute; reflexivity. Qed.

(** C78.  A TLS set-up that cannot work is reported as an error.  Refuted for rustls: a key file that
    holds no RSA key (PKCS#8, for example) makes the listener task panic. *)
Definition tls_set_up_reported : Prop :=
  forall tl f c os, tls_listener tl f c os <> LsPanicked.
Theorem C78_tls_set_up_reported_refuted : ~ tls_set_up_reported.
Proof.
  intro P. refine (P demo_tls TlsRustls (tls_config (B "pkcs8") (B "cert")) os_fine _). vm_compute. reflexivity.
Qed.
Print Assumptions C78_tls_set_up_reported_refuted.
(** When the rustls acceptor exists, with which certificates and key, and when it panics. *)
Theorem C78_rustls_partial :
  forall tl c,
  (forall certs k, rustls_acceptor tl c = Done (Some (certs, k)) <->
     exists kt ks ct, holds tl (ssl_key (cf_ssl c)) kt /\ tl_rsa_keys tl kt = Some (k :: ks) /\
       holds tl (ssl_cert (cf_ssl c)) ct /\ tl_certs tl ct = Some certs /\ tl_single_cert tl certs k = true) /\
  (rustls_acceptor tl c = Panic <-> exists kt, holds tl (ssl_key (cf_ssl c)) kt /\ tl_rsa_keys tl kt = Some []).
Proof. exact @rustls_exact. Qed.
Print Assumptions C78_rustls_partial.
Theorem C78_openssl_partial :
  forall tl c key cert, openssl_acceptor tl c = Some (key, cert) <->
  key = ssl_key (cf_ssl c) /\ cert = ssl_cert (cf_ssl c) /\
  tl_ossl_init tl = true /\ tl_ossl_key tl key = true /\ tl_ossl_chain tl cert = true.
Proof. exact @openssl_exact. Qed.
Print Assumptions C78_openssl_partial.
(** The TLS listener accepts exactly if its socket and its acceptor are there; otherwise it fails, or
    panics in the one case above. *)
Theorem C78_listener_partial :
  forall tl c os f,
  let ready := match f with
               | TlsNone => False
               | TlsRustls => exists a, rustls_acceptor tl c = Done (Some a)
               | TlsOpenssl => exists a, openssl_acceptor tl c = Some a
               end in
  let socket := os_socket os = true /\ os_nonblocking os = true /\ os_bind os = true /\ os_listen os = true /\
                os_reuse os = true /\ os_from_std os = true in
  (tls_listener tl f c os = LsAccepting <-> socket /\ ready) /\
  (tls_listener tl f c os = LsOff <-> f = TlsNone) /\
  (tls_listener tl f c os = LsPanicked <-> f = TlsRustls /\ socket /\ rustls_acceptor tl c = Panic).
Proof. exact @tls_listener_exact. Qed.
Print Assumptions C78_listener_partial.
Example C78_example :
  rustls_acceptor demo_tls (tls_config (B "key") (B "cert")) = Done (Some ([B "C"], B "K")) /\
  holds demo_tls (B "key") (B "K") /\
  rustls_acceptor demo_tls (tls_config (B "pkcs8") (B "cert")) = Panic /\
  rustls_acceptor demo_tls (tls_config (B "key") (B "missing")) = Done None /\
  openssl_acceptor demo_tls (tls_config (B "key") (B "cert")) = Some (B "key", B "cert") /\
  openssl_acceptor demo_tls (tls_config (B "cert") (B "key")) = None /\
  tls_listener demo_tls TlsOpenssl (tls_config (B "key") (B "cert")) os_fine = LsAccepting /\
  tls_listener demo_tls TlsOpenssl (tls_config (B "key") (B "missing")) os_fine = LsFailed.
Proof. repeat split; vm_compute; reflexivity. Qed.

(** C93.  Starting either goes through all its steps for the port asked for, or stops somewhere before
    accepting and returns an error. *)
Theorem C93_start :
  forall tls os port,
  (can_listen os -> octane_listen tls os port = (start_steps tls port, true)) /\
  (~ can_listen os -> snd (octane_listen tls os port) = false /\
     exists rest, rest <> [] /\ fst (octane_listen tls os port) ++ rest = start_steps tls port).
Proof. exact start_exact. Qed.
Print Assumptions C93_start.
(** The TLS task does the same on the configured port; it gets to the end exactly if it accepts, and up
    to the acceptor if its socket can be had. *)
Theorem C93_tls :
  forall tl f c os, f <> TlsNone ->
  exists rest, fst (tls_start tl f c os) ++ rest = socket_steps (ssl_port (cf_ssl c)) /\
    (rest = [] <-> tls_listener tl f c os = LsAccepting) /\ (can_listen os -> rest = [] \/ rest = [EvAccepting]).
Proof. exact tls_start_exact. Qed.
Print Assumptions C93_tls.
(** Then the server accepts, or has failed; so does the TLS listener, by its own socket and acceptor;
    there is no connection yet and the application's state is untouched. *)
Theorem C93_started :
  forall (ST : Type) tl f c os_tls os port (s0 : ST),
  let st := sys_start tl f c os_tls os port s0 in
  (sy_plain st = LsAccepting <-> can_listen os) /\ (sy_plain st = LsFailed <-> ~ can_listen os) /\
  (f = TlsNone -> sy_tls st = LsOff) /\
  (sy_tls st = LsAccepting <-> can_listen os_tls /\ match f with
                                                   | TlsNone => False
                                                   | TlsRustls => exists a, rustls_acceptor tl c = Done (Some a)
                                                   | TlsOpenssl => exists a, openssl_acceptor tl c = Some a
                                                   end) /\
  (forall i, link_get i st = None) /\ shared (sy_server st) = s0 /\ forall i, conn_get i (conns (sy_server st)) = Running [].
Proof. exact @start_state. Qed.
Print Assumptions C93_started.
Example C93_example :
  can_listen os_fine /\ ~ can_listen (OsResults true true false true true true) /\
  fst (octane_listen true (OsResults true true false true true true) 80) ++ [EvBound 80; EvListening 2048; EvReuseAddr; EvAccepting] =
    start_steps true 80 /\
  fst (tls_start demo_tls TlsOpenssl (tls_config (B "key") (B "cert")) os_fine) = socket_steps (ssl_port (cf_ssl (tls_config (B "key") (B "cert")))) /\
  fst (tls_start demo_tls TlsOpenssl (tls_config (B "key") (B "missing")) os_fine) =
    [EvSocket; EvBound (ssl_port (cf_ssl (tls_config (B "key") (B "missing")))); EvListening 2048; EvReuseAddr].
Proof. split; [repeat split; reflexivity|]. split; [|split; [|split]; reflexivity]. intros (_ & _ & E & _). discriminate E. Qed.
