(** Model of src/config.rs and of the configuration part of src/server.rs. *)
From Verif.Model Require Export RustStd.

(** src/config.rs:30-37 [Ssl]; a [PathBuf] is its text, the port a number below 2^16. *)
Record ssl := Ssl { ssl_key : str; ssl_cert : str; ssl_port : N }.
(** src/config.rs:42-48 [Ssl::new] *)
Definition ssl_new : ssl := Ssl [] [] 443.
(** src/config.rs:61-64 [key], 77-80 [cert] *)
Definition ssl_set_key (p : str) (s : ssl) : ssl := Ssl p (ssl_cert s) (ssl_port s).
(** src/config.rs:77-80 [cert] *)
Definition ssl_set_cert (p : str) (s : ssl) : ssl := Ssl (ssl_key s) p (ssl_port s).

(** src/config.rs:103-109 [OctaneConfig]; a Duration in nanoseconds. *)
Record config := Config {
  cf_keep_alive : option N;
  cf_ssl : ssl;
  cf_worker_threads : option N
}.
(** [Duration::from_secs] (src/config.rs:207): durations are numbers of nanoseconds *)
Definition secs (n : N) : N := (n * 1000000000)%N.
(** src/config.rs:204-210 [OctaneConfig::new] *)
Definition config_new : config := Config (Some (secs 5)) ssl_new None.
(** src/config.rs:212-215 [append] *)
Definition config_append (self settings : config) : config :=
  Config (cf_keep_alive settings) (cf_ssl settings) (cf_worker_threads self).
(** src/config.rs:221-224 [worker_threads] *)
Definition config_worker_threads (n : N) (c : config) : config :=
  Config (cf_keep_alive c) (cf_ssl c) (Some n).
(** src/config.rs:248-250 [set_keepalive]; same for Octane, src/server.rs:261-263 *)
Definition config_set_keepalive (d : N) (c : config) : config :=
  Config (Some d) (cf_ssl c) (cf_worker_threads c).
(** src/config.rs:252-255 [with_ssl_config]; same for Octane, src/server.rs:264-267 *)
Definition config_with_ssl (s : ssl) (c : config) : config :=
  Config (cf_keep_alive c) (Ssl (ssl_key s) (ssl_cert s) (ssl_port (cf_ssl c)))
         (cf_worker_threads c).
(** src/config.rs:256-259 [ssl(port)], same for Octane, src/server.rs:268-271, followed by [f] on
    the returned [&mut Ssl]. *)
Definition config_ssl (port : N) (f : ssl -> ssl) (c : config) : config :=
  let s := cf_ssl c in
  Config (cf_keep_alive c) (f (Ssl (ssl_key s) (ssl_cert s) port)) (cf_worker_threads c).

(** One configuration call on an [Octane] or an [OctaneConfig] (src/config.rs:61-80, 221-224, 247-260,
    src/server.rs:81-83, 260-272), or an assignment to a public field (src/config.rs:32-36, 105, 107,
    src/server.rs:49) *)
Inductive cfg_op :=
| CfKeepAlive (d : N)
| CfWithSsl (s : ssl)
| CfSsl (port : N) (f : ssl -> ssl)
| CfWorkers (n : N)            (* OctaneConfig only *)
| CfWithConfig (c : config)    (* Octane::with_config, src/server.rs:81-83 *)
| CfKeepAliveField (d : option N)     (* settings.keep_alive = d, src/config.rs:105 *)
| CfSslField (f : ssl -> ssl)  (* settings.ssl = s, or calls and assignments on settings.ssl, src/config.rs:107 *)
| CfSettings (c : config).     (* app.settings = c, src/server.rs:49 *)
(** src/config.rs:61-80, 221-224, 247-260, src/server.rs:81-83, 260-272: the call itself; the
    assignments to fields: src/config.rs:105, 107, src/server.rs:49 *)
Definition apply_cfg (c : config) (o : cfg_op) : config :=
  match o with
  | CfKeepAlive d => config_set_keepalive d c
  | CfWithSsl s => config_with_ssl s c
  | CfSsl p f => config_ssl p f c
  | CfWorkers n => config_worker_threads n c
  | CfWithConfig s => config_append c s
  | CfKeepAliveField d => Config d (cf_ssl c) (cf_worker_threads c)
  | CfSslField f => Config (cf_keep_alive c) (f (cf_ssl c)) (cf_worker_threads c)
  | CfSettings s => s
  end.
