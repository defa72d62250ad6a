(** Specification of configuration: every call assigns some settings; the last assignment counts. *)
From Verif.Model Require Import RustStd Config.
From Verif.Spec Require Import Common.

(** What an application does with the [&mut Ssl] returned by [ssl(port)], or with the field [ssl]. *)
Inductive ssl_edit := SetKey (p : str) | SetCert (p : str) | SetPort (n : N).
Definition edit_ssl (s : ssl) (e : ssl_edit) : ssl :=
  match e with
  | SetKey p => ssl_set_key p s
  | SetCert p => ssl_set_cert p s
  | SetPort n => Ssl (ssl_key s) (ssl_cert s) n     (* the field is public *)
  end.
(** One configuration call, or assignment to public fields. *)
Inductive call :=
| CallKeepAlive (d : N)
| CallWithSsl (s : ssl)
| CallSsl (port : N) (es : list ssl_edit)
| CallWorkers (n : N)
| CallWithConfig (c : config)
| SetKeepAlive (d : option N)      (* settings.keep_alive = d *)
| SetSsl (s : ssl)                 (* settings.ssl = s *)
| EditSsl (es : list ssl_edit)     (* settings.ssl.key(..), settings.ssl.port = .. *)
| SetSettings (c : config).        (* app.settings = c *)
Definition call_op (c : call) : cfg_op :=
  match c with
  | CallKeepAlive d => CfKeepAlive d
  | CallWithSsl s => CfWithSsl s
  | CallSsl p es => CfSsl p (fun s => fold_left edit_ssl es s)
  | CallWorkers n => CfWorkers n
  | CallWithConfig c => CfWithConfig c
  | SetKeepAlive d => CfKeepAliveField d
  | SetSsl s => CfSslField (fun _ => s)
  | EditSsl es => CfSslField (fun s => fold_left edit_ssl es s)
  | SetSettings c => CfSettings c
  end.
Definition configure (l : list call) (c : config) : config :=
  fold_left apply_cfg (map call_op l) c.

Inductive assignment :=
| AKeep (d : option N) | AKey (p : str) | ACert (p : str) | APort (n : N) | AWorkers (n : option N).
Definition edit_assigns (e : ssl_edit) : assignment :=
  match e with SetKey p => AKey p | SetCert p => ACert p | SetPort n => APort n end.
(** The assignments of a call, as the code makes them. *)
Definition assigns (c : call) : list assignment :=
  match c with
  | CallKeepAlive d => [AKeep (Some d)]
  | CallWithSsl s => [AKey (ssl_key s); ACert (ssl_cert s)]
  | CallSsl p es => APort p :: map edit_assigns es
  | CallWorkers n => [AWorkers (Some n)]
  | CallWithConfig c =>
      [AKeep (cf_keep_alive c); AKey (ssl_key (cf_ssl c)); ACert (ssl_cert (cf_ssl c)); APort (ssl_port (cf_ssl c))]
  | SetKeepAlive d => [AKeep d]
  | SetSsl s => [AKey (ssl_key s); ACert (ssl_cert s); APort (ssl_port s)]
  | EditSsl es => map edit_assigns es
  | SetSettings c =>
      [AKeep (cf_keep_alive c); AKey (ssl_key (cf_ssl c)); ACert (ssl_cert (cf_ssl c)); APort (ssl_port (cf_ssl c));
       AWorkers (cf_worker_threads c)]
  end.
(** ... and as its documentation promises ("replaces the current ssl config", "appends the config"). *)
Definition promised (c : call) : list assignment :=
  match c with
  | CallWithSsl s => [AKey (ssl_key s); ACert (ssl_cert s); APort (ssl_port s)]
  | CallWithConfig c =>
      [AKeep (cf_keep_alive c); AKey (ssl_key (cf_ssl c)); ACert (ssl_cert (cf_ssl c)); APort (ssl_port (cf_ssl c));
       AWorkers (cf_worker_threads c)]
  | _ => assigns c
  end.
Definition or_else {A} (o : option A) (d : A) : A := match o with Some a => a | None => d end.

(** [c'] has the settings of [c] changed by the assignments [l], the last one of each kind. *)
Definition follows (c : config) (l : list assignment) (c' : config) : Prop :=
  (forall o, last_in (fun a v => a = AKeep v) l o -> cf_keep_alive c' = or_else o (cf_keep_alive c)) /\
  (forall o, last_in (fun a v => a = AKey v) l o -> ssl_key (cf_ssl c') = or_else o (ssl_key (cf_ssl c))) /\
  (forall o, last_in (fun a v => a = ACert v) l o -> ssl_cert (cf_ssl c') = or_else o (ssl_cert (cf_ssl c))) /\
  (forall o, last_in (fun a v => a = APort v) l o -> ssl_port (cf_ssl c') = or_else o (ssl_port (cf_ssl c))) /\
  (forall o, last_in (fun a v => a = AWorkers v) l o -> cf_worker_threads c' = or_else o (cf_worker_threads c)).
