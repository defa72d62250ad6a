(** C53, C54: configuration. *)
From Verif.Model Require Import RustStd Config.
From Verif.Spec Require Import Common ConfigSpec.
From Verif.Proofs Require Import ConfigProofs.

(** C53: after any sequence of calls and assignments to the public fields every setting has the value last assigned to it. *)
Theorem C53_last_call_wins : forall l c, follows c (flat_map assigns l) (configure l c).
Proof. exact config_follows. Qed.
Print Assumptions C53_last_call_wins.
(** ... and that determines the configuration. *)
Theorem C53_determined : forall c l c1 c2, follows c l c1 -> follows c l c2 -> c1 = c2.
Proof. exact follows_fun. Qed.
Print Assumptions C53_determined.
Theorem C53_with_config :
  forall l c0 c, let c' := configure (l ++ [CallWithConfig c]) c0 in
  cf_keep_alive c' = cf_keep_alive c /\ cf_ssl c' = cf_ssl c.
Proof. exact with_config_replaces. Qed.
Print Assumptions C53_with_config.
Theorem C53_settings : forall l c0 c, configure (l ++ [SetSettings c]) c0 = c.
Proof. exact settings_replace. Qed.
Print Assumptions C53_settings.
Example C53_fields_example :
  configure [CallWithSsl (Ssl (B "k") (B "c") 8443); SetSettings (Config None (Ssl (B "a") (B "b") 1) (Some 3%N));
             EditSsl [SetPort 2; SetKey (B "x")]; SetKeepAlive (Some 9%N); CallWithSsl (Ssl (B "k") (B "c") 8443); SetKeepAlive None]
    config_new = Config None (Ssl (B "k") (B "c") 2) (Some 3%N) /\
  configure [SetSettings (Config (Some 1%N) ssl_new (Some 3%N)); SetSsl (Ssl (B "k") [] 7)] config_new =
    Config (Some 1%N) (Ssl (B "k") [] 7) (Some 3%N).
Proof. split; reflexivity. Qed.
Example C53_example :
  let c := Config (Some 7%N) (Ssl (B "k") (B "c") 8443) (Some 3%N) in
  configure [CallKeepAlive 1; CallSsl 1000 [SetKey (B "x"); SetCert (B "y")]; CallWithConfig c; CallSsl 9000 [SetKey (B "z")]]
    config_new = Config (Some 7%N) (Ssl (B "z") (B "c") 9000) None /\
  last_in (fun a v => a = AKey v)
    (flat_map assigns [CallWithConfig c; CallSsl 9000 [SetKey (B "z")]]) (Some (B "z")).
Proof.
  split; [reflexivity|]. eexists _, _, []. split; [|split; [reflexivity|intros ? ? []]].
  cbn [flat_map assigns app map edit_assigns].
  instantiate (1 := [AKeep (Some 7%N); AKey (B "k"); ACert (B "c"); APort 8443; APort 9000]). reflexivity.
Qed.

(** C54: without those two calls every assignment is made; with_config never changes the number
    of worker threads, with_ssl_config never the port. *)
Theorem C54_nothing_dropped_partial :
  forall l c, Forall (fun x => match x with CallWithSsl _ | CallWithConfig _ => False | _ => True end) l ->
  follows c (flat_map promised l) (configure l c).
Proof. exact config_promise. Qed.
Print Assumptions C54_nothing_dropped_partial.
Theorem C54_worker_threads_refuted :
  forall c0 c, cf_worker_threads c <> cf_worker_threads c0 ->
  ~ follows c0 (flat_map promised [CallWithConfig c]) (configure [CallWithConfig c] c0).
Proof. exact workers_dropped. Qed.
Print Assumptions C54_worker_threads_refuted.
Theorem C54_ssl_port_refuted :
  forall c0 s, ssl_port s <> ssl_port (cf_ssl c0) ->
  ~ follows c0 (flat_map promised [CallWithSsl s]) (configure [CallWithSsl s] c0).
Proof. exact port_dropped. Qed.
Print Assumptions C54_ssl_port_refuted.
Example C54_example :
  cf_worker_threads (configure [CallWithConfig (config_worker_threads 4 config_new)] config_new) = None /\
  ssl_port (cf_ssl (configure [CallWithSsl (Ssl (B "k") (B "c") 8443)] config_new)) = 443%N.
Proof. split; reflexivity. Qed.

(** C92: settings no call assigns are the documented defaults: 5 seconds (in nanoseconds) and port 443. *)
Theorem C92_defaults :
  forall l, follows (Config (Some 5000000000%N) (Ssl [] [] 443) None) (flat_map assigns l) (configure l config_new).
Proof. exact config_defaults. Qed.
Print Assumptions C92_defaults.
Example C92_example :
  last_in (fun a v => a = AKeep v) (flat_map assigns [CallWorkers 3]) None /\
  cf_keep_alive (configure [CallWorkers 3] config_new) = Some 5000000000%N.
Proof. split; [|reflexivity]. intros a v [<-|[]] E. discriminate E. Qed.
