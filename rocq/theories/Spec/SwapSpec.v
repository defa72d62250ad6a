(** Specification for C140: when one application can take the place of another. *)
From Verif.Model Require Import RustStd Path Request Time Status Response Router Server Tasks Listen Whole.
From Verif.Spec Require Import Common PathSpec RoutingSpec TextSpec RequestSpec ResponseSpec ServerSpec.

Section Swap.
Context {H : Type}.
(** The same handler with the same variables. *)
Definition same_call (c c' : H * varmap) : Prop :=
  fst c = fst c' /\ forall name, mget seqb name (snd c) = mget seqb name (snd c').
(** The handlers that [app] has for a request with this method and path, in order, with their variables. *)
Definition calls_for (with_vars : bool) (m : method) (path : list str) (app : list (oreg H)) (calls : list (H * varmap)) : Prop :=
  exists sel, selects (applies with_vars m path) (flatten app) sel /\ Forall2 (invokes with_vars path) sel calls.
(** Some request that gets as far as the handlers has this method and path. *)
Definition asked_for (ft : features) (cl : cookie_lib) (m : method) (path : list str) : Prop :=
  exists s rl hs cs body, carries ft cl s rl hs cs body /\ ~ lacks_host rl hs /\ rl_method rl <> MNone /\
    m = rl_method rl /\ path = rl_path rl.
(** Two applications that have the same handlers, with the same variables, for every request. *)
Definition interchangeable (ft : features) (cl : cookie_lib) (app app' : list (oreg H)) : Prop :=
  forall m path, asked_for ft cl m path ->
  exists calls calls', calls_for (url_variables ft) m path app calls /\ calls_for (url_variables ft) m path app' calls' /\
    Forall2 same_call calls calls'.
(** The same registration, but perhaps with another spelling of the same path. *)
Definition respelled (c c' : rreg H) : Prop :=
  match c, c' with
  | RRoute v p h, RRoute v' p' h' => v = v' /\ h = h' /\ forall pat, path_means p pat <-> path_means p' pat
  | RAdd h, RAdd h' => h = h'
  | _, _ => False
  end.
End Swap.

Section Handlers.
Context {cl : cookie_lib} {H ST : Type}.
(** Handlers that take the variables as what they are, a map from names to values. *)
Definition looks_up (handle : H -> matched_request cl -> ST * response cl -> (ST * response cl) * outcome flow) : Prop :=
  forall h rq vars vars' x, (forall name, mget seqb name vars = mget seqb name vars') ->
  handle h (MatchedRequest rq vars) x = handle h (MatchedRequest rq vars') x.

(** Two tasks at the same stage, with the same bytes received and sent. *)
Definition tasks_alike (t t' : task cl (H := H)) : Prop :=
  match t, t' with
  | TReading received, TReading received' => received = received'
  | TWorking _, TWorking _ => True
  | TSending sent rest, TSending sent' rest' => sent = sent' /\ rest = rest'
  | TClosed sent, TClosed sent' => sent = sent'
  | TCrashed, TCrashed => True
  | _, _ => False
  end.
(** Two programs with the same state of the application, the same listeners and the same connections. *)
Definition programs_alike (st st' : program cl (H := H) (ST := ST)) : Prop :=
  pr_up st = pr_up st' /\ pr_plain st = pr_plain st' /\ pr_tls st = pr_tls st' /\ pr_links st = pr_links st' /\
  tshared (pr_tasks st) = tshared (pr_tasks st') /\
  forall i, tasks_alike (task_get cl i (tasks (pr_tasks st))) (task_get cl i (tasks (pr_tasks st'))).
End Handlers.
