(** Specification of executions whose outcome does not depend on the schedule. *)
From Verif.Model Require Import RustStd Path Request Time Status Response Router Server Tasks.
From Verif.Spec Require Import Common PathSpec RoutingSpec TextSpec RequestSpec ResponseSpec ServerSpec TaskSpec.

Section Records.
Context (ft : features) (cl : cookie_lib) {H ST : Type}
  (handle : H -> matched_request cl -> ST * response cl -> (ST * response cl) * outcome flow).

(** Handlers that only record: what they answer does not depend on the shared state, and the changes
    they make to it ([upd]) commute, as counting, adding to a set or raising a maximum do. *)
Definition records : Prop :=
  exists (upd : H -> matched_request cl -> response cl -> ST -> ST)
         (dec : H -> matched_request cl -> response cl -> response cl * outcome flow),
  (forall h mr s r, handle h mr (s, r) = ((upd h mr r s, fst (dec h mr r)), snd (dec h mr r))) /\
  (forall h mr r h' mr' r' s, upd h mr r (upd h' mr' r' s) = upd h' mr' r' (upd h mr r s)).

(** No request is being worked on. *)
Definition settled (st : tasks_state cl (H := H) (ST := ST)) : Prop :=
  forall i j, task_get cl i (tasks st) <> TWorking j.

(** What an answer is composed from: an error, or the response of the handlers. *)
Inductive source := FromError (code : status_code) | FromResponse (res : response cl).
(** The answer composed in the world [w] with hash order [ho]. *)
Definition composed (w : world) (ho : order) (pos : list nat) (src : source) (out : str) : Prop :=
  match src with
  | FromError code => error_send ft w ho pos code (cl := cl) = Done out
  | FromResponse res => out = octane_send (get_data ft w ho pos res)
  end.
(** Task [i], if it has ended, has ended with the verdict [v]: an answer composed from some source
    while the task ran, or a panic. *)
Definition ended (i : nat) (evs : list (nat * task_event * (world * order))) (v : option source)
    (t : task cl (H := H)) : Prop :=
  match t with
  | TReading _ | TWorking _ => True
  | TSending sent rest => exists src w ho, v = Some src /\ In (i, TRun, (w, ho)) evs /\
      composed w ho [i] src (sent ++ rest)
  | TClosed sent => exists src w ho rest, v = Some src /\ In (i, TRun, (w, ho)) evs /\
      composed w ho [i] src (sent ++ rest) /\ (writes_succeed i evs -> rest = [])
  | TCrashed => v = None
  end.
End Records.
Arguments FromError {cl}.
Arguments FromResponse {cl}.
