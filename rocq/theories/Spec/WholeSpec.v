(** Specification of the whole program. *)
From Verif.Model Require Import RustStd Path Request Time Status Response Router Server Tasks Listen Whole.
From Verif.Spec Require Import Common TaskSpec ListenSpec.

(** What happens to the tasks of connections. *)
Definition task_part (evs : list prog_event) : list (nat * task_event * (world * order)) :=
  flat_map (fun ev => match ev with PrTask i e x => [(i, e, x)] | _ => [] end) evs.
(** In the course of [evs] the number [i] is given to a connection by a listener that is still there; [plain] and
    [tls] say whether the listeners came up. *)
Definition taken_on (plain tls : Prop) (i : nat) (evs : list prog_event) : Prop :=
  (plain /\ exists a b, evs = a ++ PrPlain (AcOk i) :: b /\ ~ In (PrPlain AcErr) a) \/
  (tls /\ exists a b, evs = a ++ PrTls (AcOk i) :: b /\ ~ In (PrTls AcErr) a).
(** In the course of [evs] connection [i] (the first with that number) is accepted by a listener that is still
    there, and if that is the TLS listener, its handshake succeeds. *)
Definition opened (plain tls : Prop) (i : nat) (evs : list prog_event) : Prop :=
  (plain /\ exists a b, evs = a ++ PrPlain (AcOk i) :: b /\ ~ In (PrPlain AcErr) a /\ ~ taken_on plain tls i a) \/
  (tls /\ exists a b c, evs = a ++ PrTls (AcOk i) :: b ++ PrHandshake i true :: c /\
     ~ In (PrTls AcErr) a /\ ~ taken_on plain tls i a /\ ~ In (PrHandshake i false) b).
(** The caller of [listen] has returned: it can, once the plain listener has not come up or has failed. *)
Definition ended (plain : Prop) (evs : list prog_event) : Prop :=
  exists a b, evs = a ++ PrReturn :: b /\ (plain -> In (PrPlain AcErr) a).
