(** Specification for C144: a system that lets a program hold a limited number of connections. *)
From Verif.Model Require Import RustStd Path Request Time Status Response Router Server Tasks Listen Whole.
From Verif.Spec Require Import Common.

Section Limit.
Context {cl : cookie_lib} {H ST : Type}.
(** Connection [i] has been accepted, and neither its task nor its handshake has ended. *)
Definition held (st : program cl (H := H) (ST := ST)) (i : nat) : Prop :=
  plink_get i st = Some LkHandshake \/
  plink_get i st = Some LkOpen /\ match task_get cl i (tasks (pr_tasks st)) with TClosed _ | TCrashed => False | _ => True end.
(** At least [n] connections are held. *)
Definition held_at_least (n : nat) (st : program cl (H := H) (ST := ST)) : Prop :=
  exists l, NoDup l /\ length l = n /\ forall i, In i l -> held st i.
(** The system hands out connections while fewer than [n] are held, and accepting fails for no other reason than
    that [n] are. *)
Definition possible (n : nat) (st : program cl (H := H) (ST := ST)) (ev : prog_event) : Prop :=
  match ev with
  | PrPlain (AcOk i) | PrTls (AcOk i) => plink_get i st = None /\ ~ held_at_least n st
  | PrPlain AcErr | PrTls AcErr => held_at_least n st
  | _ => True
  end.
(** An execution of the program on this system: each event is possible after those before it. *)
Definition possible_run (n : nat) (run : list prog_event -> program cl (H := H) (ST := ST)) (evs : list prog_event) : Prop :=
  forall a ev b, evs = a ++ ev :: b -> possible n (run a) ev.
End Limit.
(** The clients do nothing but connect. *)
Definition silent (evs : list prog_event) : Prop :=
  forall ev, In ev evs -> match ev with PrTask _ _ _ | PrHandshake _ _ => False | _ => True end.
