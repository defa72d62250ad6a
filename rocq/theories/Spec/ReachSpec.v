(** Specification for C145: which routes requests can reach. *)
From Verif.Model Require Import RustStd Path Request Time Status Response Router Server.
From Verif.Spec Require Import Common PathSpec RoutingSpec TextSpec RequestSpec.

(** Text that can be part of the path on a request line: without spaces and line ends (CR LF). *)
Definition line_text (seg : str) : Prop := utf8_valid seg = true /\ ~ In x20 seg /\ ~ occurs [x0d; x0a] seg.
(** A segment that can be in the path of a request. *)
Definition sendable (seg : str) : Prop := normal seg /\ no_slash seg /\ line_text seg.
(** A pattern all of whose segments are variables (if there are variables) or text that can be sent. *)
Definition variable (seg : str) : Prop := exists name, seg = x3a :: name.
Definition reachable (with_vars : bool) (pat : list str) : Prop :=
  Forall (fun seg => (variable seg /\ with_vars = true) \/ (~ variable seg /\ line_text seg)) pat.

(** Handlers that note that they were called, and with which variables, and let the request pass. *)
Definition notes {cl : cookie_lib} {H : Type} (h : H) (mr : matched_request cl) (x : list (H * varmap) * response cl)
  : (list (H * varmap) * response cl) * outcome flow := ((fst x ++ [(h, mr_vars mr)], snd x), Done FNext).
