(** How much of a request's path the registrations have in common with it. *)
From Verif.Model Require Import RustStd Path Request Router.
From Verif.Spec Require Import Common PathSpec RoutingSpec RequestSpec.

(** The number of leading segments of [pat] that match those of [path]. *)
Fixpoint agreeing (with_vars : bool) (pat path : list str) : nat :=
  match pat, path with
  | a :: pat', b :: path' =>
      if (match a with x3a :: _ => with_vars | _ => seqb a b end) then S (agreeing with_vars pat' path') else 0
  | _, _ => 0
  end.
Section Work.
Context {H : Type}.
(** What a registration adds to the work for a request of method [m] for [path]: the segments its pattern has
    in common with the path.  Nothing is added by middlewares, by registrations for other methods and by those
    that were rejected. *)
Inductive adds (with_vars : bool) (m : method) (path : list str) : rreg H -> nat -> Prop :=
| adds_route v p h pat : path_means p pat -> serves v m -> adds with_vars m path (RRoute v p h) (agreeing with_vars pat path)
| adds_other v p h : ~ serves v m -> adds with_vars m path (RRoute v p h) 0
| adds_rejected v p h : (forall pat, ~ path_means p pat) -> adds with_vars m path (RRoute v p h) 0
| adds_middleware h : adds with_vars m path (RAdd h) 0.
(** The number of segments of the pattern of a registration *)
Inductive pattern_size : rreg H -> nat -> Prop :=
| size_route v p h pat : path_means p pat -> pattern_size (RRoute v p h) (length pat)
| size_rejected v p h : (forall pat, ~ path_means p pat) -> pattern_size (RRoute v p h) 0
| size_middleware h : pattern_size (RAdd h) 0.
End Work.

(** Every header makes the whole value that its name has by then. *)
Fixpoint written (seen hs : list header) : nat :=
  match hs with
  | [] => 0
  | hd :: rest =>
      match folded (to_ascii_lowercase (h_name hd)) (seen ++ [hd]) with Some v => length v | None => 0 end +
      written (seen ++ [hd]) rest
  end.
