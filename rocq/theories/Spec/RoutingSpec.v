(** Specification of request dispatch. *)
From Verif.Model Require Import RustStd Path Request Router.
From Verif.Spec Require Import Common PathSpec.

Section Routing.
Context {H W : Type}.

(** Mounting a router stands for the registrations made on it. *)
Definition inline (c : rreg H) : oreg H :=
  match c with RRoute v p h => ORoute v p h | RAdd h => OAdd h end.
Definition flatten1 (c : oreg H) : list (rreg H) :=
  match c with
  | ORoute v p h => [RRoute v p h]
  | OAdd h => [RAdd h]
  | OMount l => l
  end.
Definition flatten (l : list (oreg H)) : list (rreg H) := flat_map flatten1 l.

(** Which request methods a registration method serves. *)
Definition serves (v : verb) (m : method) : Prop :=
  match v with
  | VAll => True
  | VHead => m = MHead
  | VPut => m = MPut
  | VGet => m = MGet
  | VDelete => m = MDelete
  | VPost => m = MPost
  | VPatch => m = MPatch
  end.

(** [pat] is the resolved form of the string [p]. *)
Definition path_means (p : str) (pat : list str) : Prop :=
  exists segs, segments_of segs p /\ resolves segs pat.

(** The registration applies to a request for method [m] and path [path]. *)
Definition applies (with_vars : bool) (m : method) (path : list str) (c : rreg H) : Prop :=
  match c with
  | RRoute v p _ => serves v m /\ exists pat, path_means p pat /\ route_matches with_vars pat path
  | RAdd _ => True
  end.

(** [call] is the invocation of the handler of registration [c]: the right closure, with the
    variables of the registration's own pattern. *)
Definition invokes (with_vars : bool) (path : list str) (c : rreg H) (call : H * varmap) : Prop :=
  match c with
  | RRoute _ p h => fst call = h /\ exists pat, path_means p pat /\
      forall name val, mget seqb name (snd call) = Some val <->
                       (with_vars = true /\ binds pat path name val)
  | RAdd h => call = (h, [])
  end.

(** Run handlers one after the other until one stops the chain (or panics). *)
Context (exec : H -> varmap -> W -> W * outcome flow).
Fixpoint run_chain (l : list (H * varmap)) (w : W) : W * outcome unit :=
  match l with
  | [] => (w, Done tt)
  | (h, vars) :: rest =>
      match exec h vars w with
      | (w', Done FNext) => run_chain rest w'
      | (w', Done FStop) => (w', Done tt)
      | (w', Panic) => (w', Panic)
      end
  end.
End Routing.
