(** Specification of paths and route patterns.  Only the data types (byte strings, lists) are
    shared with the model. *)
From Coq Require Import List Relations.
From Verif.Model Require Import RustStd.

(** ** Dot-segment resolution *)

Definition dot : str := B ".".
Definition dotdot : str := B "..".

(** A segment that names something. *)
Definition normal (seg : str) : Prop := seg <> [] /\ seg <> dot /\ seg <> dotdot.
Definition no_slash (seg : str) : Prop := ~ In x2f seg.

(** One rewriting step on the list of '/'-separated segments. *)
Inductive resolve_step : list str -> list str -> Prop :=
| rs_empty : forall l r, resolve_step (l ++ [] :: r) (l ++ r)
| rs_dot : forall l r, resolve_step (l ++ dot :: r) (l ++ r)
| rs_cancel : forall l x r, normal x -> resolve_step (l ++ x :: dotdot :: r) (l ++ r).

(** [r] is the fully resolved form of [segs]. *)
Definition resolves (segs r : list str) : Prop :=
  clos_refl_trans _ resolve_step segs r /\ Forall normal r.

(** Some prefix of the segment list has more ".." than names. *)
Definition normal_b (seg : str) : bool :=
  match seg with
  | [] => false
  | [x2e] => false
  | [x2e; x2e] => false
  | _ => true
  end.
Definition dotdot_b (seg : str) : bool :=
  match seg with [x2e; x2e] => true | _ => false end.
Definition count (f : str -> bool) (l : list str) : nat := length (filter f l).
Definition climbs (segs : list str) : Prop :=
  exists k, count normal_b (firstn k segs) < count dotdot_b (firstn k segs).

(** [segs] are the '/'-separated segments of [s]. *)
Definition segments_of (segs : list str) (s : str) : Prop :=
  segs <> [] /\ Forall no_slash segs /\ join (B "/") segs = s.

(** ** Prefixes *)
Definition prefix_of (p l : list str) : Prop := exists rest, l = p ++ rest.

(** ** Route patterns *)

(** A pattern segment ":name" matches anything, any other segment only itself. *)
Definition seg_matches (pat seg : str) : Prop := (exists name, pat = x3a :: name) \/ pat = seg.
Definition pattern_matches (pat path : list str) : Prop := Forall2 seg_matches pat path.

(** [name] is bound to the segment at the last position where the pattern has ":name". *)
Definition binds (pat path : list str) (name val : str) : Prop :=
  exists i, nth_error pat i = Some (x3a :: name) /\ nth_error path i = Some val /\
            forall j, i < j -> nth_error pat j <> Some (x3a :: name).

(** Without URL variables a pattern segment starting with ':' matches nothing. *)
Definition seg_matches_novars (pat seg : str) : Prop := hd_error pat <> Some x3a /\ pat = seg.
Definition route_matches (with_vars : bool) (pat path : list str) : Prop :=
  if with_vars then Forall2 seg_matches pat path else Forall2 seg_matches_novars pat path.
