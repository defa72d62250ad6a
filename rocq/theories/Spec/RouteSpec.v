(** Specification of route-table lookup and of iterators. *)
From Coq Require Import Permutation.
From Verif.Model Require Import RustStd Path.
From Verif.Spec Require Import Common PathSpec.

(** [res] is what looking up [path] should return in a table holding the entries [log]: in some
    order, the entries whose own pattern matches, each with the variables of its own pattern. *)
Definition lookup_result {T} (with_vars : bool) (log : list (pathdata T)) (path : list str)
  (res : list (matchedpath T)) : Prop :=
  exists matching shown,
    selects (fun d => route_matches with_vars (orig_path d) path) log matching /\
    Permutation matching shown /\
    Forall2 (fun d r =>
      mp_data r = data d /\
      forall name val, mget seqb name (mp_vars r) = Some val <->
                       (with_vars = true /\ binds (orig_path d) path name val)) shown res.

(** One call of [next] on an iterator whose loop body is [body]: repeat the body until it returns. *)
Inductive next_call {S A} (body : S -> loop_result S A) : S -> option A -> S -> Prop :=
| nc_yield : forall s a s', body s = Yield a s' -> next_call body s (Some a) s'
| nc_end : forall s s', body s = Exhausted s' -> next_call body s None s'
| nc_again : forall s s1 r s2, body s = Continue s1 -> next_call body s1 r s2 -> next_call body s r s2.

(** Successive calls of [next] yield [l] and then [None], leaving the iterator in state [s']. *)
Inductive next_calls {S A} (body : S -> loop_result S A) : S -> list A -> S -> Prop :=
| ncs_end : forall s s', next_call body s None s' -> next_calls body s [] s'
| ncs_more : forall s a s1 l s', next_call body s (Some a) s1 -> next_calls body s1 l s' ->
                                 next_calls body s (a :: l) s'.
