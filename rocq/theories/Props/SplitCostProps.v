(** C151: the work of splitting at a sequence. *)
From Verif.Model Require Import RustStd Request Cost SplitCost.
From Verif.Spec Require Import Common TextSpec RequestSpec.
From Verif.Proofs Require Import SplitCostProofs.

(** C151.  However often the sequence occurs, taking all pieces makes at most as many comparisons for each element as
    the sequence is long (two for the lines of a head), *)
Theorem C151_splitting : forall s q fuel, q <> [] ->
  snd (spliterator_collect_counted fuel (spliterator_new s q)) <= length q * length s.
Proof. exact split_work. Qed.
Print Assumptions C151_splitting.
(** where the counting iterator gives what the one of the other theorems gives. *)
Theorem C151_counts_the_iterator : forall fuel t,
  fst (spliterator_collect_counted fuel t) = spliterator_collect fuel t /\ fst (spliterator_next_counted t) = spliterator_next t.
Proof. exact split_same. Qed.
Print Assumptions C151_counts_the_iterator.
Example C151_example :
  let s := B "ab" ++ CRLF ++ CRLF ++ B "c" in
  spliterator_collect_counted 9 (spliterator_new s CRLF) = (Some [B "ab"; []; B "c"], 4 + 2 + 0) /\
  snd (spliterator_collect_counted 9 (spliterator_new [x0d; x0d; x0d; x0d] CRLF)) = 2 * 3.
Proof. split; vm_compute; reflexivity. Qed.
