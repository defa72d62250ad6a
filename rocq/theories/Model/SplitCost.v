(** The work of splitting at a sequence: [Spliterator] of src/util.rs:9-48 again, counting the comparisons of
    elements that [find_in_slice] makes (octane_http/src/http1x/mod.rs:62). *)
From Verif.Model Require Export RustStd Request Cost.

(** src/util.rs:32-47 [Spliterator::next] *)
Definition spliterator_next_counted (t : spliterator) : (option str * spliterator) * nat :=
  if sp_finished t then ((None, t), 0)
  else let r := find_in_slice_counted (sp_string t) (sp_seq t) in
       (match fst r with
        | Some v =>
            (Some (firstn v (sp_string t)),
             Spliterator (skipn (length (sp_seq t)) (skipn v (sp_string t))) false (sp_seq t))
        | None => (Some (sp_string t), Spliterator (sp_string t) true (sp_seq t))
        end, snd r).
(** src/util.rs:29-48, src/request.rs:207, 211 taking all pieces *)
Fixpoint spliterator_collect_counted (fuel : nat) (t : spliterator) : option (list str) * nat :=
  match fuel with
  | O => (None, 0)
  | S f =>
      let x := spliterator_next_counted t in
      match fst x with
      | (None, _) => (Some [], snd x)
      | (Some p, t') =>
          let r := spliterator_collect_counted f t' in
          (match fst r with Some l => Some (p :: l) | None => None end, snd x + snd r)
      end
  end.
