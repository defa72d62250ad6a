(** C152: the work of reading a request line. *)
From Verif.Model Require Import RustStd Path Request LineCost.
From Verif.Spec Require Import Common.
From Verif.Proofs Require Import LineCostProofs.

(** C152.  Reading a request line takes at most five steps for each byte and a constant, *)
Theorem C152_request_line : forall ft line, snd (request_line_counted ft line) <= 5 * length line + 85.
Proof. exact line_work. Qed.
Print Assumptions C152_request_line.
(** of which at most four for each byte of the path, however many dots, slashes and steps up it has; *)
Theorem C152_path : forall p, snd (path_parse_counted p) <= 4 * length p + 4.
Proof. exact path_work. Qed.
Print Assumptions C152_path.
(** the counting functions give what those of the other theorems give. *)
Theorem C152_counts_the_functions : forall ft line p,
  fst (request_line_counted ft line) = request_line_parse ft line /\ fst (path_parse_counted p) = path_parse p.
Proof. exact same_functions. Qed.
Print Assumptions C152_counts_the_functions.
(** The bound of a path is reached; a line that is refused. *)
Example C152_example :
  path_parse_counted (B "a/b/c") = (Some [B "a"; B "b"; B "c"], 4 * 5 + 4) /\
  path_parse_counted (B "/../x") = (None, 2 + (3 + 1 + 1 + 3 + 1)) /\
  request_line_counted default_features (B "GET /a/../b HTTP/1.1") =
    (Done (Some (RequestLine MGet [B "b"] Http11)), (4 + 8 + 9) + (2 + 8 + 9 + 8) + (1 + 4) + (6 + 1) + 5) /\
  snd (request_line_counted default_features (B "GET")) = 4 + 1.
Proof. repeat split; vm_compute; reflexivity. Qed.
