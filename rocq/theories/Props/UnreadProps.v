(** C143: what the server leaves unread of what a client sent.  It closes the connection after its answer; a
    system that closes a TCP connection with received bytes unread sends a reset (RFC 1122, 4.2.2.13), and the
    reset may overtake the answer. *)
From Verif.Model Require Import RustStd Path Request Server Unread.
From Verif.Spec Require Import Common PathSpec TextSpec RequestSpec ServerSpec ArriveSpec.
From Verif.Proofs Require Import UnreadWitness.

(** C143 is false: whatever is sent after a request, in a segment of its own, is left unread, though the request
    is answered. *)
Theorem C143_refuted :
  forall ft cl t x a b rl hs cs,
  real_segments t -> x <> [] -> head_at (stream_of t) a b -> head_means ft cl a rl hs cs ->
  N.of_nat (length b) = announced hs -> (announced hs <= ISIZE_MAX)%N ->
  exists rq, read_request_left ft cl (Transport (segs t ++ [x]) (fin t)) = (IoDone (RdRequest rq), x) /\ rq_line rq = rl /\ rq_body rq = b.
Proof. exact left_behind. Qed.
Print Assumptions C143_refuted.
(** Of a request that is followed by nothing, nothing is left. *)
Theorem C143_nothing_left_partial :
  forall ft cl t a b rl hs cs,
  real_segments t -> head_at (stream_of t) a b -> head_means ft cl a rl hs cs ->
  N.of_nat (length b) = announced hs -> (announced hs <= ISIZE_MAX)%N ->
  snd (read_request_left ft cl t) = [].
Proof. exact left_exact. Qed.
Print Assumptions C143_nothing_left_partial.
(** In general what is left begins behind the body, or behind what came along with the end of the head if that is
    more. *)
Theorem C143_exact_partial :
  forall ft cl t a b early rl hs cs,
  real_segments t -> head_at (stream_of t) a b -> along t early -> head_means ft cl a rl hs cs -> (announced hs <= ISIZE_MAX)%N ->
  snd (read_request_left ft cl t) = skipn (Nat.max (N.to_nat (announced hs)) (length early)) b.
Proof. exact left_carried. Qed.
Print Assumptions C143_exact_partial.
(** Of a request that is refused for its head, all that did not come along with the end of the head is left. *)
Theorem C143_refused_partial :
  forall ft cl t a b early,
  real_segments t -> head_at (stream_of t) a b -> along t early ->
  (head_bad a \/ exists rlt hst, utf8_valid a = true /\ head_parts a rlt hst /\
     ((forall hs, ~ header_block (faithful ft) hst hs) \/ (forall rl, ~ line_means (faithful ft) rlt rl))) ->
  b = early ++ snd (read_request_left ft cl t).
Proof. exact left_refused. Qed.
Print Assumptions C143_refused_partial.
(** Of a stream without a complete head, nothing is left. *)
Theorem C143_no_head_partial :
  forall ft cl t, real_segments t -> ~ occurs CRLFCRLF (stream_of t) -> snd (read_request_left ft cl t) = [].
Proof. exact left_nothing. Qed.
Print Assumptions C143_no_head_partial.
(** The reader that tells what is left reads what the reader of the other properties reads. *)
Theorem C143_is_the_reader : forall ft cl t, fst (read_request_left ft cl t) = read_request ft cl t.
Proof. exact left_same. Qed.
Print Assumptions C143_is_the_reader.
Example C143_example :
  (exists a b rl hs cs, head_at (stream_of in_two) a b /\ head_means default_features demo_lib a rl hs cs /\
     N.of_nat (length b) = announced hs /\ (announced hs <= ISIZE_MAX)%N) /\ real_segments in_two /\
  snd (read_request_left default_features demo_lib in_two) = [] /\
  (exists rq, read_request_left default_features demo_lib two_requests = (IoDone (RdRequest rq), get_hi)) /\
  along bad_and_more (B "abc") /\ head_bad (B "GET") /\
  read_request_left default_features demo_lib bad_and_more = (IoDone RdBad, B "def").
Proof. exact example_143. Qed.
