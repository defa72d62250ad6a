(** C111-C114: default responses, attachment names, memory for bodies, and which headers matter.  Handlers,
    cookie library, world, hash orders and router are arbitrary. *)
From Verif.Model Require Import RustStd Path Request Time Status Response Router Server Memory.
From Verif.Spec Require Import Common TextSpec RequestSpec ResponseSpec ServerSpec ClientSpec.
From Verif.Proofs Require Import RequestExtra ResponseWitness ServerWitness ConformWitness ClientProofs ClientWitness.

(** C111.  The default response, sent as it is, is an empty 200 answer without headers; *)
Theorem C111_default_answer :
  forall cl ft w ho pos, octane_send (get_data ft w ho pos (response_default (cl := cl))) = B "HTTP/1.1 200 OK" ++ CRLFCRLF.
Proof. exact @default_wire. Qed.
Print Assumptions C111_default_answer.
(** sending a body makes of it what it makes of the response handlers are given; *)
Theorem C111_sends : forall cl w b, res_send w b (response_default (cl := cl)) = res_send w b new_empty.
Proof. exact @default_sends. Qed.
Print Assumptions C111_sends.
(** and its default headers announce the empty body it has. *)
Theorem C111_length :
  forall cl w (r : response cl), default_headers w response_default = Done r ->
  res_get (B "Content-Length") r = Some (B "0") /\ rs_body r = BodySized 0 (RCursor []).
Proof. exact @default_length. Qed.
Print Assumptions C111_length.
Example C111_example : exists r, default_headers ex_world (response_default (cl := demo_lib)) = Done r.
Proof. eexists. vm_compute. reflexivity. Qed.

(** C112.  A client that reads the quoted string of the Content-Disposition header gets the name of the
    attachment if it consists of visible ASCII characters and spaces. *)
Theorem C112_name_read_partial :
  forall cl w f (r : response cl), Forall printable f -> exists v,
  res_get (B "Content-Disposition") (attachment_with_filename w f r) = Some (B "attachment; filename = " ++ v) /\
  quoted_string v f /\ forall f', quoted_string v f' -> f' = f.
Proof. exact @name_read. Qed.
Print Assumptions C112_name_read_partial.
(** A tab is read as the letter t. *)
Theorem C112_refuted :
  forall cl w a b (r : response cl), Forall printable a -> Forall printable b -> exists v,
  res_get (B "Content-Disposition") (attachment_with_filename w (a ++ [x09] ++ b) r) = Some (B "attachment; filename = " ++ v) /\
  quoted_string v (a ++ B "t" ++ b) /\ forall f', quoted_string v f' -> f' = a ++ B "t" ++ b.
Proof. exact @tab_misread. Qed.
Print Assumptions C112_refuted.
(** Of the ASCII names exactly those are read back that consist of visible characters and spaces. *)
Theorem C112_exact_partial :
  forall cl w f (r : response cl), Forall (fun b => (bN b < 128)%N) f -> exists v,
  res_get (B "Content-Disposition") (attachment_with_filename w f r) = Some (B "attachment; filename = " ++ v) /\
  (quoted_string v f <-> Forall printable f).
Proof. exact @name_read_exact. Qed.
Print Assumptions C112_exact_partial.
(** Different ASCII names give different headers (for others the escaping is simplified in the model). *)
Theorem C112_distinct :
  forall cl w w' f f' (r r' : response cl), Forall (fun b => (bN b < 128)%N) (f ++ f') -> dbg_sq w = dbg_sq w' ->
  res_get (B "Content-Disposition") (attachment_with_filename w f r) =
  res_get (B "Content-Disposition") (attachment_with_filename w' f' r') -> f = f'.
Proof. exact @names_distinct. Qed.
Print Assumptions C112_distinct.
Example C112_example :
  let f := B "my " ++ [x22] ++ B "notes" ++ [x22; x5c] ++ B ".txt" in
  Forall printable f /\
  res_get (B "Content-Disposition") (attachment_with_filename ex_world f (new_empty (cl := demo_lib))) =
    Some (B "attachment; filename = " ++ [x22] ++ B "my " ++ [x5c; x22] ++ B "notes" ++ [x5c; x22; x5c; x5c] ++ B ".txt" ++ [x22]).
Proof. split; [|reflexivity]. repeat apply Forall_cons; try apply Forall_nil; split; vm_compute; discriminate. Qed.

(** C113 is false: the memory reserved for a body is not bounded by what has been received.  For every
    length there is a head of at most 60 bytes that makes the server reserve that much and wait. *)
Theorem C113_refuted :
  forall n, (0 < n <= ISIZE_MAX)%N ->
  exists t, real_segments t /\ fin t = Stall /\ length (stream_of t) <= 60 /\
    read_request_counted default_features demo_lib t = (IoBlocked, n).
Proof. exact short_head_reserves. Qed.
Print Assumptions C113_refuted.
(** In general the announced length is reserved as soon as the head has arrived, *)
Theorem C113_reserved_at_once :
  forall ft cl t a rl hs cs, real_segments t -> fin t = Stall -> head_at (stream_of t) a [] -> head_means ft cl a rl hs cs ->
  (0 < announced hs <= ISIZE_MAX)%N -> read_request_counted ft cl t = (IoBlocked, announced hs).
Proof. exact reserved_at_once. Qed.
Print Assumptions C113_reserved_at_once.
(** never more than twice that, *)
Theorem C113_bound_partial :
  forall ft cl t a b rl hs cs, real_segments t -> head_at (stream_of t) a b -> head_means ft cl a rl hs cs ->
  (snd (read_request_counted ft cl t) <= 2 * announced hs)%N.
Proof. exact reserved_bound. Qed.
Print Assumptions C113_bound_partial.
(** and nothing before. *)
Theorem C113_nothing_before_the_head :
  forall ft cl t, real_segments t -> ~ occurs CRLFCRLF (stream_of t) -> snd (read_request_counted ft cl t) = 0%N.
Proof. exact no_head_reserves_nothing. Qed.
Print Assumptions C113_nothing_before_the_head.
(** The counting reader computes what the server's computes. *)
Theorem C113_counts_the_reader : forall ft cl t, fst (read_request_counted ft cl t) = read_request ft cl t.
Proof. exact counted_same. Qed.
Print Assumptions C113_counts_the_reader.
Example C113_example :
  length (announcing 1000000000000) = 49 /\
  (exists a, head_at (announcing 1000000000000) a [] /\
     head_means default_features demo_lib a (RequestLine MPut [] Http11) [Header (B "Content-Length") (B "1000000000000")] []) /\
  read_request_counted default_features demo_lib (Transport [announcing 5; B "abc"; B "de"] Stall) =
    (read_request default_features demo_lib (Transport [announcing 5; B "abc"; B "de"] Stall), 10%N).
Proof. split; [reflexivity|]. split; [exact (announcing_head 1000000000000)|vm_compute; reflexivity]. Qed.

(** C114.  If the handlers look at headers by name only, then the order of the headers has no influence on
    the answer (repeated headers of one name keeping theirs), *)
Theorem C114_order :
  forall ft cl (H ST : Type) (handle : H -> matched_request cl -> ST * response cl -> (ST * response cl) * outcome flow)
    t t' a a' b rl hs hs' cs cs' rt w ho pos s,
  real_segments t -> real_segments t' -> head_at (stream_of t) a b -> head_at (stream_of t') a' b ->
  head_means ft cl a rl hs cs -> head_means ft cl a' rl hs' cs' ->
  announced hs = N.of_nat (length b) -> (announced hs <= ISIZE_MAX)%N ->
  reordered hs hs' -> looks_up (fun _ => True) handle ->
  serve ft cl handle w ho pos rt s t = serve ft cl handle w ho pos rt s t'.
Proof. exact @order_irrelevant. Qed.
Print Assumptions C114_order.
(** and a header no handler looks up has none either, unless it is Host, Content-Length or Cookie. *)
Theorem C114_unused_headers :
  forall ft cl (H ST : Type) (handle : H -> matched_request cl -> ST * response cl -> (ST * response cl) * outcome flow)
    (K : str -> Prop) t t' a a' b rl l1 l2 hd cs cs' rt w ho pos s,
  real_segments t -> real_segments t' -> head_at (stream_of t) a b -> head_at (stream_of t') a' b ->
  head_means ft cl a rl (l1 ++ l2) cs -> head_means ft cl a' rl (l1 ++ hd :: l2) cs' ->
  announced (l1 ++ l2) = N.of_nat (length b) -> (announced (l1 ++ l2) <= ISIZE_MAX)%N ->
  (forall k, K k \/ In k [B "Host"; B "Content-Length"; B "Cookie"] -> ~ same_fold (h_name hd) k) ->
  looks_up K handle ->
  serve ft cl handle w ho pos rt s t = serve ft cl handle w ho pos rt s t'.
Proof. exact @extra_irrelevant. Qed.
Print Assumptions C114_unused_headers.
Example C114_example :
  looks_up (fun k => k = B "x-user") greet_handle /\
  reordered [HOST; USER (B "ann"); LANG (B "fr"); USER (B "bob")] [USER (B "ann"); HOST; USER (B "bob"); LANG (B "fr")] /\
  (exists a rl, head_at (req (B "GET") (B "/hi") [HOST; USER (B "ann"); LANG (B "fr"); USER (B "bob")] []) a [] /\
     head_means default_features demo_lib a rl [HOST; USER (B "ann"); LANG (B "fr"); USER (B "bob")] []) /\
  greet_serve [HOST; USER (B "ann"); LANG (B "fr"); USER (B "bob")] = (8, IoDone (answer_head (B "200 OK") (B "8") ++ B "ann, bob")) /\
  greet_serve [USER (B "ann"); HOST; USER (B "bob"); LANG (B "fr")] = (8, IoDone (answer_head (B "200 OK") (B "8") ++ B "ann, bob")) /\
  greet_serve [USER (B "ann"); HOST; USER (B "bob")] = (8, IoDone (answer_head (B "200 OK") (B "8") ++ B "ann, bob")).
Proof. exact example_114. Qed.
