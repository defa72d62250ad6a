(** C139: what matters of the way a request arrives.  Completes C19, C27 and C82. *)
From Verif.Proofs Require Import ArriveWitness.
From Verif.Spec Require Import Common PathSpec RoutingSpec TextSpec RequestSpec ResponseSpec ServerSpec ConformSpec ArriveSpec.

(** A fixed part of what follows the head came along with its end, fewer than 512 bytes. *)
Theorem C139_arrival :
  forall t a b, real_segments t -> head_at (stream_of t) a b ->
  exists early rest, along t early /\ b = early ++ rest /\ length early < 512 /\ forall early', along t early' -> early' = early.
Proof. exact arrival. Qed.
Print Assumptions C139_arrival.
(** The answer, its effects and whether there is one depend on the segmentation only through that part. *)
Theorem C139_same_answer :
  forall ft cl (H ST : Type) handle (rt : router H) w ho pos (s : ST) t t',
  real_segments t -> real_segments t' -> same_arrival t t' ->
  serve ft cl handle w ho pos rt s t = serve ft cl handle w ho pos rt s t'.
Proof. exact @arrival_served. Qed.
Print Assumptions C139_same_answer.
(** The body, exactly. *)
Theorem C139_body :
  forall ft cl t a b rl hs cs early, real_segments t ->
  head_at (stream_of t) a b -> head_means ft cl a rl hs cs ->
  (announced hs <= N.of_nat (length b))%N -> (announced hs <= ISIZE_MAX)%N -> along t early ->
  exists h, read_request ft cl t = IoDone (RdRequest (Request rl h (body_taken (announced hs) early b) cs)) /\
    (forall k, headers_get h k = folded k hs) /\ (raw_headers_on ft = true -> raw h = hs).
Proof. exact arrival_body. Qed.
Print Assumptions C139_body.
(** The streams that kill the task, exactly (those without a complete head: C27). *)
Theorem C139_panics :
  forall ft cl t early, real_segments t -> along t early ->
  (read_request ft cl t = IoPanic <-> kills ft cl early (stream_of t) (fin t)).
Proof. exact arrival_panics. Qed.
Print Assumptions C139_panics.
(** Every part of fewer than 512 bytes can come along: no client can rely on one of them. *)
Theorem C139_any_arrival :
  forall s a early rest e, head_at s a (early ++ rest) -> length early < 512 ->
  exists t, real_segments t /\ stream_of t = s /\ fin t = e /\ along t early.
Proof. exact any_arrival. Qed.
Print Assumptions C139_any_arrival.

Example C139_example :
  let t := Transport [post_head (B "2") ++ B "a"; B "bc"] Stall in
  let t' := Transport [firstn 30 (post_head (B "2")); skipn 30 (post_head (B "2")) ++ B "a"; B "b"; B "c"] Stall in
  real_segments t /\ real_segments t' /\ same_arrival t t' /\ along t (B "a") /\
  serve default_features demo_lib ex_handle ex_world insertion_order [] ex_router 7 t =
    (7, IoDone (answer_head (B "200 OK") (B "2") ++ B "ab")).
Proof. exact example_139. Qed.
(** One stream, announcing isize::MAX + 1 bytes: with one byte along the task waits, without it dies. *)
Example C139_borderline :
  let t := Transport [post_head too_long ++ B "a"; B "bc"] Stall in
  let t' := Transport [post_head too_long; B "abc"] Stall in
  real_segments t /\ real_segments t' /\ stream_of t = stream_of t' /\ along t (B "a") /\ along t' [] /\
  read_request default_features demo_lib t = IoBlocked /\ read_request default_features demo_lib t' = IoPanic.
Proof. exact borderline_139. Qed.
