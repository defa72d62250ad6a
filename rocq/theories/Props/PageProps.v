(** C101: the pages of the error answers that Props/AppProps.v does not speak of. *)
From Verif.Model Require Import RustStd Path Request Time Status Response Router Server.
From Verif.Spec Require Import Common RoutingSpec TextSpec RequestSpec ResponseSpec ServerSpec AppSpec.
From Verif.Proofs Require Import RequestExtra ResponseWitness ServerWitness PageProofs.

(** C101 is also false for requests without the Host header they need, *)
Theorem C101_no_host_refuted :
  forall ft cl (H ST : Type) handle (rt : router H) w ho pos (s : ST) t rl hs cs body,
  clock w <> None -> real_segments t -> carries ft cl (stream_of t) rl hs cs body -> lacks_host rl hs ->
  exists out hs page, serve ft cl handle w ho pos rt s t = (s, IoDone out) /\
    wire_reads out (B "1.1") (B "400") (B "BAD REQUEST") hs page /\
    occurs (B "404 NOT FOUND") page /\ ~ occurs (B "400") page.
Proof. exact @page_of_no_host. Qed.
Print Assumptions C101_no_host_refuted.
(** and true for all requests whose handlers leave the response without a body, or that have no handlers.  (With
    C101_refuted, C101_not_implemented_refuted and C101_no_host_refuted these are all the error answers there are.) *)
Theorem C101_not_found_partial :
  forall ft cl (H ST : Type) handle o app (rt : router H) w ho pos (s : ST) t rl hs cs body,
  fits app -> build o app = Done rt -> clock w <> None -> real_segments t ->
  carries ft cl (stream_of t) rl hs cs body -> ~ lacks_host rl hs -> rl_method rl <> MNone ->
  exists rq got s' res r, request_is ft rq rl hs cs got /\ handled ft cl handle app rq s ((s', res), r) /\
    (r = Done tt -> rs_body res = BodyNone ->
     exists out hs' page, serve ft cl handle w ho pos rt s t = (s', IoDone out) /\
       wire_reads out (B "1.1") (B "404") (B "NOT FOUND") hs' page /\ occurs (B "404 NOT FOUND") page).
Proof. exact @page_of_404. Qed.
Print Assumptions C101_not_found_partial.
Example C101_pages_example :
  ex_serve (B "GET /hi HTTP/1.1" ++ CRLF ++ B "A: b" ++ CRLFCRLF) Stall = (7, IoDone (answer_head (B "400 BAD REQUEST") (B "189") ++ NOT_FOUND)) /\
  ex_serve (B "GET /none HTTP/1.1" ++ CRLF ++ B "Host: x" ++ CRLFCRLF) Stall =
    (7, IoDone (answer_head (B "404 NOT FOUND") (B "189") ++ NOT_FOUND)).
Proof. split; vm_compute; reflexivity. Qed.
