(** C18, C40, C56 with the line ends given as the bytes 13 and 10 and not as the constants of the
    program (src/constants.rs:5-10), so that a changed constant contradicts them. *)
From Verif.Model Require Import RustStd Path Request Time Status Response Router Server.
From Verif.Spec Require Import Common PathSpec RoutingSpec TextSpec RequestSpec ResponseSpec ServerSpec BytesSpec.
From Verif.Proofs Require Import RequestExtra ResponseProofs ResponseWitness ServerWitness BytesProofs.
From Coq Require Import Permutation.

(** C18 *)
Theorem C18_line_ends :
  forall t a b rl hs, real_segments t ->
  head_before (stream_of t) a b -> utf8_valid a = true -> a = rl ++ newline ++ hs -> ~ occurs newline rl ->
  exists rem later, read_head t = IoDone (HeadOk hs rl rem later) /\
    rem ++ stream_of later = b /\ fin later = fin t /\ real_segments later /\ length rem < 512.
Proof. exact head_read_bytes. Qed.
Print Assumptions C18_line_ends.
Theorem C18_no_empty_line :
  forall t, real_segments t -> ~ occurs (newline ++ newline) (stream_of t) ->
  read_head t = match fin t with Eof => IoDone HeadBad | Broken => IoPanic | Stall => IoBlocked end.
Proof. exact head_missing_bytes. Qed.
Print Assumptions C18_no_empty_line.
Example C18_bytes_example :
  read_head (Transport [B "GET / HTTP/1.1" ++ [x0d; x0a] ++ B "Host: x" ++ [x0d; x0a; x0d; x0a] ++ B "y"] Stall) =
    IoDone (HeadOk (B "Host: x") (B "GET / HTTP/1.1") (B "y") (Transport [] Stall)) /\
  read_head (Transport [B "GET / HTTP/1.1" ++ [x0a] ++ B "Host: x" ++ [x0a; x0a]] Stall) = IoBlocked.
Proof. split; vm_compute; reflexivity. Qed.

(** C40 *)
Theorem C40_answer_bytes :
  forall cl ft w ho pos (r : response cl) body,
  cookies_on ft = false \/ rs_cookies r = [] -> headers_ok r -> given_body (rs_body r) body ->
  clean (rs_version r) -> ~ In x20 (rs_version r) -> clean (reason_phrase w r) ->
  exists hs, Permutation hs (rs_headers r) /\
    octane_send (get_data ft w ho pos r) =
      answer_bytes (rs_version r) (show_Z (status_into_i32 (rs_status r))) (reason_phrase w r) hs body.
Proof. exact @answer_text. Qed.
Print Assumptions C40_answer_bytes.
Example C40_bytes_example :
  wire_of (run [OpSet (B "A") (B "b")]) = answer_bytes (B "1.1") (B "200") (B "OK") [(B "A", B "b")] [] /\
  answer_bytes (B "1.1") (B "200") (B "OK") [(B "A", B "b")] [] =
    B "HTTP/1.1 200 OK" ++ [x0d; x0a] ++ B "A: b" ++ [x0d; x0a; x0d; x0a].
Proof. split; vm_compute; reflexivity. Qed.

(** C56 *)
Theorem C56_request_bytes :
  forall ft cl (H ST : Type) handle o app (rt : router H) w ho pos (s : ST) t m p ver hs body meth v path cs,
  (N.of_nat (length (flatten app)) <= USIZE_MAX)%N -> build o app = Done rt ->
  method_named m meth -> version_named ver v -> target_ok p -> path_means p path ->
  hs <> [] -> Forall (fun hd => good_header (faithful ft) hd /\ clean (header_text hd)) hs ->
  cookies_mean cl (cookies_on ft) hs cs -> ~ lacks_host (RequestLine meth path v) hs ->
  announced hs = N.of_nat (length body) -> (announced hs <= ISIZE_MAX)%N ->
  real_segments t -> stream_of t = request_bytes m p ver hs body ->
  exists rq s' res r, request_is ft rq (RequestLine meth path v) hs cs body /\
    handled ft cl handle app rq s ((s', res), r) /\
    (r = Done tt -> rs_body res <> BodyNone ->
       serve ft cl handle w ho pos rt s t = (s', IoDone (octane_send (get_data ft w ho pos res)))).
Proof. exact @end_to_end_bytes. Qed.
Print Assumptions C56_request_bytes.
Example C56_bytes_example :
  let hs := [Header (B "Host") (B "x"); Header (B "Content-Length") (B "3")] in
  let t := Transport [request_bytes (B "POST") (B "/echo/./7") (B "1.1") hs (B "abc")] Stall in
  serve default_features demo_lib ex_handle ex_world insertion_order [] ex_router 7 t =
    (7, IoDone (answer_head (B "200 OK") (B "3") ++ B "abc")).
Proof. vm_compute. reflexivity. Qed.
