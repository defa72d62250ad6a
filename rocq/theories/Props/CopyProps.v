(** C148: text of a request that a handler copies into headers of the response. *)
From Coq Require Import Permutation.
From Verif.Model Require Import RustStd Path Request Query Time Status Response Router Server.
From Verif.Spec Require Import Common RoutingSpec TextSpec QuerySpec RequestSpec ResponseSpec ServerSpec ReachSpec CopySpec.
From Verif.Proofs Require Import ResponseWitness ServerWitness CopyProofs CopyWitness.

(** C148.  The claim that clients cannot add header lines to a response through text that a handler copies into a
    header is refuted for parameters, which are decoded: for every location and every header of ASCII text there is
    a target such that the application that redirects to the parameter [to] answers a request for it with this
    header, in every order of the headers and however the request arrives. *)
Theorem C148_refuted :
  forall ft cl u n x w0, clean u -> clean n -> ~ In x3a n -> clean x ->
  Forall (fun b => (bN b < 0x80)%N) (u ++ n ++ x) -> clock w0 <> None ->
  let p := B "/go?a=1&to=" ++ pct (u ++ CRLF ++ n ++ B ": " ++ x) ++ B "&z=1" in
  target_ok p /\
  forall o rt w ho pos t, build o [OAdd tt] = Done rt -> clock w <> None -> real_segments t -> stream_of t = asks_for p ->
  exists out hs, serve ft cl (moves_to w0 (in_query ft)) w ho pos rt tt t = (tt, IoDone out) /\
    wire_reads out (B "1.1") (B "302") (B "FOUND") hs (B "moved") /\ In (B "Location", u) hs /\ In (n, x) hs.
Proof. exact query_injects. Qed.
Print Assumptions C148_refuted.
(** The same through variables of routes for clients that take a LF alone for a line end: the server does not. *)
Theorem C148_lenient_refuted :
  forall ft cl u n x w0, url_variables ft = true ->
  Forall (fun s => clean s /\ line_text s /\ ~ In x2f s) [u; n; x] -> ~ In x3a n -> clock w0 <> None ->
  let p := B "/" ++ u ++ [x0a] ++ n ++ B ":" ++ x in
  forall o rt w ho pos t, build o [ORoute VGet (B "/:to") tt] = Done rt -> clock w <> None -> real_segments t ->
  stream_of t = asks_for p ->
  exists out, serve ft cl (moves_to w0 in_variables) w ho pos rt tt t = (tt, IoDone out) /\ lenient_header out n x.
Proof. exact variable_injects. Qed.
Print Assumptions C148_lenient_refuted.
(** It holds, for clients that take only CR LF for a line end, for all that handlers take from a request without
    decoding it: no segment, path, variable or header value of any request that is read contains a line end ... *)
Theorem C148_texts_partial :
  forall cl ft s (rq : request cl) rl hs cs body (H : Type) (c : rreg H) h vars t,
  carries ft cl s rl hs cs body -> request_is ft rq rl hs cs body ->
  invokes (url_variables ft) (rl_path rl) c (h, vars) -> from_request rq vars t -> one_line t.
Proof. exact @request_texts. Qed.
Print Assumptions C148_texts_partial.
(** ... and after any calls that copy such text, between clean text of the program's own, into headers, the client
    reads exactly the headers that the response has.  (Not for files and cookies.) *)
Theorem C148_copied_partial :
  forall cl ft s (rq : request cl) rl hs cs body (H : Type) (c : rreg H) h vars (l : list (world * rop cl)) r w ho pos,
  carries ft cl s rl hs cs body -> request_is ft rq rl hs cs body -> invokes (url_variables ft) (rl_path rl) c (h, vars) ->
  Forall (fun wo => copies rq vars (snd wo) /\ no_file (fst wo) (snd wo)) l -> apply_ops l blank_response = Done r ->
  clean (reason_phrase w r) ->
  exists hs' body', Permutation hs' (rs_headers r) /\
    wire_reads (octane_send (get_data ft w ho pos r)) (rs_version r) (show_Z (status_into_i32 (rs_status r)))
      (reason_phrase w r) hs' body'.
Proof. exact @copied_exact. Qed.
Print Assumptions C148_copied_partial.
(** In general: headers whose values contain no CR LF, but perhaps CR or LF alone, are read as they are. *)
Theorem C148_round_trip :
  forall cl ft w ho pos (r : response cl) body, cookies_on ft = false \/ rs_cookies r = [] ->
  Forall (fun kv => clean (fst kv) /\ ~ In x3a (fst kv) /\ one_line (snd kv)) (rs_headers r) -> given_body (rs_body r) body ->
  clean (rs_version r) -> ~ In SP (rs_version r) -> clean (reason_phrase w r) ->
  exists hs, Permutation hs (rs_headers r) /\
    wire_reads (octane_send (get_data ft w ho pos r)) (rs_version r) (show_Z (status_into_i32 (rs_status r)))
      (reason_phrase w r) hs body.
Proof. exact @lines_round_trip. Qed.
Print Assumptions C148_round_trip.
Example C148_example :
  exists (rq : request demo_lib) rl hs cs body vars r,
    carries default_features demo_lib (asks_for (B "/" ++ ab)) rl hs cs body /\ request_is default_features rq rl hs cs body /\
    invokes (url_variables default_features) (rl_path rl) (RRoute VGet (B "/:to") tt) (tt, vars) /\
    Forall (fun wo => copies rq vars (snd wo) /\ no_file (fst wo) (snd wo)) copied_calls /\
    apply_ops copied_calls blank_response = Done r /\ clean (reason_phrase ex_world r) /\
    rs_headers r = [(B "X-Echo", B "you asked for <a" ++ [x0a] ++ B "b>"); (B "Location", B "http://x/");
      (B "Content-Length", B "2"); (B "Date", B "Fri, 01 Jan 2021 00:00:00 GMT"); (B "Content-Type", B "text/html")].
Proof. exact copied_example. Qed.
Example C148_refuted_example :
  (clean (B "/home") /\ clean (B "Set-Cookie") /\ ~ In x3a (B "Set-Cookie") /\ clean (B "admin=1") /\
   Forall (fun b => (bN b < 0x80)%N) (B "/home" ++ B "Set-Cookie" ++ B "admin=1") /\ clock ex_world <> None) /\
  get_served (in_query default_features) [OAdd tt] go_target =
    Some (IoDone (found_head (B "/home" ++ CRLF ++ B "Set-Cookie: admin=1"))) /\
  Forall (fun s => clean s /\ line_text s /\ ~ In x2f s) [B "home"; B "Set-Cookie"; B "admin=1"] /\
  get_served in_variables [ORoute VGet (B "/:to") tt] lf_target =
    Some (IoDone (found_head (B "home" ++ [x0a] ++ B "Set-Cookie:admin=1"))).
Proof. exact injected_example. Qed.
