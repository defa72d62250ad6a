(** C18, C19, C21-C30, C38, C65: reading requests.  [real_segments]: a read that returns data
    returns at least one byte; nothing else is assumed about how the network cuts the stream.
    The cookie library [cl] is arbitrary. *)
From Verif.Model Require Import RustStd Path Request Server.
From Verif.Spec Require Import Common PathSpec RoutingSpec TextSpec RequestSpec.
From Verif.Proofs Require Import RequestExtra.

(** C18: the whole outcome of reading a head, as a function of the byte stream alone. *)
Theorem C18_head_read :
  forall t a b rl hs, real_segments t ->
  head_at (stream_of t) a b -> utf8_valid a = true -> head_parts a rl hs ->
  exists rem later, read_head t = IoDone (HeadOk hs rl rem later) /\
    rem ++ stream_of later = b /\ fin later = fin t /\ real_segments later /\ length rem < 512.
Proof. exact read_head_ok. Qed.
Print Assumptions C18_head_read.
Theorem C18_head_rejected :
  forall t a b, real_segments t -> head_at (stream_of t) a b ->
  utf8_valid a = false \/ ~ occurs CRLF a -> read_head t = IoDone HeadBad.
Proof. exact read_head_bad. Qed.
Print Assumptions C18_head_rejected.
Theorem C18_head_incomplete :
  forall t, real_segments t -> ~ occurs CRLFCRLF (stream_of t) ->
  read_head t = match fin t with Eof => IoDone HeadBad | Broken => IoPanic | Stall => IoBlocked end.
Proof. exact read_head_none. Qed.
Print Assumptions C18_head_incomplete.
Theorem C18_schedule_independent :
  forall t t', real_segments t -> real_segments t' ->
  stream_of t = stream_of t' -> fin t = fin t' -> same_head (read_head t) (read_head t').
Proof. exact schedule_independent. Qed.
Print Assumptions C18_schedule_independent.
(** The same stream in one piece and byte by byte. *)
Example C18_example :
  read_head (Transport [demo_stream (B "xy")] Stall) =
    IoDone (HeadOk (B "Host: x" ++ CRLF ++ B "content-LENGTH: 2") (B "POST /a/../b HTTP/1.1") (B "xy") (Transport [] Stall)) /\
  read_head (Transport (map (fun b => [b]) (demo_stream (B "xy"))) Stall) =
    IoDone (HeadOk (B "Host: x" ++ CRLF ++ B "content-LENGTH: 2") (B "POST /a/../b HTTP/1.1") [] (Transport [B "x"; B "y"] Stall)).
Proof. split; vm_compute; reflexivity. Qed.

(** C19: the body is the announced bytes when the stream carries exactly those ... *)
Theorem C19_exact_body_partial :
  forall ft cl t a b rl hs cs, real_segments t ->
  head_at (stream_of t) a b -> head_means ft cl a rl hs cs ->
  N.of_nat (length b) = announced hs -> (announced hs <= ISIZE_MAX)%N ->
  exists h, read_request ft cl t = IoDone (RdRequest (Request rl h b cs)) /\
            forall k, headers_get h k = folded k hs.
Proof. exact body_exact. Qed.
Print Assumptions C19_exact_body_partial.
(** ... and otherwise it is the announced bytes, or more of the stream if the read that completed
    the head brought more (up to 511 bytes). *)
Theorem C19_body_is_prefix_partial :
  forall ft cl t a b rl hs cs, real_segments t ->
  head_at (stream_of t) a b -> head_means ft cl a rl hs cs ->
  (announced hs <= N.of_nat (length b))%N -> (announced hs <= ISIZE_MAX)%N ->
  exists h body, read_request ft cl t = IoDone (RdRequest (Request rl h body cs)) /\
    (forall k, headers_get h k = folded k hs) /\ (raw_headers_on ft = true -> raw h = hs) /\
    body_choice (N.to_nat (announced hs)) b body.
Proof. exact read_request_ok. Qed.
Print Assumptions C19_body_is_prefix_partial.
(** The same stream, two segmentations, two bodies; only the second has the announced 2 bytes. *)
Theorem C19_refuted :
  exists t t' rq rq', real_segments t /\ real_segments t' /\ stream_of t = stream_of t' /\ fin t = fin t' /\
    read_request default_features demo_lib t = IoDone (RdRequest rq) /\
    read_request default_features demo_lib t' = IoDone (RdRequest rq') /\
    content_length (rq_headers rq) = 2%N /\ content_length (rq_headers rq') = 2%N /\
    rq_body rq = B "xyz" /\ rq_body rq' = B "xy".
Proof.
  exists (Transport [demo_stream (B "xyz")] Stall), (Transport [demo_stream []; B "xyz"] Stall).
  do 2 eexists. split; [|split; [|split; [|split; [|split; [|split]]]]].
  - repeat constructor; discriminate.
  - repeat constructor; discriminate.
  - vm_compute; reflexivity.
  - reflexivity.
  - vm_compute; reflexivity.
  - vm_compute; reflexivity.
  - vm_compute; auto.
Qed.
Print Assumptions C19_refuted.
Example C19_example :
  head_at (demo_stream (B "xy")) demo_head (B "xy") /\
  announced [Header (B "Host") (B "x"); Header (B "content-LENGTH") (B "2")] = 2%N /\
  match read_request default_features demo_lib (Transport [demo_stream (B "x"); B "y"] Stall) with
  | IoDone (RdRequest rq) => rq_body rq = B "xy" /\ rq_line rq = RequestLine MPost [B "b"] Http11
  | _ => False
  end.
Proof.
  split; [|split; [reflexivity|vm_compute; auto]]. split; [reflexivity|].
  apply TextProofs.find_str_Some. vm_compute. reflexivity.
Qed.

(** C21 *)
Theorem C21_header_round_trip :
  forall ft hs, hs <> [] -> Forall (good_header (faithful ft)) hs -> raw_headers_on ft = true ->
  exists h, headers_parse ft (join CRLF (map header_text hs)) = Some h /\ raw h = hs.
Proof. exact roundtrip. Qed.
Print Assumptions C21_header_round_trip.
(** In faithful mode the conditions reduce to token names and values without leading blanks or
    control characters. *)
Theorem C21_strict_round_trip :
  forall ft hs, faithful ft = true -> raw_headers_on ft = true -> hs <> [] ->
  Forall (fun hd => h_name hd <> [] /\ Forall tchar (h_name hd) /\ ~ In x3a (h_name hd) /\
            valid_value true (h_value hd) /\ utf8_valid (h_value hd) = true) hs ->
  exists h, headers_parse ft (join CRLF (map header_text hs)) = Some h /\ raw h = hs.
Proof. exact strict_roundtrip. Qed.
Print Assumptions C21_strict_round_trip.
Example C21_example :
  headers_parse default_features (join CRLF (map header_text [Header (B "A-b") (B "1: x "); Header (B "a") []; Header (B "A-B") (B "2")]))
  = Some (Headers [(B "a-b", B "1: x , 2"); (B "a", [])]
                  [Header (B "A-b") (B "1: x "); Header (B "a") []; Header (B "A-B") (B "2")]).
Proof. vm_compute. reflexivity. Qed.

(** C22 *)
Theorem C22_lookup_folds :
  forall ft s hs h, header_block (faithful ft) s hs -> headers_parse ft s = Some h ->
  forall k, headers_get h k = folded k hs.
Proof. exact lookup_block. Qed.
Print Assumptions C22_lookup_folds.
Theorem C22_accepted_blocks :
  forall ft s h, headers_parse ft s = Some h ->
  exists hs, header_block (faithful ft) s hs /\ forall k, headers_get h k = folded k hs.
Proof. exact lookup_parsed. Qed.
Print Assumptions C22_accepted_blocks.
Theorem C22_absent_iff_no_such_header :
  forall ft s h hs k, header_block (faithful ft) s hs -> headers_parse ft s = Some h ->
  (headers_get h k = None <-> forall hd, In hd hs -> to_ascii_lowercase (h_name hd) <> k).
Proof. exact absent_header. Qed.
Print Assumptions C22_absent_iff_no_such_header.
(** The names compared: a key without capitals finds exactly the headers whose names differ from it at most
    in the case of letters; a key with a capital finds nothing. *)
Theorem C22_lookup_by_name :
  forall ft s hs h k sel, header_block (faithful ft) s hs -> headers_parse ft s = Some h ->
  Forall (fun b => ~ (65 <= bN b <= 90)%N) k -> selects (fun hd => same_fold (h_name hd) k) hs sel ->
  headers_get h k = match sel with [] => None | _ => Some (join (B ", ") (map h_value sel)) end.
Proof. exact lookup_by_name. Qed.
Print Assumptions C22_lookup_by_name.
Theorem C22_capital_keys :
  forall ft s h k b, headers_parse ft s = Some h -> In b k -> (65 <= bN b <= 90)%N -> headers_get h k = None.
Proof. exact lookup_capital. Qed.
Print Assumptions C22_capital_keys.
Example C22_example : exists h,
  headers_parse default_features (B "Accept: a" ++ CRLF ++ B "X: q" ++ CRLF ++ B "ACCEPT:  b") = Some h /\
  headers_get h (B "accept") = Some (B "a, b") /\ headers_get h (B "x") = Some (B "q") /\
  headers_get h (B "y") = None.
Proof. eexists. repeat split; vm_compute; reflexivity. Qed.

(** C23 *)
Theorem C23_header_line :
  forall ft line n v, utf8_valid line = true ->
  (header_parse ft line = Some (Header n v) <-> header_means (faithful ft) line n v).
Proof. exact header_parse_spec. Qed.
Print Assumptions C23_header_line.
Theorem C23_header_block :
  forall ft s, (exists h, headers_parse ft s = Some h) <-> exists hs, header_block (faithful ft) s hs.
Proof. exact accept_block. Qed.
Print Assumptions C23_header_block.
Example C23_example :
  header_parse default_features (B "a b: c") = None /\
  header_parse (Features false true true true) (B "a b: c") = Some (Header (B "a b") (B "c")) /\
  header_parse default_features (B ": c") = None /\ header_parse default_features (B "abc") = None /\
  header_parse default_features (B "a:" ++ [x09; x20] ++ B "b:c ") = Some (Header (B "a") (B "b:c ")) /\
  header_parse default_features (B "a: b" ++ [x07]) = None.
Proof. repeat split; vm_compute; reflexivity. Qed.

(** C24: the byte 0x1F is missing from the check. *)
Theorem C24_refuted :
  exists hd, header_parse default_features (B "a: " ++ [x1f]) = Some hd /\ In x1f (h_value hd).
Proof. eexists. split; [vm_compute; reflexivity|left; reflexivity]. Qed.
Print Assumptions C24_refuted.
Theorem C24_other_controls_rejected_partial :
  forall ft s h, faithful ft = true -> headers_parse ft s = Some h ->
  (forall k v, headers_get h k = Some v -> Forall (fun b => ~ rejected_ctl b) v) /\
  (raw_headers_on ft = true ->
   Forall (fun hd => h_name hd <> [] /\ Forall tchar (h_name hd) /\ Forall (fun b => ~ rejected_ctl b) (h_value hd)) (raw h)).
Proof. exact accepted_no_ctl. Qed.
Print Assumptions C24_other_controls_rejected_partial.
Theorem C24_line_with_control_rejected_partial :
  forall ft n v b, faithful ft = true -> ~ In x3a n -> In b v -> rejected_ctl b -> b <> HT ->
  utf8_valid (n ++ [x3a] ++ v) = true -> header_parse ft (n ++ [x3a] ++ v) = None.
Proof. exact ctl_line_rejected. Qed.
Print Assumptions C24_line_with_control_rejected_partial.
Example C24_example :
  header_parse default_features (B "a" ++ [x3a] ++ B "b" ++ [x07] ++ B "c") = None /\
  header_parse default_features (B "a: " ++ [x1e]) = None /\ header_parse default_features (B "a: " ++ [x7f]) = None /\
  headers_parse default_features (B "a: ok") = Some (Headers [(B "a", B "ok")] [Header (B "a") (B "ok")]).
Proof. repeat split; vm_compute; reflexivity. Qed.

(** C25 *)
Theorem C25_request_line :
  forall ft line rl, faithful ft = true -> utf8_valid line = true ->
  (request_line_parse ft line = Done (Some rl) <->
   exists m p ver, pieces_of [x20] line [m; p; B "HTTP/" ++ ver] /\
     path_means p (rl_path rl) /\ method_of m (rl_method rl) /\ version_of ver (rl_version rl)).
Proof. exact strict_line. Qed.
Print Assumptions C25_request_line.
Theorem C25_request_line_any_mode :
  forall ft line rl, request_line_parse ft line = Done (Some rl) <-> line_means (faithful ft) line rl.
Proof. exact request_line_iff. Qed.
Print Assumptions C25_request_line_any_mode.
Theorem C25_panics :
  forall ft line, request_line_parse ft line = Panic <-> line_kills line.
Proof. exact request_line_panic. Qed.
Print Assumptions C25_panics.
Theorem C25_never_the_pseudo_method :
  forall ft line rl, request_line_parse ft line = Done (Some rl) -> rl_method rl <> MAll.
Proof. exact line_not_all. Qed.
Print Assumptions C25_never_the_pseudo_method.
Example C25_example :
  request_line_parse default_features (B "PATCH /a//./b/ HTTP/1.0") = Done (Some (RequestLine MPatch [B "a"; B "b"] Http10)) /\
  request_line_parse default_features (B "get / HTTP/3") = Done (Some (RequestLine MNone [] HttpInvalid)) /\
  request_line_parse default_features (B "GET / HTTP/1.1 x") = Done None /\
  request_line_parse default_features (B "GET / HTTQ/1.1") = Done None /\
  request_line_parse default_features (B "GET /") = Done None /\
  request_line_parse default_features (B "GET /.. HTTP/1.1") = Panic /\
  request_line_parse default_features (B "GET / HTT") = Panic.
Proof. repeat split; vm_compute; reflexivity. Qed.

(** C26: HTTP/2.0 is printed as 0.2. *)
Theorem C26_refuted :
  exists s v, version_named s v /\ parse_version s = v /\ s = B "2.0" /\ version_to_string v = B "0.2".
Proof. exists (B "2.0"), Http02. repeat split. constructor. Qed.
Print Assumptions C26_refuted.
Theorem C26_other_versions_partial :
  forall s v, version_named s v -> s <> B "2.0" -> parse_version s = v /\ version_to_string v = s.
Proof. intros s v [] H; try (split; reflexivity). destruct (H eq_refl). Qed.
Print Assumptions C26_other_versions_partial.
Example C26_example : version_to_string (parse_version (B "1.0")) = B "1.0".
Proof. reflexivity. Qed.

(** C27: streams on which the task dies without an answer. *)
Theorem C27_refuted :
  let dies s := read_request default_features demo_lib (Transport [s] Eof) = IoPanic in
  dies (B "GET /.. HTTP/1.1" ++ CRLF ++ B "Host: x" ++ CRLFCRLF) /\
  dies (B "GET / HTT" ++ CRLF ++ B "Host: x" ++ CRLFCRLF) /\
  dies (B "GET /" ++ CRLF ++ B "Host: x" ++ CRLFCRLF) /\
  dies (B "GET / HTTP/1.1" ++ CRLF ++ B "no colon" ++ CRLFCRLF) /\
  dies (B "GET / HTTP/1.1" ++ CRLF ++ B "Host: x" ++ CRLF ++ B "Content-Length: 5" ++ CRLFCRLF ++ B "abcd") /\
  dies (B "GET / HTTP/1.1" ++ CRLF ++ B "Host: x" ++ CRLF ++ B "Cookie: abc" ++ CRLFCRLF) /\
  dies (B "GET / HTTP/1.1" ++ CRLF ++ B "Content-Length: 9999999999999999999" ++ CRLFCRLF).
Proof. repeat split; vm_compute; reflexivity. Qed.
Print Assumptions C27_refuted.
(** The exact set of streams for which reading the request panics (up to [borderline] lengths, where it
    depends on the segments). *)
Theorem C27_exact_panic_set_partial :
  forall ft cl t, real_segments t ->
  (read_request ft cl t = IoPanic -> stream_kills ft cl (stream_of t) (fin t) \/ borderline ft (stream_of t) (fin t)) /\
  (stream_kills ft cl (stream_of t) (fin t) -> read_request ft cl t = IoPanic).
Proof. exact read_request_panics. Qed.
Print Assumptions C27_exact_panic_set_partial.
(** An announcement above isize::MAX + 511 always kills the task. *)
Theorem C27_huge_length_panics :
  forall ft cl t a b rlt hst hs, real_segments t ->
  head_at (stream_of t) a b -> utf8_valid a = true -> head_parts a rlt hst ->
  header_block (faithful ft) hst hs -> (ISIZE_MAX + 511 < announced hs)%N ->
  read_request ft cl t = IoPanic.
Proof. exact huge_panics. Qed.
Print Assumptions C27_huge_length_panics.
(** The limits in these statements, on a 64-bit machine. *)
Theorem C27_limits : (ISIZE_MAX = 2 ^ 63 - 1 /\ USIZE_MAX = 2 ^ 64 - 1 /\ U64_MAX = 2 ^ 64 - 1)%N.
Proof. repeat split. Qed.
Print Assumptions C27_limits.

(** C28 *)
Theorem C28_keep_alive_header :
  forall s items, pieces_of [x2c] s items ->
  last_setting (B "timeout") items (ka_timeout (keepalive_parse s)) /\
  last_setting (B "max") items (ka_max (keepalive_parse s)).
Proof. exact RequestProofs.keepalive_spec. Qed.
Print Assumptions C28_keep_alive_header.
Example C28_example :
  keepalive_parse (B "timeout=3, max=7 ,timeout=x, foo=1,timeout=18446744073709551616, timeout=+5")
  = KeepAlive (Some 5%N) (Some 7%N).
Proof. vm_compute. reflexivity. Qed.

(** C29 *)
Theorem C29_host_required :
  forall ft s h hs v, header_block (faithful ft) s hs -> headers_parse ft s = Some h ->
  (err_bad_request (http_validate v h) = true <->
   v = Http11 /\ forall hd, In hd hs -> ~ same_fold (h_name hd) (B "host")).
Proof. exact host_required. Qed.
Print Assumptions C29_host_required.
Example C29_example : exists h h',
  headers_parse default_features (B "hOsT: x") = Some h /\ headers_parse default_features (B "Hos: x") = Some h' /\
  err_bad_request (http_validate Http11 h) = false /\ err_bad_request (http_validate Http11 h') = true /\
  err_bad_request (http_validate Http10 h') = false.
Proof. do 2 eexists. repeat split; vm_compute; reflexivity. Qed.

(** C30 *)
Theorem C30_keep_alive_decision :
  forall v h,
  (keep_alive (http_validate v h) = KUserDefined <->
     v = Http11 /\ headers_get h (B "connection") = Some (B "keep-alive")) /\
  (forall secs, keep_alive (http_validate v h) = KParticular secs <->
     v = Http10 /\ headers_get h (B "connection") = Some (B "keep-alive") /\
     exists ka items o, headers_get h (B "keep-alive") = Some ka /\ pieces_of [x2c] ka items /\
       last_setting (B "timeout") items o /\ secs = match o with Some t => t | None => 0%N end) /\
  (http_keep_alive (http_validate v h) = true <-> keep_alive (http_validate v h) <> KClose).
Proof. exact persistence. Qed.
Print Assumptions C30_keep_alive_decision.
Example C30_example : exists h,
  headers_parse default_features (B "Connection: keep-alive" ++ CRLF ++ B "Keep-Alive: timeout=9") = Some h /\
  keep_alive (http_validate Http11 h) = KUserDefined /\ keep_alive (http_validate Http10 h) = KParticular 9 /\
  keep_alive (http_validate Http02 h) = KClose.
Proof. eexists. repeat split; vm_compute; reflexivity. Qed.

(** C38 *)
Theorem C38_request_cookies :
  forall ft cl s h hs rl body rq, header_block (faithful ft) s hs -> headers_parse ft s = Some h ->
  (request_parse ft cl rl h body = Done (Some rq) <->
   exists cs, cookies_mean cl (cookies_on ft) hs cs /\ rq = Request rl h body cs).
Proof. exact cookies_exact. Qed.
Print Assumptions C38_request_cookies.
Example C38_example : exists h rq,
  headers_parse default_features (B "Cookie: a=1; b=2") = Some h /\
  request_parse default_features demo_lib (RequestLine MGet [] Http11) h [] = Done (Some rq) /\
  rq_cookies rq = [B "a=1"; B "b=2"].
Proof. do 2 eexists. repeat split; vm_compute; reflexivity. Qed.

(** C65 *)
Theorem C65_split_lossless :
  forall seq s, seq <> [] -> exists l, pieces_of seq s l /\
  forall k, nexts k (spliterator_new s seq) = map Some (firstn k l) ++ repeat None (k - length l).
Proof. exact split_lossless. Qed.
Print Assumptions C65_split_lossless.
Theorem C65_crlf_split_unique : forall s, exists! l, pieces_of CRLF s l.
Proof. exact split_once. Qed.
Print Assumptions C65_crlf_split_unique.
Example C65_example :
  nexts 5 (spliterator_new ([x0d] ++ CRLF ++ B "a" ++ CRLF) CRLF) = [Some [x0d]; Some (B "a"); Some []; None; None].
Proof. vm_compute. reflexivity. Qed.
