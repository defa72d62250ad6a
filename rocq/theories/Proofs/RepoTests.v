(** The unit tests of /repo, run on the model: checks that the model agrees with the code where the
    repository itself says what the code does.  (These are tests, not proofs of properties.) *)
From Verif.Model Require Import RustStd Path Query Request Time Status Response Router Server Macros.
From Verif.Proofs Require Import Basics RequestExtra ServerWitness.

Definition no_vars : features := Features true false true true.
Definition parses (s : str) : pathbuf := match path_parse s with Some p => p | None => [] end.
Definition fails {A} (o : outcome (option A)) : bool := match o with Done (Some _) => false | _ => true end.
Definition query_of (o : outcome strmap) (k : str) : option str := match o with Done m => mget seqb k m | Panic => None end.

(** src/path.rs:452-457 success_standard *)
Example path_success_standard :
  path_parse (B "/asdf//foo/a/b/c/../d") = Some [B "asdf"; B "foo"; B "a"; B "b"; B "d"].
Proof. reflexivity. Qed.
(** src/path.rs:459-476 success_matching *)
Example path_success_matching :
  let path1 := parses (B "/asdf/:var/foo/") in
  check_matches path1 (parses (B "asdf/test/foo/")) = Done (Some [(B "var", B "test")]) /\
  check_matches path1 (parses (B "/asdf/test/foo")) = Done (Some [(B "var", B "test")]) /\
  check_matches path1 (parses (B "/asdf/test/bad")) = Done None.
Proof. repeat split. Qed.
(** src/path.rs:478-487 success_matching without url_variables *)
Example path_success_matching_novars :
  check_matches_novars (parses (B "/asdf/test/foo/")) (parses (B "asdf/test/foo")) = Some tt /\
  check_matches_novars (parses (B "/asdf/test/foo/")) (parses (B "asdf/test/bad")) = None.
Proof. repeat split. Qed.
(** src/path.rs:489-499 success_subtraction *)
Example path_success_subtraction :
  let path1 := parses (B "/a/b/c/d/") in
  path_subtract path1 (parses (B "/a/b/")) = Some [B "c"; B "d"] /\
  path_subtract path1 (parses (B "/c/d")) = None /\ path_subtract path1 (parses (B "a/:x/c")) = None.
Proof. repeat split. Qed.
(** src/path.rs:501-506 fail_traversal *)
Example path_fail_traversal : path_parse (B "/asdf/../..") = None.
Proof. reflexivity. Qed.
(** src/path.rs:508-543 success_tree *)
Definition get_entries (ft : features) (n : outcome (pathnode nat)) (p : str) : outcome (list (varmap * nat)) :=
  obind n (fun n => omap (map (fun m => (mp_vars m, mp_data m))) (node_get ft n (parses p))).
Example path_success_tree :
  let node := obind (node_insert node_new (parses (B "/asdf/:var/foo/")) 1) (fun n =>
              obind (node_insert n (parses (B "/asdf/test/bad")) 4) (fun n =>
              obind (node_into_list insertion_order [] n) (fun l => node_extend node_new l))) in
  get_entries default_features node (B "/asdf/test/nope") = Done [] /\
  get_entries default_features node (B "asdf/test/foo/") = Done [([(B "var", B "test")], 1)] /\
  get_entries default_features node (B "/asdf/test/foo") = Done [([(B "var", B "test")], 1)] /\
  get_entries default_features node (B "/asdf/test/bad") = Done [([], 4)].
Proof. repeat split; vm_compute; reflexivity. Qed.
Example path_success_tree_novars :
  let node := node_insert node_new (parses (B "asdf/test/foo/")) 1 in
  get_entries no_vars node (B "/asdf/test/bad") = Done [] /\ get_entries no_vars node (B "asdf/test/foo/") = Done [([], 1)].
Proof. repeat split; vm_compute; reflexivity. Qed.

(** src/query.rs:264-284 success_standard_extended_queries *)
Example query_extended :
  let q := parse_extended_query default_features (B "abc=def&ab=ab%20cd%4A&arr[]=x&arr[]=y&arr[]=z&obj[a]=x&obj[b]=y&obj[c]=z") in
  exists m, q = Done m /\ mget seqb (B "abc") m = Some (QStr (B "def")) /\ mget seqb (B "ab") m = Some (QStr (B "ab cdJ")) /\
  mget seqb (B "arr") m = Some (QArr [B "x"; B "y"; B "z"]) /\
  exists obj, mget seqb (B "obj") m = Some (QObj obj) /\
  mget seqb (B "a") obj = Some (B "x") /\ mget seqb (B "b") obj = Some (B "y") /\ mget seqb (B "c") obj = Some (B "z").
Proof. eexists. split; [vm_compute; reflexivity|]. repeat split. eexists. repeat split. Qed.
(** src/query.rs:286-298 success_ignore_incompatible *)
Example query_incompatible :
  exists m, parse_extended_query default_features (B "a[]=2&a[x]=3&a=1&b[]=1&b[x]=2&c[x]=1&c[]=2") = Done m /\
  mget seqb (B "a") m = Some (QStr (B "1")) /\ mget seqb (B "b") m = Some (QArr [B "1"]) /\
  exists obj, mget seqb (B "c") m = Some (QObj obj) /\ mget seqb (B "x") obj = Some (B "1").
Proof. eexists. split; [vm_compute; reflexivity|]. repeat split. eexists. repeat split. Qed.
(** src/query.rs:300-333 success_standard, success_blank_query, success_weird_hex, success_no_name *)
Example query_tests :
  let q s := query_of (parse_query default_features s) in
  q (B "abc=def&ab=ab%20cd%4A") (B "abc") = Some (B "def") /\ q (B "abc=def&ab=ab%20cd%4A") (B "ab") = Some (B "ab cdJ") /\
  q (B "a&abc=def") (B "a") = Some [] /\ q (B "a&abc=def") (B "abc") = Some (B "def") /\
  (let weird := q (B "a=%0%41&b=%41%0&c=%%41&d=A%5") in
   weird (B "a") = Some (B "%0A") /\ weird (B "b") = Some (B "A%0") /\ weird (B "c") = Some (B "%A") /\ weird (B "d") = Some (B "A%5")) /\
  parse_query default_features [] = Done [] /\ parse_query default_features (B "=x") = Done [] /\
  parse_query default_features (B "=x&=y") = Done [].
Proof. repeat split; vm_compute; reflexivity. Qed.

(** src/request.rs:453-507: request lines *)
Example request_line_tests :
  let p := request_line_parse default_features in
  p (B "POST /abc/def HTTP/1.1") = Done (Some (RequestLine MPost [B "abc"; B "def"] Http11)) /\
  p (B "PATCH /abc/def HTTP/1.1") = Done (Some (RequestLine MPatch [B "abc"; B "def"] Http11)) /\
  p (B "XYZ /abc/def HTTP/1.1") = Done (Some (RequestLine MNone [B "abc"; B "def"] Http11)) /\
  fails (p (B "POST /abc/def HTTP/1.1 x")) = true /\ fails (p (B "POST /a /b HTTP/1.1")) = true /\
  fails (p (B "POST /abc/def HTDP/1.1")) = true /\ fails (p (B "POST /abc/def")) = true.
Proof. repeat split; vm_compute; reflexivity. Qed.
(** src/request.rs:509-549: headers *)
Example headers_tests :
  exists h, headers_parse default_features
    (B "Host: localhost:12345" ++ CRLF ++ B "User-Agent: curl/7.58.0" ++ CRLF ++ B "Accept: */*" ++ CRLF ++
     B "Content-Length: 20" ++ CRLF ++ B "Content-Type: application/x-www-form-urlencoded") = Some h /\
  headers_get h (B "host") = Some (B "localhost:12345") /\ headers_get h (B "user-agent") = Some (B "curl/7.58.0") /\
  headers_get h (B "accept") = Some (B "*/*") /\ headers_get h (B "content-length") = Some (B "20") /\
  headers_get h (B "content-type") = Some (B "application/x-www-form-urlencoded").
Proof. eexists. split; [vm_compute; reflexivity|]. repeat split. Qed.
Example raw_headers_test :
  exists h, headers_parse default_features (B "HOst: localhost:12345" ++ CRLF ++ B "User-Agent: curl/7.58.0") = Some h /\
  raw h = [Header (B "HOst") (B "localhost:12345"); Header (B "User-Agent") (B "curl/7.58.0")].
Proof. eexists. split; [vm_compute; reflexivity|]. reflexivity. Qed.
(** src/request.rs:551-587: single headers *)
Example header_tests :
  let p := header_parse default_features in
  p (B "Referer: " ++ [x09; x09] ++ B " request://www.example.com/") = Some (Header (B "Referer") (B "request://www.example.com/")) /\
  p (B "Referer: " ++ [x09; x09] ++ B " ") = Some (Header (B "Referer") []) /\
  p (B "Referer") = None /\ p (B ": test") = None /\ p (B "Test Header: test") = None.
Proof. repeat split; vm_compute; reflexivity. Qed.
(** src/request.rs:589-603: Keep-Alive *)
Example keepalive_tests :
  keepalive_parse (B "timeout=5, max=1000") = KeepAlive (Some 5%N) (Some 1000%N) /\
  keepalive_parse (B "timeout=,test,max=a, timeout=5") = KeepAlive (Some 5%N) None.
Proof. repeat split; vm_compute; reflexivity. Qed.

(** src/responder.rs:549-579: responses *)
Example response_tests :
  let data r := octane_send (get_data default_features ex_world insertion_order [] (r : response demo_lib)) in
  data (new_from_slice []) = B "HTTP/1.1 200 OK" ++ CRLF ++ CRLF /\
  data (set_status StCreated (new_from_slice [])) = B "HTTP/1.1 201 CREATED" ++ CRLF ++ CRLF /\
  data (set_status StCreated (set_http_version Http10 (new_from_slice []))) = B "HTTP/1.0 201 CREATED" ++ CRLF ++ CRLF.
Proof. repeat split; vm_compute; reflexivity. Qed.

(** src/time.rs:160-178 *)
Example time_tests :
  let f s := omap time_format (time_of_stamp s) in
  f 0%Z = Done (B "Thu, 01 Jan 1970 00:00:00 GMT") /\ f 6043440870%Z = Done (B "Sun, 05 Jul 2161 05:34:30 GMT") /\
  f 333452334%Z = Done (B "Sat, 26 Jul 1980 09:38:54 GMT").
Proof. repeat split; vm_compute; reflexivity. Qed.

(** src/cookie.rs:106-124 (with a stand-in for the cookie crate that keeps the text of a cookie) *)
Example cookie_tests :
  cookie_parse demo_lib (B "name1=value1; name2=value2") = Done [B "name1=value1"; B "name2=value2"] /\
  cookie_serialise demo_lib (B "name=value; HttpOnly") = B "Set-Cookie: name=value; HttpOnly".
Proof. repeat split; vm_compute; reflexivity. Qed.

(** src/router.rs:478-494 router_test *)
Definition five : list (rreg nat) :=
  [RAdd 0; RRoute VGet (B "/") 1; RRoute VPost (B "/") 2; RRoute VHead (B "/") 3; RRoute VPut (B "/") 4; RRoute VDelete (B "/") 5].
Example router_test : exists r, apply_rregs router_new five = Done r /\ length (paths r) = 5 /\ length (middlewares r) = 1.
Proof. eexists. split; [vm_compute; reflexivity|]. repeat split. Qed.
(** src/router.rs:496-582 router_append_test *)
Example router_append_test :
  exists a r, apply_rregs router_new five = Done a /\ router_append insertion_order [] a a = Done r /\
  length (middlewares r) = 2 /\
  forall m, In m [MGet; MDelete; MPost; MHead; MPut] ->
    exists n l, mget method_eqb m (paths r) = Some n /\ node_get default_features n [] = Done l /\ length l = 2.
Proof.
  eexists. eexists. split; [vm_compute; reflexivity|]. split; [vm_compute; reflexivity|]. split; [reflexivity|].
  intros m [<-|[<-|[<-|[<-|[<-|[]]]]]]; eexists; eexists; (split; [vm_compute; reflexivity|split; [vm_compute; reflexivity|reflexivity]]).
Qed.

(** tests/server.rs:4-15, tests/router.rs, tests/url_variables.rs:5-19, tests/headers.rs:6-25: a client
    gets the text the handler sent, for each method, directly and through a mounted router; handlers
    see variables and headers. *)
Definition it_handle (h : nat) (mr : matched_request demo_lib) (x : list str * response demo_lib)
  : (list str * response demo_lib) * outcome flow :=
  let '(s, r) := x in
  let note := match h with
              | 2 => match mget seqb (B "var") (mr_vars mr) with Some v => [v] | None => [] end
              | 3 => match headers_get (rq_headers (mr_request mr)) (B "user-agent") with Some v => [v] | None => [] end
              | _ => []
              end in
  match res_send ex_world (B "Hello, World") r with
  | Done r' => ((s ++ note, r'), Done FNext)
  | Panic => ((s, r), Panic)
  end.
Definition it_app : list (oreg nat) :=
  map (fun v => ORoute v (B "/route2") 1) [VGet; VPost; VPut; VPatch; VDelete; VHead] ++
  [OMount (map (fun v => RRoute v (B "/route1") 1) [VGet; VPost; VPut; VPatch; VDelete; VHead]);
   ORoute VGet (B "/foo/:var") 2; ORoute VGet (B "/") 3].
Definition it_router : router nat := match build insertion_order it_app with Done r => r | Panic => router_new end.
Definition it_get (m p : str) : list str * io str :=
  serve default_features demo_lib it_handle ex_world insertion_order [] it_router []
    (Transport [m ++ B " " ++ p ++ B " HTTP/1.1" ++ CRLF ++ B "User-Agent: My Rust Program" ++ CRLF ++ B "Host: 0.0.0.0:8080" ++ CRLFCRLF] Stall).
Definition it_answer : str := answer_head (B "200 OK") (B "12") ++ B "Hello, World".
Example integration_tests :
  (forall m p, In m [B "GET"; B "POST"; B "PUT"; B "PATCH"; B "DELETE"; B "HEAD"] -> In p [B "/route1"; B "/route2"] ->
     it_get m p = ([], IoDone it_answer)) /\
  it_get (B "GET") (B "/foo/bar") = ([B "bar"], IoDone it_answer) /\
  it_get (B "GET") (B "/") = ([B "My Rust Program"], IoDone it_answer).
Proof.
  split; [|split; vm_compute; reflexivity].
  intros m p [<-|[<-|[<-|[<-|[<-|[<-|[]]]]]]] [<-|[<-|[]]]; vm_compute; reflexivity.
Qed.
